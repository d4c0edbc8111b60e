(** [*] and the bytes of a line.  Nothing here is part of the model. *)
From Coq Require Import String Ascii ZArith List Bool Lia ZifyBool.
From Verif Require Import Base State Tree Filter Output Label Operator Parse Scode Tables.
From Verif Require Import Cpu6800 Cpu6502 CpuZ80 Pseudos Macro Xref Crasm.
From Verif Require Import Walk TreeFacts Frame Run SpecEmit Eval EmitFacts PseudoFacts SymFacts Local SpecStar.
Import ListNotations.
Open Scope Z_scope.

Lemma consecutive_app : forall es es' a, consecutive a es -> consecutive (a + Z.of_nat (List.length es)) es' ->
  consecutive a (es ++ es').
Proof.
  induction es as [|e es IH]; intros es' a H K; cbn [app consecutive List.length] in *.
  - replace (a + Z.of_nat 0) with a in K by lia. exact K.
  - split; [exact (proj1 H)|]. apply IH; [exact (proj2 H)|].
    replace (a + 1 + Z.of_nat (List.length es)) with (a + Z.of_nat (S (List.length es))) by lia. exact K.
Qed.
Lemma consecutive_mod : forall es a b, a mod 2 ^ 64 = b mod 2 ^ 64 -> consecutive a es -> consecutive b es.
Proof.
  induction es as [|e es IH]; intros a b E H; [exact I|]. cbn [consecutive] in *. destruct H as [H K].
  split; [congruence|]. apply (IH (a + 1)); [|exact K].
  rewrite <- (Zplus_mod_idemp_l a), <- (Zplus_mod_idemp_l b), E. reflexivity.
Qed.

(** The relation: while the line goes on [*] stands still and [advance] counts; an error
    moves [*]. *)
Definition R : relation := fun d s s' =>
  match d with
  | Dead => True
  | _ => has_star s -> pc_range s ->
      exists es, s'.(emitted) = rev es ++ s.(emitted) /\ consecutive s.(wr).(pc) es /\ has_star s' /\ pc_range s' /\
      (s.(fl).(a_org_gv) = false -> es = []) /\
      match d with
      | Fine => s'.(fl).(a_org_gv) = s.(fl).(a_org_gv) /\ starvalue s' = starvalue s /\ s'.(ct).(advance) = s.(ct).(advance) + Z.of_nat (List.length es) /\
                s'.(wr).(pc) = (s.(wr).(pc) + Z.of_nat (List.length es)) mod 2 ^ 64
      | _ => starvalue s' = starvalue s + s.(ct).(advance) + Z.of_nat (List.length es)
      end
  end.

Lemma R_order : order R.
Proof.
  constructor.
  - intros s H P. exists []. cbn. repeat split; auto; try lia; [apply P|apply P|].
    unfold pc_range in P. rewrite Z.mod_small by lia. lia.
  - intros; exact I.
  - intros d a b c X Y. destruct d; [| |exact I]; intros H P; destruct (X H P) as (e1 & A1 & A2 & A3 & A4 & A0 & A8 & A5 & A6 & A7);
      destruct (Y A3 A4) as (e2 & B1 & B2 & B3 & B4 & B0 & B5); exists (e1 ++ e2);
      (split; [rewrite B1, A1, rev_app_distr, app_assoc; reflexivity|]);
      (split; [apply consecutive_app; [exact A2|]; apply (consecutive_mod _ (pc (wr b))); [|exact B2];
               rewrite A7, Zmod_mod; reflexivity|]);
      (split; [exact B3|]); (split; [exact B4|]);
      (split; [intros F; rewrite A0, B0 by congruence; reflexivity|]); rewrite app_length, Nat2Z.inj_add.
    + destruct B5 as (B8 & B5 & B6 & B7). repeat split; [congruence|congruence|lia|].
      rewrite B7, A7, Zplus_mod_idemp_l. f_equal. lia.
    + rewrite B5, A5, A6. lia.
Qed.

(** Operations that touch none of this. *)
Definition idle (s s' : state) : Prop :=
  tfind starkey s'.(sy) = tfind starkey s.(sy) /\ s'.(wr).(pc) = s.(wr).(pc) /\ s'.(ct).(advance) = s.(ct).(advance) /\
  s'.(emitted) = s.(emitted) /\ s'.(fl).(a_org_gv) = s.(fl).(a_org_gv).
Lemma starvalue_of : forall s s', option_map l_value (tfind starkey s'.(sy)) = option_map l_value (tfind starkey s.(sy)) ->
  starvalue s' = starvalue s.
Proof. intros s s' E. unfold starvalue, star. destruct (tfind starkey (sy s')), (tfind starkey (sy s)); cbn [option_map] in E; congruence. Qed.
Lemma R_near : forall s s', option_map l_value (tfind starkey s'.(sy)) = option_map l_value (tfind starkey s.(sy)) ->
  s'.(wr).(pc) = s.(wr).(pc) -> s'.(ct).(advance) = s.(ct).(advance) -> s'.(emitted) = s.(emitted) ->
  s'.(fl).(a_org_gv) = s.(fl).(a_org_gv) -> R Fine s s'.
Proof.
  intros s s' A B C D F [l H] P. exists []. unfold pc_range in *. rewrite B, C, D. cbn [rev app consecutive List.length].
  change (Z.of_nat 0) with 0. rewrite !Z.add_0_r, Z.mod_small by lia.
  repeat split; try lia; [|exact F|apply starvalue_of; exact A].
  unfold has_star. rewrite H in A. destruct (tfind starkey (sy s')) as [l'|]; [exists l'; reflexivity|discriminate A].
Qed.
Lemma R_idle : forall s s', idle s s' -> R Fine s s'.
Proof. intros s s' (A & B & C & D & F). apply R_near; auto. rewrite A. reflexivity. Qed.
Lemma R_modify : forall f, (forall s, idle s (f s)) -> pres R _ (modify f).
Proof. intros f H s. apply R_idle. apply H. Qed.

Lemma R_osteps : osteps R.
Proof.
  constructor; [exact R_order|..]; intros; try exact I; apply R_idle; repeat split.
Qed.

Definition idling : relation := fun d s s' => match d with Fine => idle s s' | Failed => False | Dead => True end.
Lemma idling_osteps : osteps idling.
Proof.
  constructor; [constructor|..]; unfold idling, idle; intros; auto; repeat split.
  destruct d; auto. intuition congruence.
Qed.

Lemma R_error : forall A m, pres R A (error m).
Proof.
  intros A m s. destruct (error m s) as [r s'] eqn:E. cbn [fst snd]. destruct r as [a|b]; [elim (error_never _ _ _ _ _ E)|].
  assert (Fn : forall t s0 b s1, outputraw t s0 = (Bad b, s1) -> how (@Bad unit b) = Dead).
  { intros t s0 b0 s1 K. pose proof (pres_outputraw _ idling_osteps t s0) as N. rewrite K in N. destruct b0; auto; elim N. }
  assert (Ln : forall s0 b s1, outputline s0 = (Bad b, s1) -> how (@Bad unit b) = Dead).
  { intros s0 b0 s1 K. pose proof (pres_outputline _ idling_osteps s0) as N. rewrite K in N. destruct b0; auto; elim N. }
  assert (Gn : forall b0, how (@Bad unit b0) = Dead -> R (how (@Bad A b0)) s s') by (intros b0 K; destruct b0; try discriminate K; exact I).
  unfold error, bind at 1 in E. cbn [gets] in E. cbv zeta in E. unfold bind at 1 in E.
  match type of E with match ?x with _ => _ end = _ => destruct x as [[u|b1] s1] eqn:E1 end.
  2:{ injection E as <- <-. apply Gn. revert E1. destruct (negb (a_noerror (fl s))); [|discriminate]. destruct (80 <=? _); [intros [= <- _]; reflexivity|].
      unfold bind, upd_fl, modify. intros K. apply Fn in K. exact K. }
  assert (I1 : idle s s1).
  { revert E1. clear. destruct (negb (a_noerror (fl s))); [|unfold ret; intros K; assert (s1 = s) as -> by congruence; repeat split]. destruct (80 <=? _); [discriminate|].
    unfold bind, upd_fl, modify. intros K. match type of K with outputraw ?t ?x = _ => pose proof (pres_outputraw _ idling_osteps t x) as N end.
    rewrite K in N. exact N. }
  unfold bind at 1 in E. destruct (outputline s1) as [[u2|b2] s2] eqn:E2; [|injection E as <- <-; apply Gn; exact (Ln _ _ _ E2)].
  pose proof (pres_outputline _ idling_osteps s1) as I2. rewrite E2 in I2. cbn [fst snd how idling] in I2.
  assert (I3 : idle s s2) by (unfold idle in *; intuition congruence). clear I1 I2 E1 E2.
  destruct I3 as (T & Q & V & M & _).
  unfold bind in E. destruct (negb (advance (ct s) =? 0)) eqn:N; cbn [when] in E.
  - unfold star_advance, bind in E. cbn [gets] in E. cbv zeta in E.
    destruct (in_s64 _); [|injection E as <- <-; exact I].
    unfold upd_sy, modify, upd_fl, stop in E. injection E as <- <-. cbn [how]. intros [l H] P.
    exists []. cbn [rev app emitted set_reported set_fl set_sy consecutive List.length wr].
    rewrite M. unfold has_star, pc_range, starvalue, star. cbn [sy set_reported set_fl set_sy wr].
    rewrite tfind_tupd_same, T, H. cbn [option_map l_value set_l_value]. rewrite V, Q.
    repeat split; [eexists; reflexivity|apply P|apply P|lia].
  - unfold ret, upd_fl, modify, stop in E. injection E as <- <-. cbn [how]. intros [l H] P.
    exists []. cbn [rev app emitted set_reported set_fl set_sy consecutive List.length wr].
    rewrite M. unfold has_star, pc_range, starvalue, star. cbn [sy set_reported set_fl set_sy wr].
    rewrite T, Q, H. repeat split; [eexists; reflexivity|apply P|apply P|lia].
Qed.

Lemma R_esteps : esteps R.
Proof.
  constructor.
  - exact R_osteps.
  - intros. apply R_idle. repeat split.
  - intros s k. apply R_near; try reflexivity. cbn [sy set_sy]. destruct (str_dec starkey k) as [<-|N].
    + rewrite tfind_tupd_same. destruct (tfind starkey (sy s)); reflexivity.
    + rewrite tfind_tupd_other by exact N. reflexivity.
  - intros s k rel F [l Hs]. assert (N : starkey <> k) by congruence. revert Hs. intros Hs. apply R_idle; [|exists l; exact Hs].
    repeat split. cbn [sy set_sy]. apply tfind_tins_other. exact N.
  - intros. apply R_idle. repeat split.
  - intros m. apply R_error.
Qed.

Definition unfail : relation := fun d _ _ => d <> Failed.
Lemma unfail_osteps : osteps unfail.
Proof. constructor; [constructor|..]; unfold unfail; intros; (discriminate || assumption). Qed.
Lemma unfail_order : order unfail.
Proof. apply unfail_osteps. Qed.
Ltac uf := repeat first
  [ match goal with |- pres _ _ (bind _ _) => apply (pres_bind _ unfail_order); [|intros] end
  | match goal with |- pres _ _ (when _ _) => unfold when end
  | apply (pres_gets _ unfail_order) | apply (pres_ret _ unfail_order) | apply (pres_outputbyte _ unfail_osteps)
  | match goal with |- pres _ _ (match ?x with _ => _ end) => destruct x end
  | intros ?; discriminate ].
Lemma unfail_scwrite : forall t, pres unfail _ (scwrite t).
Proof. intros t. unfold scwrite. uf. Qed.
Lemma unfail_flush : pres unfail _ flushscoderaw.
Proof. unfold flushscoderaw. repeat first [apply unfail_scwrite|progress uf]. Qed.
Lemma insert8_bad : forall x s b s', insert8 x s = (Bad b, s') -> how (@Bad unit b) = Dead \/ insert8 x s = err "no org given" s.
Proof.
  intros x s b s' E. unfold insert8 in *. unfold bind at 1 in E. unfold bind at 1. cbn [gets] in *.
  destruct (a_org_gv (fl s)); cbn [negb when] in *.
  2:{ right. unfold err. rewrite error_bind. reflexivity. }
  left. unfold bind at 1 in E. cbn [ret] in E. unfold bind at 1 in E. unfold modify at 1 in E.
  match type of E with ?m ?s0 = _ => assert (K : pres unfail _ m) by repeat first [apply unfail_flush|progress uf] end.
  match type of E with _ ?s0 = _ => specialize (K s0) end. rewrite E in K. cbn [fst] in K. destruct b; auto; elim K; reflexivity.
Qed.
Lemma insert8_org : forall x s u s', s.(fl).(a_org_gv) = false -> insert8 x s <> (Ok u, s').
Proof.
  intros x s u s' F E. unfold insert8 in E. unfold bind at 1 in E. cbn [gets] in E. rewrite F in E. cbn [negb when] in E.
  unfold err in E. rewrite error_bind in E. elim (error_never _ _ _ _ _ E).
Qed.

Lemma R_insert8 : forall x, pres R _ (insert8 x).
Proof.
  intros x s. destruct (insert8 x s) as [[u|b] s'] eqn:E; cbn [fst snd].
  - cbn [how]. intros [l H] P. destruct (insert8_emits _ _ _ _ P E) as [(A & B & C) (D1 & D2 & D3 & D4 & D5 & D6 & D7)].
    cbn [placed List.length] in *. eexists [_]. cbn [rev app]. split; [exact A|]. cbn [consecutive em_pc].
    split; [split; [reflexivity|exact I]|]. specialize (D7 _ _ H). destruct (tfind starkey (sy s')) as [l'|] eqn:F; [|discriminate D7].
    split; [exists l'; exact F|]. split; [unfold pc_range; rewrite B; apply Z.mod_pos_bound; lia|].
    split; [intros F0; elim (insert8_org _ _ _ _ F0 E)|]. split; [congruence|].
    split; [|split; [exact C|exact B]].
    apply starvalue_of. rewrite F, H. cbn [option_map]. injection D7. intros. congruence.
  - destruct (insert8_bad _ _ _ _ E) as [Dd|X].
    + destruct b; try discriminate Dd; exact I.
    + rewrite X in E. pose proof (R_error unit (s2l "no org given") s) as K. unfold err in E. rewrite E in K. exact K.
Qed.

Lemma idle_mod : forall s f, idle s (set_ls f s). Proof. repeat split. Qed.

Ltac r1 :=
  lazymatch goal with
  | |- pres R _ (bind _ _) => apply (pres_bind R R_order); [ | intros ]
  | |- pres R _ (ret _) => apply (pres_ret R R_order)
  | |- pres R _ (gets _) => apply (pres_gets R R_order)
  | |- pres R _ (when _ _) => unfold when
  | |- pres R _ (stop (UB _)) => apply (pres_ub R R_order)
  | |- pres R _ (stop NoFuel) => apply (pres_fuel R R_order)
  | |- pres R _ (error _) => apply R_error
  | |- pres R _ (err _) => apply R_error
  | |- pres R _ (fatal _) => apply (pres_fatal R R_osteps)
  | |- pres R _ (warning _) => apply (pres_warning R R_osteps)
  | |- pres R _ outputline => apply (pres_outputline R R_osteps)
  | |- pres R _ outputEOL => apply (pres_outputEOL R R_osteps)
  | |- pres R _ outputEOP => apply (pres_outputEOP R R_osteps)
  | |- pres R _ (position _) => apply (pres_position R R_osteps)
  | |- pres R _ (outputaddr _) => apply (pres_outputaddr R R_osteps)
  | |- pres R _ (filterc _ _) => apply (pres_filterc R R_osteps)
  | |- pres R _ (filter2 _ _) => apply (pe_filter2 R R_esteps)
  | |- pres R _ (findlabel _) => apply (pe_findlabel R R_esteps)
  | |- pres R _ (parse _) => apply (pe_parse R R_esteps)
  | |- pres R _ (checktype _ _) => apply (pe_checktype R R_esteps)
  | |- pres R _ (insert8 _) => apply R_insert8
  | |- pres R _ (upd_ls _) => apply R_modify; repeat split
  | |- pres R _ (upd_fl _) => apply R_modify; repeat split
  | |- pres R _ (upd_inp _) => apply R_modify; repeat split
  | |- pres R _ (upd_cp _) => apply R_modify; repeat split
  | |- pres R _ (upd_ct (set_calcresult _)) => apply R_modify; repeat split
  | |- pres R _ (upd_ct (set_bufferpos _)) => apply R_modify; repeat split
  | |- pres R _ (match ?x with _ => _ end) => destruct x
  end.
Ltac r := repeat first [r1 | progress (cbv beta zeta)].

Lemma R_insert16 : forall x, pres R _ (insert16 x).
Proof. intros x. unfold insert16. r. Qed.
Lemma R_insert32 : forall x, pres R _ (insert32 x).
Proof. intros x. unfold insert32. r; apply R_insert16. Qed.
Lemma R_stocke : forall t m, pres R _ (stocke t m).
Proof. intros t m. unfold stocke, flip_lohi. r; first [apply R_insert16|apply R_insert32]. Qed.
Lemma R_dcloop : forall n o m, pres R _ (dcloop n o m).
Proof. induction n as [|n IH]; intros o m; cbn [dcloop]; r; first [apply R_stocke|apply IH]. Qed.

Lemma R_sy : forall s t, (forall l, tfind starkey s.(sy) = Some l -> option_map l_value (tfind starkey t) = Some l.(l_value)) ->
  R Fine s (set_sy t s).
Proof.
  intros s t H [l E]. assert (K : R Fine s (set_sy t s)); [|apply K; exists l; exact E].
  apply R_near; try reflexivity. cbn [sy set_sy]. rewrite (H l E), E. reflexivity.
Qed.
Lemma R_init_entry : forall e, pres R _ (init_entry e).
Proof.
  intros e s. unfold init_entry, searchlabel, bind. cbn [gets ret]. set (k := lkey _ _).
  destruct (tfind k (sy s)) as [l|] eqn:F.
  - destruct (_ && _); [|apply (pres_warning R R_osteps)]. apply R_sy. intros l' E.
    destruct (str_dec starkey k) as [<-|N].
    + rewrite tfind_tupd_same, E. reflexivity.
    + rewrite tfind_tupd_other, E by exact N. reflexivity.
  - apply R_sy. intros l' E. rewrite tfind_tins_other, E by congruence. reflexivity.
Qed.
Lemma R_init_inner : forall n i k t, pres R _ (init_inner n i k t).
Proof. induction n as [|n IH]; intros; cbn [init_inner]; r; [apply R_init_entry|apply IH]. Qed.
Lemma R_init_outer : forall n k t, pres R _ (init_outer n k t).
Proof. induction n as [|n IH]; intros; cbn [init_outer]; r; [apply R_init_inner|apply IH]. Qed.
Lemma R_init : forall t, pres R _ (init_label_list t).
Proof. intros. apply R_init_outer. Qed.

Lemma R_local : local (pres R).
Proof.
  constructor; intros.
  all: lazymatch goal with
  | H : forall s, ?m s = ?m' s |- _ => apply (pres_ext R _ m); assumption
  | |- pres R _ (bind (gets _) _) => r
  | |- pres R _ (bind _ _) => apply (pres_bind R R_order); assumption
  | |- pres R _ (settitle _) => unfold settitle; r
  | |- pres R _ (setpage _ _) => unfold setpage; r
  | |- pres R _ (init6800 _) => unfold init6800; r; apply R_init
  | |- pres R _ (init6502 _) => unfold init6502; r; apply R_init
  | |- pres R _ (initz80 _) => unfold initz80; r; apply R_init
  | |- pres R _ zerobuffer => unfold zerobuffer; r
  | |- pres R _ flip_lohi => unfold flip_lohi; r
  | |- pres R _ newsegment => unfold newsegment; r
  | |- pres R _ (Xdc _ _) => unfold Xdc; apply R_dcloop
  | |- pres R _ _ => r
  end.
Qed.

(** Definitions other than that of [*]. *)
Lemma R_deflabel : forall n f ty v p m, n <> s2l "*" ->
  pres R _ (k <- deflabel n f ty v ;; upd_sy (tupd k (fun l => set_l_ptr p (set_l_modifier m l)))).
Proof.
  intros n f ty v p m N s. unfold bind. rewrite deflabel_eq. set (k := lkey _ n).
  assert (K : starkey <> k) by (intros E; symmetry in E; exact (N (lkey_star _ _ E))).
  destruct (refused (tfind k (sy s)) f) as [msg|].
  - pose proof (R_error str (s2l msg) s) as E. destruct (error (s2l msg) s) as [[a|b] s'] eqn:X; [elim (error_never _ _ _ _ _ X)|exact E].
  - unfold upd_sy, modify. cbn [fst snd how sy set_sy]. apply (R_sy s). intros l E.
    rewrite !tfind_tupd_other by exact K. destruct (tfind k (sy s)); [|rewrite tfind_tins_other by exact K]; rewrite E; reflexivity.
Qed.
Lemma R_herelabel : forall n, pres R _ (herelabel n).
Proof.
  intros n s. unfold herelabel, when. destruct (streq n (s2l "*")) eqn:S.
  { unfold err. rewrite error_bind. apply R_error. }
  assert (N : n <> s2l "*") by (intros ->; discriminate S).
  match goal with |- R _ _ (snd (?m s)) => change (from R s m s) end.
  apply (from_bind R); [apply (p_refl R R_order)|]. intros u s0 [= _ <-].
  apply (from_bind R); [apply (p_refl R R_order)|]. intros x s0 [= <- <-].
  match goal with |- from R s ?m s => assert (K : pres R _ m); [|apply K] end.
  r. intros s1. rewrite deflabel_eq. set (k := lkey _ n).
  assert (K : starkey <> k) by (intros E; symmetry in E; exact (N (lkey_star _ _ E))).
  destruct (refused _ _) as [msg|]; [apply R_error|]. cbn [fst snd how]. apply R_sy. intros l E.
  rewrite tfind_tupd_other by exact K. destruct (tfind k (sy s1)); [|rewrite tfind_tins_other by exact K]; rewrite E; reflexivity.
Qed.
Lemma R_Xequ : forall t o, t <> s2l "*" -> pres R _ (Xequ t o).
Proof. intros t o N. apply (J_Xequ _ R_local). intros x. apply R_deflabel. exact N. Qed.

(** DS overwrites [advance] with the count. *)
Lemma dsloop_length : forall n v s u s', has_star s -> pc_range s -> dsloop n v s = (Ok u, s') ->
  s'.(ct).(advance) = s.(ct).(advance) + Z.of_nat n.
Proof. intros n v s u s' _ P E. destruct (dsloop_good _ _ _ _ _ P E) as [(_ & _ & A) _]. rewrite repeat_length in A. exact A. Qed.

Definition Rcalm : relation := fun d s s' =>
  R d s s' /\ match d with Fine => s'.(ct).(advance) = s.(ct).(advance) | _ => True end.

Lemma R_Xds : forall o s, s.(ct).(advance) = 0 -> has_star s -> pc_range s ->
  R (how (fst (Xds o s))) s (snd (Xds o s)).
Proof.
  intros o s A H P.
  assert (Z : forall t s0 u s1, filter2 t "?_,_?" s0 = (Ok u, s1) -> s1.(ct).(advance) = s0.(ct).(advance)).
  { intros t s0 u s1 E. exact (proj1 (proj2 (proj2 (filter2_ok' _ _ _ _ _ E)))). }
  assert (Y : forall t s0 u s1, parse t s0 = (Ok u, s1) -> s1.(ct).(advance) = s0.(ct).(advance)).
  { intros t s0 u s1 E. pose proof (pe_parse _ evaluating_steps t s0) as K. rewrite E in K. exact (proj1 (proj2 (proj2 K))). }
  unfold Xds. match goal with |- R _ _ (snd (?m s)) => change (from R s m s) end.
  assert (Fn : forall s1, R Fine s s1 -> s1.(ct).(advance) = 0 -> forall t init,
     from R s (r <- parse t ;; checktype r TAbs ;;;
       (if s32 (r_value r) <? 0 then stop (UB "DS: negative count") else dsloop (Z.to_nat (s32 (r_value r))) init) ;;;
       upd_ct (set_advance (s32 (r_value r)))) s1).
  { intros s1 R1 A1 t init.
    apply (from_bind R); [apply (from_pres R R_order); [exact R1|r]|]. intros x s2 E2.
    pose proof (pres_ok R R_order _ _ _ _ _ _ R1 (pe_parse R R_esteps t) E2) as R2. apply Y in E2.
    apply (from_bind R); [apply (from_pres R R_order); [exact R2|r]|]. intros y s3 E3.
    pose proof (checktype_ok _ _ _ _ _ E3) as [_ ->]. clear E3 y.
    destruct (s32 (r_value x) <? 0) eqn:N; [exact I|]. apply Z.ltb_ge in N.
    assert (D : pres R _ (dsloop (Z.to_nat (s32 (r_value x))) init)) by apply (J_dsloop _ R_local).
    apply (from_bind R); [apply (from_pres R R_order); [exact R2|exact D]|]. intros z s4 E4.
    pose proof (pres_ok R R_order _ _ _ _ _ _ R2 D E4) as R4.
    destruct (R2 H P) as (_ & _ & _ & H2 & P2 & _). pose proof (dsloop_length _ _ _ _ _ H2 P2 E4) as L.
    assert (V : s32 (r_value x) = s4.(ct).(advance)) by lia. rewrite V. unfold from. cbn [fst snd how upd_ct modify].
    apply (p_trans R R_order) with s4; [exact R4|]. apply R_idle. repeat split. }
  apply (from_bind R); [apply (from_pres R R_order); [apply (p_refl R R_order)|r]|]. intros q s1 E1.
  assert (R1 : R Fine s s1) by (apply (pres_ok R R_order _ _ _ _ _ _ (p_refl R R_order s) (pe_filter2 R R_esteps _ _) E1)).
  apply Z in E1.
  destruct q as [[a b]|].
  - assert (D : pres R _ (r0 <- parse b ;; checktype r0 TAbs ;;;
             when (negb (Z.land (s32 (r_value r0)) 4294967040 =? 0)) (warning "multiple byte initialiser") ;;;
             ret (a, s32 (r_value r0)))) by r.
    apply (from_bind R); [apply (from_pres R R_order); [exact R1|exact D]|]. intros [t init] s2 E2.
    apply Fn; [exact (pres_ok R R_order _ _ _ _ _ _ R1 D E2)|].
    unfold bind in E2. destruct (parse b s1) as [[x|x] s3] eqn:E3; [|discriminate E2]. apply Y in E3.
    destruct (checktype x TAbs s3) as [[y|y] s4] eqn:E4; [|discriminate E2]. apply checktype_ok in E4. destruct E4 as [_ ->].
    destruct (when _ _ s3) as [[y'|y'] s5] eqn:E5; [|discriminate E2]. apply when_warning in E5.
    injection E2 as _ _ <-. destruct E5 as [_ (_ & E5 & _)]. congruence.
  - apply (from_bind R); [apply (p_trans R R_order) with s1; [exact R1|apply (p_refl R R_order)]|].
    intros [t init] s2 [= _ _ <-]. apply Fn; [exact R1|congruence].
Qed.

Lemma R_Xinclude : forall o, pres R _ (Xinclude o).
Proof. intros o. unfold Xinclude, checkdepth. r. Qed.

Lemma R_exec : forall h m lab o s, s.(ct).(advance) = 0 -> has_star s -> pc_range s ->
  ~ (h = HEqu /\ lab = Some (s2l "*")) -> R (how (fst (exec h m lab o s))) s (snd (exec h m lab o s)).
Proof.
  intros h m lab o s A H P N. assert (D : h = HDs \/ h <> HDs) by (destruct h; (left; reflexivity) || (right; discriminate)).
  destruct D as [->|D]; [apply R_Xds; assumption|].
  apply (J_exec _ R_local); intros; try (elim D; assumption).
  - unfold Xfail. destruct o as [[|]|]; r.
  - apply R_Xinclude.
  - subst. apply R_Xequ. intros ->. apply N. split; reflexivity.
Qed.

(** A line, from its start. *)
Lemma flush_sy : forall s, (snd (flushscoderaw s)).(sy) = s.(sy) /\ (snd (flushscoderaw s)).(fl) = s.(fl).
Proof.
  intros s. set (N := fun (_ : ending) (a b : state) => b.(sy) = a.(sy) /\ b.(fl) = a.(fl)).
  assert (O : order N) by (constructor; unfold N; intros; [split; reflexivity|assumption|intuition congruence]).
  assert (W : forall t, pres N _ (scwrite t)).
  { intros t. unfold scwrite. apply (pres_bind _ O); [apply (pres_gets _ O)|intros w]. destruct (scode w); intros ?; split; reflexivity. }
  assert (K : pres N _ flushscoderaw).
  { unfold flushscoderaw.
    repeat first
      [ match goal with |- pres _ _ (bind _ _) => apply (pres_bind _ O); [|intros] end
      | apply (pres_gets _ O) | apply (pres_ret _ O) | apply W
      | match goal with |- pres _ _ (match ?x with _ => _ end) => destruct x end
      | intros ?; split; reflexivity ]. }
  exact (K s).
Qed.
Lemma linestart_bad : forall s b s', linestart s = (Bad b, s') -> how (@Bad unit b) = Dead.
Proof.
  intros s b s' E. assert (K : pres unfail _ linestart).
  { unfold linestart, setpc, zerobuffer. repeat first [apply unfail_flush|progress uf]. }
  specialize (K s). rewrite E in K. cbn [fst] in K. destruct b; auto; elim K; reflexivity.
Qed.
Lemma linestart_ok : forall s u s', has_star s -> pc_range s -> linestart s = (Ok u, s') ->
  s'.(sy) = s.(sy) /\ s'.(ct).(advance) = 0 /\ s'.(emitted) = s.(emitted) /\ pc_range s' /\
  (s'.(fl).(a_org_gv) = false \/ s'.(wr).(pc) = starvalue s mod 2 ^ 64).
Proof.
  intros s u s' H P E. unfold linestart, bind, upd_ct, modify in E. cbn [gets] in E.
  set (s1 := set_ct _ s) in E. change (starundef s1) with (starundef s) in E. change (starvalue s1) with (starvalue s) in E.
  destruct (starundef s).
  - unfold upd_fl, modify, zerobuffer, upd_ct, upd_ls in E. injection E as _ <-. cbn. repeat split; auto; apply P.
  - unfold upd_fl, modify, setpc, bind, zerobuffer in E. cbn [gets] in E.
    change (pc (wr (set_fl (set_a_org_gv true (fl s1)) s1))) with (pc (wr s)) in E.
    destruct (u64 (starvalue s) =? pc (wr s)) eqn:Q.
    + apply Z.eqb_eq in Q. unfold ret, upd_ct, upd_ls, modify in E. injection E as _ <-. cbn. repeat split; [apply P|apply P|]. right. symmetry. exact Q.
    + destruct (flushscoderaw _) as [[v|b] s2] eqn:F; [|discriminate E].
      match type of F with _ ?x = _ => pose proof (held_flush x) as K; pose proof (flush_sy x) as K2 end.
      rewrite F in K, K2. destruct K as (K1 & _ & K3), K2 as [K2 _]. cbn in K1, K3, K2.
      unfold upd_wr, upd_ct, upd_ls, modify in E. injection E as _ <-. cbn [sy ct emitted wr fl set_ct set_ls set_wr advance set_bufferpos pc set_pc set_rawstart set_raw].
      split; [exact K2|]. split; [exact K3|]. split; [exact K1|]. split; [unfold pc_range; cbn; unfold u64; apply Z.mod_pos_bound; lia|].
      right. reflexivity.
Qed.

Definition line_rel (s0 : state) {A} (r : res A) (s' : state) : Prop := how r <> Dead -> star_follows s0 s'.

Section Line.
Variable s0 : state.
Hypothesis H0 : has_star s0.
(** [s] is a state within the line that began at [s0]. *)
Definition within (s : state) : Prop := s.(ct).(advance) = 0 /\ s.(emitted) = s0.(emitted) /\ starvalue s = starvalue s0 /\
  has_star s /\ pc_range s /\ (s.(fl).(a_org_gv) = false \/ s.(wr).(pc) = starvalue s0 mod 2 ^ 64).

Lemma within_consecutive : forall s es, within s -> (s.(fl).(a_org_gv) = false -> es = []) -> consecutive s.(wr).(pc) es ->
  consecutive (starvalue s0) es.
Proof.
  intros s es (_ & _ & _ & _ & _ & [F|F]) N C; [rewrite (N F); exact I|].
  apply (consecutive_mod _ (pc (wr s))); [|exact C]. rewrite F, Zmod_mod. reflexivity.
Qed.
(** An error ends the line. *)
Lemma within_failed : forall s s', within s -> R Failed s s' -> star_follows s0 s'.
Proof.
  intros s s' W K. pose proof W as (A & B & C & D & E & _). destruct (K D E) as (es & K1 & K2 & K3 & _ & K4 & K5).
  exists es. rewrite K1, B, K5, A, C. split; [reflexivity|]. split; [exact (within_consecutive _ _ W K4 K2)|]. split; [lia|exact K3].
Qed.
(** A line without code. *)
Lemma within_still : forall s s', within s -> R Fine s s' -> s'.(ct).(advance) = 0 -> star_follows s0 s' /\ within s'.
Proof.
  intros s s' W K Z. pose proof W as (A & B & C & D & E & G). destruct (K D E) as (es & K1 & K2 & K3 & K6 & K4 & K5 & K7 & K8 & K9).
  assert (es = []) as -> by (destruct es; [reflexivity|cbn [List.length] in K8; lia]).
  cbn [rev app List.length] in *. change (Z.of_nat 0) with 0 in *. rewrite Z.add_0_r in *.
  assert (P : pc (wr s') = pc (wr s)) by (rewrite K9; apply Z.mod_small; exact E).
  split.
  - exists []. cbn. repeat split; try lia; [congruence|exact K3].
  - unfold within. rewrite K5, P, K7, K1. repeat split; auto; apply K6.
Qed.
(** Operations without code. *)
Definition calm : relation := fun d s s' =>
  R d s s' /\ match d with Fine => s'.(ct).(advance) = s.(ct).(advance) | _ => True end.
Lemma within_calm : forall A (m : M A) s r s', pres calm A m -> within s -> m s = (r, s') ->
  match r with Ok _ => within s' /\ star_follows s0 s' | Bad (Err _) => star_follows s0 s' | _ => True end.
Proof.
  intros A m s r s' K W E. specialize (K s). rewrite E in K. destruct r as [a|b]; cbn [fst snd how] in K.
  - destruct K as [K1 K2]. rewrite (proj1 W) in K2. destruct (within_still _ _ W K1 K2). split; assumption.
  - destruct b; try exact I. exact (within_failed _ _ W (proj1 K)).
Qed.
(** The end of the line. *)
Lemma within_advanced : forall s s1 u s2, within s -> R Fine s s1 -> star_advance s1 = (Ok u, s2) -> star_follows s0 s2.
Proof.
  intros s s1 u s2 W K E. pose proof W as (A & B & C & D & X & G). destruct (K D X) as (es & K1 & K2 & K3 & K6 & K4 & K5 & K7 & K8 & K9).
  unfold star_advance, bind in E. cbn [gets] in E. destruct (in_s64 _); [|discriminate E].
  unfold upd_sy, modify in E. injection E as _ <-. destruct K3 as [l L]. exists es.
  unfold has_star. assert (V : starvalue s1 = l_value l) by (unfold starvalue, star; rewrite L; reflexivity).
  assert (V' : starvalue (set_sy (tupd starkey (set_l_value (starvalue s1 + advance (ct s1))) (sy s1)) s1) = starvalue s1 + advance (ct s1)).
  { unfold starvalue at 1, star. cbn [sy set_sy]. rewrite tfind_tupd_same, L. reflexivity. }
  rewrite V'. cbn [emitted sy set_sy]. rewrite K1, B, K8, K7, A, C. split; [reflexivity|].
  split; [exact (within_consecutive _ _ W K4 K2)|]. split; [lia|]. rewrite tfind_tupd_same, L. eexists. reflexivity.
Qed.
End Line.

Lemma calm_esteps : esteps calm.
Proof.
  constructor; [constructor; [constructor|..]|..]; unfold calm.
  - intros s. split; [apply (p_refl R R_order)|reflexivity].
  - intros a b K. split; exact I.
  - intros d a b c [K1 K2] [K3 K4]. split; [exact (p_trans R R_order _ _ _ _ K1 K3)|]. destruct d; auto. congruence.
  - intros. split; [apply (o_ls R R_osteps); assumption|reflexivity].
  - intros. split; [apply (o_print R R_osteps); assumption|reflexivity].
  - intros. split; exact I.
  - intros. split; [apply (o_bufferpos R R_osteps)|reflexivity].
  - intros. split; [apply (e_calc R R_esteps)|reflexivity].
  - intros. split; [apply (e_used R R_esteps)|reflexivity].
  - intros. split; [apply (e_new R R_esteps); assumption|reflexivity].
  - intros. split; [apply (e_looked R R_esteps); assumption|reflexivity].
  - intros m s. split; [apply R_error|]. destruct (error m s) as [[a|b] s'] eqn:E; [elim (error_never _ _ _ _ _ E)|].
    destruct b; exact I.
Qed.
Lemma calm_order : order calm.
Proof. apply calm_esteps. Qed.
Ltac c1 :=
  lazymatch goal with
  | |- pres calm _ (bind _ _) => apply (pres_bind calm calm_order); [ | intros ]
  | |- pres calm _ (ret _) => apply (pres_ret calm calm_order)
  | |- pres calm _ (gets _) => apply (pres_gets calm calm_order)
  | |- pres calm _ (when _ _) => unfold when
  | |- pres calm _ (error _) => apply (pe_error calm calm_esteps)
  | |- pres calm _ (err _) => apply (pe_error calm calm_esteps)
  | |- pres calm _ outputline => apply (pres_outputline calm (e_osteps _ calm_esteps))
  | |- pres calm _ (filter2 _ _) => apply (pe_filter2 calm calm_esteps)
  | |- pres calm _ (filter0 _ _) => apply (pe_filter0 calm calm_esteps)
  | |- pres calm _ (upd_inp _) => let x := fresh in intros x; split; [apply R_idle; repeat split|reflexivity]
  | |- pres calm _ (match ?x with _ => _ end) => destruct x
  end.
Ltac c := repeat first [c1 | progress (cbv beta zeta)].
Lemma calm_findmnemo : forall t, pres calm _ (findmnemo t).
Proof. intros t. unfold findmnemo, searchlabel. c. Qed.
Lemma calm_splitmnemo : forall t, pres calm _ (splitmnemo t).
Proof. intros t. unfold splitmnemo. c; apply calm_findmnemo. Qed.
Lemma calm_splitline : forall t, pres calm _ (splitline t).
Proof. intros t. unfold splitline, splitrest. c; first [apply calm_findmnemo|apply calm_splitmnemo]. Qed.
Lemma calm_stripline : pres calm _ stripline.
Proof. unfold stripline. c. Qed.
Lemma calm_herelabel : forall n, pres calm _ (herelabel n).
Proof.
  intros n s. split; [apply R_herelabel|].
  assert (O : esteps (fun d s s' => match d with Fine => s'.(ct).(advance) = s.(ct).(advance) | _ => True end)).
  { constructor; [constructor; [constructor|..]|..]; intros; auto; try (destruct d; auto; congruence).
    intros s1. destruct (error m s1) as [[a|b] s'] eqn:E; [elim (error_never _ _ _ _ _ E)|]. destruct b; exact I. }
  pose proof (e_osteps _ O) as L. pose proof (o_order _ L) as OO.
  revert s. match goal with |- forall s, @?Q s => change (pres (fun d s s' => match d with Fine => s'.(ct).(advance) = s.(ct).(advance) | _ => True end) _ (herelabel n)) end.
  unfold herelabel, when, err.
  repeat first
    [ match goal with |- pres _ _ (bind _ _) => apply (pres_bind _ OO); [|intros] end
    | apply (pres_gets _ OO) | apply (pres_ret _ OO) | apply (pe_error _ O) | apply (pres_position _ L) | apply (pres_outputaddr _ L)
    | match goal with |- pres _ _ (match ?x with _ => _ end) => destruct x end ].
  intros s. rewrite deflabel_eq. destruct (refused _ _); [apply (pe_error _ O)|reflexivity].
Qed.

Theorem line_follows : forall self n li ex s r s', has_star s -> pc_range s ->
  (forall q, taken_apart s q -> of_its_own q /\ ~ sets_star q) ->
  asmline self n li ex s = (r, s') -> how r <> Dead -> star_follows s s'.
Proof.
  intros self n li ex s r s' H P Q E N. unfold asmline in E.
  unfold bind at 1 in E. destruct (linestart s) as [[u|b] s1] eqn:E1.
  2:{ injection E as <- <-. apply linestart_bad in E1. elim N. destruct b; try discriminate E1; reflexivity. }
  assert (W : within s s1).
  { destruct (linestart_ok _ _ _ H P E1) as (A & B & C & D & F). unfold within.
    repeat split; auto; try apply D; [unfold starvalue, star; rewrite A; reflexivity|unfold has_star; rewrite A; exact H]. }
  unfold bind at 1 in E. cbn [gets] in E. unfold bind at 1 in E.
  destruct (stripline s1) as [[t|b] s2] eqn:E2; pose proof (within_calm s _ _ _ _ _ calm_stripline W E2) as W2.
  2:{ injection E as <- <-. destruct b; try (elim N; reflexivity). exact W2. }
  destruct t as [|c0 t].
  { assert (K : pres calm _ (when li outputline ;;; ret FNone)) by c.
    pose proof (within_calm s _ _ _ _ _ K (proj1 W2) E) as W3. destruct r as [a|b]; [exact (proj2 W3)|].
    destruct b; try (elim N; reflexivity). exact W3. }
  unfold bind at 1 in E. destruct (splitline (c0 :: t) s2) as [[q|b] s3] eqn:E3; pose proof (within_calm s _ _ _ _ _ (calm_splitline _) (proj1 W2) E3) as W3.
  2:{ injection E as <- <-. destruct b; try (elim N; reflexivity). exact W3. }
  destruct (Q q) as [O S].
  { destruct u. exists s1, (c0 :: t), s2, s3. repeat split; auto. discriminate. }
  destruct W3 as [W3 _]. unfold of_its_own in O. destruct (q_mnemo q) as [[key l]|] eqn:Mn.
  2:{ match type of E with ?m s3 = _ => assert (K : pres calm _ m) by (c; apply calm_herelabel) end.
      pose proof (within_calm s _ _ _ _ _ K W3 E) as W4. destruct r as [a|b]; [exact (proj2 W4)|].
      destruct b; try (elim N; reflexivity). exact W4. }
  destruct O as (O1 & O2 & O3). unfold dispatch in E. rewrite O2, O3 in E. cbv zeta in E. cbn [orb] in E.
  unfold bind at 1 in E.
  match type of E with (match ?m s3 with _ => _ end) = _ => assert (K : pres calm _ m) by c; destruct (m s3) as [[u4|b] s4] eqn:E4;
    pose proof (within_calm s _ _ _ _ _ K W3 E4) as W4; clear K end.
  2:{ injection E as <- <-. destruct b; try (elim N; reflexivity). exact W4. }
  destruct W4 as [W4 _]. unfold bind at 1 in E.
  match type of E with (match ?m s4 with _ => _ end) = _ => assert (K : pres calm _ m) by (c; apply calm_herelabel); destruct (m s4) as [[u5|b] s5] eqn:E5;
    pose proof (within_calm s _ _ _ _ _ K W4 E5) as W5; clear K end.
  2:{ injection E as <- <-. destruct b; try (elim N; reflexivity). exact W5. }
  destruct W5 as [W5 _].
  destruct (l_type l) eqn:Ty; try (injection E as <- <-; elim N; reflexivity); [|elim O1; reflexivity].
  unfold bind at 1 in E.
  assert (X : forall u6 s6, (if ex then match l_ptr l with PFun h => exec h (l_modifier l) (q_label q) (q_oper q)
              | _ => stop (UB "asmline: bad function pointer") end else ret tt) s5 = (u6, s6) -> R (how u6) s5 s6).
  { intros u6 s6 E6. destruct ex; [|injection E6 as <- <-; apply (p_refl R R_order)].
    destruct (l_ptr l) as [|h|lines] eqn:Pt; try (injection E6 as <- <-; exact I).
    destruct W5 as (A & _ & _ & B & C & _).
    pose proof (R_exec h (l_modifier l) (q_label q) (q_oper q) s5 A B C) as K. rewrite E6 in K. apply K.
    intros [-> L]. apply S. exists key, l. auto. }
  match type of E with (let (_, _) := ?x in _) = _ => destruct x as [[u6|b] s6] end; specialize (X _ _ eq_refl).
  2:{ injection E as <- <-. destruct b; try (elim N; reflexivity). exact (within_failed s _ _ W5 X). }
  unfold bind at 1 in E. destruct (star_advance s6) as [[u7|b] s7] eqn:E7.
  2:{ injection E as <- <-. exfalso. apply N. revert E7. unfold star_advance, bind. cbn [gets].
      destruct (in_s64 _); [discriminate|]. intros [= <- _]. reflexivity. }
  pose proof (within_advanced s _ _ _ _ W5 X E7) as F. cbn [how] in *.
  assert (K : pres idling _ (when li outputline ;;; ret FNone)).
  { pose proof (o_order _ idling_osteps) as OO. apply (pres_bind _ OO); [|intros; apply (pres_ret _ OO)]. unfold when.
    destruct li; [apply (pres_outputline _ idling_osteps)|apply (pres_ret _ OO)]. }
  specialize (K s7). rewrite E in K. cbn [fst snd] in K. destruct (how r); [|elim K|elim N; reflexivity].
  destruct K as (K1 & K2 & K3 & K4 & _). destruct F as (es & F1 & F2 & F3 & F4). exists es. unfold has_star, starvalue, star in *.
  rewrite K1, K4. auto.
Qed.
