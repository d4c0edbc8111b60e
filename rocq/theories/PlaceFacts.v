(** The number of the current line.  Nothing here is part of the model. *)
From Coq Require Import String Ascii ZArith List Bool Lia ZifyBool ZifyNat.
From Verif Require Import Base State Tree Filter Output Label Operator Parse Scode Tables.
From Verif Require Import Cpu6800 Cpu6502 CpuZ80 Pseudos Macro Xref Crasm.
From Verif Require Import Walk TreeFacts Frame Run SpecEmit Eval EmitFacts SymFacts Local SpecStar InputFacts SpecJoin SpecInput SpecPlace.
From Verif Require JoinFacts KeepFacts JoinRun JoinProg.
Import ListNotations.
Open Scope Z_scope.

(** ** Operations that do not read the source *)
Definition spot (s : state) : list source * str * bool * Z * (str -> option str) * Z :=
  (s.(inp).(srcs), s.(inp).(mainrest), s.(inp).(maineof), s.(inp).(linenumber), s.(files), s.(ct).(passnumber)).
Definition S : relation := fun d s s' =>
  match d with
  | Dead => True
  | Fine => spot s' = spot s /\ s'.(reported) = s.(reported)
  | Failed => spot s' = spot s /\ exists e, s'.(reported) = mkRep s.(ct).(passnumber) s.(inp).(linenumber) e :: s.(reported)
  end.
Lemma S_order : order S.
Proof.
  constructor; unfold S.
  - intros s. split; reflexivity.
  - intros; exact I.
  - intros d a b c [X1 X2] Y. destruct d; [|destruct Y as [Y (e & Z)]|exact I]; [destruct Y; split; congruence|].
    split; [congruence|]. exists e. rewrite Z, X2. pose proof X1 as Q. unfold spot in Q. injection Q as _ _ _ Q1 _ Q2. rewrite Q1, Q2. reflexivity.
Qed.
Lemma S_same : forall s s', spot s' = spot s -> s'.(reported) = s.(reported) -> S Fine s s'.
Proof. intros s s' A B. split; assumption. Qed.
Lemma S_lsteps : lsteps S.
Proof. constructor; [exact S_order|..]; intros; try exact I; apply S_same; reflexivity. Qed.
Definition S_osteps : osteps S := lsteps_osteps S S_lsteps.
Lemma S_error : forall A m, pres S A (error m).
Proof.
  apply error_parts; [exact S_lsteps|..].
  - intros. apply S_same; reflexivity.
  - intros s m. split; [reflexivity|]. exists m. reflexivity.
Qed.
Lemma S_esteps : esteps S.
Proof. constructor; [exact S_osteps|..]; intros; try (apply S_same; reflexivity). apply S_error. Qed.
Lemma S_insert8 : forall x, pres S _ (insert8 x).
Proof.
  intros x. apply (insert8_free _ S_order); try (intros; apply S_same; reflexivity); [exact S_osteps|]. intros m. apply S_error.
Qed.
Lemma S_setpc : forall a, pres S _ (setpc a).
Proof. intros a. apply (setpc_free _ S_order). intros. apply S_same; reflexivity. Qed.
Lemma S_modify : forall f, (forall s, spot (f s) = spot s /\ (f s).(reported) = s.(reported)) -> pres S unit (modify f).
Proof. intros f H s. destruct (H s). apply S_same; assumption. Qed.

Ltac r1 :=
  lazymatch goal with
  | |- pres S _ (bind _ _) => apply (pres_bind S S_order); [|intros]
  | |- pres S _ (ret _) => apply (pres_ret S S_order)
  | |- pres S _ (gets _) => apply (pres_gets S S_order)
  | |- pres S _ (stop (UB _)) => apply (pres_ub S S_order)
  | |- pres S _ (stop Hang) => apply (pres_hang S S_order)
  | |- pres S _ (stop NoFuel) => apply (pres_fuel S S_order)
  | |- pres S _ (when _ _) => unfold when
  | |- pres S _ (err _) => unfold err; apply S_error
  | |- pres S _ (error _) => apply S_error
  | |- pres S _ (fatal _) => apply (pres_fatal S S_lsteps)
  | |- pres S _ (warning _) => apply (pres_warning S S_osteps)
  | |- pres S _ outputline => apply (pres_outputline S S_osteps)
  | |- pres S _ outputEOL => apply (pres_outputEOL S S_osteps)
  | |- pres S _ outputEOP => apply (pres_outputEOP S S_osteps)
  | |- pres S _ (position _) => apply (pres_position S S_osteps)
  | |- pres S _ (outputaddr _) => apply (pres_outputaddr S S_osteps)
  | |- pres S _ (filterc _ _) => apply (pres_filterc S S_osteps)
  | |- pres S _ (filter2 _ _) => apply (pe_filter2 S S_esteps)
  | |- pres S _ (findlabel _) => apply (pe_findlabel S S_esteps)
  | |- pres S _ (parse _) => apply (pe_parse S S_esteps)
  | |- pres S _ (checktype _ _) => apply (pe_checktype S S_esteps)
  | |- pres S _ (insert8 _) => apply S_insert8
  | |- pres S _ (setpc _) => apply S_setpc
  | |- pres S _ star_advance => apply (pres_star_advance S S_lsteps)
  | |- pres S _ (upd_ls _) => apply S_modify; intros; split; reflexivity
  | |- pres S _ (upd_fl _) => apply S_modify; intros; split; reflexivity
  | |- pres S _ (upd_inp _) => apply S_modify; intros; split; reflexivity
  | |- pres S _ (upd_cp _) => apply S_modify; intros; split; reflexivity
  | |- pres S _ (upd_sy _) => apply S_modify; intros; split; reflexivity
  | |- pres S _ (upd_ct (set_calcresult _)) => apply S_modify; intros; split; reflexivity
  | |- pres S _ (upd_ct (set_bufferpos _)) => apply S_modify; intros; split; reflexivity
  | |- pres S _ (upd_ct (set_advance _)) => apply S_modify; intros; split; reflexivity
  | |- pres S _ (match ?x with _ => _ end) => destruct x
  end.
Ltac r := repeat first [r1 | progress (cbv beta zeta)].

Lemma S_insert16 : forall x, pres S _ (insert16 x).
Proof. intros x. unfold insert16. r. Qed.
Lemma S_insert32 : forall x, pres S _ (insert32 x).
Proof. intros x. unfold insert32. r; apply S_insert16. Qed.
Lemma S_stocke : forall t m, pres S _ (stocke t m).
Proof. intros t m. unfold stocke, flip_lohi. r; first [apply S_insert16|apply S_insert32]. Qed.
Lemma S_dcloop : forall n o m, pres S _ (dcloop n o m).
Proof. induction n as [|n IH]; intros o m; cbn [dcloop]; r; first [apply S_stocke|apply IH]. Qed.
Lemma S_init : forall l, fine_list in_its_place l -> pres S _ (init_label_list l).
Proof. apply (init_pres_table S S_lsteps). intros. apply S_same; reflexivity. Qed.

Lemma S_local : local (pres S).
Proof.
  constructor; intros.
  all: lazymatch goal with
  | H : forall s, ?m s = ?m' s |- _ => apply (pres_ext S _ m); assumption
  | |- pres S _ (bind (gets _) _) => r
  | |- pres S _ (bind _ _) => apply (pres_bind S S_order); assumption
  | |- pres S _ (settitle _) => unfold settitle; r
  | |- pres S _ (setpage _ _) => unfold setpage; r
  | |- pres S _ (init6800 _) => unfold init6800; r; apply S_init, other_tables; auto 6
  | |- pres S _ (init6502 _) => unfold init6502; r; apply S_init, other_tables; auto 6
  | |- pres S _ (initz80 _) => unfold initz80; r; apply S_init, other_tables; auto 6
  | |- pres S _ zerobuffer => unfold zerobuffer; r
  | |- pres S _ flip_lohi => unfold flip_lohi; r
  | |- pres S _ newsegment => unfold newsegment; r
  | |- pres S _ (Xdc _ _) => unfold Xdc; apply S_dcloop
  | |- pres S _ _ => r
  end.
Qed.

Lemma S_searchlabel : forall n, pres S _ (searchlabel n).
Proof. apply (J_searchlabel _ S_local). Qed.
Lemma S_deflabel : forall n f ty v, pres S _ (deflabel n f ty v).
Proof. intros. unfold deflabel, makelabel. r. apply S_searchlabel. Qed.
Lemma S_herelabel : forall n, pres S _ (herelabel n).
Proof. intros n. unfold herelabel, newsegment. r; apply S_deflabel. Qed.
Lemma S_exec : forall h m lab o, h <> HInclude -> pres S _ (exec h m lab o).
Proof.
  intros h m lab o N. apply (J_exec _ S_local); intros.
  - unfold Xfail. destruct o as [[|]|]; r.
  - elim N. assumption.
  - apply (J_Xequ _ S_local). intros x. r. apply S_deflabel.
  - apply (J_Xds _ S_local). intros v. r.
Qed.
Lemma S_zerobuffer : pres S _ zerobuffer.
Proof. unfold zerobuffer. r. Qed.
Lemma S_linestart : pres S _ linestart.
Proof. unfold linestart, zerobuffer. r. Qed.
Lemma S_stripline : pres S _ stripline.
Proof. unfold stripline. r. Qed.
Lemma S_splitline : forall t, pres S _ (splitline t).
Proof. apply (J_splitline _ S_local). Qed.
Lemma S_testtrue : forall o, pres S _ (testtrue o).
Proof. apply (J_testtrue _ S_local). Qed.
Lemma S_checkdepth : pres S _ checkdepth.
Proof. unfold checkdepth. r. Qed.
Lemma S_macroargs : forall n o acc, pres S _ (macroargs n o acc).
Proof. induction n as [|n IH]; intros [|c o] acc; cbn [macroargs]; r. apply IH. Qed.

(** A line of its own adds at most one report, with its number. *)
Lemma own_line : forall self n li ex s r s', (forall q, taken_apart s q -> of_its_own q /\
    match q.(q_mnemo) with Some (_, l) => l.(l_ptr) <> PFun HInclude | None => True end) ->
  asmline self n li ex s = (r, s') -> S (how r) s s'.
Proof.
  intros self n li ex s r s' Q E. pose proof S_order as O.
  assert (G : forall A (m : M A) s1 x s2, S Fine s s1 -> pres S A m -> m s1 = (x, s2) -> S (how x) s s2).
  { intros A m s1 x s2 H K X. specialize (K s1). rewrite X in K. exact (p_trans S O _ _ _ _ H K). }
  unfold asmline in E. unfold bind at 1 in E. destruct (linestart s) as [[u|b] s1] eqn:E1.
  2:{ injection E as <- <-. exact (G _ _ _ _ _ (p_refl S O s) S_linestart E1). }
  pose proof (G _ _ _ _ _ (p_refl S O s) S_linestart E1) as H1. cbn [how] in H1.
  unfold bind at 1 in E. cbn [gets] in E. unfold bind at 1 in E.
  destruct (stripline s1) as [[t|b] s2] eqn:E2; pose proof (G _ _ _ _ _ H1 S_stripline E2) as H2; cbn [how] in H2.
  2:{ injection E as <- <-. exact H2. }
  destruct t as [|c0 t].
  { assert (K : pres S _ (when li outputline ;;; ret FNone)) by r. exact (G _ _ _ _ _ H2 K E). }
  unfold bind at 1 in E. destruct (splitline (c0 :: t) s2) as [[q|b] s3] eqn:E3; pose proof (G _ _ _ _ _ H2 (S_splitline _) E3) as H3; cbn [how] in H3.
  2:{ injection E as <- <-. exact H3. }
  destruct (Q q) as [W N].
  { destruct u. exists s1, (c0 :: t), s2, s3. repeat split; auto. discriminate. }
  unfold of_its_own in W. destruct (q_mnemo q) as [[key l]|] eqn:Mn.
  2:{ match type of E with ?m s3 = _ => assert (K : pres S _ m) by (r; apply S_herelabel) end. exact (G _ _ _ _ _ H3 K E). }
  destruct W as (W1 & W2 & W3).
  assert (K : pres S _ (dispatch self n li ex key l (q_label q) (q_oper q))); [|exact (G _ _ _ _ _ H3 K E)].
  unfold dispatch. rewrite W2, W3. cbv zeta. cbn [orb]. apply (pres_bind S O); [r|intros _]. apply (pres_bind S O); [r; apply S_herelabel|intros _].
  destruct (l_type l); try (r; fail); [|elim W1; reflexivity].
  apply (pres_bind S O); [|intros _; r]. destruct ex; [|r]. destruct (l_ptr l) as [|h|lines]; try (r; fail).
  apply S_exec. intros ->. apply N. reflexivity.
Qed.

(** ** The place in the open files *)
Section Place.
Variable fs : text -> option text.
Variable main : text.
Notation located := (located fs main).
Notation placed := (placed fs main).

Definition macs (s : state) : nat := List.length (List.filter (fun x => match x with SMac _ _ _ _ _ _ => true | _ => false end) s.(inp).(srcs)).
Definition L : relation := fun d s s' =>
  match d with Dead => True | _ => placed s -> placed s' /\ macs s' = macs s /\ s'.(ct).(passnumber) = s.(ct).(passnumber) end.
Lemma L_order : order L.
Proof.
  constructor; unfold L.
  - intros s H. repeat split; auto; apply H.
  - intros; exact I.
  - intros d a b c X Y. destruct d; try exact I; intros H; destruct (X H) as (X1 & X2 & X3); destruct (Y X1) as (Y1 & Y2 & Y3); repeat split; try apply Y1; congruence.
Qed.
Lemma S_L : forall d s s', S d s s' -> L d s s'.
Proof.
  intros d s s' H. assert (K : spot s' = spot s -> placed s -> placed s' /\ macs s' = macs s /\ s'.(ct).(passnumber) = s.(ct).(passnumber)).
  { intros Q [P1 P2]. unfold spot in Q. injection Q as Q1 Q2 Q3 Q4 Q5 Q6. unfold placed, macs. rewrite Q1, Q2, Q3, Q4, Q5, Q6. repeat split; assumption. }
  destruct d; try exact I; destruct H as [H _]; exact (K H).
Qed.
Lemma pS : forall A (m : M A), pres S A m -> pres L A m.
Proof. intros A m H s. apply S_L, H. Qed.

Lemma read_once : forall t n r e p r' e', read_to t n r e -> fgets 249 r = (p, r', e') -> read_to t (n + 1) r' e'.
Proof.
  intros t n r e p r' e' H E. apply fgets_spec in E. destruct E as [-> E]. destruct e'.
  - destruct E as (-> & A & B). rewrite app_nil_r in H. apply (rt_tail t n p e H). split; assumption.
  - assert (X : p ++ r' <> [] -> e = false).
    { intros N. destruct e; [|reflexivity]. inversion H. congruence. }
    assert (Y : whole p \/ part p) by exact E.
    assert (Z : p <> []).
    { destruct E as [(l & -> & _)|[_ Le]]; [destruct l; discriminate|intros ->; discriminate Le]. }
    rewrite X in H by (destruct p; [elim Z; reflexivity|discriminate]). exact (rt_piece t n p r' H Y).
Qed.

Lemma popended_placed : forall l s u s', srcs (inp s) = l -> popended l s = (Ok u, s') -> placed s -> placed s' /\ macs s' = macs s /\ s'.(ct).(passnumber) = s.(ct).(passnumber).
Proof.
  induction l as [|x l IH]; intros s u s' El E P; [injection E as <- <-; repeat split; auto; apply P|].
  destruct x as [[] b c d e f|a b c d e f]; try (injection E as <- <-; repeat split; auto; apply P).
  cbn [popended] in E. unfold bind, upd_inp, upd_fl, modify in E. cbv beta iota in E.
  match type of E with popended l ?s1 = _ => assert (P1 : placed s1); [|destruct (IH s1 u s' eq_refl E P1) as (A & B & C)] end.
  { destruct P as [P1 P2]. split; [exact P1|]. rewrite El in P2. inversion P2; subst. assumption. }
  split; [exact A|]. split; [|exact C]. rewrite B. unfold macs. rewrite El. reflexivity.
Qed.

Definition after_read (s' : state) : Prop :=
  exists T p rest e e', read_to T (s'.(inp).(linenumber) - 1) (p ++ rest) e /\ fgets 249 (p ++ rest) = (p, rest, e') /\
    source_of fs main s' T /\ s'.(inp).(curline) = List.filter keepchar (uptonl p).

Lemma linegets_placed : forall s u s', linegets s = (Ok u, s') -> placed s ->
  placed s' /\ macs s' = macs s /\ s'.(ct).(passnumber) = s.(ct).(passnumber) /\ (macs s = 0%nat -> after_read s').
Proof.
  intros s u s' E P. unfold linegets in E. unfold bind at 1 in E. cbn [gets] in E. unfold bind at 1 in E.
  destruct (popended (srcs (inp s)) s) as [[u1|b] s1] eqn:E1; [|discriminate E].
  destruct (popended_placed _ s u1 s1 eq_refl E1 P) as (P1 & M1 & N1). rewrite <- M1, <- N1. clear E1 P M1 N1 s. rename s1 into s. destruct P1 as [F P].
  unfold bind at 1 in E. cbn [gets] in E. destruct (srcs (inp s)) as [|[e0 r e1 ol op on|lines args all ol op on] l] eqn:Es.
  - unfold bind in E. destruct (fgets 249 (mainrest (inp s))) as [[p r] e'] eqn:G.
    destruct (readline_spec _ s _ _ _ G) as (s1 & s2 & Li & R & ->). rewrite R in E. cbv beta iota in E. unfold upd_inp, modify in E. injection E as <- <-.
    destruct Li as (_ & _ & _ & Li & Lc & _ & Lf & _).
    inversion P as [n rest e H X1 X2 X3 X4| |]; subst.
    split; [split; [cbn [files set_inp]; rewrite Lf; exact F|]|split; [|split]].
    + cbn. rewrite Es. constructor. exact (read_once _ _ _ _ _ _ _ H G).
    + unfold macs. cbn. rewrite Es. reflexivity.
    + cbn [ct set_inp]. rewrite Lc. reflexivity.
    + intros _. pose proof (fgets_spec _ _ _ _ _ G) as [G2 _]. exists main, p, r, (maineof (inp s)), e'. rewrite G2 in H, G. cbn.
      split; [replace (linenumber (inp s) + 1 - 1) with (linenumber (inp s)) by lia; exact H|]. split; [exact G|]. split; [|reflexivity].
      left. split; [exact Es|reflexivity].
  - unfold bind in E. destruct (fgets 249 r) as [[p r'] e'] eqn:G.
    destruct (readline_spec _ s _ _ _ G) as (s1 & s2 & Li & R & ->). rewrite R in E. cbv beta iota in E. unfold upd_inp, modify in E. injection E as <- <-.
    destruct Li as (_ & _ & _ & Li & Lc & _ & Lf & _).
    inversion P as [|n name t x1 x2 x3 x4 x5 x6 x7 x8 x9 Fn H K X1 X2 X3|]; subst.
    split; [split; [cbn [files set_inp]; rewrite Lf; exact F|]|split; [|split]].
    + cbn. apply (lo_file fs main _ name t); [exact Fn|exact (read_once _ _ _ _ _ _ _ H G)|exact K].
    + unfold macs. cbn. rewrite Es. reflexivity.
    + cbn [ct set_inp]. rewrite Lc. reflexivity.
    + intros _. pose proof (fgets_spec _ _ _ _ _ G) as [G2 _]. exists t, p, r', e0, e'. rewrite G2 in H, G. cbn.
      split; [replace (linenumber (inp s) + 1 - 1) with (linenumber (inp s)) by lia; exact H|]. split; [exact G|]. split; [|reflexivity].
      right. split; [discriminate|]. exists name. exact Fn.
  - destruct lines as [|q lines]; [discriminate E|]. unfold bind at 1, upd_inp, modify in E. cbv beta iota in E.
    set (s2 := set_inp _ s) in E. destruct (msubst args all 0 q) as [t long].
    unfold bind in E. assert (K : pres S _ (when long (warning "Too long line"))) by r. specialize (K s2).
    destruct (when long (warning "Too long line") s2) as [[u3|b] s3]; [|discriminate E]. cbn [fst snd how] in K. injection E as <- <-.
    assert (P2 : placed s2). { split; [exact F|]. cbn. inversion P; subst. constructor. assumption. }
    destruct (S_L _ _ _ K P2) as (A & B & C).
    split; [exact A|]. split; [|split; [exact C|]].
    + change (macs s3 = macs s). rewrite B. unfold macs. cbn. rewrite Es. reflexivity.
    + intros Z. unfold macs in Z. rewrite Es in Z. discriminate Z.
Qed.
Lemma L_linegets : pres L _ linegets.
Proof.
  intros s. destruct (linegets s) as [[u|b] s'] eqn:E; cbn [fst snd].
  - intros P. destruct (linegets_placed s u s' E P) as (A & B & C & _). auto.
  - pose proof (JoinFacts.linegets_is s) as K. rewrite E in K. destruct b; [contradiction|..]; exact I.
Qed.

(** ** Blocks and macros *)
Notation O := L_order.
Ltac q1 :=
  lazymatch goal with
  | |- pres L _ (bind _ _) => apply (pres_bind L O); [|intros]
  | |- pres L _ (match ?x with _ => _ end) => destruct x
  | |- pres L _ linegets => apply L_linegets
  | |- pres L _ _ => apply pS; solve [r]
  end.
Ltac q := repeat first [q1 | progress (cbv beta zeta)].

Lemma L_catch : forall A (m : M A), pres L _ m -> pres L _ (catch m).
Proof.
  intros A m H s. unfold catch. specialize (H s). destruct (m s) as [[a|[e| | | |]] s1]; cbn [fst snd how] in *; try exact I; exact H.
Qed.
Lemma L_macrolines : forall n li acc, pres L _ (macrolines n li acc).
Proof. induction n as [|n IH]; intros li acc; cbn [macrolines]; unfold mainfeof; q; first [apply pS, S_zerobuffer|apply IH]. Qed.
Lemma L_Xmacro : forall n li ex lab o, pres L _ (Xmacro n li ex lab o).
Proof. intros. unfold Xmacro. q; first [apply L_macrolines|apply pS, S_deflabel]. Qed.
Definition ends (s : state) {A} (x : res A * state) : Prop := L (how (fst x)) s (snd x).
Lemma ends_S : forall A (m : M A) s, pres S A m -> ends s (m s).
Proof. intros A m s H. apply S_L, H. Qed.
Lemma L_Xinclude : forall o, pres L _ (Xinclude o).
Proof.
  intros o s. match goal with |- L (how (fst ?x)) _ _ => change (ends s x) end. unfold Xinclude. destruct o as [name|]; [|apply ends_S; r]. unfold bind at 1. cbn [gets].
  destruct (files s name) as [t|] eqn:F; [|apply ends_S; r].
  unfold bind at 1. pose proof (S_checkdepth s) as K1. destruct (checkdepth s) as [[u1|b] s1]; cbn [fst snd how] in *; [|apply S_L, K1].
  unfold bind at 1. assert (K2 : pres S _ (when (a_list_on (fl s)) outputline)) by r. specialize (K2 s1).
  destruct (when _ _ s1) as [[u2|b] s2]; cbn [fst snd how] in *; [|exact (p_trans L O _ _ _ _ (S_L _ _ _ K1) (S_L _ _ _ K2))].
  pose proof (p_trans S S_order _ _ _ _ K1 K2) as K3. clear K1 K2. unfold bind at 1, upd_inp, modify. cbv beta iota.
  match goal with |- ends _ (?m ?s3) => assert (K4 : pres S _ m) by r; specialize (K4 s3); assert (K5 : L Fine s s3) end.
  { intros [P1 P2]. destruct K3 as [K3 _]. unfold spot in K3. injection K3 as Q1 Q2 Q3 Q4 Q5 Q6. split; [|split].
    - split; [cbn [files set_inp]; congruence|]. cbn. rewrite Q1, Q2, Q3. rewrite P1 in F. apply (lo_file fs main 0 name t); [exact F|constructor|exact P2].
    - unfold macs. cbn. rewrite Q1. reflexivity.
    - cbn. exact Q6. }
  match goal with |- ends _ (?r) => exact (p_trans L O (how (fst r)) _ _ _ K5 (S_L _ _ _ K4)) end.
Qed.
Lemma L_exec : forall h m lab o, pres L _ (exec h m lab o).
Proof.
  intros h m lab o. assert (D : h = HInclude \/ h <> HInclude) by (destruct h; auto; right; discriminate).
  destruct D as [->|N]; [apply L_Xinclude|apply pS, S_exec, N].
Qed.

Lemma mac_no_err : forall n li ex s m s', run n KMac li ex s <> (Bad (Err m), s').
Proof.
  induction n as [|n IH]; intros li ex s m s' E; [discriminate E|]. cbn [run] in E. unfold macround, bind in E.
  pose proof (JoinFacts.linegets_is s) as K. destruct (linegets s) as [[u|b] s1]; [|injection E as -> <-; contradiction K].
  unfold catch in E. destruct (run n KLine li ex s1) as [[f|[e| | | |]] s2]; try discriminate E.
  - destruct f; try discriminate E. exact (IH _ _ _ _ _ E).
  - exact (IH _ _ _ _ _ E).
Qed.

Lemma L_macrocall : forall n key ptr li o, (forall k l e, pres L _ (run n k l e)) -> pres L _ (macrocall (run n) key ptr li o).
Proof.
  intros n key ptr li o IH s0. match goal with |- L (how (fst ?x)) _ _ => change (ends s0 x) end. unfold macrocall. unfold bind at 1, upd_sy, modify. cbv beta iota.
  match goal with |- ends _ (?m ?s1) => set (s := s1); assert (K0 : L Fine s0 s); [apply S_L, S_same; reflexivity|];
    enough (K1 : ends s (m s)) by exact (p_trans L O _ _ _ _ K0 K1) end.
  clearbody s. clear s0 K0. unfold bind at 1. cbn [gets].
  unfold bind at 1. pose proof (S_checkdepth s) as K1. destruct (checkdepth s) as [[u1|b] s1]; cbn [fst snd how] in *; [|apply S_L, K1].
  unfold bind at 1. pose proof (S_macroargs 11 (otext o) [] s1) as K2. destruct (macroargs 11 (otext o) [] s1) as [[args|b] s2]; cbn [fst snd how] in *;
    [|exact (S_L _ _ _ (p_trans S S_order _ _ _ _ K1 K2))].
  pose proof (p_trans S S_order _ _ _ _ K1 K2) as K3. clear K1 K2 s1 u1. unfold bind at 1. cbn [gets].
  unfold bind at 1. assert (K4 : pres S _ (when (a_macrolist_on (fl s2) && li) outputline)) by r. specialize (K4 s2).
  destruct (when _ _ s2) as [[u3|b] s3]; cbn [fst snd how] in *; [|exact (S_L _ _ _ (p_trans S S_order _ _ _ _ K3 K4))].
  pose proof (p_trans S S_order _ _ _ _ K3 K4) as K5. clear K3 K4 s2 u3. destruct K5 as [K5 _]. unfold spot in K5. injection K5 as Q1 Q2 Q3 Q4 Q5 Q6.
  unfold bind at 1, upd_inp, modify. cbv beta iota. set (s4 := set_inp _ s3).
  assert (P4 : placed s -> placed s4 /\ s4.(ct).(passnumber) = s.(ct).(passnumber)).
  { intros [P1 P2]. split; [|exact Q6]. split; [cbn [s4 files set_inp]; congruence|]. cbn. rewrite Q1, Q2, Q3, Q4. constructor. exact P2. }
  assert (M4 : JoinFacts.inmac s4). { unfold JoinFacts.inmac. cbn. apply Exists_cons_hd. exact I. }
  assert (R4 : s4.(inp).(mainrest) = s.(inp).(mainrest) /\ s4.(inp).(maineof) = s.(inp).(maineof)) by (split; cbn; assumption).
  clearbody s4. clear Q1 Q2 Q3 Q4 Q5 Q6 s3.
  unfold bind at 1. assert (K6 : pres S _ newsegment) by (unfold newsegment; r). specialize (K6 s4). destruct (newsegment s4) as [[u5|b] s5] eqn:E5; [|discriminate E5].
  cbn [fst snd how] in K6. unfold bind at 1. cbn [gets]. unfold bind at 1.
  destruct (run n KMac (li && a_macrolist_on (fl s5)) true s5) as [[f|b] s6] eqn:E6.
  2:{ destruct b; try exact I. elim (mac_no_err _ _ _ _ _ _ E6). }
  pose proof (IH KMac (li && a_macrolist_on (fl s5)) true s5) as K7. rewrite E6 in K7. cbn [fst snd how] in K7.
  pose proof (J_run _ JoinFacts.steady_walk n KMac (li && a_macrolist_on (fl s5)) true s5) as K8. rewrite E6 in K8. cbn [fst snd how] in K8.
  cbv beta iota. unfold bind at 1. unfold bind at 1. unfold upd_fl, modify. cbv beta iota.
  match goal with |- ends _ (?m ?s7) => assert (K9 : pres S _ m) by (destruct f; r; intros sx; apply S_same; reflexivity); specialize (K9 s7); assert (K10 : L Fine s s7) end.
  { intros P. destruct (P4 P) as [P5 N5]. destruct (S_L _ _ _ K6 P5) as (P6 & _ & N6). destruct (K7 P6) as (P7 & _ & N7).
    destruct P7 as [P7 _]. destruct P as [_ P]. destruct K6 as [K6 _]. unfold spot in K6. injection K6 as Q1 Q2 Q3 Q4 Q5 Q6. destruct R4 as [R1 R2].
    destruct K8 as [_ K8]. assert (M5 : JoinFacts.inmac s5) by (unfold JoinFacts.inmac; rewrite Q1; exact M4). destruct (K8 M5) as (T1 & T2 & _).
    split; [|split].
    - split; [exact P7|]. cbn. rewrite T1, T2, Q2, Q3, R1, R2. exact P.
    - reflexivity.
    - cbn. congruence. }
  match goal with |- ends _ (?r) => exact (p_trans L O (how (fst r)) _ _ _ K10 (S_L _ _ _ K9)) end.
Qed.

Lemma L_run : forall n k li ex, pres L _ (run n k li ex).
Proof.
  induction n as [|n IH]; intros k li ex; [intros s; exact I|]. cbn [run]. destruct k.
  - unfold asmline. q; try (apply pS; first [apply S_linestart|apply S_stripline|apply S_splitline|r; apply S_herelabel]).
    unfold dispatch. q; try (apply pS; r; apply S_herelabel); try apply L_exec; try (apply L_macrocall; exact IH).
    unfold execblock, Xelse, Xendc, Xendm, Xexitm, leave. q; try apply L_Xmacro; unfold Xif; q; try apply IH; unfold iflist; q; apply pS; r; apply S_testtrue.
  - unfold ifround, mainfeof. q; try (apply L_catch); apply IH.
  - unfold macround. q; try (apply L_catch); apply IH.
Qed.

End Place.

(** ** Passes *)
Lemma L_passline : forall fs main n, pres (L fs main) _ (passline n).
Proof.
  intros fs main n. unfold passline. apply (pres_bind _ (L_order fs main)); [apply L_linegets|intros _].
  apply (pres_bind _ (L_order fs main)); [apply L_run|intros f]. apply pS. destruct f; r.
Qed.
Lemma rounds_placed : forall fs main n s m s', rounds n s m s' -> placed fs main s ->
  placed fs main s' /\ macs s' = macs s /\ s'.(ct).(passnumber) = s.(ct).(passnumber).
Proof.
  intros fs main n s m s' R. induction R as [n s|n s x s1 m s2 E Q R IH]; intros P; [auto|].
  pose proof (L_catch fs main _ _ (L_passline fs main n) s) as K. rewrite E in K. cbn [fst snd how] in K. destruct (K P) as (A & B & C).
  destruct (IH A) as (A' & B' & C'). split; [exact A'|]. split; congruence.
Qed.
Lemma outside_macs : forall s, outside_macros s <-> macs s = 0%nat.
Proof.
  intros s. unfold outside_macros, macs. induction (srcs (inp s)) as [|x l IH]; [split; [reflexivity|constructor]|].
  cbn [List.filter]. destruct x; cbn [List.length].
  - rewrite <- IH. split; [intros H; inversion H; assumption|intros H; constructor; [intros []|exact H]].
  - split; [intros H; inversion H as [|? ? A]; elim A; exact Logic.I|discriminate].
Qed.
Theorem run_placed : forall fs main n k li ex s r s', run n k li ex s = (r, s') ->
  match r with Ok _ | Bad (Err _) => True | _ => False end -> placed fs main s ->
  placed fs main s' /\ (outside_macros s -> outside_macros s') /\ s'.(ct).(passnumber) = s.(ct).(passnumber).
Proof.
  intros fs main n k li ex s x s' E D P. pose proof (L_run fs main n k li ex s) as K. rewrite E in K. cbn [fst snd] in K.
  rewrite !outside_macs. assert (G : placed fs main s' /\ macs s' = macs s /\ s'.(ct).(passnumber) = s.(ct).(passnumber)).
  { destruct x as [f|[]]; try contradiction; exact (K P). }
  destruct G as (A & B & C). rewrite B. auto.
Qed.

Lemma start_placed : forall n o fs main k s, pass_starts n o fs main k s -> s.(inp).(srcs) = [] ->
  placed fs main s /\ s.(ct).(passnumber) = k /\ outside_macros s.
Proof.
  intros n o fs main k s H Es.
  assert (G : forall k s0, files s0 = fs -> maintext s0 = main -> passstart k s0 = (Ok tt, s) -> srcs (inp s) = [] -> placed fs main s /\ s.(ct).(passnumber) = k).
  { intros k0 s0 F T E N. rewrite passstart_eq in E. assert (E' := f_equal snd E). cbn [snd] in E'. subst s. clear E. split; [|reflexivity]. split; [exact F|].
    cbn in N |- *. rewrite N, T. constructor. constructor. }
  enough (X : placed fs main s /\ s.(ct).(passnumber) = k).
  { destruct X. repeat split; try assumption; try apply H0. unfold outside_macros. rewrite Es. constructor. }
  pose proof (init_pres_table _ (p_lsteps _ (p_bsteps _ JoinRun.world_steps)) (p_sy _ JoinRun.world_steps) pseudos directives_named (init_state fs main)) as W.
  destruct H as [(-> & s0 & E1 & E2)|(-> & s0 & s1 & E1 & E2 & E3)].
  - rewrite E1 in W. destruct W as [W1 W2]. exact (G 1 s0 W1 W2 E2 Es).
  - rewrite first_eq in E1. apply EmitFacts.seq_ok in E1. destruct E1 as (u & t0 & E0 & E1). rewrite E0 in W. destruct W as [W1 W2].
    unfold pass in E1. apply EmitFacts.seq_ok in E1. destruct E1 as (u1 & t1 & E5 & E1).
    pose proof (J_passloop _ JoinRun.world_walk n t1) as X. rewrite E1 in X. destruct X as [X1 X2].
    destruct (JoinProg.world_started 1 t0) as [Y1 Y2]. unfold started in Y1, Y2. rewrite E5 in Y1, Y2.
    destruct (JoinProg.world_between o s0) as [Z1 Z2]. rewrite E2 in Z1, Z2. cbn [snd fst] in *.
    apply (G 2 s1); [rewrite Z1, X1, Y1; exact W1|rewrite Z2, X2, Y2; exact W2|exact E3|exact Es].
Qed.

(** ** Numbers of lines *)
Lemma read_ended : forall t n r, read_to t n r true -> r = [].
Proof. intros t n r H. inversion H; reflexivity. Qed.
Lemma newlines_app : forall a b, newlines (a ++ b) = newlines a + newlines b.
Proof. intros a b. unfold newlines. rewrite List.filter_app, app_length. lia. Qed.
Lemma newlines_none : forall a, ~ In newline a -> newlines a = 0.
Proof.
  unfold newlines. induction a as [|c a IH]; intros N; [reflexivity|]. cbn [List.filter].
  destruct (Ascii.eqb newline c) eqn:E; [apply Ascii.eqb_eq in E; elim N; left; symmetry; exact E|]. apply IH. intros K. apply N. right. exact K.
Qed.
Lemma newlines_whole : forall p, whole p -> newlines p = 1.
Proof. intros p (l & -> & N & _). rewrite newlines_app, (newlines_none l N). reflexivity. Qed.
Lemma read_lines : forall t n r e, short_lines t -> read_to t n r e ->
  exists b, t = b ++ r /\ (e = false -> n = newlines b /\ at_start b).
Proof.
  intros t n r e Sh H. induction H as [|n p rest H IH W|n p e H IH T].
  - exists []. split; [reflexivity|]. intros _. split; [reflexivity|left; reflexivity].
  - destruct IH as (b & E & K). destruct (K eq_refl) as [K1 K2]. exists (b ++ p). split; [rewrite E, app_assoc; reflexivity|]. intros _.
    destruct W as [W|W]; [|elim (Sh b p rest E W)]. split; [rewrite newlines_app, (newlines_whole p W), K1; reflexivity|].
    right. destruct W as (l & -> & _). exists (b ++ l). rewrite app_assoc. reflexivity.
  - destruct IH as (b & E & K). exists t. split; [rewrite app_nil_r; reflexivity|discriminate].
Qed.

Theorem reads_piece : forall fs main s u a, placed fs main s -> outside_macros s -> linegets s = (Ok u, a) ->
  placed fs main a /\ outside_macros a /\
  exists T p rest e, source_of fs main a T /\ read_to T (a.(inp).(linenumber) - 1) (p ++ rest) e /\
    (whole p \/ part p \/ tail p /\ rest = []) /\ (~ In nul p -> a.(inp).(curline) = visible p).
Proof.
  intros fs main s u a P M E. destruct (linegets_placed fs main s u a E P) as (A & B & _ & C). apply outside_macs in M.
  split; [exact A|]. split; [apply outside_macs; congruence|]. destruct (C M) as (T & p & rest & e & e' & R & G & So & Cu).
  exists T, p, rest, e. split; [exact So|]. split; [exact R|]. apply fgets_spec in G. destruct G as [_ G]. split.
  - destruct e'; [destruct G as (G1 & G2 & G3); right; right; split; [split; assumption|exact G1]|]. destruct G as [G|G]; [left; exact G|right; left; exact G].
  - intros N. rewrite Cu. destruct e'.
    + destruct G as (_ & G & _). apply filter_uptonl; assumption.
    + destruct G as [(l & -> & B1 & C1)|[B1 C1]]; [|apply filter_uptonl; assumption].
      apply filter_uptonl; [|exact B1]. intros K. apply N, in_or_app. left. exact K.
Qed.

Theorem reads_line : forall fs main s u a, short_lines main -> (forall name t, fs name = Some t -> short_lines t) ->
  placed fs main s -> outside_macros s -> linegets s = (Ok u, a) ->
  exists T before p rest, source_of fs main a T /\ T = before ++ p ++ rest /\
    (whole p \/ tail p /\ rest = []) /\ (p <> [] -> at_start before /\ a.(inp).(linenumber) = newlines before + 1) /\
    (~ In nul p -> a.(inp).(curline) = visible p).
Proof.
  intros fs main s u a S1 S2 P M E. destruct (reads_piece fs main s u a P M E) as (_ & _ & T & p & rest & e & So & R & W & Cu).
  assert (Sh : short_lines T). { destruct So as [[_ ->]|[_ (name & F)]]; [exact S1|exact (S2 _ _ F)]. }
  destruct (read_lines _ _ _ _ Sh R) as (b & Eb & K). exists T, b, p, rest. split; [exact So|]. split; [exact Eb|]. split; [|split; [|exact Cu]].
  - destruct W as [W|[W|W]]; auto. elim (Sh b p rest Eb W).
  - intros N. destruct e.
    + apply read_ended in R. destruct p; [elim N; reflexivity|discriminate R].
    + destruct (K eq_refl) as [K1 K2]. split; [exact K2|lia].
Qed.

Theorem round_line : forall n o fs main k s0 m t a, short_lines main -> (forall name t, fs name = Some t -> short_lines t) ->
  pass_starts n o fs main k s0 -> s0.(inp).(srcs) = [] -> rounds n s0 m t -> linegets t = (Ok tt, a) ->
  a.(ct).(passnumber) = k /\
  exists T before p rest, source_of fs main a T /\ T = before ++ p ++ rest /\
    (whole p \/ tail p /\ rest = []) /\ (p <> [] -> at_start before /\ a.(inp).(linenumber) = newlines before + 1) /\
    (~ In nul p -> a.(inp).(curline) = visible p).
Proof.
  intros n o fs main k s0 m t a S1 S2 H N R E. destruct (start_placed n o fs main k s0 H N) as (P & Pn & Om).
  destruct (rounds_placed fs main n s0 m t R P) as (P' & M' & N'). rewrite outside_macs, <- M', <- outside_macs in Om.
  destruct (linegets_placed fs main t tt a E P') as (_ & _ & N2 & _).
  split; [congruence|]. exact (reads_line fs main t tt a S1 S2 P' Om E).
Qed.

(** ** Reports of one line *)
Theorem own_reports : forall self n li ex s r s', (forall q, taken_apart s q -> of_its_own q) ->
  (forall q key l, taken_apart s q -> q.(q_mnemo) = Some (key, l) -> l.(l_ptr) <> PFun HInclude) ->
  asmline self n li ex s = (r, s') ->
  match r with
  | Ok _ => s'.(reported) = s.(reported)
  | Bad (Err _) => exists e, s'.(reported) = mkRep s.(ct).(passnumber) s.(inp).(linenumber) e :: s.(reported)
  | _ => True
  end.
Proof.
  intros self n li ex s r s' Q1 Q2 E. assert (K : S (how r) s s').
  { apply (own_line self n li ex s r s'); [|exact E]. intros q T. split; [exact (Q1 q T)|]. destruct (q_mnemo q) as [[key l]|] eqn:M; [exact (Q2 q key l T M)|exact I]. }
  destruct r as [f|[]]; try exact I; apply K.
Qed.
