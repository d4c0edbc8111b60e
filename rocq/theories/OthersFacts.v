(** A line changes no symbol but the one it names. *)
From Coq Require Import String Ascii ZArith List Bool Lia ZifyBool ZifyNat.
From Verif Require Import Base State Tree Filter Output Label Operator Parse Scode Pseudos Cpu6800 Cpu6502 CpuZ80 Macro Crasm.
From Verif Require Import BaseFacts TreeFacts Frame Eval CpuFacts SpecEmit SpecStar SpecLine EmitFacts LineRun AssignFacts Local.
From Verif Require SymFacts StarFacts Walk.
Import ListNotations.
Open Scope Z_scope.

Section One.
Variable j : str.
Hypothesis J : j <> starkey.

Definition kd (s s' : state) : Prop := forall l, tfind j s.(sy) = Some l -> l.(l_flags).(f_undef) = false ->
  option_map unused (tfind j s'.(sy)) = Some (unused l).
Definition K : relation := always kd.

Lemma kd_same : forall s s', tfind j s'.(sy) = tfind j s.(sy) -> kd s s'.
Proof. intros s s' E l F _. rewrite E, F. reflexivity. Qed.
Lemma kd_trans : forall a b c, kd a b -> kd b c -> kd a c.
Proof.
  intros a b c X Y l F U. destruct (option_unused _ _ (X l F U)) as (l' & F' & E). rewrite (Y l' F'); [congruence|].
  rewrite <- U. exact (f_equal (fun x => f_undef (l_flags x)) E).
Qed.
Lemma K_order : order K.
Proof. constructor; unfold K, always; intros; auto; [apply kd_same; reflexivity|eapply kd_trans; eassumption]. Qed.
Lemma K_osteps : osteps K.
Proof. constructor; [exact K_order|..]; intros; apply kd_same; reflexivity. Qed.
Lemma K_error : forall A m, pres K A (error m).
Proof. intros A m s. apply kd_same. apply SymFacts.error_others. exact J. Qed.
Lemma K_esteps : esteps K.
Proof.
  constructor; [exact K_osteps|..]; intros; try (apply kd_same; reflexivity); [..|apply K_error].
  - intros l F U. cbn [sy set_sy]. destruct (str_dec j k) as [<-|N].
    + rewrite tfind_tupd_same, F. reflexivity.
    + rewrite tfind_tupd_other by exact N. rewrite F. reflexivity.
  - intros l F U. cbn [sy set_sy]. assert (j <> k) by congruence. rewrite tfind_tins_other by assumption. rewrite F. reflexivity.
Qed.
Lemma K_insert8 : forall x, pres K _ (insert8 x).
Proof. intros x s. apply kd_same. apply SymFacts.insert8_others. exact J. Qed.
Lemma K_modify : forall f, (forall s, (f s).(sy) = s.(sy)) -> pres K _ (modify f).
Proof. intros f H s. apply kd_same. cbn [snd modify]. unfold modify. cbn [snd]. rewrite H. reflexivity. Qed.

Ltac k1 :=
  lazymatch goal with
  | |- pres K _ (bind _ _) => apply (pres_bind K K_order); [ | intros ]
  | |- pres K _ (ret _) => apply (pres_ret K K_order)
  | |- pres K _ (gets _) => apply (pres_gets K K_order)
  | |- pres K _ (when _ _) => unfold when
  | |- pres K _ (stop _) => intros ?; apply kd_same; reflexivity
  | |- pres K _ (error _) => apply K_error
  | |- pres K _ (err _) => apply K_error
  | |- pres K _ (fatal _) => apply (pres_fatal K K_osteps)
  | |- pres K _ (warning _) => apply (pres_warning K K_osteps)
  | |- pres K _ outputline => apply (pres_outputline K K_osteps)
  | |- pres K _ outputEOL => apply (pres_outputEOL K K_osteps)
  | |- pres K _ outputEOP => apply (pres_outputEOP K K_osteps)
  | |- pres K _ (position _) => apply (pres_position K K_osteps)
  | |- pres K _ (outputaddr _) => apply (pres_outputaddr K K_osteps)
  | |- pres K _ (filterc _ _) => apply (pres_filterc K K_osteps)
  | |- pres K _ (filter2 _ _) => apply (pe_filter2 K K_esteps)
  | |- pres K _ (filter0 _ _) => apply (pe_filter0 K K_esteps)
  | |- pres K _ (findlabel _) => apply (pe_findlabel K K_esteps)
  | |- pres K _ (parse _) => apply (pe_parse K K_esteps)
  | |- pres K _ (checktype _ _) => apply (pe_checktype K K_esteps)
  | |- pres K _ (insert8 _) => apply K_insert8
  | |- pres K _ (upd_ls _) => apply K_modify; reflexivity
  | |- pres K _ (upd_fl _) => apply K_modify; reflexivity
  | |- pres K _ (upd_inp _) => apply K_modify; reflexivity
  | |- pres K _ (upd_cp _) => apply K_modify; reflexivity
  | |- pres K _ (upd_ct _) => apply K_modify; reflexivity
  | |- pres K _ (upd_wr _) => apply K_modify; reflexivity
  | |- pres K _ (match ?x with _ => _ end) => destruct x
  end.
Ltac k := repeat first [k1 | progress (cbv beta zeta)].

Lemma K_insert16 : forall x, pres K _ (insert16 x).
Proof. intros x. unfold insert16. k. Qed.
Lemma K_insert32 : forall x, pres K _ (insert32 x).
Proof. intros x. unfold insert32. k; apply K_insert16. Qed.
Lemma K_stocke : forall t m, pres K _ (stocke t m).
Proof. intros t m. unfold stocke, flip_lohi. k; first [apply K_insert16|apply K_insert32]. Qed.
Lemma K_dcloop : forall n o m, pres K _ (dcloop n o m).
Proof. induction n as [|n IH]; intros o m; cbn [dcloop]; k; first [apply K_stocke|apply IH]. Qed.
Lemma K_dsloop : forall n v, pres K _ (dsloop n v).
Proof. induction n as [|n IH]; intros v; cbn [dsloop]; k. apply IH. Qed.
Lemma K_Xds : forall o, pres K _ (Xds o).
Proof. intros o. unfold Xds. k. apply K_dsloop. Qed.

Lemma K_sy : forall s t, (forall l, tfind j s.(sy) = Some l -> l.(l_flags).(f_undef) = false -> option_map unused (tfind j t) = Some (unused l)) -> K Fine s (set_sy t s).
Proof. intros s t H. exact H. Qed.
Lemma K_init_entry : forall e, pres K _ (init_entry e).
Proof.
  intros e s. unfold init_entry, searchlabel, bind. cbn [gets ret]. set (key := lkey _ _).
  destruct (tfind key (sy s)) as [l|] eqn:F.
  - destruct (table_eqb _ _ && _) eqn:T; [|apply (pres_warning K K_osteps)]. apply andb_prop in T. destruct T as [_ U].
    apply K_sy. intros l' E U'. assert (j <> key) by congruence. rewrite tfind_tupd_other by assumption. rewrite E. reflexivity.
  - apply K_sy. intros l' E U'. assert (j <> key) by congruence. rewrite tfind_tins_other by assumption. rewrite E. reflexivity.
Qed.
Lemma K_init_inner : forall n i key t, pres K _ (init_inner n i key t).
Proof. induction n as [|n IH]; intros; cbn [init_inner]; k; [apply K_init_entry|apply IH]. Qed.
Lemma K_init_outer : forall n key t, pres K _ (init_outer n key t).
Proof. induction n as [|n IH]; intros; cbn [init_outer]; k; [apply K_init_inner|apply IH]. Qed.
Lemma K_init : forall t, pres K _ (init_label_list t).
Proof. intros. apply K_init_outer. Qed.

Lemma K_local : local (pres K).
Proof.
  constructor; intros.
  all: lazymatch goal with
  | H : forall s, ?m s = ?m' s |- _ => apply (pres_ext K _ m); assumption
  | |- pres K _ (bind (gets _) _) => k
  | |- pres K _ (bind _ _) => apply (pres_bind K K_order); assumption
  | |- pres K _ (settitle _) => unfold settitle; k
  | |- pres K _ (setpage _ _) => unfold setpage; k
  | |- pres K _ (init6800 _) => unfold init6800; k; apply K_init
  | |- pres K _ (init6502 _) => unfold init6502; k; apply K_init
  | |- pres K _ (initz80 _) => unfold initz80; k; apply K_init
  | |- pres K _ zerobuffer => unfold zerobuffer; k
  | |- pres K _ flip_lohi => unfold flip_lohi; k
  | |- pres K _ newsegment => unfold newsegment; k
  | |- pres K _ (Xdc _ _) => unfold Xdc; apply K_dcloop
  | |- pres K _ _ => k
  end.
Qed.

(** Definitions of another name. *)
Lemma K_deflabel : forall nm f ty v s, lkey s.(inp).(segment) nm <> j -> kd s (snd (deflabel nm f ty v s)).
Proof.
  intros nm f ty v s N. rewrite deflabel_eq. destruct (refused _ _); [apply K_error|]. cbn [snd]. intros l F U. cbn [sy set_sy].
  rewrite tfind_tupd_other by congruence. destruct (tfind (lkey (segment (inp s)) nm) (sy s)); [|rewrite tfind_tins_other by congruence]; rewrite F; reflexivity.
Qed.
Lemma K_herelabel : forall nm s, lkey s.(inp).(segment) nm <> j -> kd s (snd (herelabel nm s)).
Proof.
  intros nm s N. unfold herelabel, when. destruct (streq nm (s2l "*")).
  { unfold err. rewrite Walk.error_bind. apply K_error. }
  match goal with |- kd _ (snd (?m s)) => change (from K s m s) end.
  apply (from_bind K); [apply (p_refl K K_order)|]. intros u s0 [= _ <-].
  apply (from_bind K); [apply (p_refl K K_order)|]. intros z s0 [= <- <-].
  apply (from_bind K).
  - destruct (a_org_gv (fl s)); [|apply K_error].
    apply (from_bind K); [apply K_deflabel; exact N|]. intros key s1 E. unfold from. cbn [fst snd ret].
    pose proof (K_deflabel nm (set_f_noredef true lf0) (if a_relatif (fl s) then TRel else TAbs) (starvalue s) s N) as D. rewrite E in D. exact D.
  - intros v s1 E. assert (D : kd s s1).
    { destruct (a_org_gv (fl s)); [|elim (error_never _ _ _ _ _ E)]. step E key s2 E2.
      pose proof (K_deflabel nm (set_f_noredef true lf0) (if a_relatif (fl s) then TRel else TAbs) (starvalue s) s N) as D. rewrite E2 in D.
      assert (s2 = s1) by (unfold ret in E; congruence). subst s2. exact D. }
    apply (from_pres K K_order); [exact D|]. k.
Qed.
Lemma parse_inp : forall t s, (snd (parse t s)).(inp) = s.(inp).
Proof.
  intros t s. assert (S : esteps SymFacts.sameinp).
  { constructor; [apply lsteps_osteps, SymFacts.lsteps_sameinp|..]; intros; try reflexivity. intros x. apply SymFacts.error_inp. }
  exact (pe_parse _ S t s).
Qed.
Lemma K_Xequ : forall nm o s, lkey s.(inp).(segment) nm <> j -> kd s (snd (Xequ nm o s)).
Proof.
  intros nm o s N. unfold Xequ. match goal with |- kd _ (snd (?m s)) => change (from K s m s) end.
  apply (from_bind K); [apply (pe_parse K K_esteps)|]. intros rr s1 E1. pose proof (parse_inp (otext o) s) as I1. rewrite E1 in I1. cbn [snd] in I1.
  assert (D1 : K Fine s s1) by (pose proof (pe_parse K K_esteps (otext o) s) as D; rewrite E1 in D; exact D).
  cbv zeta. apply (from_bind K); [exact D1|]. intros z s0 [= <- <-].
  apply (from_bind K).
  { apply (from_pres K K_order); [exact D1|]. k. }
  intros v s2 E2. match type of E2 with ?m s1 = _ => assert (P : pres nearR _ m) by n; pose proof (proj1 (near_ok _ _ _ _ _ P E2)) as N2 end.
  pose proof (near_segment _ _ N2) as Sg. assert (D2 : kd s s2) by (apply (kd_trans _ _ _ D1); apply kd_same; destruct N2 as (-> & _); reflexivity).
  assert (N' : lkey s2.(inp).(segment) nm <> j) by (rewrite Sg, I1; exact N).
  apply (from_bind K); [exact (kd_trans _ _ _ D2 (K_deflabel _ _ _ _ _ N'))|]. intros key s3 E3.
  pose proof (K_deflabel nm (r_flags (set_r_flags (equ_flags (r_flags rr)) rr)) (r_type (set_r_flags (equ_flags (r_flags rr)) rr)) (r_value (set_r_flags (equ_flags (r_flags rr)) rr)) s2 N') as D3.
  rewrite E3 in D3. cbn [snd] in D3. unfold from, upd_sy, modify. cbn [fst snd]. apply (kd_trans _ _ _ D2). apply (kd_trans _ _ _ D3).
  rewrite deflabel_eq in E3. destruct (refused _ _); [elim (error_never _ _ _ _ _ E3)|].
  assert (key = lkey (segment (inp s2)) nm) by congruence. subst key. apply kd_same. cbn [sy set_sy]. apply tfind_tupd_other. congruence.
Qed.

Lemma K_exec : forall h m lab o s, (forall t, lab = Some t -> lkey s.(inp).(segment) t <> j) -> kd s (snd (exec h m lab o s)).
Proof.
  intros h m lab o s N. assert (D : h = HEqu \/ h <> HEqu) by (destruct h; (left; reflexivity) || (right; discriminate)). destruct D as [->|D].
  - cbn [exec]. destruct lab as [t|]; [apply K_Xequ; auto|]. apply kd_same. reflexivity.
  - apply (J_exec _ K_local); intros; try (elim D; assumption).
    + unfold Xfail. k.
    + unfold Xinclude, checkdepth. k.
    + apply K_Xds.
Qed.

(** The whole line, however it ends. *)
Theorem line_kd : forall self n li ex s, (forall q, taken_apart s q -> of_its_own q /\
    (forall t, q.(q_label) = Some t -> lkey s.(inp).(segment) t <> j) /\ (q.(q_mnemo) = None -> lkey s.(inp).(segment) q.(q_text) <> j)) ->
  kd s (snd (asmline self n li ex s)).
Proof.
  intros self n li ex s Q. assert (N1 := near_linestart s). unfold asmline. change (from K s (asmline self n li ex) s).
  apply (from_bind K).
  { apply (from_pres K K_order); [apply kd_same; reflexivity|]. unfold linestart, setpc, zerobuffer.
    repeat first [progress k|let z := fresh in intros z; apply kd_same; rewrite (proj1 (StarFacts.flush_sy z)); reflexivity]. }
  intros u s1 E1. destruct u. destruct (near_linestart _ _ _ E1) as [M1 A1].
  assert (D1 : K Fine s s1) by (apply kd_same; destruct M1 as (-> & _); reflexivity).
  apply (from_bind K); [exact D1|]. intros col s0 [= <- <-].
  apply (from_bind K); [apply (from_pres K K_order); [exact D1|]; unfold stripline; k|]. intros t s2 E2.
  destruct (near_ok _ _ _ _ _ near_stripline E2) as [M2 A2]. pose proof (near_trans _ _ _ M1 M2) as M12.
  assert (D2 : K Fine s s2) by (apply kd_same; destruct M12 as (-> & _); reflexivity).
  destruct t as [|c t]; [apply (from_pres K K_order); [exact D2|]; k|].
  apply (from_bind K); [apply (from_pres K K_order); [exact D2|]; apply (J_splitline _ K_local)|]. intros q s3 E3.
  destruct (near_ok _ _ _ _ _ (near_splitline _) E3) as [M3 A3]. pose proof (near_trans _ _ _ M12 M3) as M.
  assert (D3 : K Fine s s3) by (apply kd_same; destruct M as (-> & _); reflexivity). pose proof (near_segment _ _ M) as Sg.
  destruct (Q q) as (O & QL & QT); [exists s1, (c :: t), s2, s3; repeat split; auto; discriminate|]. unfold of_its_own in O.
  destruct (q_mnemo q) as [[key l]|] eqn:Mn.
  2:{ destruct (_ && _ && _); [|apply (from_pres K K_order); [exact D3|k]].
      assert (Hl : K (how (fst (when ex (herelabel (q_text q)) s3))) s3 (snd (when ex (herelabel (q_text q)) s3))).
      { unfold when. destruct ex; [|apply kd_same; reflexivity]. apply K_herelabel. rewrite Sg. apply QT. reflexivity. }
      apply (from_bind K); [exact (kd_trans _ _ _ D3 Hl)|]. intros v s4 E4. rewrite E4 in Hl.
      apply (from_pres K K_order); [exact (kd_trans _ _ _ D3 Hl)|k]. }
  destruct O as (O1 & O2 & O3). unfold dispatch. cbv zeta. rewrite O2, O3. cbn [orb].
  apply (from_bind K); [apply (from_pres K K_order); [exact D3|k]|]. intros v s4 E4. apply when_err in E4. destruct E4 as [_ ->].
  assert (Hl : forall r s5, (if f_deflabel (l_flags l) then when (negb (ogiven (q_label q))) (err "label required here")
              else match q_label q with Some t => when ex (herelabel t) | None => ret tt end) s3 = (r, s5) ->
              kd s3 s5 /\ (forall u, r = Ok u -> segment (inp s5) = segment (inp s3))).
  { intros rr s5 E5. destruct (f_deflabel (l_flags l)).
    - split; [match type of E5 with ?m _ = _ => assert (P : pres K _ m) by k end; specialize (P s3); rewrite E5 in P; exact P|].
      intros u ->. apply when_err in E5. destruct E5 as [_ ->]. reflexivity.
    - destruct (q_label q) as [y|]; [|apply (f_equal snd) in E5; cbn [snd ret] in E5; subst s5; split; [apply kd_same; reflexivity|reflexivity]].
      unfold when in E5. destruct ex; [|apply (f_equal snd) in E5; cbn [snd ret] in E5; subst s5; split; [apply kd_same; reflexivity|reflexivity]].
      split; [pose proof (K_herelabel y s3 ltac:(rewrite Sg; apply QL; reflexivity)) as P; rewrite E5 in P; exact P|].
      intros u ->. destruct (herelabel_ok _ _ _ _ E5) as (_ & sd & X1 & X2 & _). rewrite (near_segment _ _ X2).
      rewrite deflabel_eq in X1. destruct (refused _ _); [elim (error_never _ _ _ _ _ X1)|]. apply (f_equal snd) in X1. cbn [snd] in X1. subst sd. reflexivity. }
  apply (from_bind K).
  { unfold from. match goal with |- context [fst ?x] => destruct x as [r5 s5] eqn:E5 end. exact (kd_trans _ _ _ D3 (proj1 (Hl _ _ eq_refl))). }
  intros w0 s5 E5. destruct (Hl _ _ E5) as [D5 Sg5]. specialize (Sg5 _ eq_refl). pose proof (kd_trans _ _ _ D3 D5) as D5'.
  destruct (l_type l); try (apply (from_pres K K_order); [exact D5'|k]; fail); [|elim O1; reflexivity].
  assert (Hx : forall r s6, (if ex then match l_ptr l with PFun h => exec h (l_modifier l) (q_label q) (q_oper q)
              | _ => stop (UB "asmline: bad function pointer") end else ret tt) s5 = (r, s6) -> kd s5 s6).
  { intros rr s6 E6. destruct ex; [|apply (f_equal snd) in E6; cbn [snd ret] in E6; subst s6; apply kd_same; reflexivity].
    destruct (l_ptr l) as [|h|lines]; try (apply (f_equal snd) in E6; cbn [snd stop] in E6; subst s6; apply kd_same; reflexivity).
    pose proof (K_exec h (l_modifier l) (q_label q) (q_oper q) s5) as P. rewrite E6 in P. apply P. intros y Y. rewrite Sg5, Sg. apply QL. exact Y. }
  apply (from_bind K).
  { unfold from. match goal with |- context [fst ?x] => destruct x as [r6 s6] eqn:E6 end. exact (kd_trans _ _ _ D5' (Hx _ _ eq_refl)). }
  intros w1 s6 E6. pose proof (kd_trans _ _ _ D5' (Hx _ _ E6)) as D6.
  apply (from_pres K K_order); [exact D6|]. k. unfold star_advance. k. intros s7. apply kd_same. unfold upd_sy, modify. cbn [snd sy set_sy].
  apply tfind_tupd_other. exact J.
Qed.
End One.
