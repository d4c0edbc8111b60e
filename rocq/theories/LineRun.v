(** What a line does around its instruction. *)
From Coq Require Import String Ascii ZArith List Bool Lia ZifyBool ZifyNat.
From Verif Require Import Base State Tree Filter Output Label Parse Scode Pseudos Cpu6800 Crasm.
From Verif Require Import BaseFacts TreeFacts Frame Eval CpuFacts SpecEmit SpecStar SpecLine EmitFacts StarFacts PseudoFacts.
From Verif Require SplitFacts LineText SpecSplit.
Import ListNotations.
Open Scope Z_scope.

Lemma near_refl : forall s, near s s.
Proof. repeat split. Qed.
Lemma near_trans : forall a b c, near a b -> near b c -> near a c.
Proof. unfold near. intuition congruence. Qed.
Lemma near_sym : forall a b, near a b -> near b a.
Proof. unfold near. intuition congruence. Qed.

Definition nearR : relation := fun d s s' => match d with Fine => near s s' /\ s'.(ct).(advance) = s.(ct).(advance) | _ => True end.
Lemma nearR_order : order nearR.
Proof.
  constructor; unfold nearR; auto using near_refl. intros d a b c [X1 X2] Y. destruct d; auto. destruct Y as [Y1 Y2]. split; [exact (near_trans _ _ _ X1 Y1)|congruence].
Qed.
Lemma nearR_osteps : osteps nearR.
Proof. constructor; [exact nearR_order|..]; intros; try exact I; repeat split. Qed.
Lemma nearR_error : forall A m, pres nearR A (error m).
Proof. intros A m s. destruct (error m s) as [[a|b] s'] eqn:E; [elim (error_never _ _ _ _ _ E)|]. destruct b; exact I. Qed.

Ltac n1 :=
  lazymatch goal with
  | |- pres nearR _ (bind _ _) => apply (pres_bind nearR nearR_order); [ | intros ]
  | |- pres nearR _ (ret _) => apply (pres_ret nearR nearR_order)
  | |- pres nearR _ (gets _) => apply (pres_gets nearR nearR_order)
  | |- pres nearR _ (when _ _) => unfold when
  | |- pres nearR _ (error _) => apply nearR_error
  | |- pres nearR _ (err _) => apply nearR_error
  | |- pres nearR _ (stop _) => intros ?; exact I
  | |- pres nearR _ outputline => apply (pres_outputline nearR nearR_osteps)
  | |- pres nearR _ (position _) => apply (pres_position nearR nearR_osteps)
  | |- pres nearR _ (outputaddr _) => apply (pres_outputaddr nearR nearR_osteps)
  | |- pres nearR _ (outputbyte _) => apply (pres_outputbyte nearR nearR_osteps)
  | |- pres nearR _ (upd_inp _) => intros ?; repeat split
  | |- pres nearR _ (upd_wr _) => intros ?; repeat split
  | |- pres nearR _ (upd_ct (set_bufferpos _)) => intros ?; repeat split
  | |- pres nearR _ (upd_fl (set_a_org_gv _)) => intros ?; repeat split
  | |- pres nearR _ (modify _) => intros ?; repeat split
  | |- pres nearR _ (match ?x with _ => _ end) => destruct x
  end.
Ltac n := repeat first [n1 | progress (cbv beta zeta)].
Lemma near_filterc : forall t p, pres nearR _ (filterc t p).
Proof. intros t p. apply (pres_filterc nearR nearR_osteps). Qed.
Lemma near_filter2 : forall t p, pres nearR _ (filter2 t p).
Proof. intros t p. unfold filter2. n; apply near_filterc. Qed.
Lemma near_scwrite : forall t, pres nearR _ (scwrite t).
Proof. intros t. unfold scwrite. n. Qed.
Lemma near_flush : pres nearR _ flushscoderaw.
Proof. unfold flushscoderaw. repeat first [apply near_scwrite|progress n]. Qed.
Lemma near_ok : forall A (m : M A) s a s', pres nearR A m -> m s = (Ok a, s') -> near s s' /\ s'.(ct).(advance) = s.(ct).(advance).
Proof. intros A m s a s' K E. specialize (K s). rewrite E in K. exact K. Qed.
Lemma near_linestart : forall s u s', linestart s = (Ok u, s') -> near s s' /\ s'.(ct).(advance) = 0.
Proof.
  intros s u s' E. unfold linestart in E. unfold bind at 1 in E. unfold upd_ct at 1, modify at 1 in E.
  set (s1 := set_ct _ s) in E. assert (N : near s s1) by (repeat split). assert (A : advance (ct s1) = 0) by reflexivity.
  match type of E with ?m s1 = _ => assert (K : pres nearR _ m) by (unfold setpc, zerobuffer; repeat first [apply near_flush|progress n]) end.
  destruct (near_ok _ _ _ _ _ K E) as [B C]. split; [exact (near_trans _ _ _ N B)|congruence].
Qed.
Lemma near_stripline : pres nearR _ stripline.
Proof. unfold stripline. repeat first [apply near_filter2|progress n]. Qed.
Lemma near_findmnemo : forall t, pres nearR _ (findmnemo t).
Proof. intros t. unfold findmnemo, searchlabel. repeat first [apply near_filter2|progress n]. Qed.
Lemma near_splitmnemo : forall t, pres nearR _ (splitmnemo t).
Proof. intros t. unfold splitmnemo. repeat first [apply near_filter2|apply near_findmnemo|progress n]. Qed.
Lemma near_splitline : forall t, pres nearR _ (splitline t).
Proof. intros t. unfold splitline, splitrest. repeat first [apply near_filter2|apply near_findmnemo|apply near_splitmnemo|progress n]. Qed.


(** The handling of the label in front of an instruction. *)
Definition labelled (q : fields) (l : label) (s s' : state) : Prop :=
  if l.(l_flags).(f_deflabel) then s' = s /\ q.(q_label) <> None
  else match q.(q_label) with
       | None => s' = s
       | Some t => herelabel t s = (Ok tt, s')
       end.

Lemma taken_split : forall s q s1 t s2 q' s3, taken_apart s q -> linestart s = (Ok tt, s1) -> stripline s1 = (Ok t, s2) ->
  splitline t s2 = (Ok q', s3) -> q' = q.
Proof. intros s q s1 t s2 q' s3 (a & b & c & d & A & B & _ & C) A' B' C'. congruence. Qed.
Lemma taken_text : forall s q s1 s2, taken_apart s q -> linestart s = (Ok tt, s1) -> stripline s1 <> (Ok [], s2).
Proof. intros s q s1 s2 (a & b & c & d & A & B & N & C) A' B'. congruence. Qed.

Lemma line_instr : forall self n li s f s' q key l, asmline self n li true s = (Ok f, s') -> taken_apart s q ->
  q.(q_mnemo) = Some (key, l) -> of_its_own q ->
  exists h s1 s2 s3 s4, near s s1 /\ s1.(ct).(advance) = 0 /\ labelled q l s1 s2 /\ l.(l_ptr) = PFun h /\
    exec h l.(l_modifier) q.(q_label) q.(q_oper) s2 = (Ok tt, s3) /\ star_advance s3 = (Ok tt, s4) /\ near s4 s'.
Proof.
  intros self n li s f s' q key l E T Q O. unfold asmline in E. step E u s1 E1. destruct u.
  destruct (near_linestart _ _ _ E1) as [N1 A1]. unfold bind at 1 in E. cbn [gets] in E. step E t s2 E2.
  destruct (near_ok _ _ _ _ _ near_stripline E2) as [N2 A2]. destruct t as [|c t]; [elim (taken_text _ _ _ _ T E1 E2)|].
  step E q' s3 E3. assert (q' = q) by exact (taken_split _ _ _ _ _ _ _ T E1 E2 E3). subst q'.
  destruct (near_ok _ _ _ _ _ (near_splitline _) E3) as [N3 A3]. rewrite Q in E. unfold of_its_own in O. rewrite Q in O. destruct O as (O1 & O2 & O3).
  unfold dispatch in E. cbv zeta in E. rewrite O2, O3 in E. cbn [orb] in E. step E u s4 E4.
  apply when_err in E4. destruct E4 as [_ ->]. step E v s5 E5. destruct v.
  assert (L : labelled q l s3 s5).
  { unfold labelled. destruct (f_deflabel _).
    - apply when_err in E5. destruct E5 as [G ->]. split; [reflexivity|]. intros X. rewrite X in G. discriminate G.
    - destruct (q_label q) as [x|]; [exact E5|]. injection E5 as <-. reflexivity. }
  assert (F : forall m s0 s9, fatal m s0 <> (Ok f, s9)) by (intros m s0 s9 X; unfold fatal, bind, print in X; cbn [gets] in X; discriminate X).
  destruct (l_type l) eqn:Ty; try (elim (F _ _ _ E)); [|elim O1; reflexivity].
  step E w0 s6 E6. destruct (l_ptr l) as [|h|] eqn:P; try discriminate E6. destruct w0. step E w1 s7 E7. destruct w1. step E w2 sf E8.
  assert (sf = s') by (unfold ret in E; congruence). subst sf. clear E.
  assert (N8 : near s7 s').
  { destruct li; [exact (proj1 (near_ok _ _ _ _ _ (pres_outputline nearR nearR_osteps) E8))|].
    cbn [when] in E8. assert (s7 = s') by (unfold ret in E8; congruence). subst s7. apply near_refl. }
  exists h, s3, s5, s6, s7.
  split; [exact (near_trans _ _ _ (near_trans _ _ _ N1 N2) N3)|]. split; [congruence|].
  split; [exact L|]. split; [reflexivity|]. split; [exact E6|]. split; [exact E7|exact N8].
Qed.

(** A bare label. *)
Lemma line_bare : forall self n li s f s' q, asmline self n li true s = (Ok f, s') -> taken_apart s q -> q.(q_mnemo) = None ->
  exists s1 s2, near s s1 /\ herelabel q.(q_text) s1 = (Ok tt, s2) /\ near s2 s'.
Proof.
  intros self n li s f s' q E T Q. unfold asmline in E. step E u s1 E1. destruct u.
  destruct (near_linestart _ _ _ E1) as [N1 A1]. unfold bind at 1 in E. cbn [gets] in E. step E t s2 E2.
  destruct (near_ok _ _ _ _ _ near_stripline E2) as [N2 A2]. destruct t as [|c t]; [elim (taken_text _ _ _ _ T E1 E2)|].
  step E q' s3 E3. assert (q' = q) by exact (taken_split _ _ _ _ _ _ _ T E1 E2 E3). subst q'.
  destruct (near_ok _ _ _ _ _ (near_splitline _) E3) as [N3 A3]. rewrite Q in E.
  destruct (_ && _ && _); [|elim (error_never _ _ _ _ _ E)]. step E u s4 E4. destruct u. cbn [when] in E4. step E v s5 E5.
  assert (s5 = s') by (unfold ret in E; congruence). subst s5. clear E. exists s3, s4.
  split; [exact (near_trans _ _ _ (near_trans _ _ _ N1 N2) N3)|]. split; [exact E4|].
  destruct li; [exact (proj1 (near_ok _ _ _ _ _ (pres_outputline nearR nearR_osteps) E5))|].
  cbn [when] in E5. assert (s4 = s') by (unfold ret in E5; congruence). subst s4. apply near_refl.
Qed.

(** ** The label of a line *)
Lemma herelabel_ok : forall t s u s', herelabel t s = (Ok u, s') ->
  t <> s2l "*" /\ exists sd, deflabel t (set_f_noredef true lf0) (if s.(fl).(a_relatif) then TRel else TAbs) (starvalue s) s = (Ok (lkey s.(inp).(segment) t), sd) /\ near sd s' /\
    s'.(ct).(advance) = sd.(ct).(advance) /\ refused (tfind (lkey s.(inp).(segment) t) s.(sy)) (set_f_noredef true lf0) = None.
Proof.
  intros t s u s' E. unfold herelabel in E. step E x s1 E1. apply when_err in E1. destruct E1 as [N ->].
  split; [intros ->; discriminate N|]. unfold bind at 1 in E. cbn [gets] in E. step E y s2 E2.
  destruct (a_org_gv (fl s)); [|elim (error_never _ _ _ _ _ E2)]. step E2 k s3 E3. assert (s3 = s2) by (unfold ret in E2; congruence). subst s3.
  exists s2. pose proof E3 as D. rewrite deflabel_eq in D. destruct (refused _ _) eqn:R; [elim (error_never _ _ _ _ _ D)|].
  assert (K : k = lkey (segment (inp s)) t) by congruence. subst k. split; [exact E3|].
  match type of E with ?m s2 = _ => assert (P : pres nearR _ m) by n end.
  destruct (near_ok _ _ _ _ _ P E) as [A B]. auto.
Qed.
