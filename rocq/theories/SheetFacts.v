(** The form of the listing. *)
From Coq Require Import String Ascii ZArith List Bool Lia ZifyBool ZifyNat.
From Verif Require Import Base State Tree Filter Output Label Parse Scode Pseudos Cpu6800 Crasm.
From Verif Require Import BaseFacts TreeFacts Frame Eval CpuFacts SpecEmit SpecStar SpecLine SpecSheet SpecListing EmitFacts PseudoFacts LineRun SwitchFacts.
From Verif Require SplitFacts SpecSplit.
Import ListNotations.
Open Scope Z_scope.

(** ** The routines of the listing keep its form *)
Definition formR : relation := fun d s s' => match d with Fine => form s' = form s | _ => True end.
Lemma formR_order : order formR.
Proof. constructor; unfold formR; auto. intros d a b c X Y. destruct d; auto. congruence. Qed.

Ltac f1 :=
  lazymatch goal with
  | |- pres formR _ (bind _ _) => apply (pres_bind formR formR_order); [ | intros ]
  | |- pres formR _ (ret _) => apply (pres_ret formR formR_order)
  | |- pres formR _ (gets _) => apply (pres_gets formR formR_order)
  | |- pres formR _ (when _ _) => unfold when
  | |- pres formR _ (stop _) => intros ?; exact Logic.I
  | |- pres formR _ (print _) => intros ?; reflexivity
  | |- pres formR _ (upd_ls _) => intros ?; reflexivity
  | |- pres formR _ (upd_ct _) => intros ?; reflexivity
  | |- pres formR _ (lbwrite _ _) => unfold lbwrite
  | |- pres formR _ (fatal _) => unfold fatal
  | |- pres formR _ (match ?x with _ => _ end) => destruct x
  | |- pres formR _ (let (_, _) := ?x in _) => destruct x
  end.
Ltac f := repeat first [assumption | f1 | progress (cbv beta zeta)].

Lemma form_raw : forall t, pres formR _ (outputraw t).
Proof. intros t. unfold outputraw. f. Qed.
Lemma form_EOL : pres formR _ outputEOL.
Proof. unfold outputEOL. f. apply form_raw. Qed.
Lemma form_space : pres formR _ outspace.
Proof. unfold outspace. f. Qed.
Lemma form_spaces : forall n, pres formR _ (outspaces n).
Proof. induction n as [|n IH]; cbn [outspaces]; f. apply form_space. Qed.
Lemma form_position : forall n, pres formR _ (position n).
Proof. intros n. unfold position. f. apply form_spaces. Qed.
Lemma form_tab : forall n, pres formR _ (outtab n).
Proof. induction n as [|n IH]; cbn [outtab]; f. apply form_space. Qed.
Lemma form_filterc : forall t p, pres formR _ (filterc t p).
Proof. intros t p. unfold filterc. f. Qed.
Lemma form_pats : forall l t, pres formR _ (outpats l t).
Proof. induction l as [|p l IH]; intros t; cbn [outpats]; f; [apply form_filterc|apply form_position|apply IH]. Qed.
Lemma form_wrap : forall c, pres formR _ (wrapline c).
Proof. intros c. unfold wrapline. f; first [apply form_EOL|apply form_filterc|apply form_position|apply form_pats]. Qed.
Lemma form_car : forall c, pres formR _ (outputcar c).
Proof. intros c. unfold outputcar. f; first [apply form_wrap|apply form_space|apply form_tab]. Qed.
Lemma form_output : forall t, pres formR _ (output t).
Proof. induction t as [|c t IH]; cbn [output]; f. apply form_car. Qed.
Lemma form_line : pres formR _ outputline.
Proof. unfold outputline. f; first [apply form_position|apply form_output|apply form_EOL]. Qed.
Lemma form_warning : forall m, pres formR _ (warning m).
Proof. intros m. unfold warning. f. apply form_raw. Qed.
Lemma form_ok : forall A (m : M A) s a s', pres formR A m -> m s = (Ok a, s') -> form s' = form s.
Proof. intros A m s a s' K E. specialize (K s). rewrite E in K. exact K. Qed.
Lemma form_star : forall s u s', star_advance s = (Ok u, s') -> form s' = form s.
Proof.
  intros s u s' E. unfold star_advance, bind in E. cbn [gets] in E. destruct (in_s64 _); [|discriminate E].
  unfold upd_sy, modify in E. apply (f_equal snd) in E. cbn [snd] in E. subst s'. reflexivity.
Qed.

(** ** The line around the directive *)
Lemma line_form : forall self n li s f s' q key l h, asmline self n li true s = (Ok f, s') -> taken_apart s q ->
  q.(q_mnemo) = Some (key, l) -> of_its_own q -> l.(l_ptr) = PFun h -> q.(q_label) = None ->
  exists s1 s2, near s s1 /\ exec h l.(l_modifier) None q.(q_oper) s1 = (Ok tt, s2) /\ form s' = form s2.
Proof.
  intros self n li s f s' q key l h E T Q O P Lb. unfold asmline in E. step E u s1 E1. destruct u.
  destruct (near_linestart _ _ _ E1) as [N1 A1]. unfold bind at 1 in E. cbn [gets] in E. step E t s2 E2.
  destruct (near_ok _ _ _ _ _ near_stripline E2) as [N2 A2]. destruct t as [|c t]; [elim (taken_text _ _ _ _ T E1 E2)|].
  step E q' s3 E3. assert (q' = q) by exact (taken_split _ _ _ _ _ _ _ T E1 E2 E3). subst q'.
  destruct (near_ok _ _ _ _ _ (near_splitline _) E3) as [N3 A3]. rewrite Q in E. unfold of_its_own in O. rewrite Q in O. destruct O as (O1 & O2 & O3).
  unfold dispatch in E. cbv zeta in E. rewrite O2, O3 in E. cbn [orb] in E. step E u s4 E4.
  apply when_err in E4. destruct E4 as [_ ->]. rewrite Lb in E. step E v s5 E5. destruct v.
  assert (s5 = s3).
  { destruct (f_deflabel _); [apply when_err in E5; destruct E5 as [_ ->]; reflexivity|]. unfold ret in E5. congruence. }
  subst s5.
  assert (F : forall m s0 s9, fatal m s0 <> (Ok f, s9)) by (intros m s0 s9 X; unfold fatal, bind, print in X; cbn [gets] in X; discriminate X).
  destruct (l_type l) eqn:Ty; try (elim (F _ _ _ E)); [|elim O1; reflexivity].
  rewrite P in E. step E w0 s6 E6. destruct w0. step E w1 s7 E7. destruct w1. step E w2 sf E8.
  assert (sf = s') by (unfold ret in E; congruence). subst sf. clear E.
  assert (F8 : form s' = form s7).
  { destruct li; [exact (form_ok _ _ _ _ _ form_line E8)|]. cbn [when] in E8. unfold ret in E8. congruence. }
  exists s3, s6. split; [exact (near_trans _ _ _ (near_trans _ _ _ N1 N2) N3)|]. split; [exact E6|].
  rewrite F8. exact (form_star _ _ _ E7).
Qed.

(** ** NAM *)
Lemma nam_sets : forall o s u s', Xnam o s = (Ok u, s') -> exists t, o = Some t /\ zlen t <= 30 /\ s'.(ls).(title) = t /\
  s'.(ls).(plen) = s.(ls).(plen) /\ s'.(ls).(llen) = s.(ls).(llen).
Proof.
  intros [t|] s u s' E; [|elim (error_never _ _ _ _ _ E)]. exists t. split; [reflexivity|]. unfold Xnam, settitle in E.
  unfold bind at 1 in E. cbn [gets] in E. step E v s1 E1.
  assert (F1 : form s1 = form s) by (destruct (titleflag _); [exact (form_ok _ _ _ _ _ (form_warning _) E1)|cbn [when] in E1; unfold ret in E1; congruence]).
  step E v2 s2 E2. apply when_err in E2. destruct E2 as [L ->]. unfold bind at 1 in E. unfold upd_ls at 1, modify at 1 in E.
  unfold bind in E. cbn [gets] in E.
  split; [lia|]. unfold form in F1. injection F1 as _ F2 F3.
  destruct (_ =? 2); cbn [when] in E; unfold upd_ls, modify, ret in E; apply (f_equal snd) in E; cbn [snd] in E; subst s'; cbn; auto.
Qed.

Theorem nam_line : forall self n li s f s' q key l, asmline self n li true s = (Ok f, s') -> taken_apart s q ->
  q.(q_mnemo) = Some (key, l) -> of_its_own q -> l.(l_ptr) = PFun HNam -> q.(q_label) = None ->
  exists t, q.(q_oper) = Some t /\ zlen t <= 30 /\ s'.(ls).(title) = t.
Proof.
  intros self n li s f s' q key l E T Q O P L. destruct (line_form _ _ _ _ _ _ _ _ _ _ E T Q O P L) as (s1 & s2 & N & X & F).
  cbn [exec] in X. apply nam_sets in X. destruct X as (t & A & B & C & _). exists t. split; [exact A|]. split; [exact B|].
  unfold form in F. injection F as F _ _. congruence.
Qed.

(** ** PAGE *)
Lemma page_sets : forall t s u s', Xpage (Some t) s = (Ok u, s') ->
  exists a b r r', SpecSplit.first_cut comma t a b /\ value_at s a r /\ value_at s b r' /\
    s'.(ls).(plen) = trunc32 r.(r_value) /\ s'.(ls).(llen) = trunc32 r'.(r_value) /\
    page_lines s'.(ls).(plen) /\ page_columns s'.(ls).(llen).
Proof.
  intros t s u s' E. unfold Xpage in E. step E c s1 E1. pose proof (comma_sep _ _ _ _ E1) as C.
  destruct (filter2_ok' _ _ _ _ _ E1) as [F1 F2]. destruct c as [[a b]|]; [|elim (error_never _ _ _ _ _ E)].
  step E r s2 E2. destruct (parse_keeps _ _ _ _ E2) as [P1 P2]. step E u1 s3 E3. apply checktype_ok in E3. destruct E3 as [T1 ->].
  cbv zeta in E.
  step E r' s4 E4. step E u2 s5 E5. apply checktype_ok in E5. destruct E5 as [T2 ->].
  exists a, b, r, r'. split; [exact C|].
  split; [exists s1, s2; split; [exact F1|]; split; assumption|].
  split; [exists s2, s4; split; [exact (same_trans _ _ _ F1 P1)|]; split; assumption|].
  unfold setpage in E. unfold bind at 1 in E. cbn [gets] in E. step E v s6 E6. step E v2 s7 E7. apply when_err in E7. destruct E7 as [L ->].
  unfold bind at 1 in E. unfold upd_ls at 1, modify at 1 in E. unfold bind at 1 in E. unfold upd_ls at 1, modify at 1 in E. unfold bind in E. cbn [gets] in E.
  assert (X : plen (ls s') = s32 (r_value r) /\ llen (ls s') = s32 (r_value r')).
  { destruct (_ =? 2); cbn [when] in E; unfold upd_ls, modify, ret in E; apply (f_equal snd) in E; cbn [snd] in E; subst s'; split; reflexivity. }
  destruct X as [-> ->]. split; [reflexivity|]. split; [reflexivity|]. unfold page_lines, page_columns. lia.
Qed.

Theorem page_line : forall self n li s f s' q key l t, asmline self n li true s = (Ok f, s') -> taken_apart s q ->
  q.(q_mnemo) = Some (key, l) -> of_its_own q -> l.(l_ptr) = PFun HPage -> q.(q_label) = None -> q.(q_oper) = Some t ->
  exists a b v w, SpecSplit.first_cut comma t a b /\ worth s a v /\ worth s b w /\
    s'.(ls).(plen) = trunc32 v /\ s'.(ls).(llen) = trunc32 w /\ page_lines s'.(ls).(plen) /\ page_columns s'.(ls).(llen).
Proof.
  intros self n li s f s' q key l t E T Q O P L Op. destruct (line_form _ _ _ _ _ _ _ _ _ _ E T Q O P L) as (s1 & s2 & N & X & F).
  rewrite Op in X. cbn [exec] in X. apply page_sets in X. destruct X as (a & b & r & r' & A & B & C & D & G & H & I).
  unfold form in F. injection F as _ F1 F2. exists a, b, (r_value r), (r_value r').
  split; [exact A|]. split; [exists s1, r; auto|]. split; [exists s1, r'; auto|]. rewrite F1, F2. auto.
Qed.

(** ** SKIP *)
Definition bufR : relation := fun d s s' => match d with
  | Fine => form s' = form s /\ s'.(ls).(lpos) = s.(ls).(lpos) /\ s'.(ls).(linebuffer) = s.(ls).(linebuffer) /\ s'.(ls).(composed) = s.(ls).(composed)
  | _ => True end.
Lemma bufR_order : order bufR.
Proof. constructor; unfold bufR; auto. intros d a b c X Y. destruct d; auto. intuition congruence. Qed.
Ltac b1 :=
  lazymatch goal with
  | |- pres bufR _ (bind _ _) => apply (pres_bind bufR bufR_order); [ | intros ]
  | |- pres bufR _ (ret _) => apply (pres_ret bufR bufR_order)
  | |- pres bufR _ (gets _) => apply (pres_gets bufR bufR_order)
  | |- pres bufR _ (stop _) => intros ?; exact Logic.I
  | |- pres bufR _ (print _) => intros ?; repeat split
  | |- pres bufR _ (upd_ls _) => intros ?; repeat split
  | |- pres bufR _ (upd_ct _) => intros ?; repeat split
  | |- pres bufR _ (match ?x with _ => _ end) => destruct x
  end.
Ltac b := repeat first [b1 | progress (cbv beta zeta)].
Lemma buf_raw : forall t, pres bufR _ (outputraw t).
Proof. intros t. unfold outputraw. b. Qed.
Lemma buf_warning : forall m, pres bufR _ (warning m).
Proof. intros m. unfold warning. b. apply buf_raw. Qed.
Lemma buf_psteps : psteps bufR.
Proof.
  constructor; [exact bufR_order|exact buf_warning|intros t p; unfold filterc; b|..]; intros; try (repeat split; fail).
  intros s. destruct (error m s) as [[u|x] s'] eqn:E; cbn [fst snd how]; [elim (error_never _ _ _ _ _ E)|destruct x; exact Logic.I].
Qed.
Lemma buf_ok : forall A (m : M A) s a s', pres bufR A m -> m s = (Ok a, s') -> bufR Fine s s'.
Proof. intros A m s a s' K E. specialize (K s). rewrite E in K. exact K. Qed.

Lemma fresh_text : forall s, fresh_line s -> cstr s.(ls).(linebuffer) = [].
Proof. intros s [_ H]. destruct (linebuffer (ls s)) as [|c t]; [reflexivity|]. cbn [cstr]. rewrite H. reflexivity. Qed.
Lemma EOL_empty : forall s u s', fresh_line s -> outputEOL s = (Ok u, s') -> composes [[]] s s' /\ fresh_line s' /\ form s' = form s.
Proof.
  intros s u s' H E. pose proof (form_ok _ _ _ _ _ form_EOL E) as F. pose proof (fresh_text _ H) as Ct.
  unfold outputEOL in E. unfold bind at 1 in E. cbn [gets] in E. step E v s1 E1. destruct (buf_ok _ _ _ _ _ (buf_raw _) E1) as (A & B & C & D).
  unfold bind in E. unfold upd_ls at 1, modify at 1 in E. unfold lbwrite in E. cbn [Z.leb Z.compare] in E. unfold upd_ls, modify in E.
  apply (f_equal snd) in E. cbn [snd] in E. subst s'. split; [|split; [|exact F]].
  - unfold composes. cbn. rewrite Ct, D. reflexivity.
  - split; [reflexivity|]. cbn. destruct (linebuffer (ls s1)); reflexivity.
Qed.
Lemma skiploop_run : forall n s u s', fresh_line s -> skiploop n s = (Ok u, s') -> composes (repeat [] n) s s' /\ fresh_line s'.
Proof.
  induction n as [|n IH]; intros s u s' H E; cbn [skiploop] in E.
  - unfold ret in E. assert (s' = s) by congruence. subst s'. split; [reflexivity|exact H].
  - step E v s1 E1. destruct (EOL_empty _ _ _ H E1) as (A & B & F). destruct (IH _ _ _ B E) as [C D]. split; [|exact D].
    unfold composes in *. unfold form in F. injection F as _ _ F. rewrite C, A, F. cbn [repeat map rev]. rewrite <- !app_assoc. reflexivity.
Qed.
Theorem skip_run : forall o s u s', fresh_line s -> Xskip o s = (Ok u, s') ->
  exists r, value_at s (otext o) r /\ fresh_line s' /\
    composes (if (0 <=? trunc32 r.(r_value)) && (trunc32 r.(r_value) <=? 100) then repeat [] (Z.to_nat (trunc32 r.(r_value))) else []) s s'.
Proof.
  intros o s u s' H E. unfold Xskip in E. step E r s1 E1. destruct (buf_ok _ _ _ _ _ (pe_parse _ buf_psteps _) E1) as (A & B & C & D).
  step E v s2 E2. apply checktype_ok in E2. destruct E2 as [Ty ->]. cbv zeta in E. exists r.
  split; [exists s, s1; split; [apply same_refl|]; split; assumption|].
  assert (H1 : fresh_line s1) by (unfold fresh_line in *; rewrite B, C; exact H).
  assert (A3 : llen (ls s1) = llen (ls s)) by (unfold form in A; congruence).
  change (trunc32 (r_value r)) with (s32 (r_value r)).
  destruct ((100 <? s32 (r_value r)) || (s32 (r_value r) <? 0)) eqn:Z.
  - destruct (buf_ok _ _ _ _ _ (buf_warning _) E) as (A' & B' & C' & D'). split; [unfold fresh_line in *; rewrite B', C'; exact H1|].
    replace ((0 <=? s32 (r_value r)) && (s32 (r_value r) <=? 100)) with false by lia. unfold composes. cbn. congruence.
  - apply skiploop_run in E; [|exact H1]. destruct E as [E1' E2']. split; [exact E2'|].
    replace ((0 <=? s32 (r_value r)) && (s32 (r_value r) <=? 100)) with true by lia. unfold composes in *. rewrite E1', A3, D. reflexivity.
Qed.

(** ** PAGE alone *)
Lemma eoploop_run : forall n s u s', fresh_line s -> eoploop n s = (Ok u, s') ->
  s'.(ls).(ppos) = 0 /\ fresh_line s' /\ exists k, composes (repeat [] k) s s'.
Proof.
  induction n as [|n IH]; intros s u s' H E; cbn [eoploop] in E; [discriminate E|].
  unfold bind at 1 in E. cbn [gets] in E. destruct (ppos (ls s) =? 0) eqn:P.
  - unfold ret in E. assert (s' = s) by congruence. subst s'. split; [lia|]. split; [exact H|]. exists 0%nat. reflexivity.
  - step E v s1 E1. destruct (EOL_empty _ _ _ H E1) as (A & B & F). destruct (IH _ _ _ B E) as (C & D & k & G). split; [exact C|]. split; [exact D|].
    exists (S k). unfold composes in *. unfold form in F. injection F as _ _ F. rewrite G, A, F. cbn [repeat map rev]. rewrite <- !app_assoc. reflexivity.
Qed.
Theorem eject_run : forall s u s', fresh_line s -> s.(fl).(a_list_on) = true -> s.(ls).(plen) <> 0 -> Xpage None s = (Ok u, s') ->
  s'.(ls).(ppos) = 0 /\ fresh_line s' /\ exists k, composes (repeat [] k) s s'.
Proof.
  intros s u s' H L P E. unfold Xpage, outputEOP in E. unfold bind at 1 in E. cbn [gets] in E. rewrite L in E.
  replace (negb (plen (ls s) =? 0)) with true in E by lia. exact (eoploop_run _ _ _ _ H E).
Qed.
