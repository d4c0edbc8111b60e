(** Two passes over the same lines: expressions and instructions.  Nothing here is part of the model. *)
From Coq Require Import String Ascii ZArith List Bool Lia.
From Verif Require Import Base State Tree Filter Output Label Operator Parse Scode Tables.
From Verif Require Import Cpu6800 Cpu6502 CpuZ80 Pseudos Macro Xref Crasm.
From Verif Require Import TreeFacts Walk Frame Run SymFacts LayoutFacts SpecLayout LayoutRel.
Import ListNotations.
Open Scope Z_scope.

(** ** Symbols only grow *)
Definition GW : walk (pres growing) := pres_walk growing growing_steps.
Lemma growing_order : order growing.
Proof. exact (o_order _ (lsteps_osteps _ growing_lsteps)). Qed.
Lemma growing_osteps : osteps growing.
Proof. exact (lsteps_osteps _ growing_lsteps). Qed.
Set Warnings "-fragile-hint-constr".
Create HintDb grodb discriminated.
#[export] Hint Constants Opaque : grodb.
#[export] Hint Resolve (J_filter0 _ GW) (J_filter1 _ GW) (J_filter2 _ GW) (J_putres _ GW) (J_checktype _ GW) (J_constant _ GW) (J_chk64 _ GW)
  (J_apply1 _ GW) (J_apply2 _ GW) (J_trygroup _ GW) (J_trycst _ GW) (J_parse2 _ GW) (J_parse _ GW) (J_insert16 _ GW) (J_insert32 _ GW)
  (J_branch _ GW) (J_single _ GW) (J_findmode_loop _ GW) (J_findmode _ GW) (J_codemode _ GW) (J_findmode65 _ GW) (J_getindexed _ GW) (J_getreg _ GW)
  (J_docode _ GW) (J_findcond _ GW) (J_searchcond _ GW) (J_condjump _ GW) (J_z_ex_af _ GW) (J_z_logical _ GW) (J_clrall _ GW)
  (w_error _ GW) (w_warning _ GW) (w_fatal _ GW) (w_filterc _ GW) (w_insert8 _ GW) (w_star_advance _ GW) (w_cstlabel _ GW) (w_findlabel _ GW)
  (w_calcresult _ GW) (w_advance _ GW) (w_cp _ GW) (w_ub _ GW) (w_hang _ GW) (w_fuel _ GW) (w_ret _ GW) (w_outputline _ GW) (w_outputEOL _ GW)
  (w_outputEOP _ GW) (w_herelabel _ GW) (w_linestart _ GW) (w_linegets _ GW) (w_stripline _ GW) (w_zerobuffer _ GW)
  (J_stocke _ GW) (J_dcloop _ GW) (J_dsloop _ GW) (J_ascloop _ GW) (J_skiploop _ GW) (J_searchlabel _ GW) (J_findmnemo _ GW) (J_splitmnemo _ GW)
  (J_splitrest _ GW) (J_exec _ GW) (pres_position _ growing_osteps) (pres_outputaddr _ growing_osteps) : grodb.
Ltac gro1 :=
  lazymatch goal with
  | |- pres growing _ (bind _ _) => apply (w_bind _ GW); [|intros]
  | |- pres growing _ (gets _) => apply (pres_gets _ growing_order)
  | |- pres growing _ (when _ _) => unfold when
  | |- pres growing _ (err _) => apply (w_error _ GW)
  | |- pres growing _ (match ?x with _ => _ end) => destruct x
  | |- forall _, _ => intros
  end.
Ltac gro := repeat first [gro1 | solve [auto with grodb] | solve [change (list ascii) with str; auto with grodb] | progress cbv beta zeta].
Ltac nolate := let X := fresh in intros [X|[X|X]]; vm_compute in X; discriminate X.

Ltac if1 := match goal with |- LayoutRel.rel _ _ _ _ _ (if ?c then _ else _) _ => destruct c end.
Ltac if2 := match goal with |- LayoutRel.rel _ _ _ _ _ _ (if ?c then _ else _) => destruct c end.

Section Ops.
Variable F : final.
Variable SF : forward_numbers F.
Notation rel := (rel F).
Definition any {A B} (_ : A) (_ : B) : Prop := True.

(** ** Texts *)
Lemma rel_pure : forall z lt A (m : M A), pres mute _ m ->
  (forall s1 s2 a b s1' s2', m s1 = (Ok a, s1') -> m s2 = (Ok b, s2') -> a = b) -> rel z z lt eq m m.
Proof.
  intros z lt A m H E s1 s2 b s2' Ht E2. pose proof (rel_mute F z lt _ _ m m H H s1 s2 b s2' Ht E2) as R.
  destruct (m s1) as [[a|[e|?|?| |]] s1'] eqn:E1; auto. intros G. split; [apply (R G)|]. exact (E _ _ _ _ _ _ E1 E2).
Qed.
Lemma rel_filterc : forall z lt s p, rel z z lt eq (filterc s p) (filterc s p).
Proof.
  intros. apply rel_pure; [mutes|]. intros s1 s2 a b s1' s2' E1 E2. unfold filterc, bind, gets in *. cbv zeta in *.
  destruct (_ <=? _); [discriminate|]. destruct (_ <=? _) in E2; [discriminate|].
  destruct (fr_caps _); unfold upd_ct, modify, ret in *; congruence.
Qed.
Lemma rel_filter0 : forall z lt s p, rel z z lt eq (filter0 s p) (filter0 s p).
Proof. intros. unfold filter0. eapply rel_bind; [apply rel_filterc|gro|]. intros a b <-. apply rel_ret. reflexivity. Qed.
Lemma rel_filter1 : forall z lt s p, rel z z lt eq (filter1 s p) (filter1 s p).
Proof. intros. unfold filter1. eapply rel_bind; [apply rel_filterc|gro|]. intros a b <-. apply rel_ret. reflexivity. Qed.
Lemma rel_filter2 : forall z lt s p, rel z z lt eq (filter2 s p) (filter2 s p).
Proof. intros. unfold filter2. eapply rel_bind; [apply rel_filterc|gro|]. intros a b <-. apply rel_ret. reflexivity. Qed.
Lemma rel_trygroup : forall z lt e l, rel z z lt eq (trygroup e l) (trygroup e l).
Proof.
  intros z lt e l. revert lt. induction l as [|[f o] l IH]; intros lt; cbn [trygroup].
  - apply rel_ret. reflexivity.
  - eapply rel_bind; [apply rel_filter2|gro|]. intros a b <-. eapply rel_bind; [apply IH|gro|]. intros a' b <-. apply rel_ret. reflexivity.
Qed.

(** ** Complaints *)
Lemma rel_refuse : forall z lt m c1 c2, ~ late (s2l m) -> rel z z lt (fun _ _ => c1 = false /\ c2 = false) (when c1 (err m)) (when c2 (err m)).
Proof.
  intros z lt m c1 c2 N. destruct c2; cbn [when]; [apply rel_never, never_err|]. destruct c1; cbn [when]; [apply rel_err, N|].
  apply rel_ret. auto.
Qed.
Lemma rel_error : forall z z' lt A B (Q : A -> B -> Prop) m1 m2, rel z z' lt Q m1 (err m2).
Proof. intros. apply rel_never, never_err. Qed.
Lemma rel_warning : forall z lt m1 m2, rel z z lt any (warning m1) (warning m2).
Proof. intros. apply rel_mute; apply (pres_warning _ mute_osteps). Qed.
Lemma rel_maybe : forall z lt (c1 c2 : bool) m1 m2, rel z z lt any (when c1 (warning m1)) (when c2 (warning m2)).
Proof. intros. apply rel_mute; mutes. Qed.
Lemma rel_stops : forall z z' lt A B (Q : A -> B -> Prop) m1 x, rel z z' lt Q m1 (stop x).
Proof. intros. apply rel_never, never_stop. Qed.

(** ** Expressions *)
Lemma rel_putres : forall z lt t (Q : result -> result -> Prop) r1 r2, Q r1 r2 -> rel z z lt Q (putres t r1) (putres t r2).
Proof.
  intros z lt t Q r1 r2 H. unfold putres. eapply rel_bind; [|gro|].
  - apply (rel_mute F z false unit unit); mutes.
  - intros. apply rel_ret, H.
Qed.
Lemma rel_checktype : forall z lt a b ty, r_type a = r_type b -> rel z z lt (fun _ _ => r_type a = ty) (checktype a ty) (checktype b ty).
Proof.
  intros z lt a b ty E. unfold checktype. rewrite E. destruct (ltype_eqb (r_type b) ty) eqn:X.
  - apply rel_ret. destruct (r_type b), ty; try discriminate X; reflexivity.
  - destruct (r_type b); apply rel_error.
Qed.
Lemma rel_chk64 : forall z lt a b, rel z z lt (fun v w => v = a /\ w = b) (chk64 a) (chk64 b).
Proof.
  intros z lt a b. unfold chk64. destruct (in_s64 b); [|apply rel_stops]. destruct (in_s64 a); [apply rel_ret; auto|].
  apply rel_stop. discriminate.
Qed.
Lemma rel_constant : forall z lt t r1 r2 v, rel z z lt matches (constant t r1 v) (constant t r2 v).
Proof.
  intros z lt t r1 r2 [v|m]; cbn [constant]; [|apply rel_error]. apply rel_putres. repeat split; cbn; intros; discriminate.
Qed.
Lemma rel_trycst : forall z lt t r1 r2 e l, rel z z lt matches (trycst t r1 e l) (trycst t r2 e l).
Proof.
  intros z lt t r1 r2 e l. revert lt. induction l as [|[f c] l IH]; intros lt; cbn [trycst].
  - destruct e as [|x e]; [apply rel_error|]. destruct (isdigit x); [apply rel_constant|]. destruct (_ || _); [apply rel_constant|apply rel_error].
  - eapply rel_bind; [apply rel_filter1|gro|]. intros a b <-. destruct a as [[|]|]; [apply IH|apply rel_constant|apply IH].
Qed.
Lemma matches_abs : forall f1 f2 m1 m2 p1 p2 v1 v2, f_forward f1 = f_forward f2 -> (f_forward f1 = false -> v1 = v2) ->
  matches (mkRes f1 TAbs m1 p1 v1) (mkRes f2 TAbs m2 p2 v2).
Proof. intros. repeat split; cbn; auto; discriminate. Qed.
Lemma matches_rel : forall f1 f2 m1 m2 p1 p2 v1 v2, f_forward f1 = f_forward f2 -> (f_forward f1 = false -> v1 = v2) ->
  matches (mkRes f1 TRel m1 p1 v1) (mkRes f2 TRel m2 p2 v2).
Proof. intros. repeat split; cbn; auto; discriminate. Qed.
Lemma matches_val : forall a b, matches a b -> f_forward (r_flags a) = false -> r_value a = r_value b.
Proof. intros a b (A & B & C & D) E. rewrite E in C. exact (vals_value _ _ _ _ _ _ _ C). Qed.
Lemma lf_or_forward : forall a b, f_forward (lf_or a b) = f_forward a || f_forward b.
Proof. intros [] []. reflexivity. Qed.
Lemma rel_apply1 : forall z lt t o a b, matches a b -> rel z z lt matches (apply1 t o a) (apply1 t o b).
Proof.
  intros z lt t o a b M. pose proof M as (E & Ef & V & _).
  destruct o; cbn [apply1]; (eapply rel_bind; [apply rel_checktype, E|gro|]); cbv beta; intros _ _ X; rewrite X in *.
  - eapply rel_bind; [apply rel_chk64|gro|]. intros v w [-> ->]. apply rel_putres. destruct a, b. cbn in *. subst. apply matches_abs; [assumption|].
    intros Y. specialize (V Y). congruence.
  - apply rel_putres. destruct a, b. cbn in *. subst. apply matches_abs; [assumption|]. intros Y. specialize (V Y). congruence.
  - apply rel_putres. destruct a, b. cbn in *. subst. apply matches_abs; [assumption|]. intros Y. apply (V Y).
  - apply rel_putres. destruct a, b. cbn in *. subst. apply matches_abs; [assumption|]. intros Y. apply (V Y).
  - apply rel_putres. destruct a, b. cbn in *. subst. apply matches_abs; [assumption|]. intros Y. specialize (V Y). congruence.
  - apply rel_putres. destruct a, b. cbn in *. subst. apply matches_abs; [assumption|]. intros Y. specialize (V Y). congruence.
Qed.
Lemma rel_apply2 : forall z lt t o a1 b1 a2 b2, matches a1 a2 -> matches b1 b2 -> rel z z lt matches (apply2 t o a1 b1) (apply2 t o a2 b2).
Proof.
  intros z lt t o a1 b1 a2 b2 Ma Mb. pose proof Ma as (Ea & Fa & Va & Ka). pose proof Mb as (Eb & Fb & Vb & Kb).
  set (f1 := lf_or (r_flags a1) (r_flags b1)). set (f2 := lf_or (r_flags a2) (r_flags b2)).
  assert (Ff : f_forward f1 = f_forward f2) by (unfold f1, f2; rewrite !lf_or_forward; congruence).
  assert (Nv : f_forward f1 = false -> r_value a1 = r_value a2 /\ r_value b1 = r_value b2).
  { unfold f1. rewrite lf_or_forward. intros X. apply orb_false_iff in X. destruct X as [X Y].
    split; [exact (matches_val _ _ Ma X)|exact (matches_val _ _ Mb Y)]. }
  assert (Both : rel z z false (fun _ _ => r_type a1 = TAbs /\ r_type b1 = TAbs) (checktype a1 TAbs ;;; checktype b1 TAbs) (checktype a2 TAbs ;;; checktype b2 TAbs)).
  { eapply rel_bind; [apply rel_checktype, Ea|gro|]. cbv beta. intros _ _ X. eapply rel_weaken; [apply rel_checktype, Eb|]. cbv beta. auto. }
  assert (Put : forall v w, (f_forward f1 = false -> v = w) -> rel z z lt matches (putres t (mkRes f1 TAbs (r_modifier a1) (r_ptr a1) v)) (putres t (mkRes f2 TAbs (r_modifier a2) (r_ptr a2) w))).
  { intros v w X. apply rel_putres, matches_abs; assumption. }
  assert (Putr : forall v w, (f_forward f1 = false -> v = w) -> rel z z lt matches (putres t (mkRes f1 TRel (r_modifier a1) (r_ptr a1) v)) (putres t (mkRes f2 TRel (r_modifier a2) (r_ptr a2) w))).
  { intros v w X. apply rel_putres, matches_rel; assumption. }
  destruct o; cbn [apply2]; cbv zeta; fold f1 f2.
  - (* \ *) eapply rel_bind; [apply rel_checktype, Ea|gro|]. cbv beta. intros _ _ Xa. eapply rel_bind; [apply rel_checktype, Eb|gro|]. cbv beta. intros _ _ Xb.
    apply rel_putres. rewrite Xa in *. rewrite Xb in *. destruct Va as (V1 & V2 & V3 & V4). destruct Vb as (W1 & W2 & W3 & W4).
    specialize (Ka eq_refl). specialize (Kb eq_refl). rewrite <- Ea. repeat split; cbn; auto; try congruence;
      unfold f1, f2, marks in *; destruct (r_flags a1), (r_flags a2), (r_flags b1), (r_flags b2); cbn in *; intuition congruence.
  - (* + *) eapply rel_bind; [apply rel_chk64|gro|]. intros v w [-> ->]. rewrite <- Ea, <- Eb.
    destruct (r_type a1), (r_type b1); try apply rel_error; [apply Put|apply Putr]; intros X; destruct (Nv X); congruence.
  - (* - *) rewrite <- Ea, <- Eb. destruct (r_type a1) eqn:Ta, (r_type b1) eqn:Tb; try apply rel_error;
      try (eapply rel_bind; [apply rel_chk64|gro|]; intros v w [-> ->]; first [apply Put|apply Putr]; intros X; destruct (Nv X); congruence).
    destruct (bitindex 32 0 (r_value a2)); [|apply rel_stops]. destruct (bitindex 32 0 (r_value b2)); [|apply rel_stops].
    if2; [apply rel_error|apply rel_stops].
  - eapply rel_bind; [apply Both|gro|]. intros _ _ [Xa Xb]. eapply rel_bind; [apply rel_chk64|gro|]. intros v w [-> ->]. rewrite <- Ea, Xa. apply Put.
    intros X. destruct (Nv X). congruence.
  - eapply rel_bind; [apply Both|gro|]. intros _ _ [Xa Xb]. rewrite <- Ea, Xa.
    destruct (f_forward f1) eqn:Ef1.
    + destruct (r_value b1 =? 0), (r_value b2 =? 0).
      * apply Put. intros Y; discriminate Y.
      * apply rel_mute2; [unfold chk64; mutes|]. intros. apply Put. intros Y; discriminate Y.
      * eapply rel_mute1; [unfold chk64; mutes|gro|]. intros. apply Put. intros Y; discriminate Y.
      * eapply rel_bind; [apply rel_chk64|gro|]. intros v w [-> ->]. apply Put. intros Y; discriminate Y.
    + destruct (Nv eq_refl) as [N1 N2]. rewrite <- N1, <- N2. destruct (r_value b1 =? 0); [apply Put; reflexivity|].
      eapply rel_bind; [apply rel_chk64|gro|]. intros v w [-> ->]. apply Put. reflexivity.
  - eapply rel_bind; [apply Both|gro|]. intros _ _ [Xa Xb]. rewrite <- Ea, Xa. apply Put. intros X. destruct (Nv X). congruence.
  - eapply rel_bind; [apply Both|gro|]. intros _ _ [Xa Xb]. rewrite <- Ea, Xa. apply Put. intros X. destruct (Nv X). congruence.
  - eapply rel_bind; [apply Both|gro|]. intros _ _ [Xa Xb]. rewrite <- Ea, Xa. apply Put. intros X. destruct (Nv X). congruence.
  - eapply rel_bind; [apply Both|gro|]. intros _ _ [Xa Xb]. rewrite <- Ea, Xa. if1; [|apply rel_stop; discriminate].
    if2; [|apply rel_stops]. apply Put. intros X. destruct (Nv X). congruence.
  - eapply rel_bind; [apply Both|gro|]. intros _ _ [Xa Xb]. rewrite <- Ea, Xa. if1; [|apply rel_stop; discriminate].
    if2; [|apply rel_stops]. apply Put. intros X. destruct (Nv X). congruence.
  - eapply rel_bind; [apply Both|gro|]. intros _ _ [Xa Xb].
    eapply rel_bind; [apply (rel_putres z false t matches)|gro|].
    + split; [reflexivity|split; [exact Ff|split; [intros X; destruct (Nv X); cbn; split; congruence|intros X; discriminate X]]].
    + intros r1 r2 Mr. destruct (32 <? r_value b2); [apply rel_error|]. destruct (32 <? r_value b1); [apply rel_err; nolate|]. apply rel_ret, Mr.
Qed.
Lemma rel_parserows : forall z rec t r1 r2 e rows lt,
  (forall t r1 r2 e, rel z z false matches (rec t r1 e) (rec t r2 e)) -> (forall t r e, pres growing _ (rec t r e)) ->
  rel z z lt matches (parserows rec t r1 e rows) (parserows rec t r2 e rows).
Proof.
  intros z rec t r1 r2 e rows lt H G.
  assert (K : forall t r e rows, pres growing _ (parserows rec t r e rows)) by (intros; apply (J_parserows _ GW); intros; apply G).
  induction rows as [|[l|f o|f] rows IH]; cbn [parserows]; cbv zeta.
  - destruct (checklabel (reverse e)); [apply rel_lt, rel_cstlabel, SF|apply rel_trycst].
  - eapply rel_bind; [apply rel_trygroup|intros; gro; solve [apply K|apply G]|]. intros a b <-. destruct a as [[[[|x c1] [|y c2]] o]|]; try apply IH.
    eapply rel_bind; [apply H|intros; gro; apply G|]. intros a1 a2 Ma. eapply rel_bind; [apply H|gro|]. intros b1 b2 Mb. apply rel_apply2; assumption.
  - eapply rel_bind; [apply rel_filter1|intros; gro; solve [apply K|apply G]|]. intros a b <-. destruct a as [[|]|]; try apply IH.
    eapply rel_bind; [apply H|gro|]. intros a1 a2 Ma. apply rel_apply1; assumption.
  - eapply rel_bind; [apply rel_filter1|intros; gro; solve [apply K|apply G]|]. intros a b <-. destruct a as [[|]|]; try apply IH. apply rel_lt, H.
Qed.
Lemma rel_parse2 : forall z n lt t r1 r2 e, rel z z lt matches (parse2 n t r1 e) (parse2 n t r2 e).
Proof.
  intros z. induction n as [|n IH]; intros lt t r1 r2 e; cbn [parse2]; [apply rel_stops|]. apply rel_parserows; [intros; apply IH|gro].
Qed.
Lemma rel_parse : forall z lt e, rel z z lt matches (parse e) (parse e).
Proof.
  intros z lt [|x e]; cbn [parse]; [apply rel_error|]. eapply rel_bind; [apply rel_filter1|gro|]. intros a b <-.
  eapply rel_bind; [apply rel_maybe|gro|]. intros _ _ _. eapply rel_bind; [apply rel_any|gro|]. intros r1 r2 _. apply rel_parse2.
Qed.
End Ops.
