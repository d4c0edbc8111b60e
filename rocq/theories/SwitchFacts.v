(** The switches. *)
From Coq Require Import String Ascii ZArith List Bool Lia ZifyBool ZifyNat.
From Verif Require Import Base State Tree Filter Output Label Parse Scode Pseudos Cpu6800 Crasm.
From Verif Require Import BaseFacts TreeFacts Frame Eval CpuFacts SpecEmit SpecStar SpecLine LineRun AssignFacts.
From Verif Require SplitFacts SpecSplit StarFacts.
Import ListNotations.
Open Scope Z_scope.

Lemma tupd_id : forall k f t, (forall l, tfind k t = Some l -> f l = l) -> tupd k f t = t.
Proof.
  intros k f. induction t as [|a IHa k' v b IHb]; intros H; [reflexivity|]. cbn [tupd tfind] in *.
  destruct (strcmp k k'); [rewrite (H v eq_refl); reflexivity|rewrite IHa by exact H; reflexivity|rewrite IHb by exact H; reflexivity].
Qed.
Lemma advance_same : forall s u s', s.(ct).(advance) = 0 -> star_advance s = (Ok u, s') -> near s s'.
Proof.
  intros s u s' A E. unfold star_advance, bind in E. cbn [gets] in E. rewrite A, Z.add_0_r in E. destruct (in_s64 _); [|discriminate E].
  unfold upd_sy, modify in E. apply (f_equal snd) in E. cbn [snd] in E. subst s'.
  rewrite tupd_id; [repeat split|]. intros l F. unfold starvalue, star. rewrite F. apply set_value_same.
Qed.

Lemma onoff_ok : forall on off o s u s', onoff on off o s = (Ok u, s') ->
  (says "ON" o /\ on s = (Ok u, s')) \/ (says "OFF" o /\ off s = (Ok u, s')).
Proof.
  intros on off o s u s' E. unfold onoff in E. step E b1 s1 E1.
  destruct (SplitFacts.filter0_kw (s2l "ON") "_ON_" _ _ _ _ eq_refl eq_refl ltac:(discriminate) E1) as [-> K1].
  destruct b1; [left; split; [apply K1; reflexivity|exact E]|]. step E b2 s2 E2.
  destruct (SplitFacts.filter0_kw (s2l "OFF") "_OFF_" _ _ _ _ eq_refl eq_refl ltac:(discriminate) E2) as [-> K2].
  destruct b2; [right; split; [apply K2; reflexivity|exact E]|]. elim (error_never _ _ _ _ _ E).
Qed.
Lemma upd_fl_ok : forall f s u s', upd_fl f s = (Ok u, s') -> s' = flags_to f s.
Proof. intros f s u s' E. unfold upd_fl, modify in E. apply (f_equal snd) in E. cbn [snd] in E. subst s'. reflexivity. Qed.
Lemma nonempty_nothing : forall o, nonempty o = false -> says_nothing o.
Proof. intros [[|c t]|] H; [right; reflexivity|discriminate H|left; reflexivity]. Qed.

Lemma switch_ok : forall h m l o s u s', is_switch h = true -> exec h m l o s = (Ok u, s') -> switched h o s s'.
Proof.
  intros h m l o s u s' H E. destruct h; try discriminate H; cbn [exec] in E.
  - apply onoff_ok in E. destruct E as [[K E]|[K E]]; apply upd_fl_ok in E; subst s'; constructor; exact K.
  - unfold Xcode in E. step E v s1 E1. apply when_err in E1. destruct E1 as [N ->]. apply nonempty_nothing in N. step E v1 s2 E2.
    apply upd_fl_ok in E. subst s'. unfold newsegment, upd_inp, modify in E2. apply (f_equal snd) in E2. cbn [snd] in E2. subst s2. exact (sw_code o s N).
  - unfold Xdummy in E. step E v s1 E1. apply when_err in E1. destruct E1 as [N ->]. apply nonempty_nothing in N. step E v1 s2 E2.
    apply upd_fl_ok in E. subst s'. unfold newsegment, upd_inp, modify in E2. apply (f_equal snd) in E2. cbn [snd] in E2. subst s2. exact (sw_dummy o s N).
  - apply onoff_ok in E. destruct E as [[K E]|[K E]]; apply upd_fl_ok in E; subst s'; constructor; exact K.
  - apply onoff_ok in E. destruct E as [[K E]|[K E]].
    + unfold bind at 1 in E. cbn [gets] in E. destruct (a_nolist (fl s)) eqn:N; cbn [negb when] in E.
      * assert (s = s') by (unfold ret in E; congruence). subst s'. apply sw_list_never; assumption.
      * apply upd_fl_ok in E. subst s'. apply sw_list_on; assumption.
    + apply upd_fl_ok in E; subst s'; constructor; exact K.
  - apply onoff_ok in E. destruct E as [[K E]|[K E]]; apply upd_fl_ok in E; subst s'; constructor; exact K.
  - unfold Xoutput in E. step E v s1 E1. apply upd_fl_ok in E1. step E b1 s2 E2.
    destruct (SplitFacts.filter0_kw (s2l "HEX") "_HEX_" _ _ _ _ eq_refl eq_refl ltac:(discriminate) E2) as [-> K1]. destruct b1.
    + apply upd_fl_ok in E. subst s1 s'. apply (sw_hex o s). apply K1. reflexivity.
    + step E b2 s3 E3. destruct (SplitFacts.filter0_kw (s2l "SCODE") "_SCODE_" _ _ _ _ eq_refl eq_refl ltac:(discriminate) E3) as [-> K2].
      destruct b2; [|elim (error_never _ _ _ _ _ E)]. apply upd_fl_ok in E. subst s1 s'. apply (sw_scode o s). apply K2. reflexivity.
Qed.

Lemma near_nolist : forall s s', near s s' -> a_nolist (fl s') = a_nolist (fl s).
Proof. intros s s' (_ & _ & _ & _ & _ & H & _). exact (f_equal a_nolist H). Qed.
Lemma near_flags : forall f s s', (forall a b, set_a_org_gv false a = set_a_org_gv false b -> set_a_org_gv false (f a) = set_a_org_gv false (f b)) ->
  near s s' -> near (flags_to f s) (flags_to f s').
Proof. intros f s s' C (A1 & A2 & A3 & A4 & A5 & A6 & A7 & A8 & A9). repeat split; try assumption. cbn [fl set_fl flags_to]. apply C. exact A6. Qed.
Lemma near_next : forall s s', near s s' -> near (next_segment s) (next_segment s').
Proof.
  intros s s' (A1 & A2 & A3 & A4 & A5 & A6 & A7 & A8 & A9). repeat split; try assumption. cbn [inp set_inp next_segment].
  destruct (inp s), (inp s'). cbn in *. inversion A7. subst. reflexivity.
Qed.
Ltac org := intros a b X; destruct a, b; cbn in *; inversion X; subst; reflexivity.
Lemma switched_near : forall h o s1 s2 s, near s s1 -> switched h o s1 s2 -> exists t, switched h o s t /\ near t s2.
Proof.
  intros h o s1 s2 s N W. pose proof (near_nolist _ _ N) as NL. destruct W;
    (eexists; split; [first [apply sw_list_on; [assumption|congruence]|apply sw_list_never; [assumption|congruence]|constructor; assumption]|]);
    try exact N; try apply near_next; try (apply near_flags; [org|exact N]).
Qed.

Lemma switched_advance : forall h o s s', switched h o s s' -> s'.(ct).(advance) = s.(ct).(advance).
Proof. intros h o s s' W. destruct W; reflexivity. Qed.

Theorem switch_line : forall self n li s f s' q key l h, asmline self n li true s = (Ok f, s') -> taken_apart s q ->
  q.(q_mnemo) = Some (key, l) -> of_its_own q -> l.(l_ptr) = PFun h -> is_switch h = true -> q.(q_label) = None ->
  exists t, switched h q.(q_oper) s t /\ near t s'.
Proof.
  intros self n li s f s' q key l h E T Q O P H L. destruct (line_instr _ _ _ _ _ _ _ _ _ E T Q O) as (h' & s1 & s2 & s3 & s4 & N1 & A1 & Lb & P' & X & S & N4).
  rewrite P in P'. injection P' as <-. unfold labelled in Lb. rewrite L in Lb.
  assert (s2 = s1) by (destruct (f_deflabel _); [destruct Lb as [-> Lb]; reflexivity|exact Lb]). subst s2.
  pose proof (switch_ok _ _ _ _ _ _ _ H X) as W. destruct (switched_near _ _ _ _ _ N1 W) as (t & W' & N'). exists t. split; [exact W'|].
  apply (near_trans _ _ _ N'). apply (near_trans _ s4); [|exact N4]. apply (advance_same _ _ _) with (2 := S).
  rewrite (switched_advance _ _ _ _ W). exact A1.
Qed.

(** ** FAIL *)
Lemma error_result : forall A m s, exists b s', @error A m s = (Bad b, s') /\ (b = Err m \/ how (@Bad A b) = Dead).
Proof.
  intros A m s. pose proof (error_never A m s) as N. destruct (@error A m s) as [[a|b] s'] eqn:E; [elim (N _ _ eq_refl)|]. exists b, s'. split; [reflexivity|].
  unfold error in E. unfold bind at 1 in E. cbn [gets] in E. cbv zeta in E. unfold bind at 1 in E.
  match type of E with (match ?m1 s with _ => _ end) = _ => destruct (m1 s) as [[u1|b1] s1] eqn:E1 end.
  2:{ right. assert (b1 = b) by congruence. subst b1. destruct (negb _); [|discriminate E1]. destruct (80 <=? _); [apply (f_equal fst) in E1; cbn [fst stop] in E1; inversion E1; reflexivity|].
      unfold bind in E1. cbn [upd_fl modify] in E1. unfold upd_fl, modify in E1.
      match type of E1 with outputraw ?t ?s0 = _ => pose proof (pres_outputraw _ StarFacts.idling_osteps t s0) as P end. rewrite E1 in P. destruct b; auto; elim P. }
  unfold bind at 1 in E. destruct (outputline s1) as [[u2|b1] s2] eqn:E2.
  2:{ right. assert (b1 = b) by congruence. subst b1. pose proof (pres_outputline _ StarFacts.idling_osteps s1) as P. rewrite E2 in P. destruct b; auto; elim P. }
  unfold bind at 1 in E. match type of E with (match ?m3 s2 with _ => _ end) = _ => destruct (m3 s2) as [[u3|b1] s3] eqn:E3 end.
  2:{ right. assert (b1 = b) by congruence. subst b1. destruct (advance (ct s) =? 0); cbn [negb when] in E3; [discriminate E3|]. unfold star_advance, bind in E3. cbn [gets] in E3.
      destruct (in_s64 _); [discriminate E3|]. apply (f_equal fst) in E3. cbn [fst stop] in E3. inversion E3. reflexivity. }
  left. unfold bind, upd_fl, modify, stop in E. apply (f_equal fst) in E. cbn [fst] in E. congruence.
Qed.


Theorem fail_line : forall self n li s r s' q key l, asmline self n li true s = (r, s') -> taken_apart s q ->
  q.(q_mnemo) = Some (key, l) -> of_its_own q -> l.(l_type) = TMnemo -> l.(l_ptr) = PFun HFail -> l.(l_flags).(f_deflabel) = false -> q.(q_label) = None ->
  r = Bad (Err (fail_text q.(q_oper))) \/ how r = Dead.
Proof.
  intros self n li s r s' q key l E (s1 & t & s2 & s3 & E1 & E2 & N & E3) Q O Ty P D L. unfold of_its_own in O. rewrite Q in O. destruct O as (_ & O2 & O3).
  unfold asmline in E. unfold bind at 1 in E. rewrite E1 in E. unfold bind at 1 in E. cbn [gets] in E. unfold bind at 1 in E. rewrite E2 in E.
  destruct t as [|c t]; [elim N; reflexivity|]. unfold bind at 1 in E. rewrite E3, Q in E. unfold dispatch in E. cbv zeta in E.
  rewrite O2, O3, D, L, Ty, P in E. cbn [ogiven andb orb when] in E. rewrite Bool.andb_false_r in E. cbn [when] in E. unfold bind at 1 2 in E. cbn [ret] in E.
  unfold bind at 1 in E. cbn [exec] in E.
  assert (X : Xfail (q_oper q) s3 = error (fail_text (q_oper q)) s3) by (unfold Xfail; destruct (q_oper q) as [[|d t0]|]; reflexivity).
  rewrite X in E. destruct (error_result unit (fail_text (q_oper q)) s3) as (b & sx & Ex & [-> |Dd]); rewrite Ex in E.
  - left. congruence.
  - right. assert (r = Bad b) by congruence. subst r. destruct b; try discriminate Dd; reflexivity.
Qed.
