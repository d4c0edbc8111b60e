(** Operators: what they accept, what they compute. *)
From Coq Require Import String Ascii ZArith List Bool Lia ZifyBool.
From Verif Require Import Base State Output Operator Parse Frame SpecNumbers SpecEmit SpecExpr SpecOps Walk Eval ExprEval.
Import ListNotations.
Open Scope Z_scope.

Lemma m32_add : forall x y, m32 (m32 x + m32 y) = m32 (x + y).
Proof. intros. unfold m32. symmetry. apply Zplus_mod. Qed.
Lemma m32_sub : forall x y, m32 (m32 x - m32 y) = m32 (x - y).
Proof. intros. unfold m32. symmetry. apply Zminus_mod. Qed.
Lemma m32_mul : forall x y, m32 (m32 x * m32 y) = m32 (x * y).
Proof. intros. unfold m32. symmetry. apply Zmult_mod. Qed.
Lemma m32_bits : forall x, m32 x = Z.land x (Z.ones 32).
Proof. intros. unfold m32. rewrite Z.land_ones by lia. reflexivity. Qed.
Lemma m32_idem : forall x, m32 (m32 x) = m32 x.
Proof. intros. unfold m32. apply Z.mod_mod. lia. Qed.
Lemma m32_bitop : forall f g, (forall x y n, Z.testbit (f x y) n = g (Z.testbit x n) (Z.testbit y n)) ->
  forall x y, m32 (f (m32 x) (m32 y)) = m32 (f x y).
Proof.
  intros f g H x y. rewrite !m32_bits. apply Z.bits_inj'. intros n N. rewrite !Z.land_spec, !H, !Z.land_spec.
  destruct (Z.testbit (Z.ones 32) n); rewrite ?andb_true_r, ?andb_false_r; reflexivity.
Qed.

Theorem worth_low : forall env e v, worth 63 env e v -> ring e -> worth32 env e (m32 v).
Proof.
  intros env e v W. induction W; intros R; cbn [ring] in R.
  - econstructor; eassumption.
  - constructor; assumption.
  - constructor; assumption.
  - constructor; assumption.
  - constructor; auto.
  - replace (m32 (v mod 256)) with (m32 v mod 256); [constructor; auto|]. unfold m32. Z.div_mod_to_equations. lia.
  - replace (m32 ((v / 256) mod 256)) with ((m32 v / 256) mod 256); [constructor; auto|]. unfold m32. Z.div_mod_to_equations. lia.
  - replace (m32 (- v)) with (m32 (- m32 v)); [constructor; auto|].
    change (- m32 v) with (0 - m32 v). change (- v) with (0 - v). rewrite <- (m32_sub 0 v). reflexivity.
  - replace (m32 (- 1 - v)) with (m32 (- 1 - m32 v)); [constructor; auto|].
    rewrite <- (m32_sub (-1) v), <- (m32_sub (-1) (m32 v)), m32_idem. reflexivity.
  - destruct R as (N1 & N2 & Ra & Rb). econstructor; [apply IHW1; exact Ra|apply IHW2; exact Rb|].
    destruct H; try congruence.
    + rewrite <- m32_add. constructor.
    + rewrite <- m32_sub. constructor.
    + rewrite <- m32_mul. constructor.
    + rewrite <- (m32_bitop Z.lor orb Z.lor_spec). constructor.
    + rewrite <- (m32_bitop Z.land andb Z.land_spec). constructor.
    + rewrite <- (m32_bitop Z.lxor xorb Z.lxor_spec). constructor.
    + assert (E : m32 (x * 2 ^ y) = m32 (m32 x * 2 ^ m32 y)).
      { replace (m32 y) with y by (unfold m32; rewrite Z.mod_small; lia). rewrite <- (m32_mul (m32 x)), m32_idem, m32_mul. reflexivity. }
      rewrite E. constructor.
Qed.

Theorem parse_low : forall s e v, worth 63 (known s) e v -> ranked e -> ring e ->
  (exists s', parse (show e) s = (Bad (UB "filter: buffer overflow"), s')) \/
  (exists r s', parse (show e) s = (Ok r, s') /\ worth32 (known s) e (m32 r.(r_value))).
Proof.
  intros s e v W R G. destruct (parse_value s e v W R) as [H|(r & s' & E & T & V & S)]; [left; exact H|right].
  exists r, s'. split; [exact E|]. rewrite V. apply worth_low; assumption.
Qed.

(** Stored numbers of up to four bytes depend on 32 bits. *)
Theorem little_low : forall n v, (n <= 4)%nat -> little n (m32 v) = little n v.
Proof.
  intros n v N. assert (G : forall n k v, Z.of_nat n * 8 <= k -> little n (v mod 2 ^ k) = little n v).
  { clear. induction n as [|n IH]; intros k v K; [reflexivity|]. cbn [little].
    assert (E : 2 ^ k = 256 * 2 ^ (k - 8)).
    { change 256 with (2 ^ 8). rewrite <- Z.pow_add_r by lia. f_equal. lia. }
    assert (P : 0 < 2 ^ (k - 8)) by (apply Z.pow_pos_nonneg; lia).
    rewrite E. rewrite Z.rem_mul_r by lia. f_equal.
    - rewrite (Z.mul_comm 256), Z_mod_plus_full. apply Z.mod_mod. lia.
    - rewrite (Z.mul_comm 256), Z_div_plus_full by lia. rewrite (Z.div_small (v mod 256)) by (apply Z.mod_pos_bound; lia).
      rewrite Z.add_0_l. apply IH. lia. }
  unfold m32. apply G. lia.
Qed.
Theorem word_low : forall n lohi v, (n <= 4)%nat -> word n lohi (m32 v) = word n lohi v.
Proof. intros n lohi v N. unfold word. rewrite little_low by exact N. reflexivity. Qed.

(** ** Kinds *)
Definition fine (m : M result) (s : state) (k : ltype) (v : Z) : Prop :=
  exists r s', m s = (Ok r, s') /\ r.(r_type) = k /\ r.(r_value) = v /\ same s s'.

Lemma putres_fine : forall top r s k v, r.(r_type) = k -> r.(r_value) = v -> fine (putres top r) s k v.
Proof.
  intros top r s k v T V. destruct top; (eexists r, _; split; [reflexivity|]);
    (split; [exact T|]); (split; [exact V|]); apply (same_refl s).
Qed.
Lemma check_ok : forall r k s, r.(r_type) = k -> checktype r k s = (Ok tt, s).
Proof. intros r k s <-. unfold checktype. destruct (r_type r); reflexivity. Qed.
Lemma check_bad : forall r k, r.(r_type) <> k -> exists m, checktype r k = err m.
Proof. intros r k N. unfold checktype. destruct (r_type r), k; cbn [ltype_eqb]; try congruence; eexists; reflexivity. Qed.
Lemma err_bind : forall A B m (f : A -> M B) s, bind (err m) f s = err m s.
Proof. intros. unfold err. apply error_bind. Qed.
Lemma chk_ok : forall v s, fits 63 v -> chk64 v s = (Ok v, s).
Proof. intros v s F. unfold chk64, in_s64, fits in *. destruct (_ && _) eqn:E; [reflexivity|]. lia. Qed.
Lemma chk_bad : forall v s, ~ fits 63 v -> chk64 v s = (Bad (UB "signed overflow"), s).
Proof. intros v s F. unfold chk64, in_s64, fits in *. destruct (_ && _) eqn:E; [|reflexivity]. lia. Qed.
Lemma fits_dec : forall v, fits 63 v \/ ~ fits 63 v.
Proof. intros v. unfold fits. lia. Qed.

Lemma both_ok : forall a b s, a.(r_type) = TAbs -> b.(r_type) = TAbs -> forall B (k : M B),
  ((checktype a TAbs ;;; checktype b TAbs) ;;; k) s = k s.
Proof. intros a b s Ta Tb B k. unfold bind. rewrite (check_ok a TAbs s Ta), (check_ok b TAbs s Tb). reflexivity. Qed.

Lemma quot_fits : forall x y, fits 63 x -> y <> 0 -> ~ (x = - 2 ^ 63 /\ y = -1) -> fits 63 (Z.quot x y).
Proof.
  unfold fits. intros x y F N U.
  assert (A : Z.abs (Z.quot x y) <= Z.abs x).
  { rewrite <- Z.quot_abs by lia. rewrite Z.quot_div_nonneg by lia. apply Z.div_le_upper_bound; nia. }
  destruct (Z.eq_dec x (- 2 ^ 63)) as [->|Nx]; [|lia].
  split; [lia|]. assert (Z.quot (- 2 ^ 63) y <> 2 ^ 63); [|lia].
  intros Q. assert (y <> -1) by (intros ->; apply U; split; reflexivity).
  pose proof (Z.quot_rem' (- 2 ^ 63) y) as E. pose proof (Z.rem_bound_abs (- 2 ^ 63) y N) as L. rewrite Q in E. nia.
Qed.

Theorem apply2_accepts : forall top o a b k s, takes2 o a.(r_type) b.(r_type) k -> fits 63 a.(r_value) ->
  ~ undefined o a.(r_value) b.(r_value) -> (o = OBit -> b.(r_value) <= 32) ->
  fine (apply2 top o a b) s k (computed o a.(r_value) b.(r_value)).
Proof.
  intros top o a b k s T Fa U Bt. remember (r_type a) as ta eqn:Ta. remember (r_type b) as tb eqn:Tb.
  symmetry in Ta, Tb. destruct T as [o A| | | | |].
  - unfold fine. destruct A; cbn [apply2 computed undefined] in *.
    + unfold bind. rewrite chk_ok by (unfold fits in *; lia). rewrite Ta, Tb. apply putres_fine; reflexivity.
    + rewrite Ta, Tb. unfold bind. rewrite chk_ok by (unfold fits in *; lia). apply putres_fine; reflexivity.
    + rewrite both_ok by assumption. unfold bind. rewrite chk_ok by (unfold fits in *; lia). apply putres_fine; [exact Ta|reflexivity].
    + rewrite both_ok by assumption. destruct (r_value b =? 0) eqn:E; [apply putres_fine; [exact Ta|reflexivity]|].
      unfold bind. rewrite chk_ok by (apply quot_fits; [assumption|lia|assumption]). apply putres_fine; [exact Ta|reflexivity].
    + rewrite both_ok by assumption. apply putres_fine; [exact Ta|reflexivity].
    + rewrite both_ok by assumption. apply putres_fine; [exact Ta|reflexivity].
    + rewrite both_ok by assumption. apply putres_fine; [exact Ta|reflexivity].
    + rewrite both_ok by assumption. destruct (_ && _) eqn:E; [|lia]. apply putres_fine; [exact Ta|].
      cbn [r_value]. rewrite Z.shiftl_mul_pow2 by lia. reflexivity.
    + rewrite both_ok by assumption. destruct (_ && _) eqn:E; [|lia]. apply putres_fine; [exact Ta|].
      cbn [r_value]. rewrite Z.shiftr_div_pow2 by lia. reflexivity.
  - unfold fine. cbn [apply2 computed]. rewrite both_ok by assumption. unfold bind.
    match goal with |- context [putres top ?r] => destruct (putres_fine top r s TBit (r_value a) eq_refl eq_refl) as (r' & s' & E & X) end.
    rewrite E. destruct (32 <? r_value b) eqn:L; [specialize (Bt eq_refl); lia|]. exists r', s'. split; [reflexivity|exact X].
  - unfold fine. cbn [apply2 computed undefined] in *. unfold bind. rewrite chk_ok by (unfold fits in *; lia). rewrite Ta, Tb.
    apply putres_fine; reflexivity.
  - unfold fine. cbn [apply2 computed undefined] in *. rewrite Ta, Tb. unfold bind. rewrite chk_ok by (unfold fits in *; lia).
    apply putres_fine; reflexivity.
  - unfold fine. cbn [apply2 computed undefined] in *. rewrite Ta, Tb. unfold bind. rewrite chk_ok by (unfold fits in *; lia).
    apply putres_fine; reflexivity.
  - unfold fine. cbn [apply2 computed]. unfold bind. rewrite (check_ok a TRegs s Ta), (check_ok b TRegs s Tb).
    apply putres_fine; [exact Ta|reflexivity].
Qed.

Theorem apply2_undefined : forall top o a b k s, takes2 o a.(r_type) b.(r_type) k ->
  undefined o a.(r_value) b.(r_value) -> exists w, apply2 top o a b s = (Bad (UB w), s).
Proof.
  intros top o a b k s T U. remember (r_type a) as ta eqn:Ta. remember (r_type b) as tb eqn:Tb.
  symmetry in Ta, Tb. destruct T as [o A| | | | |]; [destruct A|..]; cbn [apply2 undefined] in *; try contradiction.
  - unfold bind. rewrite chk_bad by assumption. eexists; reflexivity.
  - rewrite Ta, Tb. unfold bind. rewrite chk_bad by assumption. eexists; reflexivity.
  - rewrite both_ok by assumption. unfold bind. rewrite chk_bad by assumption. eexists; reflexivity.
  - rewrite both_ok by assumption. destruct U as [-> ->]. eexists; reflexivity.
  - rewrite both_ok by assumption. destruct (_ && _) eqn:E; [lia|]. eexists; reflexivity.
  - rewrite both_ok by assumption. destruct (_ && _) eqn:E; [lia|]. eexists; reflexivity.
  - unfold bind. rewrite chk_bad by assumption. eexists; reflexivity.
  - rewrite Ta, Tb. unfold bind. rewrite chk_bad by assumption. eexists; reflexivity.
  - rewrite Ta, Tb. unfold bind. rewrite chk_bad by assumption. eexists; reflexivity.
Qed.

Lemma two_checks : forall a b ka kb, r_type a <> ka \/ r_type b <> kb -> exists m, forall B (k : M B) s,
  ((checktype a ka ;;; checktype b kb) ;;; k) s = err m s.
Proof.
  intros a b ka kb N. assert (D : r_type a = ka \/ r_type a <> ka) by (destruct (r_type a), ka; ((left; reflexivity) || (right; discriminate))).
  destruct D as [E|D].
  - destruct N as [N|N]; [congruence|]. destruct (check_bad b kb N) as [m M]. exists m. intros B k s.
    unfold bind. rewrite (check_ok a ka s E), M. apply (err_bind unit B m (fun _ => k) s).
  - destruct (check_bad a ka D) as [m M]. exists m. intros B k s. rewrite M. unfold bind at 1. rewrite err_bind.
    apply (err_bind unit B m (fun _ => k) s).
Qed.
Lemma three_checks : forall a b ka kb, r_type a <> ka \/ r_type b <> kb -> exists m, forall B (k : M B) s,
  (checktype a ka ;;; checktype b kb ;;; k) s = err m s.
Proof.
  intros a b ka kb N. destruct (two_checks a b ka kb N) as [m H]. exists m. intros B k s. rewrite <- (H B k s).
  unfold bind. destruct (checktype a ka s) as [[?|?] s1]; reflexivity.
Qed.

Theorem apply2_refuses : forall top o a b, (forall k, ~ takes2 o a.(r_type) b.(r_type) k) ->
  ~ (o = OSub /\ a.(r_type) = TRegs /\ b.(r_type) = TRegs) ->
  exists m, forall s, apply2 top o a b s = err m s \/
    o = OAdd /\ undefined o a.(r_value) b.(r_value) /\ apply2 top o a b s = (Bad (UB "signed overflow"), s).
Proof.
  intros top o a b N R.
  assert (G : arithmetic o -> o <> OAdd -> o <> OSub -> r_type a <> TAbs \/ r_type b <> TAbs).
  { intros A _ _. destruct (r_type a); try (left; discriminate). destruct (r_type b); try (right; discriminate).
    elim (N TAbs). constructor. exact A. }
  assert (L : o = OBit -> r_type a <> TAbs \/ r_type b <> TAbs).
  { intros ->. destruct (r_type a); try (left; discriminate). destruct (r_type b); try (right; discriminate).
    elim (N TBit). constructor. }
  assert (Q : o = ORlist -> r_type a <> TRegs \/ r_type b <> TRegs).
  { intros ->. destruct (r_type a); try (left; discriminate). destruct (r_type b); try (right; discriminate).
    elim (N TRegs). constructor. }
  destruct o; cbn [apply2].
  - destruct (three_checks a b TRegs TRegs (Q eq_refl)) as [m H]. exists m. intros s. left. apply H.
  - exists "illegal operator"%string. intros s. unfold bind. destruct (fits_dec (r_value a + r_value b)) as [F|F].
    + left. rewrite chk_ok by exact F.
      destruct (r_type a); try reflexivity. destruct (r_type b); try reflexivity; [elim (N TAbs); repeat constructor|elim (N TRel); constructor].
    + right. rewrite chk_bad by exact F. repeat split. exact F.
  - exists "illegal operator"%string. intros s. left. destruct (r_type a), (r_type b); try reflexivity.
    all: first [solve [elim R; repeat split]|solve [elim (N TAbs); repeat constructor]|elim (N TRel); constructor].
  - destruct (two_checks a b TAbs TAbs) as [m H]; [apply G; [constructor|discriminate|discriminate]|]. exists m. intros s. left. apply H.
  - destruct (two_checks a b TAbs TAbs) as [m H]; [apply G; [constructor|discriminate|discriminate]|]. exists m. intros s. left. apply H.
  - destruct (two_checks a b TAbs TAbs) as [m H]; [apply G; [constructor|discriminate|discriminate]|]. exists m. intros s. left. apply H.
  - destruct (two_checks a b TAbs TAbs) as [m H]; [apply G; [constructor|discriminate|discriminate]|]. exists m. intros s. left. apply H.
  - destruct (two_checks a b TAbs TAbs) as [m H]; [apply G; [constructor|discriminate|discriminate]|]. exists m. intros s. left. apply H.
  - destruct (two_checks a b TAbs TAbs) as [m H]; [apply G; [constructor|discriminate|discriminate]|]. exists m. intros s. left. apply H.
  - destruct (two_checks a b TAbs TAbs) as [m H]; [apply G; [constructor|discriminate|discriminate]|]. exists m. intros s. left. apply H.
  - destruct (two_checks a b TAbs TAbs) as [m H]; [apply L; reflexivity|]. exists m. intros s. left. apply H.
Qed.

Theorem apply2_range : forall top a b s, a.(r_type) = TRegs -> b.(r_type) = TRegs ->
  apply2 top OSub a b s = err "illegal register list" s \/ apply2 top OSub a b s = (Bad Hang, s) \/
  apply2 top OSub a b s = (Bad (UB "opsub: shift by 32"), s).
Proof.
  intros top a b s Ta Tb. cbn [apply2]. rewrite Ta, Tb. destruct (bitindex 32 0 (r_value a)), (bitindex 32 0 (r_value b)); auto.
  destruct (_ <? _); auto.
Qed.

Theorem apply2_zero : forall top a b s, a.(r_type) = TAbs -> b.(r_type) = TAbs -> b.(r_value) = 0 ->
  fine (apply2 top ODiv a b) s TAbs a.(r_value).
Proof.
  intros top a b s Ta Tb Z. unfold fine. cbn [apply2]. rewrite both_ok by assumption. rewrite Z. apply putres_fine; [exact Ta|reflexivity].
Qed.

(** The value of an operation on one operand. *)
Theorem apply1_accepts : forall top o a k s, takes1 o a.(r_type) k ->
  (o = OMinus -> a.(r_value) <> - 2 ^ 63) -> fits 63 a.(r_value) ->
  fine (apply1 top o a) s k (computed1 o a.(r_modifier) a.(r_value)).
Proof.
  intros top o a k s T U F. remember (r_type a) as ta eqn:Ta. symmetry in Ta. unfold fine.
  destruct T; cbn [apply1 computed1]; unfold bind; rewrite (check_ok _ _ s Ta).
  - specialize (U eq_refl). rewrite chk_ok by (unfold fits in *; lia). destruct a as [a1 a2 a3 a4 a5]. apply putres_fine; [exact Ta|reflexivity].
  - destruct a as [a1 a2 a3 a4 a5]. apply putres_fine; [exact Ta|]. cbn [set_r_value r_value]. unfold Z.lnot, Z.pred. lia.
  - destruct a as [a1 a2 a3 a4 a5]. apply putres_fine; [exact Ta|]. cbn [set_r_value r_value].
    change 255 with (Z.ones 8). rewrite Z.land_ones by lia. reflexivity.
  - destruct a as [a1 a2 a3 a4 a5]. apply putres_fine; [exact Ta|]. cbn [set_r_value r_value].
    change 255 with (Z.ones 8). rewrite Z.land_ones, Z.shiftr_div_pow2 by lia. reflexivity.
  - apply putres_fine; reflexivity.
  - apply putres_fine; reflexivity.
Qed.
Theorem apply1_refuses : forall top o a, (forall k, ~ takes1 o a.(r_type) k) ->
  exists m, forall s, apply1 top o a s = err m s.
Proof.
  intros top o a N.
  assert (G : exists ka, (o = OBitnumb \/ o = OBitaddr -> ka = TBit) /\ (o <> OBitnumb -> o <> OBitaddr -> ka = TAbs)).
  { destruct o; [exists TAbs|exists TAbs|exists TBit|exists TBit|exists TAbs|exists TAbs]; split; try reflexivity; intros; try congruence; intuition discriminate. }
  destruct G as (ka & G1 & G2).
  assert (D : r_type a <> ka).
  { intros E. destruct o; try (rewrite G1 in E by tauto); try (rewrite G2 in E by discriminate); rewrite E in N; apply (N TAbs); constructor. }
  destruct (check_bad a ka D) as [m M]. exists m. intros s.
  destruct o; try (rewrite G1 in M by tauto); try (rewrite G2 in M by discriminate); cbn [apply1]; rewrite M; apply err_bind.
Qed.
