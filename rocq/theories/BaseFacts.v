(** Lemmas on characters, strings and C integers. *)
From Coq Require Import ZArith NArith List Bool Ascii String Lia ZifyBool ZifyNat ZifyN.
From Verif Require Import Base.
Import ListNotations.
Open Scope Z_scope.

Ltac Zify.zify_post_hook ::= Z.div_mod_to_equations.

Lemma zc_range : forall c, 0 <= zc c < 256.
Proof.
  intros c. unfold zc. pose proof (N_ascii_bounded c). lia.
Qed.

Lemma zc_cz : forall z, zc (cz z) = z mod 256.
Proof.
  intros z. unfold zc, cz. rewrite N_ascii_embedding; lia.
Qed.

Lemma zc_cz_small : forall z, 0 <= z < 256 -> zc (cz z) = z.
Proof. intros z H. rewrite zc_cz. apply Z.mod_small. exact H. Qed.

Lemma cz_zc : forall c, cz (zc c) = c.
Proof.
  intros c. unfold cz. rewrite Z.mod_small by apply zc_range.
  unfold zc. rewrite N2Z.id. apply ascii_N_embedding.
Qed.

Lemma zc_inj : forall a b, zc a = zc b -> a = b.
Proof. intros a b H. rewrite <- (cz_zc a), <- (cz_zc b), H. reflexivity. Qed.

Lemma zc_eqb : forall a b, (zc a =? zc b) = Ascii.eqb a b.
Proof.
  intros a b. destruct (Ascii.eqb_spec a b) as [->|Hn].
  - apply Z.eqb_refl.
  - apply Z.eqb_neq. intros H. apply Hn, zc_inj, H.
Qed.

Lemma streq_refl : forall a, streq a a = true.
Proof. induction a as [|c a IH]; simpl; [reflexivity|]. rewrite Ascii.eqb_refl. exact IH. Qed.

Lemma streq_eq : forall a b, streq a b = true <-> a = b.
Proof.
  intros a b. split.
  - revert b. induction a as [|c a IH]; intros [|d b]; simpl; intros H; try discriminate.
    + reflexivity.
    + apply andb_true_iff in H. destruct H as [H1 H2].
      apply Ascii.eqb_eq in H1. subst d. f_equal. apply IH, H2.
  - intros ->. apply streq_refl.
Qed.

Lemma zlen_nonneg : forall A (l : list A), 0 <= zlen l.
Proof. intros A l. unfold zlen. lia. Qed.

Lemma zlen_app : forall A (a b : list A), zlen (a ++ b) = zlen a + zlen b.
Proof. intros A a b. unfold zlen. rewrite app_length. lia. Qed.

Lemma zlen_cons : forall A (x : A) l, zlen (x :: l) = 1 + zlen l.
Proof. intros A x l. unfold zlen. simpl List.length. lia. Qed.

Lemma zlen_nil : forall A, zlen (@nil A) = 0.
Proof. reflexivity. Qed.

Lemma s2l_app : forall a b, s2l (a ++ b) = s2l a ++ s2l b.
Proof. induction a as [|c a IH]; intros b; simpl; [reflexivity|]. unfold s2l in *. simpl. f_equal. apply IH. Qed.

Lemma toupper_idem : forall c, toupper (toupper c) = toupper c.
Proof.
  intros c. unfold toupper. destruct (islower c) eqn:E; [|rewrite E; reflexivity].
  assert (islower (cz (zc c - 32)) = false) as ->; [|reflexivity].
  unfold islower in *. rewrite zc_cz_small; lia.
Qed.

Lemma skipblanks_length : forall s, (List.length (skipblanks s) <= List.length s)%nat.
Proof.
  induction s as [|c s IH]; simpl; [lia|]. destruct (isblank c); simpl; lia.
Qed.

Lemma skipblanks_idem : forall s, skipblanks (skipblanks s) = skipblanks s.
Proof.
  induction s as [|c s IH]; simpl; [reflexivity|].
  destruct (isblank c) eqn:E; [exact IH|]. simpl. rewrite E. reflexivity.
Qed.

(** Bitwise operations on bytes as arithmetic. *)
Lemma land_255 : forall z, Z.land z 255 = z mod 256.
Proof. intros z. change 255 with (Z.ones 8). rewrite Z.land_ones by lia. reflexivity. Qed.

Lemma land_15 : forall z, Z.land z 15 = z mod 16.
Proof. intros z. change 15 with (Z.ones 4). rewrite Z.land_ones by lia. reflexivity. Qed.

Lemma shiftr_4 : forall z, Z.shiftr z 4 = z / 16.
Proof. intros z. rewrite Z.shiftr_div_pow2 by lia. reflexivity. Qed.

Lemma shiftr_8 : forall z, Z.shiftr z 8 = z / 256.
Proof. intros z. rewrite Z.shiftr_div_pow2 by lia. reflexivity. Qed.

Lemma shiftr_16 : forall z, Z.shiftr z 16 = z / 65536.
Proof. intros z. rewrite Z.shiftr_div_pow2 by lia. reflexivity. Qed.

Lemma shiftr_24 : forall z, Z.shiftr z 24 = z / 16777216.
Proof. intros z. rewrite Z.shiftr_div_pow2 by lia. reflexivity. Qed.

(** Masks of a contiguous field: [land z (2^n * (2^m - 1))]. *)
Lemma land_field : forall z n m, 0 <= n -> 0 <= m ->
  Z.land z (Z.shiftl (Z.ones m) n) = (z / 2 ^ n) mod 2 ^ m * 2 ^ n.
Proof.
  intros z n m Hn Hm.
  rewrite <- Z.shiftr_div_pow2, <- Z.land_ones, <- Z.shiftl_mul_pow2 by lia.
  apply Z.bits_inj'. intros k Hk.
  rewrite Z.land_spec, !Z.shiftl_spec, Z.land_spec by lia.
  destruct (Z.ltb_spec k n) as [H|H].
  - rewrite (Z.testbit_neg_r (Z.ones m)) by lia. rewrite !andb_false_r. reflexivity.
  - rewrite Z.shiftr_spec by lia. replace (k - n + n) with k by lia. reflexivity.
Qed.

Lemma land_ff00 : forall z, Z.land z 65280 = (z / 256) mod 256 * 256.
Proof. intros z. change 65280 with (Z.shiftl (Z.ones 8) 8). rewrite land_field by lia. reflexivity. Qed.

Lemma land_ff0000 : forall z, Z.land z 16711680 = (z / 65536) mod 256 * 65536.
Proof. intros z. change 16711680 with (Z.shiftl (Z.ones 8) 16). rewrite land_field by lia. reflexivity. Qed.

Lemma land_ff000000 : forall z, Z.land z 4278190080 = (z / 16777216) mod 256 * 16777216.
Proof. intros z. change 4278190080 with (Z.shiftl (Z.ones 8) 24). rewrite land_field by lia. reflexivity. Qed.

Lemma land_ffff0000 : forall z, Z.land z 4294901760 = (z / 65536) mod 65536 * 65536.
Proof. intros z. change 4294901760 with (Z.shiftl (Z.ones 16) 16). rewrite land_field by lia. reflexivity. Qed.

Lemma land_ffffff00 : forall z, Z.land z 4294967040 = (z / 256) mod 16777216 * 256.
Proof. intros z. change 4294967040 with (Z.shiftl (Z.ones 24) 8). rewrite land_field by lia. reflexivity. Qed.

Lemma lnot_u8 : forall z, u8 (Z.lnot z) = 255 - z mod 256.
Proof. intros z. unfold u8, Z.lnot. lia. Qed.

(** Statements about all bytes by enumeration. *)
Definition allchars : list ascii := map (fun n => cz (Z.of_nat n)) (seq 0 256).

Lemma in_allchars : forall c, In c allchars.
Proof.
  intros c. unfold allchars. rewrite in_map_iff. exists (Z.to_nat (zc c)).
  pose proof (zc_range c). split.
  - rewrite Z2Nat.id by lia. apply cz_zc.
  - apply in_seq. lia.
Qed.

Lemma byte_cases : forall P : ascii -> bool, forallb P allchars = true -> forall c, P c = true.
Proof. intros P H c. rewrite forallb_forall in H. apply H, in_allchars. Qed.
