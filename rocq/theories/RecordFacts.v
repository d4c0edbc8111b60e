(** Proofs about the records written by Scode.v. *)
From Coq Require Import String Ascii ZArith List Bool Lia ZifyBool ZifyNat.
From Verif Require Import Base BaseFacts State Tree Filter Output Scode SpecRecords.
Import ListNotations.
Open Scope Z_scope.

Definition byte (b : Z) : Prop := 0 <= b < 256.

Lemma digit_value_hexa : forall d, 0 <= d < 16 -> digit_value (hexa d) = Some d.
Proof.
  intros d H.
  assert (d = 0 \/ d = 1 \/ d = 2 \/ d = 3 \/ d = 4 \/ d = 5 \/ d = 6 \/ d = 7 \/
          d = 8 \/ d = 9 \/ d = 10 \/ d = 11 \/ d = 12 \/ d = 13 \/ d = 14 \/ d = 15) by lia.
  repeat destruct H0 as [-> | H0]; try subst d; reflexivity.
Qed.

Lemma read_pairs_hex2 : forall b t, byte b ->
  read_pairs (hex2 b ++ t) = match read_pairs t with Some l => Some (b :: l) | None => None end.
Proof.
  intros b t H. unfold byte in H. unfold hex2. cbn [app read_pairs].
  rewrite land_15, land_15, shiftr_4.
  rewrite !digit_value_hexa by lia.
  destruct (read_pairs t); [|reflexivity]. do 2 f_equal. lia.
Qed.

Lemma read_pairs_list : forall l t, Forall byte l ->
  read_pairs (flat_map hex2 l ++ t) =
  match read_pairs t with Some l' => Some (l ++ l') | None => None end.
Proof.
  induction l as [|b l IH]; intros t H.
  - cbn. destruct (read_pairs t); reflexivity.
  - inversion H; subst. cbn [flat_map]. rewrite <- app_assoc, read_pairs_hex2 by assumption.
    rewrite IH by assumption. destruct (read_pairs t); reflexivity.
Qed.

Lemma u8_byte : forall z, byte (u8 z).
Proof. intros z. unfold byte, u8. lia. Qed.

Lemma scodebytes_spec : forall bs ck,
  scodebytes ck bs =
  (flat_map hex2 (map u8 bs),
   match bs with [] => ck | _ => u8 (ck + total (map u8 bs)) end).
Proof.
  induction bs as [|b bs IH]; intros ck; cbn [scodebytes map flat_map]; [reflexivity|].
  rewrite IH. f_equal. destruct bs as [|c bs]; cbn [total map fold_right]; unfold u8.
  - f_equal. unfold u8. lia.
  - unfold u8 in *. set (T := fold_right _ _ _). lia.
Qed.

Lemma map_u8_id : forall l, Forall byte l -> map u8 l = l.
Proof.
  induction l as [|b l IH]; intros H; inversion H; subst; cbn; [reflexivity|].
  f_equal; [unfold u8, byte in *; lia | apply IH; assumption].
Qed.

Lemma map_u8_byte : forall l, Forall byte (map u8 l).
Proof. induction l; cbn; constructor; auto using u8_byte. Qed.

Lemma total_app : forall a b, total (a ++ b) = total a + total b.
Proof.
  unfold total. induction a as [|x a IH]; intros b; cbn [app fold_right]; [lia|]. rewrite IH. lia.
Qed.

(** Body of a record: hex pairs of [l], checksum and newline. *)
Lemma read_body : forall l ck, Forall byte l ->
  read_pairs (flat_map hex2 l ++ hex2 (u8 ck) ++ [nl]) = Some (l ++ [u8 ck]).
Proof.
  intros l ck H. rewrite read_pairs_list by assumption.
  rewrite read_pairs_hex2 by apply u8_byte. reflexivity.
Qed.

Lemma removelast_app1 : forall (l : list Z) x, removelast (l ++ [x]) = l.
Proof. intros l x. rewrite removelast_app by discriminate. cbn. apply app_nil_r. Qed.

(** The record's sum after the checksum has been added. *)
Lemma ones_sum : forall T, (T + u8 (Z.lnot (u8 T))) mod 256 = 255.
Proof. intros T. rewrite lnot_u8. unfold u8. lia. Qed.

(** [srec] in a normal form. *)
Definition addr_width (start : Z) : nat :=
  if negb ((start / 16777216) mod 256 =? 0) then 4%nat
  else if negb ((start / 65536) mod 256 =? 0) then 3%nat else 2%nat.

Definition addr_bytes (start : Z) : list Z :=
  match addr_width start with
  | 4%nat => [(start / 16777216) mod 256; (start / 65536) mod 256; (start / 256) mod 256; start mod 256]
  | 3%nat => [(start / 65536) mod 256; (start / 256) mod 256; start mod 256]
  | _ => [(start / 256) mod 256; start mod 256]
  end.

Definition type_digit (start : Z) : ascii :=
  match addr_width start with 4%nat => "3"%char | 3%nat => "2"%char | _ => "1"%char end.

Lemma srec_normal : forall start bytes, Forall byte bytes -> zlen bytes <= 250 ->
  exists l ck,
    srec start bytes = "S"%char :: type_digit start :: flat_map hex2 l ++ hex2 (u8 ck) ++ [nl]
    /\ l = (zlen bytes + Z.of_nat (addr_width start) + 1) :: addr_bytes start ++ bytes
    /\ (total (l ++ [u8 ck])) mod 256 = 255
    /\ Forall byte l.
Proof.
  intros start bytes Hb Hl. pose proof (zlen_nonneg _ bytes) as Hnn.
  unfold srec. rewrite land_ff000000, land_ff0000.
  unfold addr_bytes, type_digit, addr_width.
  assert (E3 : ((start / 16777216) mod 256 * 16777216 =? 0) = ((start / 16777216) mod 256 =? 0)) by lia.
  assert (E2 : ((start / 65536) mod 256 * 65536 =? 0) = ((start / 65536) mod 256 =? 0)) by lia.
  rewrite E3, E2.
  destruct (negb (_ =? 0)); [|destruct (negb (_ =? 0))].
  all: rewrite scodebytes_spec; eexists; eexists; split; [cbn [app]; reflexivity|].
  all: split; [cbn [app map]; rewrite (map_u8_id bytes) by assumption;
               rewrite ?shiftr_24, ?shiftr_16, ?shiftr_8; unfold u8; cbn [app]; f_equal; lia |].
  all: split; [ rewrite total_app; cbn [total fold_right]; rewrite Z.add_0_r; cbn [app];
                apply ones_sum |].
  all: apply map_u8_byte.
Qed.

Lemma addr_bytes_length : forall start, length (addr_bytes start) = addr_width start.
Proof. intros start. unfold addr_bytes, addr_width. repeat destruct (negb _); reflexivity. Qed.

Lemma div_2_16 : forall z, z / 65536 = z / 256 / 256.
Proof. intros z. rewrite Z.div_div by lia. reflexivity. Qed.

Lemma div_2_24 : forall z, z / 16777216 = z / 256 / 256 / 256.
Proof. intros z. rewrite !Z.div_div by lia. reflexivity. Qed.

Lemma mod_2_16 : forall z, z mod 65536 = z mod 256 + 256 * ((z / 256) mod 256).
Proof. intros z. change 65536 with (256 * 256). rewrite Z.rem_mul_r by lia. reflexivity. Qed.

Lemma mod_2_32 : forall z, z mod 2 ^ 32 =
  z mod 256 + 256 * ((z / 256) mod 256 + 256 * ((z / 256 / 256) mod 256 + 256 * ((z / 256 / 256 / 256) mod 256))).
Proof.
  intros z. change (2 ^ 32) with (256 * (256 * (256 * 256))).
  rewrite !Z.rem_mul_r by lia. reflexivity.
Qed.

Lemma big_endian_addr : forall start, big_endian (addr_bytes start) = start mod 2 ^ 32.
Proof.
  intros start. unfold addr_bytes, addr_width, big_endian.
  rewrite div_2_24, div_2_16, mod_2_32.
  repeat match goal with |- context [negb (?x =? 0)] => destruct (Z.eqb_spec x 0) end;
  cbn [fold_left negb]; lia.
Qed.

Lemma firstn_exact : forall (A : Type) (a b : list A), firstn (length a) (a ++ b) = a.
Proof. intros. rewrite firstn_app, Nat.sub_diag, firstn_all. cbn. apply app_nil_r. Qed.

Lemma skipn_exact : forall (A : Type) (a b : list A), skipn (length a) (a ++ b) = b.
Proof. intros. rewrite skipn_app, Nat.sub_diag, skipn_all. reflexivity. Qed.

Lemma type_digit_width : forall start t,
  (if Ascii.eqb (type_digit start) "1"%char then 2%nat
   else if Ascii.eqb (type_digit start) "2"%char then 3%nat
   else if Ascii.eqb (type_digit start) "3"%char then 4%nat else t) = addr_width start.
Proof. intros start t. unfold type_digit, addr_width. repeat destruct (negb _); reflexivity. Qed.

Theorem srec_read : forall start bytes, Forall byte bytes -> zlen bytes <= 250 ->
  read_srecord (srec start bytes) = Some (start mod 2 ^ 32, bytes).
Proof.
  intros start bytes Hb Hl. pose proof (zlen_nonneg _ bytes) as Hnn.
  destruct (srec_normal start bytes Hb Hl) as (l & ck & E & El & Hsum & Hbl).
  rewrite E. unfold read_srecord.
  change (Ascii.eqb "S" "S") with true. cbv iota.
  rewrite type_digit_width, read_body by assumption.
  rewrite El in *. cbn [app] in *. rewrite Hsum.
  assert (Hw : exists w, addr_width start = S w)
    by (unfold addr_width; repeat destruct (negb _); eexists; reflexivity).
  destruct Hw as [w Hw].
  assert (Hlen : zlen bytes + Z.of_nat (addr_width start) + 1 =
                 Z.of_nat (length ((addr_bytes start ++ bytes) ++ [u8 ck]))).
  { rewrite !app_length, addr_bytes_length. cbn [length]. unfold zlen. lia. }
  rewrite <- Hlen, Z.eqb_refl, Z.eqb_refl.
  replace (Z.of_nat (addr_width start) + 1 <=? zlen bytes + Z.of_nat (addr_width start) + 1)
    with true by lia.
  rewrite Hw. cbn [andb]. rewrite <- Hw.
  rewrite <- app_assoc, <- (addr_bytes_length start), firstn_exact, skipn_exact.
  rewrite big_endian_addr, removelast_app1. reflexivity.
Qed.

Theorem srec_width : forall start bytes,
  srecord_width (srec start bytes) =
  Some (if 2 ^ 24 <=? start mod 2 ^ 32 then 4 else if 2 ^ 16 <=? start mod 2 ^ 32 then 3 else 2).
Proof.
  intros start bytes. unfold srec. rewrite land_ff000000, land_ff0000.
  change (2 ^ 32) with 4294967296. change (2 ^ 24) with 16777216. change (2 ^ 16) with 65536.
  repeat match goal with |- context [negb (?x =? 0)] => destruct (Z.eqb_spec x 0) end; cbn [negb];
    match goal with |- context [scodebytes ?a ?b] => destruct (scodebytes a b) end;
    cbn [s2l list_ascii_of_string app srecord_width Ascii.eqb Bool.eqb]; f_equal;
    destruct (Z.leb_spec 16777216 (start mod 4294967296));
    destruct (Z.leb_spec 65536 (start mod 4294967296)); lia.
Qed.

(** ** Intel HEX *)

Lemma hex_sum : forall T, (T + u8 (Z.lnot (u8 (255 + T)))) mod 256 = 0.
Proof. intros T. rewrite lnot_u8. unfold u8. lia. Qed.

Theorem hexrec_read : forall start bytes, Forall byte bytes -> zlen bytes < 256 ->
  read_hexrecord (hexrec start bytes) = Some (0, start mod 65536, bytes).
Proof.
  intros start bytes Hb Hl. pose proof (zlen_nonneg _ bytes) as Hnn.
  unfold hexrec. rewrite scodebytes_spec.
  unfold read_hexrecord. cbn [s2l list_ascii_of_string app].
  change (Ascii.eqb ":" ":") with true. cbv iota.
  rewrite read_body by apply map_u8_byte.
  cbn [map app]. rewrite (map_u8_id bytes) by assumption.
  set (ck := u8 (Z.lnot _)).
  assert (Hc : (u8 (zlen bytes) + 1 =? Z.of_nat (length (bytes ++ [ck]))) = true).
  { rewrite app_length. cbn [length]. unfold u8, zlen in *. lia. }
  rewrite Hc. cbn [andb].
  assert (Ht : (total (u8 (zlen bytes) :: u8 (Z.shiftr start 8) :: u8 start :: u8 0 :: bytes ++ [ck])
                mod 256 =? 0) = true).
  { change (?a :: ?b :: ?c :: ?d :: bytes ++ [ck]) with (([a; b; c; d] ++ bytes) ++ [ck]).
    rewrite total_app. cbn [total fold_right]. rewrite Z.add_0_r. apply Z.eqb_eq.
    subst ck. apply hex_sum. }
  rewrite Ht. rewrite removelast_app1. change (u8 0) with 0. do 3 f_equal.
  rewrite shiftr_8, mod_2_16. unfold u8. lia.
Qed.

Theorem hexext_read : forall start,
  read_hexrecord (hexext start) =
  Some (4, 0, [(start / 16777216) mod 256; (start / 65536) mod 256]).
Proof.
  intros start. unfold hexext. rewrite scodebytes_spec.
  cbn [s2l list_ascii_of_string app map flat_map].
  change ("0"%char :: "2"%char :: "0"%char :: "0"%char :: "0"%char :: "0"%char ::
          "0"%char :: "4"%char :: ?r) with (hex2 2 ++ hex2 0 ++ hex2 0 ++ hex2 4 ++ r).
  unfold read_hexrecord. change (Ascii.eqb ":" ":") with true. cbv iota.
  set (a := u8 (Z.shiftr start 24)). set (b := u8 (Z.shiftr start 16)).
  set (ck := u8 (Z.lnot _)).
  assert (H : read_pairs (hex2 2 ++ hex2 0 ++ hex2 0 ++ hex2 4 ++
                 (hex2 a ++ hex2 b ++ []) ++ hex2 ck ++ [nl])
              = Some [2; 0; 0; 4; a; b; ck]).
  { rewrite app_nil_r, <- app_assoc. repeat rewrite read_pairs_hex2 by (first [apply u8_byte | unfold byte; lia]).
    reflexivity. }
  rewrite H. cbn [length].
  assert (Ht : (total [2; 0; 0; 4; a; b; ck] mod 256 =? 0) = true).
  { apply Z.eqb_eq. subst ck. cbn [total fold_right]. rewrite lnot_u8.
    unfold u8. unfold a, b, u8. lia. }
  rewrite Ht. cbn. unfold a, b, u8. rewrite shiftr_24, shiftr_16. reflexivity.
Qed.
