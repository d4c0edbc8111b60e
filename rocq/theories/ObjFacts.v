(** The object file writer: what a reader of the file sees, as an invariant. *)
From Coq Require Import String Ascii ZArith List Bool Lia ZifyBool ZifyNat.
From Verif Require Import Base BaseFacts State Tree Filter Output Scode SpecRecords RecordFacts.
Import ListNotations.
Open Scope Z_scope.

(** ** Lines *)

Definition oneline (t : str) : Prop := exists b, t = b ++ [nl] /\ ~ In nl b.

Lemma hexa_not_nl : forall d, 0 <= d < 16 -> hexa d <> nl.
Proof.
  intros d H E. pose proof (digit_value_hexa d H) as D. rewrite E in D. discriminate.
Qed.

Lemma hex2_not_nl : forall b, ~ In nl (hex2 b).
Proof.
  intros b. unfold hex2. rewrite !land_15. intros [E|[E|[]]]; revert E; apply hexa_not_nl; lia.
Qed.

Lemma hexs_not_nl : forall l, ~ In nl (flat_map hex2 l).
Proof.
  intros l H. apply in_flat_map in H. destruct H as (x & _ & H). exact (hex2_not_nl x H).
Qed.

Lemma oneline_body : forall p l b, ~ In nl p ->
  oneline (p ++ flat_map hex2 l ++ hex2 b ++ [nl]).
Proof.
  intros p l b Hp. exists (p ++ flat_map hex2 l ++ hex2 b). split.
  - rewrite <- !app_assoc. reflexivity.
  - rewrite !in_app_iff. intros [H|[H|H]].
    + exact (Hp H).
    + exact (hexs_not_nl l H).
    + exact (hex2_not_nl b H).
Qed.

Ltac notnl := let H := fresh in intros H; cbn in H; repeat destruct H as [H|H]; try discriminate H; exact H.

Lemma srec_oneline : forall a l, oneline (srec a l).
Proof.
  intros a l. unfold srec.
  destruct (negb _); [|destruct (negb _)]; rewrite scodebytes_spec;
    rewrite app_assoc; apply oneline_body; notnl.
Qed.

Lemma hexrec_oneline : forall a l, oneline (hexrec a l).
Proof. intros a l. unfold hexrec. rewrite scodebytes_spec. apply oneline_body. notnl. Qed.

Lemma hexext_oneline : forall a, oneline (hexext a).
Proof. intros a. unfold hexext. rewrite scodebytes_spec. apply oneline_body. notnl. Qed.

Lemma cut_oneline : forall b acc rest, ~ In nl b ->
  cut acc (b ++ nl :: rest) = (rev acc ++ b ++ [nl]) :: cut [] rest.
Proof.
  induction b as [|c b IH]; intros acc rest H.
  - cbn [app cut]. change (Ascii.eqb nl (ascii_of_N 10)) with true. cbv iota.
    reflexivity.
  - cbn [app cut]. destruct (Ascii.eqb_spec c (ascii_of_N 10)) as [E|E].
    + exfalso. apply H. left. exact E.
    + rewrite (IH (c :: acc) rest) by (intros Hi; apply H; right; exact Hi).
      cbn [rev]. rewrite <- app_assoc. reflexivity.
Qed.

Lemma cut_pieces : forall l, Forall oneline l -> cut [] (List.concat l) = l.
Proof.
  induction l as [|t l IH]; intros H; [reflexivity|].
  inversion H as [|x y Ht Hl]; subst. destruct Ht as (b & -> & Hb).
  cbn [List.concat]. rewrite <- app_assoc. cbn [app]. rewrite cut_oneline by exact Hb.
  rewrite IH by exact Hl. reflexivity.
Qed.

(** ** Reading what was written *)

Definition reading (l : list str) : option reader :=
  fold_left read_line (rev l) (Some (mkReader 0 [] false)).

Lemma reading_cons : forall t l, reading (t :: l) = read_line (reading l) t.
Proof. intros t l. unfold reading. cbn [rev]. rewrite fold_left_app. reflexivity. Qed.

Lemma read_object_pieces : forall l, Forall oneline l ->
  read_object (List.concat (rev l)) = reading l.
Proof.
  intros l H. unfold read_object. rewrite cut_pieces; [reflexivity|].
  apply Forall_rev. exact H.
Qed.

Lemma type_digit_not9 : forall a, Ascii.eqb (type_digit a) "9"%char = false.
Proof. intros a. unfold type_digit. destruct (addr_width a) as [|[|[|[|[]]]]]; reflexivity. Qed.

Lemma read_line_srec : forall r a l, closed r = false -> Forall byte l -> zlen l <= 250 ->
  read_line (Some r) (srec a l) = Some (mkReader (base r) (got r ++ [(a mod 2 ^ 32, l)]) false).
Proof.
  intros r a l Hc Hb Hl. unfold read_line.
  pose proof (srec_read a l Hb Hl) as E.
  destruct (srec_normal a l Hb Hl) as (l' & ck & En & _).
  rewrite En in *. rewrite Hc.
  change (Ascii.eqb "S" "S") with true. cbv iota. rewrite type_digit_not9.
  rewrite E. reflexivity.
Qed.

Lemma read_line_hex : forall r t, closed r = false -> (exists b t', t = ":"%char :: b :: t') ->
  read_line (Some r) t =
  match read_hexrecord t with
  | Some (ty, offset, l) =>
      if ty =? 0 then Some (mkReader (base r) (got r ++ [(65536 * base r + offset, l)]) false)
      else if ty =? 1 then
        match l with [] => Some (mkReader (base r) (got r) true) | _ => None end
      else if ty =? 4 then
        match l with [h; k] => Some (mkReader (256 * h + k) (got r) false) | _ => None end
      else None
  | None => None
  end.
Proof.
  intros r t Hc (b & t' & ->). unfold read_line. rewrite Hc. reflexivity.
Qed.

Lemma read_line_hexrec : forall r a l, closed r = false -> Forall byte l -> zlen l < 256 ->
  base r = (a / 65536) mod 65536 ->
  read_line (Some r) (hexrec a l) = Some (mkReader (base r) (got r ++ [(a mod 2 ^ 32, l)]) false).
Proof.
  intros r a l Hc Hb Hl Hbase. rewrite read_line_hex; [|exact Hc|].
  - rewrite hexrec_read by assumption. cbn [Z.eqb]. rewrite Hbase.
    do 5 f_equal. change (2 ^ 32) with (65536 * 65536). rewrite Z.rem_mul_r by lia. lia.
  - unfold hexrec. rewrite scodebytes_spec. eexists. eexists. reflexivity.
Qed.

Lemma read_line_hexext : forall r a, closed r = false ->
  read_line (Some r) (hexext a) = Some (mkReader ((a / 65536) mod 65536) (got r) false).
Proof.
  intros r a Hc. rewrite read_line_hex; [|exact Hc|].
  - rewrite hexext_read. cbn [Z.eqb Pos.eqb]. do 2 f_equal.
    rewrite (mod_2_16 (a / 65536)), div_2_24, div_2_16. lia.
  - unfold hexext. rewrite scodebytes_spec. eexists. eexists. reflexivity.
Qed.

Lemma upper_same : forall a b,
  Z.land (Z.lxor a b) 4294901760 = 0 <-> (a / 65536) mod 65536 = (b / 65536) mod 65536.
Proof.
  intros a b.
  assert (E : Z.land (Z.lxor a b) 4294901760 =
              Z.lxor (Z.land a 4294901760) (Z.land b 4294901760)).
  { apply Z.bits_inj'. intros k Hk. rewrite !Z.land_spec, !Z.lxor_spec, !Z.land_spec.
    destruct (Z.testbit a k), (Z.testbit b k), (Z.testbit 4294901760 k); reflexivity. }
  rewrite E, Z.lxor_eq_0_iff, !land_ffff0000. lia.
Qed.

Lemma s32_upper : forall a, (s32 a / 65536) mod 65536 = (a / 65536) mod 65536.
Proof.
  intros a.
  assert (E : s32 a mod 4294967296 = a mod 4294967296) by (unfold s32; lia).
  assert (F : forall z, (z / 65536) mod 65536 = (z mod 4294967296) / 65536).
  { intros z. change 4294967296 with (65536 * 65536). rewrite Z.rem_mul_r by lia. lia. }
  rewrite (F (s32 a)), (F a), E. reflexivity.
Qed.

(** The part of the writer's state a reader depends on. *)
Record written (w : writer) (r : reader) : Prop := {
  wn_raw : Forall byte w.(raw);
  wn_len : zlen w.(raw) <= 16;
  wn_file : match w.(scode) with
            | None => w.(raw) = [] /\ r = mkReader 0 [] false
            | Some l => reading l = Some r /\ Forall oneline l /\ closed r = false /\
                        (w.(rawextended) / 65536) mod 65536 = base r
            end
}.

(** What the reader has after a flush. *)
Definition flushed (w : writer) (r : reader) : chunks :=
  match w.(raw) with
  | [] => got r
  | _ => got r ++ [(w.(rawstart) mod 2 ^ 32, w.(raw))]
  end.

Lemma flush_written : forall s r, written s.(wr) r ->
  exists w' r', flushscoderaw s = (Ok tt, set_wr w' s) /\ written w' r' /\
    got r' = flushed s.(wr) r /\
    w'.(pc) = s.(wr).(pc) /\ w'.(rawstart) = s.(wr).(pc) /\ w'.(raw) = [] /\
    (w'.(scode) = None <-> s.(wr).(scode) = None).
Proof.
  intros s r [Hraw Hlen Hfile]. unfold flushscoderaw, flushed, scwrite.
  unfold bind at 1. cbn [gets].
  destruct (raw (wr s)) as [|b raw'] eqn:Eraw.
  - unfold bind, ret, upd_wr, modify. cbn.
    eexists. exists r. split; [reflexivity|]. repeat split; cbn; auto.
  - destruct (scode (wr s)) as [l|] eqn:Es; [|destruct Hfile as [E _]; discriminate E].
    destruct Hfile as (Hread & Hone & Hcl & Hbase).
    rewrite <- Eraw in *.
    assert (Hlt : zlen (raw (wr s)) < 256) by lia.
    assert (Hle : zlen (raw (wr s)) <= 250) by lia.
    destruct (a_code_hex (fl s)).
    + destruct (negb (Z.land (Z.lxor (rawextended (wr s)) (rawstart (wr s))) 4294901760 =? 0)) eqn:Ex.
      * exists (mkWr s.(wr).(pc) s.(wr).(codelen) s.(wr).(pc) [] (s32 s.(wr).(rawstart))
                 (Some (hexrec s.(wr).(rawstart) s.(wr).(raw) :: hexext s.(wr).(rawstart) :: l))).
        eexists. split.
        { unfold bind, gets, upd_wr, modify, ret, stop. rewrite Es. cbv iota beta.
          cbn [wr set_wr scode set_scode]. reflexivity. }
        split; [split; cbn [raw scode rawextended]|].
        -- constructor.
        -- unfold zlen. cbn. lia.
        -- split; [|split; [|split]].
           ++ rewrite !reading_cons, Hread, read_line_hexext by exact Hcl.
              rewrite read_line_hexrec; cbn [closed base got]; auto.
           ++ repeat constructor; auto using hexrec_oneline, hexext_oneline.
           ++ reflexivity.
           ++ apply s32_upper.
        -- cbn [got pc rawstart raw scode]. repeat split; intros; discriminate.
      * exists (mkWr s.(wr).(pc) s.(wr).(codelen) s.(wr).(pc) [] s.(wr).(rawextended)
                 (Some (hexrec s.(wr).(rawstart) s.(wr).(raw) :: l))).
        eexists. split.
        { unfold bind, gets, upd_wr, modify, ret, stop. rewrite Es. cbv iota beta.
          cbn [wr set_wr scode set_scode]. reflexivity. }
        split; [split; cbn [raw scode rawextended]|].
        -- constructor.
        -- unfold zlen. cbn. lia.
        -- split; [|split; [|split]].
           ++ rewrite reading_cons, Hread.
              rewrite read_line_hexrec; [reflexivity|auto|auto|auto|].
              rewrite <- Hbase. apply upper_same. lia.
           ++ repeat constructor; auto using hexrec_oneline.
           ++ reflexivity.
           ++ exact Hbase.
        -- cbn [got pc rawstart raw scode]. repeat split; intros; discriminate.
    + exists (mkWr s.(wr).(pc) s.(wr).(codelen) s.(wr).(pc) [] s.(wr).(rawextended)
                 (Some (srec s.(wr).(rawstart) s.(wr).(raw) :: l))).
      eexists. split.
      { unfold bind, gets, upd_wr, modify, ret, stop. rewrite Es. cbv iota beta.
        cbn [wr set_wr scode set_scode]. reflexivity. }
      split; [split; cbn [raw scode rawextended]|].
      * constructor.
      * unfold zlen. cbn. lia.
      * split; [|split; [|split]].
        -- rewrite reading_cons, Hread. rewrite read_line_srec; [reflexivity|auto|auto|auto].
        -- repeat constructor; auto using srec_oneline.
        -- reflexivity.
        -- exact Hbase.
      * cbn [got pc rawstart raw scode]. repeat split; intros; discriminate.
Qed.

(** A flush in Motorola format. *)
Lemma flush_srec : forall s l, s.(fl).(a_code_hex) = false -> s.(wr).(scode) = Some l ->
  s.(wr).(raw) <> [] -> Forall byte s.(wr).(raw) -> zlen s.(wr).(raw) <= 16 ->
  exists t w', flushscoderaw s = (Ok tt, set_wr w' s) /\ w'.(scode) = Some (t :: l) /\
    read_srecord t = Some (s.(wr).(rawstart) mod 2 ^ 32, s.(wr).(raw)) /\
    srecord_width t = Some (let a := s.(wr).(rawstart) mod 2 ^ 32 in
                            if 2 ^ 24 <=? a then 4 else if 2 ^ 16 <=? a then 3 else 2).
Proof.
  intros s l Hh Es Hne Hb Hl. exists (srec s.(wr).(rawstart) s.(wr).(raw)).
  exists (mkWr s.(wr).(pc) s.(wr).(codelen) s.(wr).(pc) [] s.(wr).(rawextended)
                 (Some (srec s.(wr).(rawstart) s.(wr).(raw) :: l))).
  split; [|split; [reflexivity|split; [apply srec_read; [exact Hb|lia]|apply srec_width]]].
  unfold flushscoderaw, scwrite. unfold bind, gets, upd_wr, modify, ret, stop.
  rewrite Hh. destruct (raw (wr s)) as [|b l'] eqn:E; [congruence|]. rewrite Es. reflexivity.
Qed.

(** A flush in HEX format, seen by a reader in any state. *)
Lemma flush_hex : forall s l r, s.(fl).(a_code_hex) = true -> s.(wr).(scode) = Some l ->
  s.(wr).(raw) <> [] -> Forall byte s.(wr).(raw) -> zlen s.(wr).(raw) <= 16 ->
  closed r = false -> base r = (s.(wr).(rawextended) / 2 ^ 16) mod 2 ^ 16 ->
  exists ts w', flushscoderaw s = (Ok tt, set_wr w' s) /\ w'.(scode) = Some (rev ts ++ l) /\
    Forall (fun t => exists ty o d, read_hexrecord t = Some (ty, o, d) /\ (ty = 0 \/ ty = 4)) ts /\
    fold_left read_line ts (Some r) =
      Some (mkReader ((w'.(rawextended) / 2 ^ 16) mod 2 ^ 16)
                     (got r ++ [(s.(wr).(rawstart) mod 2 ^ 32, s.(wr).(raw))]) false).
Proof.
  intros s l r Hh Es Hne Hb Hl Hc Hbase. change (2 ^ 16) with 65536 in *.
  destruct (negb (Z.land (Z.lxor (rawextended (wr s)) (rawstart (wr s))) 4294901760 =? 0)) eqn:Ex.
  - exists [hexext s.(wr).(rawstart); hexrec s.(wr).(rawstart) s.(wr).(raw)].
    exists (mkWr s.(wr).(pc) s.(wr).(codelen) s.(wr).(pc) [] (s32 s.(wr).(rawstart))
                 (Some (hexrec s.(wr).(rawstart) s.(wr).(raw) :: hexext s.(wr).(rawstart) :: l))).
    split; [|split; [reflexivity|split]].
    + unfold flushscoderaw, scwrite. unfold bind, gets, upd_wr, modify, ret, stop.
      rewrite Hh, Ex. destruct (raw (wr s)) as [|b l'] eqn:E; [congruence|]. rewrite Es. reflexivity.
    + constructor; [|constructor; [|constructor]].
      * eexists; eexists; eexists; split; [apply hexext_read|auto].
      * eexists; eexists; eexists; split; [apply hexrec_read; [exact Hb|lia]|auto].
    + cbn [fold_left rawextended]. rewrite read_line_hexext by exact Hc.
      rewrite read_line_hexrec; [|reflexivity|exact Hb|lia|reflexivity].
      cbn [base got]. rewrite s32_upper. reflexivity.
  - exists [hexrec s.(wr).(rawstart) s.(wr).(raw)].
    exists (mkWr s.(wr).(pc) s.(wr).(codelen) s.(wr).(pc) [] s.(wr).(rawextended)
                 (Some (hexrec s.(wr).(rawstart) s.(wr).(raw) :: l))).
    split; [|split; [reflexivity|split]].
    + unfold flushscoderaw, scwrite. unfold bind, gets, upd_wr, modify, ret, stop.
      rewrite Hh, Ex. destruct (raw (wr s)) as [|b l'] eqn:E; [congruence|]. rewrite Es. reflexivity.
    + constructor; [|constructor].
      eexists; eexists; eexists; split; [apply hexrec_read; [exact Hb|lia]|auto].
    + cbn [fold_left rawextended]. rewrite read_line_hexrec; [|exact Hc|exact Hb|lia|].
      * rewrite Hbase. reflexivity.
      * rewrite Hbase. apply upper_same. lia.
Qed.
