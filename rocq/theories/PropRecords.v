(** C01, C02: the records written to the object file. *)
From Coq Require Import String Ascii ZArith List Bool.
From Verif Require Import Base State Output Scode Crasm SpecRecords RecordFacts ObjFacts.
Import ListNotations.
Open Scope Z_scope.

(** C01.  Flushing a non-empty buffer in Motorola format writes one line; an independent
    reader accepts it and finds the start address (32 bits) and the bytes; the record
    type is the narrowest that holds the address. *)
Theorem C01_srecord : forall s l,
  s.(fl).(a_code_hex) = false -> s.(wr).(scode) = Some l ->
  s.(wr).(raw) <> [] -> Forall byte s.(wr).(raw) -> zlen s.(wr).(raw) <= 16 ->
  exists t w', flushscoderaw s = (Ok tt, set_wr w' s) /\ w'.(scode) = Some (t :: l) /\
    read_srecord t = Some (s.(wr).(rawstart) mod 2 ^ 32, s.(wr).(raw)) /\
    srecord_width t = Some (let a := s.(wr).(rawstart) mod 2 ^ 32 in
                            if 2 ^ 24 <=? a then 4 else if 2 ^ 16 <=? a then 3 else 2).
Proof. exact flush_srec. Qed.
Print Assumptions C01_srecord.

(** A state with three bytes waiting at $12FFFE. *)
Definition waiting (hex : bool) : state :=
  let s := init_state (fun _ => None) [] in
  set_fl (set_a_code_hex hex s.(fl))
    (set_wr (mkWr 1245185 3 1245182 [1; 128; 255] 65536 (Some [])) s).

Example C01_case :
  let s := waiting false in
  s.(fl).(a_code_hex) = false /\ s.(wr).(scode) = Some [] /\ s.(wr).(raw) <> [] /\
  Forall byte s.(wr).(raw) /\ zlen s.(wr).(raw) <= 16 /\
  (snd (flushscoderaw s)).(wr).(scode) = Some [s2l "S20712FFFE0180FF69" ++ [nl]].
Proof.
  repeat split; try (intro E; discriminate E); repeat constructor; try discriminate.
Qed.

(** C02.  Flushing a non-empty buffer in HEX format writes type 04 and 00 records only,
    and a reader that agrees with the writer on the upper half of the address finds
    the 32-bit start address and the bytes, and agrees with the writer afterwards. *)
Theorem C02_hexrecord : forall s l r,
  s.(fl).(a_code_hex) = true -> s.(wr).(scode) = Some l ->
  s.(wr).(raw) <> [] -> Forall byte s.(wr).(raw) -> zlen s.(wr).(raw) <= 16 ->
  closed r = false -> base r = (s.(wr).(rawextended) / 2 ^ 16) mod 2 ^ 16 ->
  exists ts w', flushscoderaw s = (Ok tt, set_wr w' s) /\ w'.(scode) = Some (rev ts ++ l) /\
    Forall (fun t => exists ty o d, read_hexrecord t = Some (ty, o, d) /\ (ty = 0 \/ ty = 4)) ts /\
    fold_left read_line ts (Some r) =
      Some (mkReader ((w'.(rawextended) / 2 ^ 16) mod 2 ^ 16)
                     (got r ++ [(s.(wr).(rawstart) mod 2 ^ 32, s.(wr).(raw))]) false).
Proof. exact flush_hex. Qed.
Print Assumptions C02_hexrecord.

Example C02_case :
  let s := waiting true in
  let r := mkReader 1 [] false in
  s.(fl).(a_code_hex) = true /\ s.(wr).(scode) = Some [] /\ s.(wr).(raw) <> [] /\
  Forall byte s.(wr).(raw) /\ zlen s.(wr).(raw) <= 16 /\ closed r = false /\
  base r = (s.(wr).(rawextended) / 2 ^ 16) mod 2 ^ 16 /\
  (snd (flushscoderaw s)).(wr).(scode) =
    Some [s2l ":03FFFE000180FF80" ++ [nl]; s2l ":020000040012E8" ++ [nl]].
Proof.
  repeat split; try (intro E; discriminate E); repeat constructor; try discriminate.
Qed.
