(** Independent readers for Motorola S-records and Intel HEX records.
    Nothing here refers to the assembler: only to characters and integers. *)
From Coq Require Import ZArith List Bool Ascii.
Import ListNotations.
Open Scope Z_scope.

(** Value of an upper case hexadecimal digit. *)
Definition digit_value (c : ascii) : option Z :=
  let z := Z.of_N (N_of_ascii c) in
  if (48 <=? z) && (z <=? 57) then Some (z - 48)
  else if (65 <=? z) && (z <=? 70) then Some (z - 55)
  else None.

(** Pairs of digits, up to the newline that ends the record; nothing may follow it. *)
Fixpoint read_pairs (t : list ascii) : option (list Z) :=
  match t with
  | [c] => if Ascii.eqb c (ascii_of_N 10) then Some [] else None
  | a :: b :: t' =>
      match digit_value a, digit_value b, read_pairs t' with
      | Some x, Some y, Some l => Some (16 * x + y :: l)
      | _, _, _ => None
      end
  | [] => None
  end.

(** Big-endian number made of a list of bytes. *)
Definition big_endian (l : list Z) : Z := fold_left (fun a b => 256 * a + b) l 0.

Definition total (l : list Z) : Z := fold_right Z.add 0 l.

(** A Motorola data record: start address and bytes.
    The count covers address, data and checksum; count, address, data and checksum
    add up to 255 modulo 256; S1, S2 and S3 have 2, 3 and 4 address bytes. *)
Definition read_srecord (t : list ascii) : option (Z * list Z) :=
  match t with
  | s :: d :: t' =>
      if Ascii.eqb s "S"%char then
        let width := if Ascii.eqb d "1"%char then 2%nat
                     else if Ascii.eqb d "2"%char then 3%nat
                     else if Ascii.eqb d "3"%char then 4%nat else 0%nat in
        match width, read_pairs t' with
        | S _, Some (count :: l) =>
            if (count =? Z.of_nat (length l))
               && (Z.of_nat width + 1 <=? count)
               && (total (count :: l) mod 256 =? 255)
            then Some (big_endian (firstn width l), removelast (skipn width l))
            else None
        | _, _ => None
        end
      else None
  | _ => None
  end.

(** The number of address bytes announced by the type digit. *)
Definition srecord_width (t : list ascii) : option Z :=
  match t with
  | s :: d :: _ =>
      if Ascii.eqb d "1"%char then Some 2 else if Ascii.eqb d "2"%char then Some 3
      else if Ascii.eqb d "3"%char then Some 4 else None
  | _ => None
  end.

(** An Intel HEX record: type, 16-bit offset and data bytes.  All bytes of the record,
    checksum included, add up to 0 modulo 256. *)
Definition read_hexrecord (t : list ascii) : option (Z * Z * list Z) :=
  match t with
  | c :: t' =>
      if Ascii.eqb c ":"%char then
        match read_pairs t' with
        | Some (count :: hi :: lo :: ty :: l) =>
            if (count + 1 =? Z.of_nat (length l))
               && (total (count :: hi :: lo :: ty :: l) mod 256 =? 0)
            then Some (ty, 256 * hi + lo, removelast l)
            else None
        | _ => None
        end
      else None
  | [] => None
  end.

(** What a reader collects from a file: chunks of bytes with their start address. *)
Definition chunks := list (Z * list Z).

(** A reader of object files: the upper half of the address set by the last extended
    address record, what has been read so far, and whether the terminator was met. *)
Record reader := mkReader { base : Z; got : chunks; closed : bool }.

(** Feeding one line.  Lines starting with [S] are Motorola records ([S9] ends the
    file), lines starting with a colon are Intel records (type 01 ends the file).
    Nothing may follow the terminator. *)
Definition read_line (st : option reader) (t : list ascii) : option reader :=
  match st, t with
  | Some r, c :: d :: t' =>
      if closed r then None
      else if Ascii.eqb c "S"%char then
        if Ascii.eqb d "9"%char then
          match read_pairs t' with
          | Some [count; a; b; k] =>
              if (count =? 3) && (total [count; a; b; k] mod 256 =? 255)
              then Some (mkReader (base r) (got r) true) else None
          | _ => None
          end
        else
          match read_srecord t with
          | Some chunk => Some (mkReader (base r) (got r ++ [chunk]) false)
          | None => None
          end
      else
        match read_hexrecord t with
        | Some (ty, offset, l) =>
            if ty =? 0 then Some (mkReader (base r) (got r ++ [(65536 * base r + offset, l)]) false)
            else if ty =? 1 then
              match l with [] => Some (mkReader (base r) (got r) true) | _ => None end
            else if ty =? 4 then
              match l with [h; k] => Some (mkReader (256 * h + k) (got r) false) | _ => None end
            else None
        | None => None
        end
  | _, _ => None
  end.

(** Cutting a text after each newline. *)
Fixpoint cut (acc t : list ascii) : list (list ascii) :=
  match t with
  | [] => match acc with [] => [] | _ => [rev acc] end
  | c :: t' =>
      if Ascii.eqb c (ascii_of_N 10) then rev (c :: acc) :: cut [] t' else cut (c :: acc) t'
  end.

(** Reading a whole file. *)
Definition read_object (text : list ascii) : option reader :=
  fold_left read_line (cut [] text) (Some (mkReader 0 [] false)).

(** The bytes of a file in order of appearance. *)
Definition data (c : chunks) : list Z := flat_map snd c.

(** The memory cells described by chunks, in file order, in a 32-bit address space. *)
Fixpoint spread (start : Z) (l : list Z) : list (Z * Z) :=
  match l with
  | [] => []
  | b :: l' => (start mod 2 ^ 32, b) :: spread (start + 1) l'
  end.
Definition cells (c : chunks) : list (Z * Z) :=
  flat_map (fun r => spread (fst r) (snd r)) c.
