(** Numeric and quoted constants as the documentation describes them. *)
From Coq Require Import String Ascii ZArith List Bool.
Import ListNotations.
Open Scope Z_scope.

(** The digit a character stands for. *)
Definition digit (c : ascii) : option Z :=
  let n := Z.of_N (N_of_ascii c) in
  if (48 <=? n) && (n <=? 57) then Some (n - 48)
  else if (65 <=? n) && (n <=? 70) then Some (n - 55)
  else if (97 <=? n) && (n <=? 102) then Some (n - 87)
  else None.

(** Digits of base [b]. *)
Definition digits (b : Z) (d : list ascii) : Prop :=
  Forall (fun c => exists v, digit c = Some v /\ v < b) d.

(** The number denoted by a list of digits. *)
Definition number (b : Z) (d : list ascii) : Z :=
  fold_left (fun v c => v * b + match digit c with Some x => x | None => 0 end) d 0.

Definition decimal_first (d : list ascii) : Prop :=
  match d with [] => False | c :: _ => "0"%char = c \/ exists v, digit c = Some v /\ v < 10 end.

Inductive written : Z -> list ascii -> list ascii -> Prop :=
| w_dollar : forall d, written 16 d ("$"%char :: d)
| w_h : forall d h, decimal_first d -> h = "H"%char \/ h = "h"%char -> written 16 d (d ++ [h])
| w_0x : forall d x, x = "X"%char \/ x = "x"%char -> written 16 d ("0"%char :: x :: d)
| w_percent : forall d, written 2 d ("%"%char :: d)
| w_b : forall d b, b = "B"%char \/ b = "b"%char -> written 2 d (d ++ [b])
| w_0b : forall d b, b = "B"%char \/ b = "b"%char -> written 2 d ("0"%char :: b :: d)
| w_q : forall d q, q = "Q"%char \/ q = "q"%char -> written 8 d (d ++ [q])
| w_dec : forall d, written 10 d d.

(** The text between two quotes [q]: plain characters and escape sequences. *)
Inductive piece := Char (c : ascii) | Esc (e : ascii).
Definition flat (l : list piece) : list ascii :=
  flat_map (fun p => match p with Char c => [c] | Esc e => ["\"%char; e] end) l.
Definition within (q : ascii) (p : piece) : Prop :=
  match p with Char c => c <> q /\ c <> "\"%char | Esc _ => True end.
Definition quoted (q : ascii) (l : list piece) : list ascii := q :: flat l ++ [q].

(** The character code a piece stands for; [None] for control characters, characters
    outside ASCII and unknown escape sequences. *)
Definition code (c : ascii) : Z := Z.of_N (N_of_ascii c).
Definition meaning (p : piece) : option Z :=
  match p with
  | Char c => if (32 <=? code c) && (code c <=? 126) then Some (code c) else None
  | Esc "t"%char => Some 9 | Esc "n"%char => Some 10 | Esc "r"%char => Some 13 | Esc "0"%char => Some 0
  | Esc "\"%char => Some 92 | Esc "'"%char => Some 39 | Esc """"%char => Some 34
  | Esc _ => None
  end.

(** The same for strings of bytes, where any character stands for itself. *)
Definition char_code (p : piece) : option Z :=
  match p with Char c => Some (code c) | Esc _ => meaning p end.

(** Big-endian number in base 256. *)
Definition packed (cs : list Z) : Z := fold_left (fun v c => v * 256 + c) cs 0.
