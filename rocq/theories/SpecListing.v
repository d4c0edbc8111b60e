(** What the listing of a line that stores bytes should look like. *)
From Coq Require Import String Ascii ZArith List Bool.
From Verif Require Import Base State Tree Crasm SpecTable.
Import ListNotations.
Open Scope Z_scope.

(** The instructions that store bytes. *)
Definition stores (h : handler) : bool :=
  match h with
  | HAsc | HAlign | HDc | HDs | H68Branch | H65Branch | HZRelbranch | H68Single | H65Single | H68Std | H68Std2 | H68Std3 | H65Std
  | HZSimple | HZIm | HZRst | HZJr | HZRet | HZCall | HZJp | HZEx | HZInout | HZBitop | HZOnreg8 | HZLogical | HZStackop
  | HZArith | HZIncr | HZLd => true
  | _ => false
  end.

(** An address and the bytes from there on. *)
Definition row (a : Z) (bs : list Z) : str :=
  match bs with [] => [] | _ => hex 4 a ++ s2l " " ++ flat_map (hex 2) bs end.

(** Seven bytes fit on a line, and at most three lines are made: the bytes after the 21st
    are not shown. *)
Definition columns (a : Z) (bs : list Z) : list str :=
  let n := List.length bs in
  if (n <=? 7)%nat then [row a bs]
  else if (n <=? 14)%nat then [row a (firstn 7 bs); row (a + 7) (skipn 7 bs)]
  else [row a (firstn 7 bs); row (a + 7) (firstn 7 (skipn 7 bs)); row (a + 14) (firstn 7 (skipn 14 bs))].

(** Tab stops are eight columns apart; [p] is the column. *)
Definition tab : ascii := ascii_of_nat 9.
Fixpoint expanded (p : nat) (t : str) : str :=
  match t with
  | [] => []
  | c :: t' =>
      if Ascii.eqb c tab then repeat " "%char (8 - Nat.modulo p 8) ++ expanded (p + (8 - Nat.modulo p 8)) t'
      else c :: expanded (S p) t'
  end.

(** The lines of the listing for a line of the source: the last one has the line number in
    columns 21 to 25 and the text from column 28 on. *)
Definition lines_for (a : Z) (bs : list Z) (number : Z) (text : str) : list str :=
  removelast (columns a bs) ++
  [filled 28 (filled 21 (last (columns a bs) []) ++ padl 5 (dec number)) ++ expanded 0 text].

(** [c] is [a] and [b] mixed, each in its order. *)
Inductive mixed {A} : list A -> list A -> list A -> Prop :=
| mx_none : mixed [] [] []
| mx_left : forall x a b c, mixed a b c -> mixed (x :: a) b (x :: c)
| mx_right : forall x a b c, mixed a b c -> mixed a (x :: b) (x :: c).

(** What can be listed: characters that have a glyph, blanks and tabs. *)
Definition listable (c : ascii) : Prop := 32 <= zc c /\ zc c <> 127 \/ c = tab.

(** No line of the listing has been begun. *)
Definition fresh_line (s : state) : Prop := s.(ls).(lpos) = 0 /\ match s.(ls).(linebuffer) with [] => True | c :: _ => zc c = 0 end.

(** An origin has been given: [*] has a value. *)
Definition has_origin (s : state) : Prop := exists l, tfind starkey s.(sy) = Some l /\ l.(l_flags).(f_undef) = false.

(** The line is one of its own, and its instruction, if it has one, stores bytes. *)
Definition storing (q : fields) : Prop :=
  match q.(q_mnemo) with
  | Some (_, l) => l.(l_type) = TMnemo /\ l.(l_flags).(f_defcond) = false /\ l.(l_flags).(f_defmacro) = false /\
                   exists h, l.(l_ptr) = PFun h /\ stores h = true
  | None => True
  end.

(** The assembler is set to list code with addresses of four digits, and the line, which is
    not in a macro, fits into the listing. *)
Definition listed_plainly (s : state) : Prop :=
  s.(fl).(a_list_on) = true /\ s.(fl).(a_code_on) = true /\ s.(fl).(a_addr16) = true /\ s.(fl).(a_addr24) = false /\
  28 < s.(ls).(llen) /\ 0 < s.(inp).(linenumber) < 10000000 /\ zc s.(inp).(lineprefix) = 0 /\
  Forall listable s.(inp).(curline) /\ 28 + Z.of_nat (List.length (expanded 0 s.(inp).(curline))) <= s.(ls).(llen).
