(** The number of the line in a message (property C64).  Nothing here is part of the model. *)
From Coq Require Import ZArith List Bool Ascii String.
From Verif Require Import Base State.
From Verif Require Import SpecInput.
Import ListNotations.
Open Scope Z_scope.

(** After [n] reads of a file that contains [t] the text [rest] remains; [ended] tells that the
    end of the file was met. *)
Inductive read_to (t : text) : Z -> text -> bool -> Prop :=
| rt_start : read_to t 0 t false
| rt_piece : forall n p rest, read_to t n (p ++ rest) false -> whole p \/ part p -> read_to t (n + 1) rest false
| rt_tail : forall n p e, read_to t n p e -> tail p -> read_to t (n + 1) [] true.

(** No line is longer than the reader takes at once. *)
Definition short_lines (t : text) : Prop := forall a p b, t = a ++ p ++ b -> ~ part p.

(** The ends of lines in a text. *)
Definition newlines (t : text) : Z := Z.of_nat (List.length (List.filter (Ascii.eqb newline) t)).

(** A line starts after [t]. *)
Definition at_start (t : text) : Prop := t = [] \/ exists t', t = t' ++ [newline].

(** The file [t] of which the current line was read: the main file, or an included one. *)
Definition source_of (fs : text -> option text) (main : text) (s : state) (t : text) : Prop :=
  s.(inp).(srcs) = [] /\ t = main \/ s.(inp).(srcs) <> [] /\ exists name, fs name = Some t.

(** A macro is being read. *)
Definition of_macro (x : source) : Prop := match x with SMac _ _ _ _ _ _ => True | SFile _ _ _ _ _ _ => False end.
Definition outside_macros (s : state) : Prop := Forall (fun x => ~ of_macro x) s.(inp).(srcs).

(** The number of the current line counts the reads of its file, and this holds too for the files
    in which INCLUDE lines stand that are not finished, with the numbers kept for them. *)
Inductive located (fs : text -> option text) (main : text) : Z -> list source -> text -> bool -> Prop :=
| lo_main : forall n rest e, read_to main n rest e -> located fs main n [] rest e
| lo_file : forall n name t e0 r e1 ol op on l rest e, fs name = Some t -> read_to t n r e0 -> located fs main on l rest e ->
    located fs main n (SFile e0 r e1 ol op on :: l) rest e
| lo_mac : forall n lines args all ol op on l rest e, located fs main n l rest e ->
    located fs main n (SMac lines args all ol op on :: l) rest e.
Definition placed (fs : text -> option text) (main : text) (s : state) : Prop :=
  s.(files) = fs /\ located fs main s.(inp).(linenumber) s.(inp).(srcs) s.(inp).(mainrest) s.(inp).(maineof).
