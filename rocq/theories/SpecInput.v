(** What the command line, the lines of a file and the lines of a macro mean. *)
From Coq Require Import String Ascii ZArith List Bool.
Import ListNotations.
Open Scope Z_scope.

Definition text := list ascii.

(** ** Command line *)

(** The options without argument: -s (no warnings), -l (no listing), -x (symbol table). *)
Inductive switch := NoWarnings | NoListing | Symbols.
Definition letter (f : switch) : ascii :=
  match f with NoWarnings => "s" | NoListing => "l" | Symbols => "x" end%char.

(** An argument or a pair of arguments: a cluster of switches, a cluster that ends with
    -o and the output name, the name of the source. *)
Inductive argument :=
| Switches (fs : list switch)
| Output (fs : list switch) (name : text)
| Input (name : text).

Definition written (a : argument) : list text :=
  match a with
  | Switches fs => ["-"%char :: map letter fs]
  | Output fs name => ["-"%char :: map letter fs ++ ["o"%char]; name]
  | Input name => [name]
  end.
Definition command (l : list argument) : list text := flat_map written l.

(** A source name that does not look like an option. *)
Definition named (a : argument) : Prop :=
  match a with Input ("-"%char :: _) => False | _ => True end.

Definition switches (a : argument) : list switch :=
  match a with Switches fs | Output fs _ => fs | Input _ => [] end.
Definition outputs (a : argument) : list text := match a with Output _ n => [n] | _ => [] end.
Definition inputs (a : argument) : list text := match a with Input n => [n] | _ => [] end.

Definition all_switches (l : list argument) : list switch := flat_map switches l.
Definition all_outputs (l : list argument) : list text := flat_map outputs l.
Definition all_inputs (l : list argument) : list text := flat_map inputs l.

(** ** Lines of a file *)

Definition newline : ascii := ascii_of_nat 10.
Definition nul : ascii := ascii_of_nat 0.

(** A piece of a file that is read at once: a line with its newline, 249 characters of a
    longer line, or the end of the file. *)
Definition whole (p : text) : Prop :=
  exists l, p = l ++ [newline] /\ ~ In newline l /\ (List.length p <= 249)%nat.
Definition part (p : text) : Prop := ~ In newline p /\ List.length p = 249%nat.
Definition tail (p : text) : Prop := ~ In newline p /\ (List.length p < 249)%nat.

(** The pieces of a file, in order. *)
Inductive pieces_of : text -> list text -> Prop :=
| po_end : forall p, tail p -> pieces_of p [p]
| po_more : forall p t l, whole p \/ part p -> pieces_of t l -> pieces_of (p ++ t) (p :: l).

(** The characters that survive: tabulations, printable ones and those above 127. *)
Definition kept (c : ascii) : bool :=
  let n := N_of_ascii c in
  (N.eqb n 9 || (N.leb 32 n && N.leb n 126) || N.leb 128 n)%N.
Definition visible (p : text) : text := filter kept p.

(** ** Lines of a macro *)

(** A macro line is made of characters, of the references \1 to \9, of \# and of \*. *)
Inductive piece := Lit (c : ascii) | Arg (i : nat) | Count | Whole.
Definition digit (i : nat) : ascii := ascii_of_nat (48 + i).

Definition shape (p : piece) : text :=
  match p with
  | Lit c => [c]
  | Arg i => ["\"%char; digit (S i)]
  | Count => ["\"; "#"]%char
  | Whole => ["\"; "*"]%char
  end.
Definition shaped (l : list piece) : text := flat_map shape l.

(** Characters that make a reference after a backslash. *)
Definition special (c : ascii) : Prop :=
  c = "#"%char \/ c = "*"%char \/ exists i, (i < 9)%nat /\ c = digit (S i).

(** Every reference is written as such, and has the right number. *)
Fixpoint readable (l : list piece) : Prop :=
  match l with
  | [] => True
  | p :: l' =>
      readable l' /\
      match p with
      | Lit c => c = "\"%char -> match shaped l' with c' :: _ => ~ special c' | [] => True end
      | Arg i => (i < 9)%nat
      | _ => True
      end
  end.

Definition meant (args : list text) (whole : text) (p : piece) : text :=
  match p with
  | Lit c => [c]
  | Arg i => nth i args []
  | Count => [digit (List.length args)]
  | Whole => whole
  end.
Definition expansion (args : list text) (whole : text) (l : list piece) : text :=
  flat_map (meant args whole) l.

(** The arguments of a macro call from the items of the operand: a last empty one does not
    count. *)
Definition passed (ts : list text) : list text :=
  match rev ts with [] :: r => rev r | _ => ts end.
