(** What the object file should contain, in terms of the bytes the assembler produced.
    [emission] is the model's log entry of one produced byte: the pass, the program
    counter at that moment, the byte, and whether a CODE section was open. *)
From Coq Require Import ZArith List Bool.
From Verif Require Import State.
Import ListNotations.
Open Scope Z_scope.

(** The log of the final pass in chronological order. *)
Definition second_pass (log : list emission) : list emission :=
  List.filter (fun e => em_pass e =? 2) (rev log).

(** The bytes of CODE sections, in order. *)
Definition code_bytes (l : list emission) : list Z :=
  map em_byte (List.filter em_code l).

(** The same with their places in a 32-bit address space. *)
Definition code_cells (l : list emission) : list (Z * Z) :=
  map (fun e => (em_pc e mod 2 ^ 32, em_byte e)) (List.filter em_code l).

(** No byte of a CODE section is produced exactly at the address [here] where the
    program counter stood, without being moved, when the previous pass ended or after a
    byte of a DUMMY section. *)
Fixpoint moved (here : option Z) (l : list emission) : Prop :=
  match l with
  | [] => True
  | e :: l' =>
      (em_code e = true -> here <> Some (em_pc e)) /\
      moved (if em_code e then None else Some ((em_pc e + 1) mod 2 ^ 64)) l'
  end.
