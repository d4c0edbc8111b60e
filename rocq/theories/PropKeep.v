(** Property C49: the names of the directives. *)
From Coq Require Import String Ascii ZArith List Bool.
From Verif Require Import Base State Output Label Crasm Witness SpecForms SpecCpu SpecChoice SpecKeep KeepFacts.
Import ListNotations.
Open Scope Z_scope.

(** C49: whatever the program, and wherever the run stops, a directive is found under its name,
    in any case, and an attempt to define a symbol of that name is an error. *)
Theorem C49_directives_kept : forall n o fs text r s d h k m, assemble n o (init_state fs text) = (r, s) ->
  In (d, h, k) directives -> spells (t_ d) m ->
  (exists l, findmnemo m s = (Ok (Some (identifier d, l)), s) /\ l.(l_type) = TMnemo /\ l.(l_ptr) = PFun h /\ l.(l_modifier) = k) /\
  (forall f y v, deflabel m f y v s = error (s2l "attempt to redefine a keyword") s).
Proof. exact names_kept. Qed.
Print Assumptions C49_directives_kept.

(** A program that tries to take three of the names, and then uses one of them. *)
Definition taking : list string := ["* = 0"; "Db = 5"; "skip macro"; " endm"; "dw equ 3"; "c db 7"]%string.
Example C49_applies : let r := final taking in fst r = Ok tt /\
  map em_byte (filter (fun e => em_pass e =? 2) (emitted (snd r))) = [7] /\
  map (fun r => (rp_line r, string_of_list_ascii (rp_text r))) (filter (fun r => rp_pass r =? 2) (reported (snd r))) =
  [(5, "syntax error in an expression"); (3, "illegal use of a mnemonic"); (2, "attempt to redefine a keyword")]%string.
Proof. vm_compute. repeat split. Qed.
