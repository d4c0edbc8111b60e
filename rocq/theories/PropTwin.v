(** C35: the listing options and the object file. *)
From Coq Require Import String Ascii ZArith List Bool.
From Verif Require Import Base State Output Crasm Witness SpecTwin TwinProg.
Import ListNotations.
Open Scope Z_scope.

(** C35, for runs that end with status 0: two command lines that differ only in words of the
    options -l, -s and -x leave the same object file, whatever the recursion budgets.
    Missing: runs of which only one ends with status 0 ([C35_refuted]). *)
Theorem C35_partial : forall n n' fs args args' out out' obj obj', same_but_listing args args' ->
  program n fs args = Seen out 0 obj -> program n' fs args' = Seen out' 0 obj' -> obj = obj'.
Proof. exact same_object. Qed.
Print Assumptions C35_partial.

(** A program with a macro, a conditional and an included file; "y" is its name. *)
Definition twofiles (f : str) : option str :=
  if streq f (s2l "y") then Some (src [" output scode"; "* = 5"; " list off"; "m macro"; " db \1"; " endm"; " include z"; " m 3"; " clist off"; " if 0"; " db 9"; " endc"]%string)
  else if streq f (s2l "z") then Some (src [" list on"; " db 7"]%string) else None.
Definition object (x : seen) : option (Z * string) :=
  match x with Seen _ c (Written t) => Some (c, string_of_list_ascii t) | _ => None end.
Definition lines (l : list string) : option (Z * string) := Some (0, string_of_list_ascii (src l)).
Example C35_applies : same_but_listing [s2l "-sx"; s2l "-o"; s2l "x"; s2l "y"; s2l "-l"] [s2l "-o"; s2l "x"; s2l "y"] /\
  object (program 20 twofiles [s2l "-sx"; s2l "-o"; s2l "x"; s2l "y"; s2l "-l"]) = lines ["S10500050703EB"; "S9030000FC"]%string /\
  object (program 19 twofiles [s2l "-o"; s2l "x"; s2l "y"]) = lines ["S10500050703EB"; "S9030000FC"]%string.
Proof.
  split; [|split; vm_compute; reflexivity].
  apply SameLeft; [apply ListingWord; repeat (apply Forall_cons; [unfold listing_letter; auto|]); apply Forall_nil|]. apply SameName; [discriminate|].
  apply SameWord; [discriminate|]. apply SameLeft; [apply ListingWord; repeat (apply Forall_cons; [unfold listing_letter; auto|]); apply Forall_nil|]. apply SameRest.
Qed.

(** In general the property fails: with lines of 1000 characters, the line of an INCLUDE
    directive that is full of tabulations is formatted when it is listed, which goes beyond
    the line buffer (C36), but not under -l. *)
Definition tabbed (f : str) : option str :=
  if streq f (s2l "y") then Some (src ["* = 0"; " output scode"; " db 1"; " page 66,1000"]%string ++ s2l " include" ++ repeat (cz 9) 125 ++ s2l "z" ++ [nl])
  else if streq f (s2l "z") then Some [] else None.
Theorem C35_refuted : exists fs args args', same_but_listing args args' /\ forall n,
  program (9 + n) fs args = Crash (UB "linebuffer overflow") /\
  object (program (9 + n) fs args') = lines ["S104000001FA"; "S9030000FC"]%string.
Proof.
  exists tabbed, [s2l "-o"; s2l "x"; s2l "y"], [s2l "-l"; s2l "-o"; s2l "x"; s2l "y"].
  split; [apply SameRight; [apply ListingWord; repeat (apply Forall_cons; [unfold listing_letter; auto|]); apply Forall_nil|apply SameRest]|].
  intros n. split; vm_compute; reflexivity.
Qed.
Print Assumptions C35_refuted.
