(** C06, C07, C08, C32, C33: counters, reports and bounds over whole runs. *)
From Coq Require Import String Ascii ZArith List Bool.
From Verif Require Import Base State Output Label Scode Tables Macro Crasm.
From Verif Require Import SpecReports Witness LineFacts CountFacts.
Import ListNotations.
Open Scope Z_scope.

(** C06.  When both passes end the total is the number of errors reported in the second
    pass; no error report ends the program. *)
Theorem C06_total : forall n o fs text s, assemble n o (init_state fs text) = (Ok tt, s) ->
  s.(ct).(errnumber) = Z.of_nat (List.length (second_reports s.(reported))).
Proof. exact run_errors. Qed.
Print Assumptions C06_total.

(** C06.  However the run ends, each error reported in the second pass has its own line
    on the output, with the line number and the message, in order. *)
Theorem C06_lines : forall n o fs text r s, assemble n o (init_state fs text) = (r, s) ->
  announced (second_reports s.(reported)) (rev s.(ls).(stdout)).
Proof. exact run_told. Qed.
Print Assumptions C06_lines.

(** C06.  The first pass prints nothing, except the line of a fatal error. *)
Theorem C06_first_silent : forall n fs text r s,
  (init_label_list pseudos ;;; pass n 1) (init_state fs text) = (r, s) ->
  s.(ls).(stdout) = [] \/ (exists t, fatal_line t /\ s.(ls).(stdout) = [t]) /\ r <> Ok tt.
Proof. exact first_silent. Qed.
Print Assumptions C06_first_silent.

(** Two errors in the second pass, after the same two in the first. *)
Definition faulty : list string := [" oops 1"; "*=0"; " db 1,,2"]%string.

Example C06_case : exists s, final faulty = (Ok tt, s) /\ s.(ct).(errnumber) = 2 /\
  List.map rp_line (second_reports s.(reported)) = [1; 3] /\
  List.length s.(reported) = 4%nat.
Proof. exists (snd (final faulty)). vm_compute. repeat split. Qed.

(** C07 is false: the WARNINGS total is 0 whatever happens ... *)
Theorem C07_always_zero_partial : forall n o fs text r s,
  assemble n o (init_state fs text) = (r, s) -> s.(ct).(warnnumber) = 0.
Proof. exact run_warnings. Qed.
Print Assumptions C07_always_zero_partial.

(** ... also when the second pass prints a warning. *)
Definition loud : options := mkOpt None true true false (Some (s2l "y")).
Theorem C07_warnings_refuted : exists l u s,
  assemble 60 loud (init_state nofiles (src l)) = (Ok u, s) /\
  In (s2l ">>>>> 2 WARNING: Page redefinition" ++ [nl]) s.(ls).(stdout) /\
  s.(ct).(warnnumber) = 0.
Proof.
  pose (l := [" page 66,76"; " page 66,76"]%string).
  exists l, tt, (snd (assemble 60 loud (init_state nofiles (src l)))).
  split; [vm_compute; reflexivity|]. split; [|vm_compute; reflexivity].
  vm_compute. repeat (first [left; reflexivity | right]).
Qed.
Print Assumptions C07_warnings_refuted.

(** C08, what holds: the length counts the CODE bytes of both passes.
    Missing: it should count those of the second pass only. *)
Theorem C08_both_passes_partial : forall n o fs text u s,
  assemble n o (init_state fs text) = (Ok u, s) ->
  s.(wr).(codelen) = code_total s.(emitted) mod 2 ^ 64.
Proof. exact run_codelen. Qed.
Print Assumptions C08_both_passes_partial.

(** C08 is false: one byte of code, a reported length of two. *)
Theorem C08_length_refuted : exists l s, final l = (Ok tt, s) /\ s.(ct).(errnumber) = 0 /\
  code_count 2 s.(emitted) = 1 /\ s.(wr).(codelen) = 2.
Proof.
  pose (l := ["*=0"; " db 7"]%string).
  exists l, (snd (final l)). vm_compute. repeat split.
Qed.
Print Assumptions C08_length_refuted.

(** C33.  However a run ends, including one stopped at an arbitrary depth of recursion
    by the budget [n], at most nine files and macros are open besides the main file. *)
Theorem C33_depth : forall n o fs text r s, assemble n o (init_state fs text) = (r, s) ->
  (List.length s.(inp).(srcs) <= 9)%nat.
Proof. exact run_depth. Qed.
Print Assumptions C33_depth.

(** C33.  At the last level INCLUDE and a macro call print the fatal error and stop. *)
Theorem C33_include_full : forall name s t, List.length s.(inp).(srcs) = 9%nat ->
  s.(files) name = Some t ->
  exists s', Xinclude (Some name) s = (Bad (Exit (s2l "too many nested INCLUDEs and MACROs")), s') /\
    s'.(ls).(stdout) = (s2l "FATAL ERROR: too many nested INCLUDEs and MACROs" ++ [nl]) :: s.(ls).(stdout).
Proof. exact include_fatal. Qed.
Print Assumptions C33_include_full.

Theorem C33_macro_full : forall self key ptr li oper s, List.length s.(inp).(srcs) = 9%nat ->
  exists s', macrocall self key ptr li oper s =
      (Bad (Exit (s2l "too many nested INCLUDEs and MACROs")), s') /\
    s'.(ls).(stdout) = (s2l "FATAL ERROR: too many nested INCLUDEs and MACROs" ++ [nl]) :: s.(ls).(stdout).
Proof. exact macro_fatal. Qed.
Print Assumptions C33_macro_full.

(** Endless recursion: the ninth level is reached and the tenth refused. *)
Example C33_case : exists s,
  final ["m macro"; " m"; " endm"; " m"]%string =
    (Bad (Exit (s2l "too many nested INCLUDEs and MACROs")), s) /\
  List.length s.(inp).(srcs) = 9%nat.
Proof. exists (snd (final ["m macro"; " m"; " endm"; " m"]%string)). vm_compute. repeat split. Qed.

(** C32.  Whatever the files, the current line never exceeds 249 characters, so that it
    fits the 256 bytes of the line buffer with its terminator ... *)
Theorem C32_line : forall n o fs text r s, assemble n o (init_state fs text) = (r, s) ->
  (List.length s.(inp).(curline) <= 249)%nat.
Proof. exact run_line. Qed.
Print Assumptions C32_line.

(** ... and the expansion of any macro line with any arguments is at most 241 long,
    which bounds every position written while it is built. *)
Theorem C32_expansion : forall args allargs t,
  (List.length (fst (msubst args allargs 0 t)) <= 241)%nat.
Proof. exact expansion_length. Qed.
Print Assumptions C32_expansion.

(** A line of three long arguments, cut at 241 characters, with the warning. *)
Example C32_case :
  let a := List.repeat "x"%char 100 in
  let r := msubst [a] [] 0 (s2l "\1\1\1\1") in
  List.length (fst r) = 241%nat /\ snd r = true.
Proof. vm_compute. split; reflexivity. Qed.
