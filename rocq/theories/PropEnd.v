(** C34, C36 and C48: how evaluation and assembly end. *)
From Coq Require Import String Ascii ZArith List Bool.
From Verif Require Import Base State Tree Output Operator Parse Crasm Witness.
From Verif Require Import SpecEnd EndFacts ParseEnd TermFacts TermProg.
Import ListNotations.
Open Scope Z_scope.

(** Concrete programs. *)
Definition alone (l : list string) : str -> option str :=
  fun f => if streq f (s2l "y") then Some (src l) else None.
Definition times (n : nat) (c : ascii) (t : string) : string := fold_right (fun _ t => String c t) t (repeat tt n).

(** C48, for a page format that PAGE can select ([wide]): the evaluation of any text in any
    state ends, with a value, a reported error or one of the few ways out of defined
    behaviour listed by [evaluation_ends].  Missing: that those ways are never taken, which
    is false. *)
Theorem C48_partial : forall t s r s', wide s -> parse t s = (r, s') -> evaluation_ends s r s'.
Proof. exact evaluation. Qed.
Print Assumptions C48_partial.

Example C48_applies : wide (init_state nofiles []) /\
  fst (parse (s2l "(1+2)*'a'") (init_state nofiles [])) <> Bad NoFuel /\
  (exists m, fst (parse (s2l ")(") (init_state nofiles [])) = Bad (Err m)) /\
  evaluation_ends (init_state nofiles []) (fst (parse (s2l "))((,,''") (init_state nofiles []))) (init_state nofiles []).
Proof.
  split; [vm_compute; repeat split; discriminate|]. split; [vm_compute; discriminate|]. split; [eexists; vm_compute; reflexivity|].
  vm_compute. exact I.
Qed.

(** In general the property fails: a count of 64 for a shift is undefined in C, and a range
    of registers in the wrong order runs for ever. *)
Theorem C48_refuted :
  fst (parse (s2l "1<<64") (init_state nofiles [])) = Bad (UB "shift count out of range") /\
  fst (parse (s2l "a-x") (snd (final [" cpu 6502"]%string))) = Bad Hang.
Proof. vm_compute. split; reflexivity. Qed.
Print Assumptions C48_refuted.

(** C34: for every file system and every command line the outcome is settled after finitely
    many steps; in particular every loop and recursion of assembler, macros, conditionals
    and included files comes to an end.  Missing: the one loop that the model stops as
    [Crash Hang], a range of registers, which needs a register ([C36_partial]). *)
Theorem C34_partial : forall fs args, exists n,
  (forall m, (n <= m)%nat -> program m fs args = program n fs args) /\ program n fs args <> Crash NoFuel.
Proof. exact program_ends. Qed.
Print Assumptions C34_partial.

Example C34_applies : forall n,
  program (12 + n) (alone ["m macro"; " if 1"; " db \0"; " endc"; " endm"; "* = 0"; " m 1"; " m 2"]%string) [s2l "-ls"; s2l "y"]
  = program 12 (alone ["m macro"; " if 1"; " db \0"; " endc"; " endm"; "* = 0"; " m 1"; " m 2"]%string) [s2l "-ls"; s2l "y"]
  /\ program 2 (alone ["m macro"; " if 1"; " db \0"; " endc"; " endm"; "* = 0"; " m 1"; " m 2"]%string) [s2l "-ls"; s2l "y"]
     = Crash NoFuel.
Proof. intros n. vm_compute. split; reflexivity. Qed.

(** In general the property fails. *)
Theorem C34_refuted : exists fs args, forall n, program (6 + n) fs args = Crash Hang.
Proof.
  exists (alone [" cpu 6502"; " db a-x"]%string), [s2l "y"]. intros n. vm_compute. reflexivity.
Qed.
Print Assumptions C34_refuted.

(** C36: what stops a run other than by a message is among the reasons of [assembly_ends].
    The listing buffer overflows only at a page width of 1000, the message buffer only for a
    line number of more than seven digits or a line of more than 64 characters, the buffer
    of the summary only for an address or a length beyond 32 bits.  Missing: the matcher's
    buffer, and a proof that these cases cannot occur, which is false. *)
Theorem C36_partial : forall fs text o,
  exists n r s', (forall m, (n <= m)%nat -> assemble m o (init_state fs text) = (r, s')) /\
    assembly_ends r s' /\
    forall r2 s2, r = Ok tt -> symbols o s' = (r2, s2) -> assembly_ends r2 s2.
Proof. exact run_settles. Qed.
Print Assumptions C36_partial.

Example C36_applies : forall n, exists s',
  assemble (6 + n) quiet (init_state nofiles (src ["* = 10"; " fail oops"; " db 1"]%string)) = (Ok tt, s') /\ s'.(ct).(errnumber) = 1.
Proof.
  intros n. exists (snd (assemble 6 quiet (init_state nofiles (src ["* = 10"; " fail oops"; " db 1"]%string)))).
  vm_compute. split; reflexivity.
Qed.

(** In general the property fails, for each of the four buffers. *)
Theorem C36_refuted :
  (forall n, program (6 + n) (alone [(" fail " ++ times 65 "a" "")%string]) [s2l "y"] = Crash (UB "error: message buffer overflow")) /\
  (forall n, program (6 + n) (alone [" page 66,1000"; times 130 "009" ";x"]%string) [s2l "y"] = Crash (UB "linebuffer overflow")) /\
  (forall n, program (6 + n) (alone ["* = 1<<40"]%string) [s2l "y"] = Crash (UB "result: buffer overflow")) /\
  (exists t, t = s2l (times 90 "~" "1") /\ fst (parse t (init_state nofiles [])) = Bad (UB "filter: buffer overflow")).
Proof.
  split; [intros n; vm_compute; reflexivity|]. split; [intros n; vm_compute; reflexivity|].
  split; [intros n; vm_compute; reflexivity|]. eexists. split; [reflexivity|]. vm_compute. reflexivity.
Qed.
Print Assumptions C36_refuted.
