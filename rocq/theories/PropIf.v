(** Conditional assembly: C29 and C30. *)
From Coq Require Import String Ascii ZArith List Bool.
From Verif Require Import Base State Tree Output Label Parse Tables Macro Crasm SpecEmit SpecSkip SpecCond.
From Verif Require Import SkipFacts CondFacts Witness.
From Verif Require SpecSplit.
Import ListNotations.
Open Scope Z_scope.

(** C29: a line that is not executed, whatever it says and however it ends. *)
Theorem C29_line : forall n li s r s', run n KLine li false s = (r, s') -> untouched s s'.
Proof. exact skip_line. Qed.
Print Assumptions C29_line.

(** All lines of a block that is not executed, with the blocks nested in it. *)
Theorem C29_block : forall n k li s r s', s.(ct).(advance) = 0 -> run n k li false s = (r, s') ->
  untouched s s'.
Proof. exact skip_block. Qed.
Print Assumptions C29_block.

(** An IF whose condition is true: only its first block is executed. *)
Theorem C29_true : forall n li oper s s1 r s', s.(ct).(advance) = 0 ->
  testtrue oper s = (Ok true, s1) -> Xif (run n) li true oper s = (r, s') ->
  (untouched s1 s' /\ exists b, r = Bad b) \/
  exists s2 li1 f s3, standing s1 s2 /\ run n KIf li1 true s2 = (f, s3) /\ untouched s3 s'.
Proof. exact if_true. Qed.
Print Assumptions C29_true.

(** An IF whose condition is false: only its second block is executed. *)
Theorem C29_false : forall n li oper s s1 r s', s.(ct).(advance) = 0 ->
  testtrue oper s = (Ok false, s1) -> Xif (run n) li true oper s = (r, s') ->
  (untouched s1 s' /\ exists b, r = Bad b) \/
  exists s2 li1 f s3, standing s1 s2 /\ run n KIf li1 false s2 = (f, s3) /\ untouched s2 s3 /\
    match f with
    | Ok FElse => (untouched s3 s' /\ exists b, r = Bad b) \/
        exists s4 li2 g s5, standing s3 s4 /\ run n KIf li2 true s4 = (g, s5) /\ untouched s5 s'
    | _ => untouched s3 s'
    end.
Proof. exact if_false. Qed.
Print Assumptions C29_false.

(** An IF inside a block that is not executed evaluates no condition and does nothing. *)
Theorem C29_nested : forall n li oper s r s', s.(ct).(advance) = 0 ->
  Xif (run n) li false oper s = (r, s') -> untouched s s'.
Proof. exact if_nested. Qed.
Print Assumptions C29_nested.

(** A program for the examples: the state before its first line is read. *)
Definition begun (l : list string) : state :=
  snd ((init_label_list pseudos ;;; passstart 1) (init_state nofiles (src l))).

Definition skipped : list string 
  := ["x db 2"; "y macro"; " db 3"; " endm"; " if 1"; "z = 3"; " else"; "* = 5"; " endc"; " asc"; " else"; "w = 1"; " endc"]%string.

Example C29_applies :
  (begun skipped).(ct).(advance) = 0 /\
  (exists s', run 30 KIf false false (begun skipped) = (Ok FElse, s') /\ s'.(inp).(linenumber) = 11) /\
  (exists s', testtrue (Some (s2l "1")) (begun skipped) = (Ok true, s')) /\
  (exists s', testtrue (Some (s2l "0")) (begun skipped) = (Ok false, s')).
Proof.
  split; [vm_compute; reflexivity|]. split; [|split].
  - exists (snd (run 30 KIf false false (begun skipped))). vm_compute. split; reflexivity.
  - exists (snd (testtrue (Some (s2l "1")) (begun skipped))). vm_compute. reflexivity.
  - exists (snd (testtrue (Some (s2l "0")) (begun skipped))). vm_compute. reflexivity.
Qed.

(** C30, where no number carries the modifier of a register ([clean]): a comparison of
    numbers decides, and without comparison the value does. *)
Theorem C30_decides_partial : forall t s v s', clean s -> t <> [] -> testtrue (Some t) s = (Ok v, s') ->
  (exists a b R r1 r2, compares t a b R /\ result_at s a r1 /\ result_at s b r2 /\ settled r1 /\ settled r2 /\ r1.(r_type) = r2.(r_type) /\
      (r1.(r_type) = TAbs -> (v = true <-> R r1.(r_value) r2.(r_value)) /\ clean s')) \/
  (plain t /\ exists r, value_at s t r /\ settled r /\ (v = true <-> r.(r_value) <> 0) /\ clean s').
Proof. exact decides. Qed.
Print Assumptions C30_decides_partial.

Example C30_applies : clean (begun []) /\
  (exists s', testtrue (Some (s2l "2 >= 1+1")) (begun []) = (Ok true, s')) /\
  (exists s', testtrue (Some (s2l "1 <> 3-2")) (begun []) = (Ok false, s')).
Proof.
  split; [apply clean_check; vm_compute; split; reflexivity|]. split.
  - exists (snd (testtrue (Some (s2l "2 >= 1+1")) (begun []))). vm_compute. reflexivity.
  - exists (snd (testtrue (Some (s2l "1 <> 3-2")) (begun []))). vm_compute. reflexivity.
Qed.

(** In general the property fails: after an instruction with a register, IF 0 assembles
    its first block. *)
Theorem C30_refuted : exists l s, l = [" cpu z80"; "* = 0"; " ld b,a"; " if 0"; " db 1"; " endc"]%string /\
  final l = (Ok tt, s) /\ s.(ct).(errnumber) = 0 /\
  exists e, In e s.(emitted) /\ e.(em_pass) = 2 /\ e.(em_pc) = 1 /\ e.(em_byte) = 1.
Proof.
  exists [" cpu z80"; "* = 0"; " ld b,a"; " if 0"; " db 1"; " endc"]%string,
    (snd (final [" cpu z80"; "* = 0"; " ld b,a"; " if 0"; " db 1"; " endc"]%string)).
  split; [reflexivity|]. vm_compute. split; [reflexivity|]. split; [reflexivity|].
  eexists. split; [left; reflexivity|]. repeat split.
Qed.
Print Assumptions C30_refuted.
