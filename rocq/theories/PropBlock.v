(** C67: a block that is not executed extends to its own ELSE or ENDC. *)
From Coq Require Import String Ascii ZArith List Bool.
From Verif Require Import Base State Tree Output Label Macro Crasm SpecStar SpecSkip SpecMacro SpecBlock BlockFacts.
From Verif Require Import PropIf.
From Verif Require SpecInput SkipFacts.
Import ListNotations.
Open Scope Z_scope.

(** A block of the main file that is passed over without an error is a block in the sense
    of [block]: what is between is other lines, whole conditionals and whole definitions. *)
Theorem C67_skipped : forall n s0 li s f s', s.(inp).(srcs) = [] /\ ~ List.In SpecInput.nul s.(inp).(mainrest) -> s.(ct).(advance) = 0 ->
  run n KIf li false s = (Ok f, s') -> s'.(ct).(errnumber) = s.(ct).(errnumber) -> untouched s0 s ->
  exists e l, f = (if e : bool then FElse else FEndc) /\ block s0 l e /\ passed_over s s' l.
Proof. exact skipped_lines. Qed.
Print Assumptions C67_skipped.

(** There is one way only to read lines as a block: no block is the beginning of another. *)
Theorem C67_own_end : forall s l e, block s l e -> forall l' e' x y, block s l' e' -> l ++ x = l' ++ y -> l = l' /\ e = e'.
Proof. exact own_end. Qed.
Print Assumptions C67_own_end.

Example C67_applies : let s := begun skipped in let r := run 30 KIf false false s in
  (s.(inp).(srcs) = [] /\ ~ List.In SpecInput.nul s.(inp).(mainrest)) /\ s.(ct).(advance) = 0 /\ untouched s s /\
  fst r = Ok FElse /\ (snd r).(ct).(errnumber) = s.(ct).(errnumber) /\ (snd r).(inp).(mainrest) = Witness.src ["w = 1"; " endc"]%string.
Proof.
  cbv zeta. split; [split; [reflexivity|vm_compute; intuition discriminate]|]. split; [reflexivity|]. split; [apply SkipFacts.untouched_refl|].
  vm_compute. auto.
Qed.

(** The words of a program without symbols of its own. *)
Example C67_words : map (fun c => reads_as (begun []) (s2l c)) [" if x=1"; "  Else"; " endc ; done"; "m macro"; "if = 1"; "x db 1"; " endm"; "; if"; "elsewhere"]%string =
  [Some HIf; Some HElse; Some HEndc; Some HMacro; None; None; Some HEndm; None; None].
Proof. vm_compute. reflexivity. Qed.

Example C67_block : block (begun []) (map s2l [" if 0"; " else"; " endc"; " if"; " endc ; inner"; " endc"]%string) false.
Proof.
  assert (W : forall c h, reads_as (begun []) (s2l c) = Some h -> word (begun []) (s2l c) h) by (intros c h; apply read_word).
  apply (bl_if_else _ (s2l " if 0") [s2l " else"] [s2l " endc"]); [apply W; vm_compute; reflexivity|apply bl_else, W; vm_compute; reflexivity|apply bl_endc, W; vm_compute; reflexivity|].
  apply (bl_if _ (s2l " if") [s2l " endc ; inner"]); [apply W; vm_compute; reflexivity|apply bl_endc, W; vm_compute; reflexivity|apply bl_endc, W; vm_compute; reflexivity].
Qed.
