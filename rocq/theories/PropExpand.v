(** C69: a macro call assembles the lines of the macro one after the other. *)
From Coq Require Import String Ascii ZArith List Bool.
From Verif Require Import Base State Tree Output Label Cpu6800 Macro Crasm SpecInput SpecStar SpecExpand ExpandFacts.
From Verif Require Import Witness PropIf.
Import ListNotations.
Open Scope Z_scope.

(** A call that comes to its end: it begins, lines are read and assembled, an error in one of
    them does not end it, a line with ENDM or EXITM does. *)
Theorem C69_call : forall n key lines li o s u s', macrocall (run n) key (PMac lines) li o s = (Ok u, s') ->
  exists s1 m t a f s2, begins key lines (otext o) s s1 /\
    assembles (li && s.(fl).(a_macrolist_on)) n s1 (S m) t /\ linegets t = (Ok tt, a) /\
    run m KLine (li && s.(fl).(a_macrolist_on)) true a = (Ok f, s2) /\ (f = FEndm \/ f = FExitm) /\ ends s s2 s'.
Proof. exact call_lines. Qed.
Print Assumptions C69_call.

(** Where the lines are ordinary ones, those read are the lines of the macro in their order,
    each with the arguments put in. *)
Theorem C69_lines : forall li n s m t, assembles li n s m t -> all_ordinary li n s -> forall ls args all ol op on r,
  s.(inp).(srcs) = SMac (map shaped ls) args all ol op on :: r -> (List.length args <= 9)%nat -> Forall readable ls ->
  exists done rest, ls = done ++ rest /\ works_off li n done s m t /\ t.(inp).(srcs) = SMac (map shaped rest) args all ol op on :: r /\
    forall a, linegets t = (Ok tt, a) -> exists l rest', rest = l :: rest' /\ puts_in l t a.
Proof. exact worked_off. Qed.
Print Assumptions C69_lines.

(** A macro with an error in its second line, called with the argument [lab]. *)
Definition lines69 : list (list piece) :=
  [[Arg 0; Lit " "; Lit "="; Lit "2"]; map Lit (s2l " asc"); map Lit (s2l " db 3"); map Lit (s2l " endm")]%char.
Definition before69 : state := snd ((linegets ;;; run 3 KLine true true) (begun ["* = 5"]%string)).
Definition start69 : state :=
  set_inp (set_srcs [SMac (map shaped lines69) [s2l "lab"] (s2l "lab") true (cz 0) 1] (set_macrolevel 1 before69.(inp))) before69.

Example C69_applies : let r := macrocall (run 9) (s2l "M") (PMac (map shaped lines69)) true (Some (s2l "lab")) before69 in
  fst r = Ok tt /\ map em_byte (snd r).(emitted) = [3] /\ (snd r).(ct).(errnumber) = 1 /\ option_map l_value (tfind (s2l "LAB") (snd r).(sy)) = Some 2.
Proof. vm_compute. repeat split. Qed.

Example C69_lines_applies : all_ordinary true 6 start69 /\ Forall readable lines69 /\
  start69.(inp).(srcs) = [SMac (map shaped lines69) [s2l "lab"] (s2l "lab") true (cz 0) 1] /\
  exists t, assembles true 6 start69 3 t /\ map em_byte t.(emitted) = [3].
Proof.
  split; [apply linesb_ok; vm_compute; reflexivity|]. split.
  { repeat constructor; cbn; intros; discriminate. }
  split; [reflexivity|].
  pose (get := fun s => snd (linegets s)). pose (did := fun n s => snd (run n KLine true true (get s))).
  pose (bump := fun b => set_ct (set_errnumber (b.(ct).(errnumber) + 1) b.(ct)) b).
  exists (did 3%nat (bump (did 4%nat (did 5%nat start69)))). split; [|vm_compute; reflexivity].
  apply (as_line true 5 start69 (get start69) (did 5%nat start69)); [vm_compute; reflexivity|left; vm_compute; reflexivity|].
  apply (as_line true 4 _ (get (did 5%nat start69)) (bump (did 4%nat (did 5%nat start69)))); [vm_compute; reflexivity| |].
  { right. exists (s2l "Need an operand"), (did 4%nat (did 5%nat start69)). split; [|reflexivity]. vm_compute. reflexivity. }
  apply (as_line true 3 _ (get (bump (did 4%nat (did 5%nat start69)))) (did 3%nat (bump (did 4%nat (did 5%nat start69))))); [vm_compute; reflexivity|left; vm_compute; reflexivity|].
  apply as_none.
Qed.
