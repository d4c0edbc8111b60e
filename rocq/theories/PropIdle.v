(** Property C55: blank lines and comment lines do not matter. *)
From Coq Require Import String Ascii ZArith List Bool.
From Verif Require Import Base State Output Macro Crasm Run Witness SpecJoin FuelFacts JoinProg JoinIdle.
Import ListNotations.
Open Scope Z_scope.

(** C55: a program and the program with an idle line inserted give the same symbol table, object
    file, bytes and errors.  The place of the insertion is reached by the loop of each pass, so it
    is not in a skipped part, a conditional or a macro definition, and something follows it. *)
Theorem C55_idle : forall n n' o fs A C B s t,
  (A = [] \/ exists a, A = a ++ [newline]) -> idle_line C -> (length C <= 248)%nat -> B <> [] ->
  (forall k s0, pass_starts n o fs (A ++ B) k s0 -> comes_to n s0 B) ->
  assemble n o (init_state fs (A ++ B)) = (Ok tt, s) ->
  assemble n' o (init_state fs (A ++ C ++ newline :: B)) = (Ok tt, t) ->
  same_outcome s t /\ leftover o s = leftover o t.
Proof. exact idle_inserted. Qed.
Print Assumptions C55_idle.

Example C55_idle_case : let A := src ["* = 3"; "a = b"]%string in let C := s2l "  ; b = 9" in let B := src ["b db a"]%string in
  (A = [] \/ exists a, A = a ++ [newline]) /\ idle_line C /\ B <> [] /\
  (forall k s0, pass_starts 30 quiet nofiles (A ++ B) k s0 -> comes_to 30 s0 B) /\
  (let r := assemble 30 quiet (init_state nofiles (A ++ B)) in
   fst r = Ok tt /\ map em_byte (filter (fun e => em_pass e =? 2) (emitted (snd r))) = [3]) /\
  (let r := assemble 31 quiet (init_state nofiles (A ++ C ++ newline :: B)) in
   fst r = Ok tt /\ map em_byte (filter (fun e => em_pass e =? 2) (emitted (snd r))) = [3]).
Proof.
  cbv zeta. split; [right; exists (s2l "* = 3" ++ newline :: s2l "a = b"); reflexivity|]. split.
  { split; [repeat (constructor; [right; vm_compute; split; discriminate|]); constructor|].
    exists (s2l "  "). split; [repeat (constructor; [left; reflexivity|]); constructor|]. right. exists (s2l " b = 9"). reflexivity. }
  split; [discriminate|]. split; [apply reaches_both_sound; vm_compute; reflexivity|]. vm_compute. repeat split.
Qed.

(** In the body of a macro the line is part of the text of a symbol. *)
Theorem C55_in_macro_refuted : exists n o fs A C B s t,
  (exists a, A = a ++ [newline]) /\ idle_line C /\ B <> [] /\
  assemble n o (init_state fs (A ++ B)) = (Ok tt, s) /\ assemble n o (init_state fs (A ++ C ++ newline :: B)) = (Ok tt, t) /\
  ~ same_outcome s t.
Proof.
  exists 30%nat, quiet, nofiles, (src ["m macro"]%string), [], (src [" endm"]%string).
  exists (snd (assemble 30 quiet (init_state nofiles (src ["m macro"]%string ++ src [" endm"]%string)))).
  exists (snd (assemble 30 quiet (init_state nofiles (src ["m macro"]%string ++ [] ++ newline :: src [" endm"]%string)))).
  split; [exists (s2l "m macro"); reflexivity|]. split; [split; [constructor|exists []; split; [constructor|left; reflexivity]]|].
  split; [discriminate|]. split; [vm_compute; reflexivity|]. split; [vm_compute; reflexivity|].
  intros (E & _). vm_compute in E. discriminate E.
Qed.
Print Assumptions C55_in_macro_refuted.
