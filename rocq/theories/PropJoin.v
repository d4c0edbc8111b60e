(** Property C38: INCLUDE inserts the lines of a file. *)
From Coq Require Import String Ascii ZArith List Bool.
From Verif Require Import Base State Output Macro Crasm Run Witness SpecJoin FuelFacts JoinProg.
Import ListNotations.
Open Scope Z_scope.

(** C38, whole programs: a program with the line [L], which includes the file [F], and the
    program with the lines of [F] after an idle line in the place of [L] give the same symbol
    table, object file, bytes and errors.  The program is arbitrary but for this: the line [L] is
    reached by the loop of each pass, so it is not in a skipped part, a conditional or a macro
    definition; it is at most 248 characters long, without comment, and the line end after it
    exists. *)
Theorem C38_inline_partial : forall n n' o fs A L C name F B s t,
  (A = [] \/ exists a, A = a ++ [newline]) ->
  include_line L name -> (length L <= 248)%nat -> idle_line C -> (length C <= 248)%nat -> fs name = Some F ->
  (forall k s0, pass_starts n o fs (A ++ L ++ newline :: B) k s0 -> comes_to n s0 (L ++ newline :: B)) ->
  assemble n o (init_state fs (A ++ L ++ newline :: B)) = (Ok tt, s) ->
  assemble n' o (init_state fs (A ++ C ++ newline :: F ++ newline :: B)) = (Ok tt, t) ->
  same_outcome s t /\ leftover o s = leftover o t.
Proof. exact include_inline. Qed.
Print Assumptions C38_inline_partial.

(** C38, any place: after INCLUDE, wherever it stands, everything goes on as if the lines of the
    file stood before the rest of the file with the directive. *)
Theorem C38_continue_partial : forall name F s s1, Xinclude (Some name) s = (Ok tt, s1) -> files s name = Some F ->
  maineof (inp s) = false -> (srcs (inp s) = [] \/ exists r x y z low, srcs (inp s) = SFile false r false x y z :: low) ->
  (forall n, agree (passloop n s1) (passloop n (inline F s))) /\
  (forall n k li ex, agree (run n k li ex s1) (run n k li ex (inline F s))).
Proof. exact include_continue. Qed.
Print Assumptions C38_continue_partial.

(** One file, named f. *)
Definition onefile (F : str) : str -> option str := fun name => if streq name (s2l "f") then Some F else None.
Definition part : str := src [" db a+1"; "b = 5"]%string.
Example C38_applies : let A := src ["* = 3"]%string in let L := s2l " include f" in let B := src ["a db b"]%string in
  (A = [] \/ exists a, A = a ++ [newline]) /\ include_line L (s2l "f") /\ (length L <= 248)%nat /\ idle_line (s2l "; f") /\
  onefile part (s2l "f") = Some part /\
  (forall k s0, pass_starts 40 quiet (onefile part) (A ++ L ++ newline :: B) k s0 -> comes_to 40 s0 (L ++ newline :: B)) /\
  (let r := assemble 40 quiet (init_state (onefile part) (A ++ L ++ newline :: B)) in
   fst r = Ok tt /\ map em_byte (filter (fun e => em_pass e =? 2) (emitted (snd r))) = [5; 5]) /\
  (let r := assemble 40 quiet (init_state (onefile part) (A ++ s2l "; f" ++ newline :: part ++ newline :: B)) in
   fst r = Ok tt /\ map em_byte (filter (fun e => em_pass e =? 2) (emitted (snd r))) = [5; 5]).
Proof.
  cbv zeta. split; [right; exists (s2l "* = 3"); reflexivity|]. split.
  { exists [" "%char], (s2l "include"), [" "%char].
    split; [reflexivity|]. split; [constructor; [left; reflexivity|constructor]|]. split; [reflexivity|].
    split; [constructor; [left; reflexivity|constructor]|]. split; [discriminate|]. split; [discriminate|].
    split; [intros [X|X]; discriminate X|]. split; [intros [X|X]; discriminate X|].
    split; (constructor; [|constructor]); [right; vm_compute; split; discriminate|split; discriminate]. }
  split; [repeat constructor|]. split.
  { split; [repeat (constructor; [right; vm_compute; split; discriminate|]); constructor|]. exists []. split; [constructor|]. right. exists (s2l " f"). reflexivity. }
  split; [reflexivity|]. split.
  { apply reaches_both_sound. vm_compute. reflexivity. }
  split; vm_compute; split; reflexivity.
Qed.
Print Assumptions C38_applies.
Example C38_continue_applies :
  let s := snd (linegets (init_state (onefile part) (src [" include f"; " db 2"]%string))) in
  exists s1, Xinclude (Some (s2l "f")) s = (Ok tt, s1) /\ files s (s2l "f") = Some part /\
    maineof (inp s) = false /\ srcs (inp s) = [] /\ mainrest (inp (inline part s)) = src [" db a+1"; "b = 5"; ""; " db 2"]%string.
Proof. eexists. vm_compute. repeat split. Qed.

(** Without the line end the claim is false: an INCLUDE on the last line of the program is
    carried out, but the pass is over, and the file is read at the start of the second pass. *)
Theorem C38_refuted : exists n o fs A L C name F s t,
  (exists a, A = a ++ [newline]) /\ L = s2l " include f" /\ C = [] /\ fs name = Some F /\ name = s2l "f" /\
  assemble n o (init_state fs (A ++ L)) = (Ok tt, s) /\
  assemble n o (init_state fs (A ++ C ++ newline :: F)) = (Ok tt, t) /\
  errnumber (ct s) = 1 /\ emitted s = [] /\ errnumber (ct t) = 0 /\ map em_byte (emitted t) = [7; 7] /\ ~ same_outcome s t.
Proof.
  exists 40%nat, quiet, (onefile (src [" db 7"]%string)), (src ["* = 3"]%string), (s2l " include f"), [], (s2l "f"), (src [" db 7"]%string).
  exists (snd (assemble 40 quiet (init_state (onefile (src [" db 7"]%string)) (src ["* = 3"]%string ++ s2l " include f")))).
  exists (snd (assemble 40 quiet (init_state (onefile (src [" db 7"]%string)) (src ["* = 3"]%string ++ [] ++ newline :: src [" db 7"]%string)))).
  split; [exists (s2l "* = 3"); reflexivity|]. repeat (split; [vm_compute; reflexivity|]).
  intros (_ & _ & E & _). vm_compute in E. discriminate E.
Qed.
Print Assumptions C38_refuted.
