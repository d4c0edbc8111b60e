(** C45: [*] follows the bytes. *)
From Coq Require Import String Ascii ZArith List Bool.
From Verif Require Import Base State Tree Output Label Tables Macro Crasm Witness.
From Verif Require Import SpecEmit SpecStar Frame StarFacts.
Import ListNotations.
Open Scope Z_scope.

(** The state in which the second line of a program is assembled, in the given pass. *)
Definition second (number : Z) (l : list string) : state :=
  snd ((init_label_list pseudos ;;; passstart number ;;; upd_fl (set_a_noerror (number =? 1)) ;;;
        linegets ;;; run 5 KLine true true ;;; linegets) (init_state nofiles (src l))).

(** C45 for every line that is not a macro call, a conditional, a macro definition or an
    assignment to [*], in both passes, executed or skipped, listed or not, ending well or in
    an error: the bytes of the line lie at the address [*] had before and the following
    ones, and [*] moves by exactly their number.  Missing: macro calls and conditionals,
    which consist of such lines but for which the claim is false. *)
Theorem C45_partial : forall n li ex s r s', has_star s -> pc_range s ->
  (forall q, taken_apart s q -> of_its_own q /\ ~ sets_star q) ->
  run (S n) KLine li ex s = (r, s') -> how r <> Dead -> star_follows s s'.
Proof. exact (fun n => line_follows (run n) n). Qed.
Print Assumptions C45_partial.

(** The hypotheses hold of a line that stores three bytes, and of one that stores two before
    an error stops it. *)
Example C45_applies : forall l, l = " db 1,2,3"%string \/ l = " db 1,2,)"%string ->
  let s := second 2 ["* = 16"%string; l] in
  has_star s /\ pc_range s /\ (forall q, taken_apart s q -> of_its_own q /\ ~ sets_star q) /\
  starvalue s = 16 /\
  (l = " db 1,2,3"%string -> exists s', run 5 KLine true true s = (Ok FNone, s') /\ starvalue s' = 19) /\
  (l = " db 1,2,)"%string -> exists m s', run 5 KLine true true s = (Bad (Err m), s') /\ starvalue s' = 18).
Proof.
  intros l [-> | ->]; intros s.
  - assert (H : has_star s /\ pc_range s /\ starvalue s = 16 /\ starvalue (snd (run 5 KLine true true s)) = 19 /\
       fst (run 5 KLine true true s) = Ok FNone).
    { split; [eexists; vm_compute; reflexivity|]. vm_compute. repeat split. discriminate. }
    destruct H as (H1 & H2 & H3 & H4 & H5). split; [exact H1|]. split; [exact H2|]. split; [|split; [exact H3|]].
    + intros q (s1 & t & s2 & s3 & A & B & _ & C). vm_compute in A. injection A as <-. vm_compute in B. injection B as <- <-.
      vm_compute in C. injection C as <- _. split; [vm_compute; repeat split; discriminate|].
      intros (k & lb & [= _ <-] & Q & _). discriminate Q.
    + split; [|discriminate]. intros _. exists (snd (run 5 KLine true true s)). split; [|exact H4].
      rewrite <- H5. destruct (run 5 KLine true true s); reflexivity.
  - assert (H : has_star s /\ pc_range s /\ starvalue s = 16 /\ starvalue (snd (run 5 KLine true true s)) = 18 /\
       fst (run 5 KLine true true s) = Bad (Err (s2l "syntax error in an expression"))).
    { split; [eexists; vm_compute; reflexivity|]. vm_compute. repeat split. discriminate. }
    destruct H as (H1 & H2 & H3 & H4 & H5). split; [exact H1|]. split; [exact H2|]. split; [|split; [exact H3|]].
    + intros q (s1 & t & s2 & s3 & A & B & _ & C). vm_compute in A. injection A as <-. vm_compute in B. injection B as <- <-.
      vm_compute in C. injection C as <- _. split; [vm_compute; repeat split; discriminate|].
      intros (k & lb & [= _ <-] & Q & _). discriminate Q.
    + split; [discriminate|]. intros _. exists (s2l "syntax error in an expression"), (snd (run 5 KLine true true s)). split; [|exact H4].
      rewrite <- H5. destruct (run 5 KLine true true s); reflexivity.
Qed.

(** In general the property fails: when the source ends within a conditional, the error
    reported for the conditional counts the bytes of the last line a second time. *)
Theorem C45_refuted : exists n li ex s r s', has_star s /\ pc_range s /\
  run (S n) KLine li ex s = (r, s') /\ how r <> Dead /\
  List.length s'.(emitted) = S (List.length s.(emitted)) /\ starvalue s' = starvalue s + 2.
Proof.
  exists 5%nat, true, true, (second 2 ["* = 16"; " if 1"; " db 7"]%string),
    (fst (run 6 KLine true true (second 2 ["* = 16"; " if 1"; " db 7"]%string))),
    (snd (run 6 KLine true true (second 2 ["* = 16"; " if 1"; " db 7"]%string))).
  split; [eexists; vm_compute; reflexivity|]. split; [vm_compute; split; [discriminate|reflexivity]|].
  split; [destruct (run 6 KLine true true _); reflexivity|]. vm_compute. repeat split. discriminate.
Qed.
Print Assumptions C45_refuted.
