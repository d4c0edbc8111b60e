(** C62: the listing of a line that stores bytes. *)
From Coq Require Import String Ascii ZArith List Bool.
From Verif Require Import Base State Tree Filter Output Label Tables Macro Crasm Witness.
From Verif Require Import SpecStar SpecTable SpecListing Frame ListLine.
From Verif Require SpecPage SpecSplit SpecEmit.
Import ListNotations.
Open Scope Z_scope.

(** C62: the listing of a line that stores bytes, of a bare
    label, of a comment or of an empty line.  It shows the bytes the line stored, in their
    order, beginning with the address of the first one, seven on a line; then the number of
    the line and its text.  Between these lines there can be warnings, and nothing else.
    Bytes after the 21st are not
    shown. *)
Theorem C62_listing : forall n s f s', has_origin s -> SpecEmit.pc_range s -> listed_plainly s -> fresh_line s ->
  (forall q, taken_apart s q -> storing q) -> run (S n) KLine true true s = (Ok f, s') ->
  exists es text w msgs lines t,
    s'.(emitted) = rev es ++ s.(emitted) /\ consecutive (starvalue s) es /\
    s.(inp).(curline) = text ++ w /\ Forall SpecSplit.blank w /\
    mixed (lines_for (starvalue s) (map em_byte es) s.(inp).(linenumber) text) msgs lines /\ Forall SpecPage.is_message msgs /\
    pieces s'.(ls).(stdout) = pieces s.(ls).(stdout) ++ t /\ listing s lines t /\ fresh_line s'.
Proof. exact (fun n => line_listed (run n) n). Qed.
Print Assumptions C62_listing.

(** The state in which the third line of a program is assembled, in the second pass. *)
Definition third (l : list string) : state :=
  snd ((init_label_list pseudos ;;; upd_fl (set_a_nolist false) ;;; passstart 2 ;;; linegets ;;; run 5 KLine true true ;;; linegets ;;; run 5 KLine true true ;;; linegets)
       (init_state nofiles (src l))).

(** The hypotheses hold of a line with nine bytes, a label, a tabulator and a comment; this
    is its listing. *)
Example C62_applies : let s := third [" cpu 6502"; "* = $1ff0"; String "k" (String tab "db 1,2,3,4,5,6,7,8,$fe ; nine")]%string in
  has_origin s /\ SpecEmit.pc_range s /\ listed_plainly s /\ fresh_line s /\ (forall q, taken_apart s q -> storing q) /\
  fst (run 5 KLine true true s) = Ok FNone /\
  stdout (ls (snd (run 5 KLine true true s))) =
    (s2l "1FF7 08FE                3  k       db 1,2,3,4,5,6,7,8,$fe ; nine" ++ [nl]) :: (s2l "1FF0 01020304050607" ++ [nl]) :: stdout (ls s) /\
  lines_for 8176 [1; 2; 3; 4; 5; 6; 7; 8; 254] 3 (s2l (String "k" (String tab "db 1,2,3,4,5,6,7,8,$fe ; nine"))) =
    [s2l "1FF0 01020304050607"; s2l "1FF7 08FE                3  k       db 1,2,3,4,5,6,7,8,$fe ; nine"].
Proof.
  intros s. split; [eexists; vm_compute; split; reflexivity|]. split; [vm_compute; split; [discriminate|reflexivity]|].
  split.
  { unfold listed_plainly, s. repeat split; try (vm_compute; reflexivity). 
    apply Forall_forall. intros c H. vm_compute in H.
    repeat (destruct H as [H|H]; [subst c; first [right; reflexivity|left; split; [vm_compute; discriminate|vm_compute; discriminate]]|]). destruct H. vm_compute. discriminate. }
  split; [vm_compute; split; reflexivity|]. split; [|vm_compute; repeat split].
  intros q (s1 & t & s2 & s3 & A & B & _ & C). vm_compute in A. injection A as <-. vm_compute in B. injection B as <- <-.
  vm_compute in C. injection C as <- _. vm_compute. repeat split. eexists. split; reflexivity.
Qed.
