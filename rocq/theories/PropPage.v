(** Property C46: the layout of the listing. *)
From Coq Require Import String Ascii ZArith List Bool.
From Verif Require Import Base State Output Crasm Witness SpecPage PageRun.
Import ListNotations.
Open Scope Z_scope.

(** C46, for every program, files, options and recursion budget, however the run ends: a line
    made by the line formatter is no wider than the line length in force when it is ended; a
    page is no longer than the longest page length in force while it is printed, and is full
    when it is ended if the page length did not change; what is printed are such pages; and the
    lines on them are those of the line formatter, and error messages.
    Missing: a page may be longer than the page length last selected ([C46_refuted]). *)
Theorem C46_layout_partial : forall n o fs text,
  layout (snd ((assemble n o ;;; symbols o) (init_state fs text))).
Proof. exact listing_layout. Qed.
Print Assumptions C46_layout_partial.

(** [crasm -x y] with a listing. *)
Definition listed : options := mkOpt None true false true (Some (s2l "y")).
Definition listing_of (l : list string) : listing :=
  (snd ((assemble 60 listed ;;; symbols listed) (init_state nofiles (src l)))).(ls).

(** A listing on four pages of ten lines, with a comment on several lines. *)
Definition long : string := ";234567890123456789012345678901234567890123456789012345678901234567890".
Example C46_applies : let l := listing_of [" page 10,64"; long]%string in
  map fst (l.(composed)) = repeat 64 (List.length l.(composed)) /\
  4 = zlen (filter (fun x => match x with PHead _ => true | _ => false end) l.(sheets)) /\
  existsb (fun x => zlen (snd x) =? 64) l.(composed) = true.
Proof. vm_compute. repeat split. Qed.

(** The property fails: the line that selects pages of ten lines is printed as the thirteenth of
    its page, which takes fifteen. *)
Definition shorter : list string := [" page 20,64"; " skip 8"; " page 10,64"]%string.
Theorem C46_refuted : exists text before page after,
  rev (snd (assemble 60 listed (init_state nofiles text))).(ls).(sheets) = before ++ page ++ PFoot 10 :: after /\
  total (page ++ [PFoot 10]) = 15 /\ hd_error page = Some (PHead 20) /\ Forall nohead (tl page).
Proof.
  exists (src shorter), [], (firstn 12 (rev (snd (assemble 60 listed (init_state nofiles (src shorter)))).(ls).(sheets))),
    (skipn 13 (rev (snd (assemble 60 listed (init_state nofiles (src shorter)))).(ls).(sheets))).
  vm_compute. repeat constructor.
Qed.
Print Assumptions C46_refuted.
