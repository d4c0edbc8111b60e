(** Properties C17 and C18: references to symbols. *)
From Coq Require Import String Ascii ZArith List Bool.
From Verif Require Import Base State Tree Output Label Operator Scode Tables Crasm Witness SpecRef RefFacts.
Import ListNotations.
Open Scope Z_scope.

(** C17: a reference either is reported or is in the log, with the value it delivers; and a
    reference of the second pass to an identifier met in the first finds a symbol that was
    defined before in the second pass, or else one that the first pass defined.
    Missing: identifiers that the first pass has not met ([C17_refuted]). *)
Theorem C17_logged_partial : forall top name s r s', cstlabel top name s = (r, s') ->
  (exists b, r = Bad b) \/
  (exists l v, r = Ok v /\ r_value v = l_value l /\ r_type v = l_type l /\
     looked s' = mkLook (passnumber (ct s)) (lkey (segment (inp s)) name) l :: looked s).
Proof. exact cstlabel_logs. Qed.
Print Assumptions C17_logged_partial.

Theorem C17_partial : forall n o files main s1 s e,
  (init_label_list pseudos ;;; pass n 1) (init_state files main) = (Ok tt, s1) ->
  assemble n o (init_state files main) = (Ok tt, s) -> In e s.(looked) -> lk_pass e = 2 -> met (lk_key e) s1 ->
  after_definition e \/ (fixed_in s1 (lk_key e) /\ defined_with (lk_key e) (used_type e) (used_value e) s1).
Proof. exact referenced. Qed.
Print Assumptions C17_partial.

(** One reference before the definition and one after it. *)
Definition both : str := src ["* = 5"; " db lab"; "lab db lab+1"]%string.
Definition look_at (e : look) : Z * string * bool * Z :=
  (lk_pass e, string_of_list_ascii (lk_key e), negb (f_undef (l_flags (lk_label e))), l_value (lk_label e)).
Definition firsts (main : str) : res unit * state := (init_label_list pseudos ;;; pass 9 1) (init_state nofiles main).
Definition finals (main : str) : res unit * state := assemble 9 quiet (init_state nofiles main).
Definition emitted2 (s : state) : list (Z * Z) :=
  map (fun e => (em_pc e, em_byte e)) (filter (fun e => em_pass e =? 2) (emitted s)).
Example C17_applies : fst (firsts both) = Ok tt /\ fst (finals both) = Ok tt /\
  map look_at (looked (snd (finals both))) =
    [(2, "LAB"%string, true, 6); (2, "LAB"%string, false, 6); (1, "LAB"%string, true, 6); (1, "LAB"%string, false, 0)] /\
  errnumber (ct (snd (finals both))) = 0 /\ tfind (s2l "LAB") (sy (snd (firsts both))) <> None.
Proof. vm_compute. repeat split. discriminate. Qed.

(** The property fails: the operand of IF counts as false in the first pass and true in the
    second, where an identifier that is defined nowhere is met for the first time. *)
Definition late : str := src ["* = 0"; "a = b"; " if a"; " db nope"; " endc"; "b = 1"]%string.
Theorem C17_refuted : exists main e,
  (fst (finals main) = Ok tt /\ errnumber (ct (snd (finals main))) = 0 /\ emitted2 (snd (finals main)) = [(0, 0)]) /\
  In e (looked (snd (finals main))) /\ lk_pass e = 2 /\ lk_key e = s2l "NOPE" /\ ~ after_definition e /\
  ~ met (lk_key e) (snd (firsts main)) /\
  (forall ty v, ~ defined_with (lk_key e) ty v (snd (finals main))).
Proof.
  exists late. set (q := looked (snd (finals late))).
  assert (H : exists e q', q = e :: q' /\ lk_pass e = 2 /\ lk_key e = s2l "NOPE" /\ f_undef (l_flags (lk_label e)) = true).
  { exists (mkLook 2 (s2l "NOPE") (mkLabel (mkLF true true true true false false false false) TAbs 0 PNull 0 TUser)), (tl q).
    split; [vm_compute; reflexivity|repeat split]. }
  destruct H as (e & q' & Q & P & K & U). exists e. split; [vm_compute; repeat split|].
  split; [rewrite Q; left; reflexivity|]. split; [exact P|]. split; [exact K|].
  split; [unfold after_definition; congruence|]. rewrite K. split.
  - unfold met. intros M. apply M. vm_compute. reflexivity.
  - intros ty v (l & T & D & _). revert T D.
    assert (X : option_map (fun l => f_undef (l_flags l)) (tfind (s2l "NOPE") (sy (snd (finals late)))) = Some true) by (vm_compute; reflexivity).
    intros T D. rewrite T in X. cbn [option_map] in X. congruence.
Qed.
Print Assumptions C17_refuted.

(** C18: in the second pass a reference to a symbol that cannot be redefined uses the value in
    the final table when it comes after the definition, the value at the end of the first pass
    otherwise; so all references use the final value if the two passes give the same addresses.
    Missing: that they do ([C18_refuted]), and identifiers that the first pass has not met. *)
Theorem C18_partial : forall n o files main s1 s e,
  (init_label_list pseudos ;;; pass n 1) (init_state files main) = (Ok tt, s1) ->
  assemble n o (init_state files main) = (Ok tt, s) -> In e s.(looked) -> lk_pass e = 2 -> met (lk_key e) s1 ->
  fixed e -> lk_key e <> s2l "*" ->
  (after_definition e /\ defined_with (lk_key e) (used_type e) (used_value e) s) \/
  (~ after_definition e /\ defined_with (lk_key e) (used_type e) (used_value e) s1).
Proof. exact final_value. Qed.
Print Assumptions C18_partial.

Theorem C18_agree_partial : forall n o files main s1 s e,
  (init_label_list pseudos ;;; pass n 1) (init_state files main) = (Ok tt, s1) ->
  assemble n o (init_state files main) = (Ok tt, s) -> In e s.(looked) -> lk_pass e = 2 -> met (lk_key e) s1 ->
  fixed e -> lk_key e <> s2l "*" -> same_addresses s1 s ->
  forall ty v, defined_with (lk_key e) ty v s -> used_value e = v.
Proof. exact agreeing. Qed.
Print Assumptions C18_agree_partial.

Example C18_applies : match looked (snd (finals both)) with
  | a :: b :: _ => after_definition a /\ ~ after_definition b /\
      Forall (fun e => lk_pass e = 2 /\ lk_key e = s2l "LAB" /\ fixed e) [a; b]
  | _ => False
  end /\ option_map l_value (tfind (s2l "LAB") (sy (snd (finals both)))) = Some 6 /\
  option_map l_value (tfind (s2l "LAB") (sy (snd (firsts both)))) = Some 6.
Proof. vm_compute. repeat split; try discriminate. repeat constructor. Qed.

(** The property fails: the operand of DS may be a symbol defined further on, so that labels
    move between the passes; the byte emitted is the address of the first pass. *)
Definition moving : str := src ["* = 0"; " db lab"; " ds n"; "lab db 7"; "n = 3"]%string.
Theorem C18_refuted : exists main, fst (finals main) = Ok tt /\ errnumber (ct (snd (finals main))) = 0 /\
  option_map l_value (tfind (s2l "LAB") (sy (snd (finals main)))) = Some 4 /\
  option_map l_value (tfind (s2l "LAB") (sy (snd (firsts main)))) = Some 1 /\
  emitted2 (snd (finals main)) = [(4, 7); (3, 0); (2, 0); (1, 0); (0, 1)].
Proof. exists moving. vm_compute. repeat split. Qed.
Print Assumptions C18_refuted.
