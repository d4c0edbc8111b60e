(** Property C63: both passes lay out the program in the same way. *)
From Coq Require Import String Ascii ZArith List Bool.
From Verif Require Import Base State Tree Output Label Crasm Witness Run SpecRef SpecJoin SpecLayout LayoutRun LayoutRef LayoutCheck.
Import ListNotations.
Open Scope Z_scope.

(** C63: in a program without macros, conditionals and included files that is assembled without
    errors, whose DS operands and assignments to [*] do not depend on symbols defined further
    down, and where these symbols are numbers, the two passes store bytes at the same addresses
    in the same order, [*] has the same value before every line, and what the first pass defines
    the second pass defines with the same type, and with the same value unless it is referred to
    before its definition and assigned a value that depends on what comes later.  The first pass may complain about the values of operands. *)
Theorem C63_layout : forall n o fs main b1 b2 s1 s,
  pass_starts n o fs main 1 b1 -> pass_starts n o fs main 2 b2 ->
  first n (init_state fs main) = (Ok tt, s1) -> assemble n o (init_state fs main) = (Ok tt, s) -> s.(ct).(errnumber) = 0 ->
  straight n b1 -> (forall e, complains n b1 e -> late e) -> forward_numbers s1.(sy) ->
  addresses 1 s1.(emitted) = addresses 2 s.(emitted) /\
  (exists l1 l2, stations n b1 l1 /\ stations n b2 l2 /\ (l1 = l2 \/ exists p, l1 = l2 ++ [p])) /\
  (forall k l1, k <> starkey -> tfind k s1.(sy) = Some l1 -> l1.(l_flags).(f_undef) = false ->
     exists l, tfind k s.(sy) = Some l /\ l.(l_flags).(f_undef) = false /\ l.(l_type) = l1.(l_type) /\
       (l1.(l_flags).(f_forward) = false \/ steadily n b1 k -> l.(l_value) = l1.(l_value))).
Proof. exact layout. Qed.
Print Assumptions C63_layout.

(** A program that refers to a symbol and to a label before their definitions; the branch is
    too long in the first pass, where [far] counts as 0. *)
Definition ahead : str := src [" cpu 6502"; "* = 4096"; " bne far"; " lda #num"; "num = 5"; " ds 2"; "far rts"]%string.
Definition begun1 (m : str) : state := snd (passstart 1 (snd (init_label_list Tables.pseudos (init_state nofiles m)))).
Definition done1 (m : str) : res unit * state := first 12 (init_state nofiles m).
Definition begun2 (m : str) : state := snd (passstart 2 (snd (between quiet (snd (done1 m))))).
Definition done2 (m : str) : res unit * state := assemble 12 quiet (init_state nofiles m).
Lemma meet : forall m, fst (init_label_list Tables.pseudos (init_state nofiles m)) = Ok tt -> fst (done1 m) = Ok tt ->
  pass_starts 12 quiet nofiles m 1 (begun1 m) /\ pass_starts 12 quiet nofiles m 2 (begun2 m).
Proof. unfold begun1, begun2, done1. intros m. apply starts_meet. Qed.
Example C63_applies :
  (pass_starts 12 quiet nofiles ahead 1 (begun1 ahead) /\ pass_starts 12 quiet nofiles ahead 2 (begun2 ahead)) /\
  (done1 ahead = (Ok tt, snd (done1 ahead)) /\ done2 ahead = (Ok tt, snd (done2 ahead)) /\ errnumber (ct (snd (done2 ahead))) = 0) /\
  (straight 12 (begun1 ahead) /\ (forall e, complains 12 (begun1 ahead) e -> late e) /\ forward_numbers (sy (snd (done1 ahead)))) /\
  map (fun r => string_of_list_ascii (rp_text r)) (reported (snd (done1 ahead))) = ["too long branch"%string] /\
  rev (addresses 2 (emitted (snd (done2 ahead)))) = [4096; 4097; 4098; 4099; 4100; 4101; 4102].
Proof.
  assert (K : (fst (init_label_list Tables.pseudos (init_state nofiles ahead)) = Ok tt /\ fst (done1 ahead) = Ok tt /\ fst (done2 ahead) = Ok tt /\
    checked 12 (begun1 ahead) = true /\ tall numbersb (sy (snd (done1 ahead))) = true) /\ errnumber (ct (snd (done2 ahead))) = 0 /\
    map (fun r => string_of_list_ascii (rp_text r)) (reported (snd (done1 ahead))) = ["too long branch"%string] /\
    rev (addresses 2 (emitted (snd (done2 ahead)))) = [4096; 4097; 4098; 4099; 4100; 4101; 4102]) by (vm_compute; repeat split).
  destruct K as ((K1 & K2 & K3 & K4 & K5) & K6 & K7 & K8).
  split; [exact (meet ahead K1 K2)|]. split; [|split; [|split; assumption]].
  - split; [apply whole, K2|]. split; [apply whole, K3|exact K6].
  - split; [apply checked_straight, K4|]. split; [apply checked_late, K4|]. apply numbersb_ok, K5.
Qed.

(** The conditions are needed: here the operand of DS is a symbol defined further down, and the
    byte that follows goes to address 0 in the first pass and to address 2 in the second. *)
Theorem C63_refuted : exists main, fst (done2 main) = Ok tt /\ errnumber (ct (snd (done2 main))) = 0 /\
  addresses 1 (emitted (snd (done1 main))) = [0] /\ addresses 2 (emitted (snd (done2 main))) = [2; 1; 0].
Proof. exists (src ["* = 0"; " ds k"; " db 1"; "k = 2"]%string). vm_compute. repeat split. Qed.
Print Assumptions C63_refuted.
(** Here a symbol turns out to name a register: the instruction is shorter in the second pass. *)
Theorem C63_register_refuted : exists main, fst (done2 main) = Ok tt /\ errnumber (ct (snd (done2 main))) = 0 /\
  addresses 1 (emitted (snd (done1 main))) <> addresses 2 (emitted (snd (done2 main))).
Proof. exists (src ["* = 0"; " cpu 6502"; " asl q"; "q = a"]%string). vm_compute. repeat split. discriminate. Qed.
Print Assumptions C63_register_refuted.
(** Here the first pass refuses an operand, for the value of [k] is not known yet, and stores
    no byte; the second pass does. *)
Theorem C63_complaint_refuted : exists main, fst (done2 main) = Ok tt /\ errnumber (ct (snd (done2 main))) = 0 /\
  addresses 1 (emitted (snd (done1 main))) = [] /\ addresses 2 (emitted (snd (done2 main))) = [1; 0].
Proof. exists (src ["* = 0"; " cpu z80"; " bit k-1,a"; "k = 1"]%string). vm_compute. repeat split. Qed.
Print Assumptions C63_complaint_refuted.

(** C17 and C18 for these programs: every symbol that the second pass refers to is defined, and
    a reference to a symbol that cannot be redefined and is not assigned a value that depends on
    what comes later, such as an address label, uses its final value, whether it comes before
    the definition or after it.
    Missing: other programs ([C17_refuted], [C18_refuted]). *)
Theorem C17_C18_straight_partial : forall n o fs main b1 b2 s1 s e,
  pass_starts n o fs main 1 b1 -> pass_starts n o fs main 2 b2 ->
  first n (init_state fs main) = (Ok tt, s1) -> assemble n o (init_state fs main) = (Ok tt, s) -> s.(ct).(errnumber) = 0 ->
  straight n b1 -> (forall x, complains n b1 x -> late x) -> forward_numbers s1.(sy) ->
  In e s.(looked) -> lk_pass e = 2 -> lk_key e <> s2l "*" ->
  (exists ty v, defined_with (lk_key e) ty v s) /\
  (fixed e -> steadily n b1 (lk_key e) -> defined_with (lk_key e) (used_type e) (used_value e) s).
Proof. exact references. Qed.
Print Assumptions C17_C18_straight_partial.

(** In [ahead] (see [C63_applies]) the second pass refers to [far] before its definition. *)
Example C17_C18_applies :
  (exists e, In e (looked (snd (done2 ahead))) /\ lk_pass e = 2 /\ lk_key e = s2l "FAR" /\ fixed e /\ ~ after_definition e /\ used_value e = 4102) /\
  steadily 12 (begun1 ahead) (s2l "FAR").
Proof.
  split; [|apply steadyb_ok; vm_compute; reflexivity].
  assert (X : match looked (snd (done2 ahead)) with
    | _ :: e :: _ => lk_pass e = 2 /\ lk_key e = s2l "FAR" /\ fixed e /\ f_undef (l_flags (lk_label e)) = true /\ used_value e = 4102
    | _ => False
    end) by (vm_compute; repeat split).
  destruct (looked (snd (done2 ahead))) as [|a [|b q]]; [destruct X..|]. destruct X as (P & K & N & U & V). exists b.
  split; [right; left; reflexivity|]. split; [exact P|]. split; [exact K|]. split; [exact N|]. split; [unfold after_definition; congruence|exact V].
Qed.
