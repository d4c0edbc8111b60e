(** C57 to C61: what the lines do to the symbols and the settings. *)
From Coq Require Import String Ascii ZArith List Bool.
From Verif Require Import Base State Tree Filter Output Label Parse Tables Cpu6800 Macro Crasm Witness.
From Verif Require Import SpecEmit SpecStar SpecMacro SpecLine Frame LineText AssignFacts OthersFacts SwitchFacts PropStar.
From Verif Require SpecSplit SplitFacts.
Import ListNotations.
Open Scope Z_scope.

(** C57: a line [name = expression] that assembles gives the name exactly the result of the
    expression, in whatever type and with whatever modifier; it changes no other symbol and
    stores nothing. *)
Theorem C57_assign : forall n li s f s' a b, directive s "equ" HEqu -> assignment s a b ->
  run (S n) KLine li true s = (Ok f, s') ->
  exists r s1 s2, near s s1 /\ parse b s1 = (Ok r, s2) /\ assigned (lkey s.(inp).(segment) a) r s s'.
Proof. exact (fun n => assign_line (run n) n). Qed.
Print Assumptions C57_assign.

(** The same of [name EQU expression], once it is taken apart. *)
Theorem C57_equ : forall n li s f s' q key l a, run (S n) KLine li true s = (Ok f, s') -> taken_apart s q ->
  q.(q_mnemo) = Some (key, l) -> of_its_own q -> l.(l_ptr) = PFun HEqu -> l.(l_flags).(f_deflabel) = true -> q.(q_label) = Some a ->
  exists r s1 s2, near s s1 /\ parse (otext q.(q_oper)) s1 = (Ok r, s2) /\ assigned (lkey s.(inp).(segment) a) r s s'.
Proof. exact (fun n => equ_line (run n) n). Qed.
Print Assumptions C57_equ.

(** The hypotheses hold of an assignment with a comment. *)
Example C57_applies : let s := second 2 ["* = 16"; "abc=*+7 ; seven"]%string in
  directive s "equ" HEqu /\ assignment s (s2l "abc") (s2l "*+7") /\
  (exists s', run 5 KLine true true s = (Ok FNone, s') /\
     option_map l_value (tfind (lkey s.(inp).(segment) (s2l "abc")) s'.(sy)) = Some 23).
Proof.
  intros s.
  assert (H : fst (run 5 KLine true true s) = Ok FNone /\ fst (stripline s) = Ok (s2l "abc=*+7") /\
      option_map l_value (tfind (lkey s.(inp).(segment) (s2l "abc")) (snd (run 5 KLine true true s)).(sy)) = Some 23).
  { vm_compute. repeat split. }
  destruct H as (H1 & H2 & H3). split; [eexists; vm_compute; repeat split; reflexivity|]. split.
  - exists (s2l "abc=*+7"). split; [|split].
    + apply (stripline_text s _ (snd (stripline s))). rewrite <- H2. destruct (stripline s); reflexivity.
    + refine (proj2 (SplitFacts.filter2_sep ["="%char] "?_=_?"%string _ (init_state nofiles []) (Some (_, _)) (snd (filter2 (s2l "abc=*+7") "?_=_?"%string (init_state nofiles []))) _ _ _ _));
        [reflexivity|discriminate|reflexivity|vm_compute; reflexivity].
    + repeat constructor; intros [X|X]; discriminate X.
  - exists (snd (run 5 KLine true true s)). split; [|exact H3]. rewrite <- H1. destruct (run 5 KLine true true s); reflexivity.
Qed.

(** C58: a label in front of a line that assembles, or alone on it, stands for the address
    of the line and cannot be defined again. *)
Theorem C58_label : forall n li s f s' q a, run (S n) KLine li true s = (Ok f, s') -> taken_apart s q -> of_its_own q -> heads q a ->
  labels (lkey s.(inp).(segment) a) (starvalue s) s'.(sy).
Proof. exact (fun n => label_line (run n) n). Qed.
Print Assumptions C58_label.

(** The way the line [t] is taken apart, for the examples. *)
Definition parts (s : state) (t : string) : fields :=
  match fst (splitline (s2l t) (snd (stripline (snd (linestart s))))) with Ok q => q | Bad _ => mkFields None None [] None end.
Ltac apart s t := exists (snd (linestart s)), (s2l t), (snd (stripline (snd (linestart s)))),
    (snd (splitline (s2l t) (snd (stripline (snd (linestart s))))));
  split; [vm_compute; reflexivity|]; split; [vm_compute; reflexivity|]; split; [discriminate|]; vm_compute; reflexivity.

Example C58_applies : let s := second 2 ["* = 16"; "abc db 1,2"]%string in let q := parts s "abc db 1,2" in
  taken_apart s q /\ of_its_own q /\ heads q (s2l "abc") /\
  fst (run 5 KLine true true s) = Ok FNone /\ starvalue s = 16 /\ starvalue (snd (run 5 KLine true true s)) = 18.
Proof.
  intros s q. split; [apart s "abc db 1,2"%string|]. vm_compute. repeat split; discriminate.
Qed.

(** C59: a line that is no macro call, conditional or macro definition leaves every defined
    symbol but [*] and the one it names itself as it was, up to the mark of use, whether it
    is executed or skipped and however it ends. *)
Theorem C59_others : forall j, j <> starkey -> forall n li ex s,
  (forall q, taken_apart s q -> of_its_own q /\ spares q s.(inp).(segment) j) ->
  kept_symbol j s.(sy) (snd (run (S n) KLine li ex s)).(sy).
Proof. exact (fun j J n => line_kd j J (run n) n). Qed.
Print Assumptions C59_others.

(** The hypotheses hold of a line that uses one symbol and names another. *)
Example C59_applies : let s := second 2 ["abc = 5"; "abd db abc"]%string in let j := lkey s.(inp).(segment) (s2l "abc") in
  j <> starkey /\ (exists l, tfind j s.(sy) = Some l /\ l.(l_flags).(f_undef) = false /\ l.(l_value) = 5) /\
  (forall q, taken_apart s q -> of_its_own q /\ spares q s.(inp).(segment) j).
Proof.
  intros s j. split; [vm_compute; discriminate|]. split; [eexists; vm_compute; repeat split; reflexivity|].
  intros q (s1 & t & s2 & s3 & A & B & _ & C). vm_compute in A. injection A as <-. vm_compute in B. injection B as <- <-.
  vm_compute in C. injection C as <- _. split; [vm_compute; repeat split; discriminate|].
  split; [intros t [= <-]; vm_compute; discriminate|discriminate].
Qed.

(** C60: LIST, MLIST, CLIST, ILIST, OUTPUT, CODE and DUMMY on a line without a label change
    their own setting and nothing else; a LIST ON is without effect when the listing is
    switched off on the command line; CODE and DUMMY open a new section of local labels. *)
Theorem C60_switch : forall n li s f s' q key l h, run (S n) KLine li true s = (Ok f, s') -> taken_apart s q ->
  q.(q_mnemo) = Some (key, l) -> of_its_own q -> l.(l_ptr) = PFun h -> is_switch h = true -> q.(q_label) = None ->
  exists t, switched h q.(q_oper) s t /\ near t s'.
Proof. exact (fun n => switch_line (run n) n). Qed.
Print Assumptions C60_switch.

Example C60_applies : let s := second 2 ["* = 16"; " dummy"]%string in let q := parts s "dummy" in
  taken_apart s q /\ of_its_own q /\ match q.(q_mnemo) with Some (_, l) => l.(l_ptr) = PFun HDummy | None => False end /\ q.(q_label) = None /\
  fst (run 5 KLine true true s) = Ok FNone /\ s.(fl).(a_code_on) = true /\ (snd (run 5 KLine true true s)).(fl).(a_code_on) = false.
Proof.
  intros s q. split; [apart s "dummy"%string|]. vm_compute. repeat split; discriminate.
Qed.

(** C61: a FAIL that is reached never assembles: it is an error with the text of its
    operand, or the run is lost. *)
Theorem C61_fail : forall n li s r s' q key l, run (S n) KLine li true s = (r, s') -> taken_apart s q ->
  q.(q_mnemo) = Some (key, l) -> of_its_own q -> l.(l_type) = TMnemo -> l.(l_ptr) = PFun HFail ->
  l.(l_flags).(f_deflabel) = false -> q.(q_label) = None ->
  r = Bad (Err (fail_text q.(q_oper))) \/ how r = Dead.
Proof. exact (fun n => fail_line (run n) n). Qed.
Print Assumptions C61_fail.

Example C61_applies : let s := second 2 ["* = 16"; " fail too much"]%string in let q := parts s "fail too much" in
  taken_apart s q /\ of_its_own q /\ match q.(q_mnemo) with Some (_, l) => l.(l_type) = TMnemo /\ l.(l_ptr) = PFun HFail /\
     l.(l_flags).(f_deflabel) = false | None => False end /\ q.(q_label) = None /\
  fst (run 5 KLine true true s) = Bad (Err (s2l "too much")).
Proof.
  intros s q. split; [apart s "fail too much"%string|]. vm_compute. repeat split; discriminate.
Qed.
