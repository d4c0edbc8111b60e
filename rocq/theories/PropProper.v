(** C72: an accepted directive was given a proper operand. *)
From Coq Require Import String Ascii ZArith List Bool.
From Verif Require Import Base State Tree Filter Output Label Parse Pseudos Crasm SpecEmit SpecLine SpecForms SpecCpu SpecAccept SpecChoice SpecNumbers SpecReason SpecProper ProperFacts SpecStar Macro Witness PropStar PropLine.
From Verif Require Import PropPseudos.
From Verif Require SpecSplit SpecSheet.
Import ListNotations.
Open Scope Z_scope.

(** A directive that is carried out was given an operand it has a meaning for. *)
Theorem C72_accepted : forall h m lb o s u s', pc_range s -> a_directive h = true ->
  exec h m lb o s = (Ok u, s') -> proper s lb o h.
Proof. exact accepted. Qed.
Print Assumptions C72_accepted.

(** Directives of every kind are carried out. *)
Example C72_applies : let s := ready true in pc_range s /\
  forallb (fun x => a_directive (fst x) && match fst (exec (fst x) 1 (Some (s2l "a")) (Some (s2l (snd x))) s) with Ok _ => true | Bad _ => false end)
    [(HDc, "1,2+3"); (HDs, "3"); (HDs, "3,7"); (HAsc, "'abc'"); (HAlign, "even"); (HList, "on"); (HMlist, "off"); (HOutput, "hex"); (HCode, "");
     (HNam, "title"); (HPage, "60,80"); (HSkip, "5"); (HCpu, "6502"); (HEqu, "1")]%string = true.
Proof. split; [split; [discriminate|reflexivity]|]. vm_compute. reflexivity. Qed.

(** Proper operands are told from others, whatever the state. *)
Example C72_tells : forall s a, proper s a None HCode /\ ~ proper s a (Some (s2l "1")) HCode /\
  proper s a (Some (s2l "off")) HList /\ ~ proper s a None HNam /\ ~ proper s a None HAsc /\ ~ proper s None None HEqu /\
  ~ proper s a None HInclude /\ ~ proper s a None HCpu.
Proof.
  intros s a. split; [apply pr_section; [auto|left; reflexivity]|].
  split; [intro R; inversion R; subst|].
  - match goal with H : List.In _ _ |- _ => destruct H as [H|[H|[H|[H|[]]]]]; discriminate H end.
  - match goal with H : says_nothing _ |- _ => destruct H as [H|H]; discriminate H end.
  - split; [apply pr_onoff; [left; reflexivity|right; exists [], (s2l "off"), []; repeat split; constructor]|].
    repeat split; intro R; inversion R; subst; try discriminate;
      match goal with H : List.In _ _ |- _ => destruct H as [H|[H|[H|[H|[]]]]]; discriminate H
      | H : _ = HCode \/ _ |- _ => destruct H; discriminate end.
Qed.

(** So a line with a directive that is accepted has a proper operand, judged in a state that
    differs from the one before the line in nothing but what [near] allows. *)
Theorem C72_line : forall n li s f s' q key l h, run (S n) KLine li true s = (Ok f, s') -> has_star s -> pc_range s -> taken_apart s q ->
  q.(q_mnemo) = Some (key, l) -> of_its_own q -> l.(l_ptr) = PFun h -> a_directive h = true ->
  l.(l_flags).(f_deflabel) = true \/ q.(q_label) = None ->
  exists s1, near s s1 /\ proper s1 q.(q_label) q.(q_oper) h.
Proof. exact (fun n => accepted_line (run n) n). Qed.
Print Assumptions C72_line.

Example C72_line_applies : let s := second 2 ["* = 16"; " align odd"]%string in let q := parts s "align odd" in
  taken_apart s q /\ of_its_own q /\ match q.(q_mnemo) with Some (_, l) => l.(l_ptr) = PFun HAlign | None => False end /\ q.(q_label) = None /\
  pc_range s /\ match tfind (s2l "*") s.(sy) with Some _ => True | None => False end /\ fst (run 5 KLine true true s) = Ok FNone.
Proof.
  intros s q. split; [apart s "align odd"%string|]. vm_compute. repeat split; discriminate.
Qed.
