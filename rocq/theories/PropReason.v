(** C66: directives are refused only for a reason. *)
From Coq Require Import String Ascii ZArith List Bool.
From Verif Require Import Base State Tree Filter Output Label Parse Pseudos Crasm SpecEmit SpecLine SpecForms SpecCpu SpecAccept SpecChoice SpecNumbers SpecReason ReasonFacts.
From Verif Require Import PropPseudos.
From Verif Require SpecExpr ExprEval ExprCases SpecSplit.
Import ListNotations.
Open Scope Z_scope.

(** Once an origin is given, a directive other than FAIL is refused only for one of the
    reasons listed in [reason]. *)
Theorem C66_refused : forall h m lb o s e s', pc_range s -> s.(fl).(a_org_gv) = true -> a_directive h = true ->
  exec h m lb o s = (Bad (Err e), s') -> reason s lb o h.
Proof. exact refused. Qed.
Print Assumptions C66_refused.

(** An expression that has a value is no such reason. *)
Theorem C66_usable : forall s e v, SpecExpr.worth 63 (ExprEval.known s) e v -> SpecExpr.ranked e -> ~ unusable s (SpecExpr.show e).
Proof. exact usable_expr. Qed.
Print Assumptions C66_usable.

(** FAIL and directives with wrong operands are refused, the others are not. *)
Example C66_applies : let s := ready true in pc_range s /\ s.(fl).(a_org_gv) = true /\
  map (fun x => match fst (exec (fst x) 1 (Some (s2l "a")) (Some (s2l (snd x))) s) with Ok _ => true | Bad (Err _) => false | Bad _ => true end)
    [(HDc, "1,2+3"); (HDc, "1,,3"); (HDs, "3"); (HDs, "nop"); (HAsc, "'abc'"); (HAsc, "'a'b"); (HAlign, "even"); (HAlign, "both");
     (HList, "on"); (HList, ""); (HOutput, "hex"); (HOutput, "bin"); (HCode, ""); (HCode, "1"); (HNam, "title");
     (HNam, "a title that is far too long to fit"); (HPage, "60,80"); (HPage, "60"); (HSkip, "5"); (HSkip, "'"); (HInclude, "nofile");
     (HEqu, "1"); (HEqu, "1+")]%string =
  [true; false; true; true; true; false; true; false; true; false; true; false; true; false; true; false; true; false; true; false; false; true; false].
Proof. split; [split; [discriminate|reflexivity]|]. split; [reflexivity|]. vm_compute. reflexivity. Qed.

(** The reasons tell wrong operands from right ones. *)
Example C66_reasons_apply : forall s a, reason s a (Some (s2l "1")) HCode /\ ~ reason s a None HCode /\
  ~ reason s a (Some (s2l "off")) HList /\ ~ reason s a (Some (s2l "a title")) HNam /\ ~ reason s a (Some (s2l "odd")) HAlign.
Proof.
  intros s a. split; [apply re_section; [auto|intros [H|H]; discriminate H]|].
  repeat split; intro R; inversion R; subst; try discriminate;
    try (match goal with H : List.In _ _ |- _ => destruct H as [H|[H|[H|[H|[]]]]]; discriminate H | H : HList = _ \/ _ |- _ => destruct H; discriminate | H : HNam = _ \/ _ |- _ => destruct H; discriminate | H : HAlign = _ \/ _ |- _ => destruct H; discriminate end).
  - match goal with H : ~ says_nothing _ |- _ => apply H; left; reflexivity end.
  - match goal with H : ~ says "OFF" _ |- _ => apply H; exists [], (s2l "off"), []; repeat split; constructor end.
  - match goal with H : forall t, _ |- _ => specialize (H _ eq_refl); vm_compute in H; discriminate H end.
  - match goal with H : ~ says "ODD" _ |- _ => apply H; exists [], (s2l "odd"), []; repeat split; constructor end.
Qed.

Example C66_usable_applies : SpecExpr.worth 63 (ExprEval.known ExprCases.withx) ExprCases.x 5 /\ SpecExpr.ranked ExprCases.x /\
  SpecExpr.show ExprCases.x = s2l "x".
Proof. split; [apply ExprCases.worth_x; discriminate|]. split; [ExprCases.grouped|reflexivity]. Qed.
