(** Property C11: precedence and grouping of operators. *)
From Coq Require Import String Ascii ZArith List Bool.
From Verif Require Import Base State Tree Label Parse SpecNumbers SpecEmit SpecExpr ExprEval GroupFacts Crasm Witness ExprCases.
Import ListNotations.
Open Scope Z_scope.

(** C11: an expression grouped as documented is worth what it should be, provided the tree is
    tame (see SpecExpr.v).  Missing: chains like a*b/c, terms that start with a minus sign
    after another operator than +; they are wrong, see below.  The other outcome is that
    the matcher's buffer of 4000 characters is full.  [worth 62]: intermediate results have at
    most 63 bits. *)
Theorem C11_documented_partial : forall s e v, worth 62 (known s) e v -> documented e -> tame e ->
  (exists s', parse (show e) s = (Bad (UB "filter: buffer overflow"), s')) \/
  (exists r s', parse (show e) s = (Ok r, s') /\ r.(r_type) = TAbs /\ r.(r_value) = v /\ same s s').
Proof. exact documented_value. Qed.
Print Assumptions C11_documented_partial.

(** How the program groups, for every expression of its grammar: + - * / | & ^ << >> have nine
    different ranks, parentheses override them. *)
Theorem C11_program : forall s e v, worth 63 (known s) e v -> ranked e ->
  (exists s', parse (show e) s = (Bad (UB "filter: buffer overflow"), s')) \/
  (exists r s', parse (show e) s = (Ok r, s') /\ r.(r_type) = TAbs /\ r.(r_value) = v /\ same s s').
Proof. exact parse_value. Qed.
Print Assumptions C11_program.


(** [2+3*(x-1)+x-1-2] with [x] = 5. *)
Example C11_case :
  let e := bin Minus (bin Minus (bin Plus (bin Plus (num "2") (bin Times (num "3") (par (bin Minus x (num "1"))))) x) (num "1")) (num "2") in
  show e = s2l "2+3*(x-1)+x-1-2" /\ worth 62 (known withx) e 16 /\ documented e /\ tame e /\ found (show e) = Ok 16.
Proof. cbv zeta. split; [reflexivity|]. split; [worths|]. split; [grouped|]. split; [grouped|]. vm_compute. reflexivity. Qed.

(** The program's grouping: in [8*3/2] the division comes first. *)
Example C11_program_case :
  let e := bin Times (num "8") (bin Over (num "3") (num "2")) in
  show e = s2l "8*3/2" /\ worth 63 (known withx) e 8 /\ ranked e /\ found (show e) = Ok 8.
Proof. cbv zeta. split; [reflexivity|]. split; [worths|]. split; [grouped|]. vm_compute. reflexivity. Qed.

(** [8*3/2] is 12 by the documentation; the program finds 8. *)
Theorem C11_division_refuted : exists e, documented e /\ worth 62 (known withx) e 12 /\ found (show e) = Ok 8.
Proof.
  exists (bin Over (bin Times (num "8") (num "3")) (num "2")). split; [grouped|]. split; [worths|]. vm_compute. reflexivity.
Qed.
Print Assumptions C11_division_refuted.

(** [16<<1>>2] is 8; the program finds 16. *)
Theorem C11_shift_refuted : exists e, documented e /\ worth 62 (known withx) e 8 /\ found (show e) = Ok 16.
Proof.
  exists (bin Shr (bin Shl (num "16") (num "1")) (num "2")). split; [grouped|]. split; [worths|]. vm_compute. reflexivity.
Qed.
Print Assumptions C11_shift_refuted.

(** [1|6&2] is 2; the program finds 3. *)
Theorem C11_bitwise_refuted : exists e, documented e /\ worth 62 (known withx) e 2 /\ found (show e) = Ok 3.
Proof.
  exists (bin And (bin Or (num "1") (num "6")) (num "2")). split; [grouped|]. split; [worths|]. vm_compute. reflexivity.
Qed.
Print Assumptions C11_bitwise_refuted.

(** [3*-2] is -6; the program reports an error. *)
Theorem C11_sign_refuted : exists e m, documented e /\ worth 62 (known withx) e (-6) /\ found (show e) = Bad (Err m).
Proof.
  exists (bin Times (num "3") (Neg [] (num "2"))), (s2l "bad decimal number").
  split; [grouped|]. split; [worths|]. vm_compute. reflexivity.
Qed.
Print Assumptions C11_sign_refuted.
