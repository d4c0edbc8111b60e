(** Properties C12 and C13: 32-bit arithmetic, kinds of operands. *)
From Coq Require Import String Ascii ZArith List Bool.
From Verif Require Import Base State Output Operator Parse SpecEmit SpecExpr SpecOps ExprEval OpFacts Crasm Witness ExprCases.
Import ListNotations.
Open Scope Z_scope.

(** C12: up to 32 bits an expression without / and >> is worth what arithmetic on 32 bits
    gives, as long as no result leaves the 64-bit numbers.  Missing: / and >>, for which it
    is false (below). *)
Theorem C12_partial : forall s e v, worth 63 (known s) e v -> ranked e -> ring e ->
  (exists s', parse (show e) s = (Bad (UB "filter: buffer overflow"), s')) \/
  (exists r s', parse (show e) s = (Ok r, s') /\ worth32 (known s) e (r.(r_value) mod 2 ^ 32)).
Proof. exact parse_low. Qed.
Print Assumptions C12_partial.

(** The stored bytes depend on these 32 bits only. *)
Theorem C12_bytes : forall n lohi v, (n <= 4)%nat -> word n lohi (v mod 2 ^ 32) = word n lohi v.
Proof. exact word_low. Qed.
Print Assumptions C12_bytes.

Example C12_case :
  let e := bin Plus (num "4294967295") (bin Times x (num "2")) in
  worth 63 (known withx) e 4294967305 /\ ranked e /\ ring e /\ found (show e) = Ok 4294967305 /\
  4294967305 mod 2 ^ 32 = 9.
Proof. cbv zeta. split; [worths|]. split; [grouped|]. split; [grouped|]. vm_compute. repeat split. Qed.

(** [(4294967295+1)>>1] is 0 on 32 bits; the program finds 2^31. *)
Theorem C12_refuted : exists e, worth32 (known withx) e 0 /\ ranked e /\ found (show e) = Ok (2 ^ 31).
Proof.
  exists (bin Shr (par (bin Plus (num "4294967295") (num "1"))) (num "1")). split; [|split; [grouped|vm_compute; reflexivity]].
  eapply v_bin with (x := 0) (y := 1).
  - apply v_group. apply (v_bin _ _ _ _ _ _ 4294967295 1); [worths32|worths32|apply (r_plus 4294967295 1)].
  - worths32.
  - apply (r_shr 0 1); split; discriminate || reflexivity.
Qed.
Print Assumptions C12_refuted.

(** Overflow of 64 bits is undefined behaviour in C. *)
Theorem C12_overflow_refuted : exists t w, t = s2l "$FFFFFFFF*$FFFFFFFF" /\ found t = Bad (UB w).
Proof. exists (s2l "$FFFFFFFF*$FFFFFFFF"), "signed overflow"%string. split; [reflexivity|]. vm_compute. reflexivity. Qed.
Print Assumptions C12_overflow_refuted.

(** C13: every operator computes its result from the kinds of operands it takes, whatever the
    values are, except where the operation is undefined in C. *)
Theorem C13_accepts : forall top o a b k s, takes2 o a.(r_type) b.(r_type) k -> fits 63 a.(r_value) ->
  ~ undefined o a.(r_value) b.(r_value) -> (o = OBit -> b.(r_value) <= 32) ->
  exists r s', apply2 top o a b s = (Ok r, s') /\ r.(r_type) = k /\
               r.(r_value) = computed o a.(r_value) b.(r_value) /\ same s s'.
Proof. exact apply2_accepts. Qed.
Print Assumptions C13_accepts.

Theorem C13_undefined : forall top o a b k s, takes2 o a.(r_type) b.(r_type) k ->
  undefined o a.(r_value) b.(r_value) -> exists w, apply2 top o a b s = (Bad (UB w), s).
Proof. exact apply2_undefined. Qed.
Print Assumptions C13_undefined.

(** Operands of other kinds are an error, except the difference of two registers. *)
Theorem C13_refuses : forall top o a b, (forall k, ~ takes2 o a.(r_type) b.(r_type) k) ->
  ~ (o = OSub /\ a.(r_type) = TRegs /\ b.(r_type) = TRegs) ->
  exists m, forall s, apply2 top o a b s = err m s \/
    o = OAdd /\ undefined o a.(r_value) b.(r_value) /\ apply2 top o a b s = (Bad (UB "signed overflow"), s).
Proof. exact apply2_refuses. Qed.
Print Assumptions C13_refuses.

Theorem C13_one_accepts : forall top o a k s, takes1 o a.(r_type) k ->
  (o = OMinus -> a.(r_value) <> - 2 ^ 63) -> fits 63 a.(r_value) ->
  exists r s', apply1 top o a s = (Ok r, s') /\ r.(r_type) = k /\
               r.(r_value) = computed1 o a.(r_modifier) a.(r_value) /\ same s s'.
Proof. exact apply1_accepts. Qed.
Print Assumptions C13_one_accepts.

Theorem C13_one_refuses : forall top o a, (forall k, ~ takes1 o a.(r_type) k) ->
  exists m, forall s, apply1 top o a s = err m s.
Proof. exact apply1_refuses. Qed.
Print Assumptions C13_one_refuses.

(** Division by zero gives the dividend. *)
Theorem C13_division : forall top a b s, a.(r_type) = TAbs -> b.(r_type) = TAbs -> b.(r_value) = 0 ->
  exists r s', apply2 top ODiv a b s = (Ok r, s') /\ r.(r_type) = TAbs /\ r.(r_value) = a.(r_value) /\ same s s'.
Proof. exact apply2_zero. Qed.
Print Assumptions C13_division.

Definition operand (k : ltype) (v : Z) : result := mkRes lf0 k 0 PNull v.
Example C13_case :
  takes2 OSub TRel TAbs TRel /\ ~ undefined OSub 100 40 /\
  (exists s', apply2 true OSub (operand TRel 100) (operand TAbs 40) withx = (Ok (operand TRel 60), s')) /\
  (forall k, ~ takes2 OMul TRel TAbs k) /\ fst (apply2 true OMul (operand TRel 2) (operand TAbs 2) withx) =
    Bad (Err (s2l "illegal use of a relative reference")) /\
  takes1 OBitnumb TBit TAbs /\ (forall k, ~ takes1 OLo TRegs k) /\ found (s2l "x/0") = Ok 5.
Proof.
  split; [constructor|]. split; [intros H; apply H; split; [discriminate|reflexivity]|].
  split; [exists (snd (apply2 true OSub (operand TRel 100) (operand TAbs 40) withx)); vm_compute; reflexivity|].
  split; [intros k H; inversion H|]. split; [vm_compute; reflexivity|]. split; [constructor|].
  split; [intros k H; inversion H|]. vm_compute. reflexivity.
Qed.

(** The documented form rel+abs is an error. *)
Theorem C13_relative_refuted : exists a b k m, documented2 OAdd a.(r_type) b.(r_type) k /\
  forall s, apply2 true OAdd a b s = err m s.
Proof.
  exists (operand TRel 1), (operand TAbs 1), TRel, "illegal operator"%string. split; [constructor|]. reflexivity.
Qed.
Print Assumptions C13_relative_refuted.

(** The documented range of registers never ends or is an error. *)
Theorem C13_range : forall top a b s, a.(r_type) = TRegs -> b.(r_type) = TRegs ->
  apply2 top OSub a b s = err "illegal register list" s \/ apply2 top OSub a b s = (Bad Hang, s) \/
  apply2 top OSub a b s = (Bad (UB "opsub: shift by 32"), s).
Proof. exact apply2_range. Qed.
Print Assumptions C13_range.
Theorem C13_range_refuted : exists a b k, documented2 OSub a.(r_type) b.(r_type) k /\
  forall s, apply2 true OSub a b s = (Bad Hang, s).
Proof. exists (operand TRegs 1), (operand TRegs 4), TRegs. split; [constructor|]. intros s. reflexivity. Qed.
Print Assumptions C13_range_refuted.

(** Dividing the smallest number by -1 traps on common machines. *)
Theorem C13_division_refuted : exists t w, t = s2l "(1<<63)/(0-1)" /\ found t = Bad (UB w).
Proof. exists (s2l "(1<<63)/(0-1)"), "signed overflow"%string. split; [reflexivity|]. vm_compute. reflexivity. Qed.
Print Assumptions C13_division_refuted.
