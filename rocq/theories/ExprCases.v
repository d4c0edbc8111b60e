(** Concrete expressions. *)
From Coq Require Import String Ascii ZArith List Bool Lia ZifyBool.
From Verif Require Import Base State Tree Label Parse SpecNumbers SpecExpr SpecOps ExprEval Crasm Witness.
Import ListNotations.
Open Scope Z_scope.

(** A state with the symbol [x] = 5. *)
Definition withx : state := snd (deflabel (s2l "x") lf0 TAbs 5 (init_state nofiles [])).
Definition x : expr := Sym (s2l "x").
(** A number, an operation without blanks, parentheses. *)
Definition num (t : string) : expr := Num (s2l t).
Definition bin (o : binop) (a b : expr) : expr := Bin o a [] [] b.
Definition par (e : expr) : expr := Group [] e [].
(** What the program makes of a text. *)
Definition found (t : str) : res Z :=
  match fst (parse t withx) with Ok r => Ok r.(r_value) | Bad b => Bad b end.

Lemma worth_x : forall k, 32 <= k -> worth k (known withx) x 5.
Proof.
  intros k K. constructor.
  - vm_compute. repeat split; try constructor. apply Nat.leb_le. reflexivity.
  - exists (mkLabel lf0 TAbs 0 PNull 5 TUser). vm_compute. repeat split.
  - assert (2 ^ 32 <= 2 ^ k) by (apply Z.pow_le_mono_r; lia). unfold fits. lia.
Qed.
Lemma worth_num : forall k env t v, number 10 (s2l t) = v -> s2l t <> [] ->
  forallb (fun c => match digit c with Some d => d <? 10 | None => false end) (s2l t) = true -> v < 2 ^ 32 ->
  worth k env (num t) v.
Proof.
  intros k env t v <- N D L. apply w_num; [constructor| |exact N|exact L].
  unfold digits. apply Forall_forall. intros c I. rewrite forallb_forall in D. specialize (D c I).
  destruct (digit c) as [d|]; [|discriminate D]. exists d. split; [reflexivity|lia].
Qed.
Definition calc (o : binop) (x y : Z) : option Z :=
  match o with
  | Plus => Some (x + y) | Minus => Some (x - y) | Times => Some (x * y)
  | Over => if y =? 0 then None else Some (Z.quot x y)
  | Or => Some (Z.lor x y) | And => Some (Z.land x y) | Xor => Some (Z.lxor x y)
  | Shl => if (0 <=? y) && (y <? 64) then Some (x * 2 ^ y) else None
  | Shr => if (0 <=? y) && (y <? 64) then Some (x / 2 ^ y) else None
  end.
Definition fitsb (k v : Z) : bool := (- 2 ^ k <=? v) && (v <? 2 ^ k).
Lemma fitsb_fits : forall k v, fitsb k v = true -> fits k v.
Proof. unfold fitsb, fits. intros k v H. lia. Qed.
Lemma worth_bin : forall k env o a w1 w2 b x y v, worth k env a x -> worth k env b y -> calc o x y = Some v ->
  fitsb k v = true -> worth k env (Bin o a w1 w2 b) v.
Proof.
  intros k env o a w1 w2 b i j v A B C F. econstructor; [exact A|exact B| |apply fitsb_fits; exact F].
  destruct o; cbn [calc] in C; try (injection C as <-; constructor).
  - destruct (j =? 0) eqn:E; [discriminate C|]. injection C as <-. constructor. lia.
  - destruct (_ && _) eqn:E; [|discriminate C]. injection C as <-. constructor. lia.
  - destruct (_ && _) eqn:E; [|discriminate C]. injection C as <-. constructor. lia.
Qed.
Lemma worth_neg : forall k env w e x v, worth k env e x -> - x = v -> fitsb k v = true -> worth k env (Neg w e) v.
Proof. intros k env w e i v A <- F. constructor; [exact A|apply fitsb_fits; exact F]. Qed.
Ltac worths := first
  [ apply worth_x; lia
  | eapply worth_num; [reflexivity|discriminate|reflexivity|reflexivity]
  | eapply worth_bin; [worths|worths|reflexivity|reflexivity]
  | eapply worth_neg; [worths|reflexivity|reflexivity]
  | apply w_group; worths ].
Ltac grouped := repeat split; try discriminate; try apply Forall_nil.
Lemma worth32_num : forall env t v, m32 (number 10 (s2l t)) = v -> s2l t <> [] ->
  forallb (fun c => match digit c with Some d => d <? 10 | None => false end) (s2l t) = true ->
  number 10 (s2l t) < 2 ^ 32 -> worth32 env (num t) v.
Proof.
  intros env t v <- N D L. apply v_num; [constructor| |exact N|exact L].
  unfold digits. apply Forall_forall. intros c I. rewrite forallb_forall in D. specialize (D c I).
  destruct (digit c) as [d|]; [|discriminate D]. exists d. split; [reflexivity|lia].
Qed.
Ltac worths32 := eapply worth32_num; [reflexivity|discriminate|reflexivity|reflexivity].
