(** The order on the text that is left to read: the lines left at every level of inclusion,
    innermost level last.  Nothing here is part of the model. *)
From Coq Require Import Arith List Lia.
Import ListNotations.

(** Dictionary order. *)
Inductive dlt : list nat -> list nat -> Prop :=
| d_nil : forall x l, dlt [] (x :: l)
| d_head : forall x y l l', x < y -> dlt (x :: l) (y :: l')
| d_tail : forall x l l', dlt l l' -> dlt (x :: l) (x :: l').
Definition dle (a b : list nat) : Prop := a = b \/ dlt a b.

Lemma dlt_trans : forall a b c, dlt a b -> dlt b c -> dlt a c.
Proof.
  intros a b c H. revert c. induction H as [x l|x y l l' L|x l l' H IH]; intros c K; inversion K; subst; try constructor; auto; lia.
Qed.
Lemma dle_refl : forall a, dle a a.
Proof. intros a. left. reflexivity. Qed.
Lemma dle_trans : forall a b c, dle a b -> dle b c -> dle a c.
Proof.
  intros a b c [->|H] [->|K]; [left; reflexivity|right; exact K|right; exact H|right; exact (dlt_trans _ _ _ H K)].
Qed.
Lemma dlt_dle : forall a b c, dlt a b -> dle b c -> dlt a c.
Proof. intros a b c H [->|K]; [exact H|exact (dlt_trans _ _ _ H K)]. Qed.
Lemma dle_dlt : forall a b c, dle a b -> dlt b c -> dlt a c.
Proof. intros a b c [->|H] K; [exact K|exact (dlt_trans _ _ _ H K)]. Qed.

(** It is well founded on lists of bounded length. *)
Definition short (n : nat) (a b : list nat) : Prop := length a <= n /\ dlt a b.
Lemma short_wf : forall n l, length l <= n -> Acc (short n) l.
Proof.
  induction n as [|n IH]; intros l L.
  - destruct l; [|cbn in L; lia]. constructor. intros a [_ K]. inversion K.
  - assert (N : Acc (short (S n)) []) by (constructor; intros a [_ K]; inversion K).
    destruct l as [|x l]; [exact N|]. cbn in L.
    revert l L. induction x as [x IHx] using lt_wf_ind. intros l L.
    assert (A : Acc (short n) l) by (apply IH; lia). revert L. induction A as [l _ IHl]. intros L.
    constructor. intros a [La K]. inversion K; subst.
    + exact N.
    + apply IHx; [assumption|]. cbn in La. lia.
    + cbn in La. apply IHl; [split; [lia|assumption]|lia].
Qed.

(** The levels, all doubled, the last one increased by one. *)
Fixpoint tok (l : list nat) : list nat :=
  match l with
  | [] => []
  | [x] => [2 * x + 1]
  | x :: l' => 2 * x :: tok l'
  end.
Lemma tok_cons : forall x y l, tok (x :: y :: l) = 2 * x :: tok (y :: l).
Proof. reflexivity. Qed.
Lemma tok_len : forall l, length (tok l) = length l.
Proof. induction l as [|x [|y l] IH]; [reflexivity|reflexivity|]. rewrite tok_cons. cbn [length]. rewrite IH. reflexivity. Qed.

(** Reading from a level, whatever was above it. *)
Lemma tok_read : forall l x y t, y < x -> dlt (tok (l ++ [y])) (tok (l ++ x :: t)).
Proof.
  induction l as [|z l IH]; intros x y t L.
  - cbn [app]. destruct t as [|w t]; [|rewrite tok_cons]; cbn [tok]; apply d_head; lia.
  - cbn [app]. specialize (IH x y t L).
    destruct (l ++ [y]) as [|a la] eqn:E1; [destruct l; discriminate E1|].
    destruct (l ++ x :: t) as [|b lb] eqn:E2; [destruct l; discriminate E2|].
    rewrite !tok_cons. apply d_tail. exact IH.
Qed.
(** A new level. *)
Lemma tok_push : forall l w, l <> [] -> dlt (tok (l ++ [w])) (tok l).
Proof.
  induction l as [|x l IH]; intros w N; [contradiction N; reflexivity|].
  destruct l as [|y l].
  - cbn [app]. rewrite tok_cons. cbn [tok]. apply d_head. lia.
  - cbn [app]. rewrite !tok_cons. apply d_tail. apply (IH w). discriminate.
Qed.
(** The outermost level never gains. *)
Lemma tok_outer : forall x y a b l, dle (tok (x :: a)) (tok (y :: b)) -> a <> [] -> b <> [] ->
  dle (tok (x :: l)) (tok (y :: l)).
Proof.
  intros x y a b l H A B. destruct a as [|a0 a]; [contradiction A; reflexivity|].
  destruct b as [|b0 b]; [contradiction B; reflexivity|]. rewrite !tok_cons in H.
  assert (L : x <= y).
  { destruct H as [H|H]; [injection H as H _; lia|]. inversion H; subst; lia. }
  assert (C : x = y \/ x < y) by lia. destruct C as [->|C]; [apply dle_refl|right].
  destruct l as [|z l]; [cbn [tok]|rewrite !tok_cons]; apply d_head; lia.
Qed.
