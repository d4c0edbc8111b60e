(** The documented grouping agrees with the program's on tame trees. *)
From Coq Require Import String Ascii ZArith List Bool Lia.
From Verif Require Import Base State Parse SpecExpr ExprEval.
Import ListNotations.
Open Scope Z_scope.

(** The tree the program sees: x + y - b is read x + (y - b). *)
Definition minus (a : expr) (w1 w2 : text) (b : expr) : expr :=
  match a with
  | Bin Plus x v1 v2 y => Bin Plus x v1 v2 (Bin Minus y w1 w2 b)
  | _ => Bin Minus a w1 w2 b
  end.
Fixpoint regroup (e : expr) : expr :=
  match e with
  | Num _ | Sym _ | Here | Chr _ _ => e
  | Group w1 e w2 => Group w1 (regroup e) w2
  | Fn f n w w1 e w2 => Fn f n w w1 (regroup e) w2
  | Neg w e => Neg w (regroup e)
  | Not w e => Not w (regroup e)
  | Bin Minus a w1 w2 b => minus (regroup a) w1 w2 (regroup b)
  | Bin o a w1 w2 b => Bin o (regroup a) w1 w2 (regroup b)
  end.

Lemma minus_show : forall a w1 w2 b, show (minus a w1 w2 b) = show (Bin Minus a w1 w2 b).
Proof.
  intros a w1 w2 b. destruct a; try reflexivity. destruct o; try reflexivity. cbn [minus show sign].
  rewrite <- !app_assoc. reflexivity.
Qed.
Lemma regroup_show : forall e, show (regroup e) = show e.
Proof.
  induction e; cbn [regroup show]; try reflexivity; try congruence.
  destruct o; cbn [show]; try congruence. rewrite minus_show. cbn [show]. congruence.
Qed.
Lemma minus_leading : forall a w1 w2 b, leading (minus a w1 w2 b) = leading a.
Proof. intros a w1 w2 b. destruct a; try reflexivity. destruct o; reflexivity. Qed.
Lemma regroup_leading : forall e, leading (regroup e) = leading e.
Proof.
  induction e; cbn [regroup leading]; try reflexivity; try congruence.
  destruct o; cbn [leading]; try congruence. rewrite minus_leading. congruence.
Qed.

Lemma level_tier : forall e t, 1 < t -> t <= height e -> star e = false -> 2 * t + 1 < level (regroup e).
Proof.
  intros e t T H S. destruct e; cbn [regroup level height star] in *; try lia; try discriminate S.
  destruct o; cbn [level rank tier] in *; lia.
Qed.
Lemma level_same : forall o a, agreeing o a -> 1 < tier o -> tier o <= height a -> star a = false -> rank o <= level (regroup a).
Proof.
  intros o a G T H S. destruct a; cbn [regroup level height star] in *; try discriminate S; try (destruct o; cbn [rank tier] in *; lia).
  destruct o0, o; cbn [level rank tier agreeing] in *; try lia; try contradiction.
Qed.
Lemma level_above : forall o b, 1 < tier o -> tier o < height b -> star b = false -> rank o < level (regroup b).
Proof.
  intros o b T H S. destruct b; cbn [regroup level height star] in *; try discriminate S; try (destruct o; cbn [rank tier] in *; lia).
  destruct o0, o; cbn [level rank tier] in *; lia.
Qed.
Lemma level_sum : forall e, 2 <= level (regroup e).
Proof.
  destruct e; cbn [regroup level]; try lia. destruct o; cbn [level rank]; try lia.
  unfold minus. destruct (regroup e1); cbn [level rank]; try lia. destruct o; cbn [level rank]; lia.
Qed.
Lemma level_term : forall e, 1 < height e -> 4 < level (regroup e).
Proof.
  intros e H. destruct e; cbn [regroup level height] in *; try lia.
  destruct o; cbn [level rank tier] in *; lia.
Qed.

Theorem regroup_ranked : forall e, documented e -> tame e -> ranked (regroup e).
Proof.
  induction e; intros D T; cbn [documented tame regroup ranked] in *; try tauto.
  - destruct D as (D1 & D2 & D3). destruct T as (T1 & T2). split; [exact D1|]. split; [auto|].
    destruct e; cbn [regroup level height star] in *; try lia; try discriminate. destruct o; cbn [level rank tier] in *; lia.
  - destruct D as (D1 & D2 & D3). destruct T as (T1 & T2). split; [exact D1|]. split; [auto|].
    destruct e; cbn [regroup level height star] in *; try lia; try discriminate. destruct o; cbn [level rank tier] in *; lia.
  - destruct D as (D1 & D2 & D3 & D4 & D5 & D6). destruct T as (T1 & T2 & T3 & T4 & T5).
    specialize (IHe1 D3 T1). specialize (IHe2 D4 T2).
    destruct (Z.eq_dec (tier o) 1) as [E|N].
    + destruct o; try discriminate E; cbn [ranked rank tier] in *.
      * pose proof (level_sum e1). pose proof (level_term e2 D6). rewrite regroup_leading.
        repeat (split; [assumption || lia|]). assumption.
      * assert (L2 : leading (regroup e2) = false).
        { rewrite regroup_leading. destruct (leading e2); [discriminate (T4 eq_refl)|reflexivity]. }
        pose proof (level_sum e1) as X1. pose proof (level_term e2 D6) as X2.
        assert (G : forall x, ranked x -> 4 <= level x -> ranked (Bin Minus x w1 w2 (regroup e2))).
        { intros x R L. cbn [ranked rank]. repeat (split; [assumption || lia|]). congruence. }
        unfold minus. destruct (regroup e1) as [| | | | | | | |o x v1 v2 y] eqn:Q; try (apply G; [assumption|cbn [level]; lia]).
        destruct o; try (apply G; [assumption|cbn [level rank]; lia]).
        destruct IHe1 as (Y1 & Y2 & Y3 & Y4 & Y5 & Y6 & Y7). cbn [rank] in *.
        change (ranked (Bin Plus x v1 v2 (Bin Minus y w1 w2 (regroup e2)))).
        assert (LY : 4 <= level y). { destruct y; cbn [level] in *; try lia. destruct o; cbn [rank] in *; lia. }
        pose proof (G y Y4 LY) as Z. remember (Bin Minus y w1 w2 (regroup e2)) as m eqn:Em.
        cbn [ranked rank]. repeat (split; [assumption || (subst m; cbn [level rank]; lia)|]). reflexivity.
    + assert (Tt : 1 < tier o) by (destruct o; cbn [tier] in *; lia).
      assert (Sa : star e1 = false /\ star e2 = false).
      { destruct (star e1), (star e2); cbn in T5; try (exfalso; apply N, T5; reflexivity). auto. }
      destruct Sa as [Sa Sb].
      assert (R : ranked (Bin o (regroup e1) w1 w2 (regroup e2))).
      { cbn [ranked]. rewrite regroup_leading. repeat (split; [assumption|]).
        split; [apply level_same; assumption|]. split; [apply level_above; assumption|assumption]. }
      destruct o; try exact R. elim N. reflexivity.
Qed.

Definition stronger : forall v, fits 62 v -> fits 63 v.
Proof. unfold fits. intros v. lia. Qed.

(** What a sum is worth when it is regrouped: both operands of its last + are. *)
Definition split_sum env (e : expr) (v : Z) : Prop :=
  match e with
  | Bin Plus x _ _ y => exists a b, worth 63 env x a /\ fits 62 a /\ worth 63 env y b /\ v = a + b
  | _ => True
  end.

Lemma worth_fits : forall env e v, worth 62 env e v -> fits 62 v.
Proof.
  intros env e v H. induction H; try assumption; unfold fits in *; try (Z.div_mod_to_equations; lia).
  - destruct (number_conv b d t H H0 H2). lia.
  - split; [|assumption]. transitivity 0; [lia|]. change (SpecNumbers.packed cs) with (QuoteFacts.amount 0 cs).
    apply QuoteFacts.amount_ge; [lia|]. eapply QuoteFacts.codes_nonneg. eassumption.
Qed.

Theorem regroup_worth : forall env e v, worth 62 env e v -> worth 63 env (regroup e) v /\ split_sum env (regroup e) v.
Proof.
  intros env e v W. induction W; cbn [regroup].
  - split; [constructor; assumption|exact I].
  - split; [constructor; auto using stronger|exact I].
  - split; [constructor; try assumption; lia|exact I].
  - split; [constructor; auto using stronger|exact I].
  - split; [constructor; tauto|exact I].
  - split; [constructor; tauto|exact I].
  - split; [constructor; tauto|exact I].
  - split; [constructor; [tauto|auto using stronger]|exact I].
  - split; [constructor; tauto|exact I].
  - destruct IHW1 as [X1 Y1]. destruct IHW2 as [X2 Y2].
    assert (R : worth 63 env (Bin o (regroup a) w1 w2 (regroup b)) v) by (econstructor; eauto using stronger).
    destruct o; try (split; [exact R|exact I]).
    + split; [exact R|]. cbn [split_sum]. exists x, y. inversion H; subst. repeat split; try assumption; apply (worth_fits _ _ _ W1).
    + unfold minus. destruct (regroup a) as [| | | | | | | |o p v1 v2 q] eqn:Q; try (split; [exact R|exact I]).
      destruct o; try (split; [exact R|exact I]). cbn [split_sum] in Y1. destruct Y1 as (i & j & P1 & F1 & P2).
      destruct P2 as [P2 ->]. inversion H; subst. pose proof (worth_fits _ _ _ W2) as F2.
      assert (M : worth 63 env (Bin Minus q w1 w2 (regroup b)) (j - y)).
      { econstructor; [exact P2|exact X2|constructor|]. unfold fits in *. lia. }
      split.
      * replace (i + j - y) with (i + (j - y)) by lia. econstructor; [exact P1|exact M|constructor|]. unfold fits in *. lia.
      * exists i, (j - y). repeat split; try assumption; try lia; apply F1.
Qed.

Theorem documented_value : forall s e v, worth 62 (known s) e v -> documented e -> tame e ->
  gives (parse (show e)) s (value s v).
Proof.
  intros s e v W D T. rewrite <- regroup_show. apply parse_value; [apply regroup_worth; exact W|apply regroup_ranked; assumption].
Qed.
