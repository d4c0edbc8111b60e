(** The symbol tree as a finite map and as a search tree. *)
From Coq Require Import String Ascii ZArith List Bool Lia Sorted.
From Verif Require Import Base BaseFacts State Tree.
Import ListNotations.
Open Scope Z_scope.

Lemma strcmp_refl : forall a, strcmp a a = Eq.
Proof. induction a as [|x a IH]; cbn [strcmp]; [reflexivity|]. rewrite Z.compare_refl. exact IH. Qed.

Lemma strcmp_eq : forall a b, strcmp a b = Eq -> a = b.
Proof.
  induction a as [|x a IH]; intros [|y b]; cbn [strcmp]; try discriminate; [reflexivity|].
  destruct (Z.compare_spec (zc x) (zc y)); try discriminate.
  intros H'. f_equal; [apply zc_inj; assumption|apply IH; assumption].
Qed.

Lemma strcmp_opp : forall a b, strcmp b a = CompOpp (strcmp a b).
Proof.
  induction a as [|x a IH]; intros [|y b]; cbn [strcmp CompOpp]; try reflexivity.
  rewrite (Z.compare_antisym (zc x) (zc y)).
  destruct (Z.compare (zc x) (zc y)); cbn [CompOpp]; auto.
Qed.

Lemma strcmp_lt_trans : forall a b c, strcmp a b = Lt -> strcmp b c = Lt -> strcmp a c = Lt.
Proof.
  induction a as [|x a IH]; intros [|y b] [|z c]; cbn [strcmp]; try discriminate; auto.
  destruct (Z.compare_spec (zc x) (zc y)), (Z.compare_spec (zc y) (zc z)); try discriminate;
    destruct (Z.compare_spec (zc x) (zc z)); intros; try lia; auto.
  eapply IH; eassumption.
Qed.

Lemma strcmp_neq : forall a b, a <> b -> strcmp a b <> Eq.
Proof. intros a b H E. apply H, strcmp_eq, E. Qed.

Lemma str_dec : forall a b : str, {a = b} + {a <> b}.
Proof. apply list_eq_dec, ascii_dec. Qed.

(** ** As a map *)
Lemma tfind_tupd_same : forall k f t, tfind k (tupd k f t) = option_map f (tfind k t).
Proof.
  intros k f. induction t as [|l IHl k' v r IHr]; [reflexivity|]. cbn [tupd tfind].
  destruct (strcmp k k') eqn:E; cbn [tfind]; rewrite E; auto.
Qed.

Lemma tfind_tupd_other : forall k k0 f t, k0 <> k -> tfind k0 (tupd k f t) = tfind k0 t.
Proof.
  intros k k0 f t Hk. induction t as [|l IHl k' v r IHr]; [reflexivity|]. cbn [tupd tfind].
  destruct (strcmp k k') eqn:E; cbn [tfind].
  - destruct (strcmp k0 k') eqn:E0; auto. apply strcmp_eq in E, E0. congruence.
  - destruct (strcmp k0 k'); auto.
  - destruct (strcmp k0 k'); auto.
Qed.

Lemma tfind_tins_same : forall k v t, tfind k t = None -> tfind k (tins k v t) = Some v.
Proof.
  intros k v. induction t as [|l IHl k' v' r IHr]; cbn [tins tfind].
  - rewrite strcmp_refl. reflexivity.
  - destruct (strcmp k k') eqn:E; cbn [tfind]; rewrite E; auto; discriminate.
Qed.

Lemma tfind_tins_other : forall k k0 v t, k0 <> k -> tfind k0 (tins k v t) = tfind k0 t.
Proof.
  intros k k0 v t Hk. induction t as [|l IHl k' v' r IHr]; cbn [tins tfind].
  - destruct (strcmp k0 k) eqn:E; auto. apply strcmp_eq in E. congruence.
  - destruct (strcmp k k') eqn:E; cbn [tfind]; destruct (strcmp k0 k'); auto.
Qed.

Lemma tins_present : forall k v t, tfind k t <> None -> tins k v t = t.
Proof.
  intros k v. induction t as [|l IHl k' v' r IHr]; cbn [tins tfind]; [congruence|].
  destruct (strcmp k k'); intros H; auto; f_equal; auto.
Qed.

Lemma tfind_tmap : forall f k t, tfind k (tmap f t) = option_map f (tfind k t).
Proof.
  intros f k. induction t as [|l IHl k' v r IHr]; [reflexivity|]. cbn [tmap tfind].
  destruct (strcmp k k'); auto.
Qed.

(** ** As a search tree *)
Definition klt (a b : str) : Prop := strcmp a b = Lt.

Inductive bst : tree -> Prop :=
| bst_leaf : bst Leaf
| bst_node : forall l k v r, bst l -> bst r ->
    (forall x, In x (map fst (telems l)) -> klt x k) ->
    (forall x, In x (map fst (telems r)) -> klt k x) ->
    bst (Node l k v r).

Lemma telems_tupd : forall k f t, map fst (telems (tupd k f t)) = map fst (telems t).
Proof.
  intros k f. induction t as [|l IHl k' v r IHr]; [reflexivity|]. cbn [tupd].
  destruct (strcmp k k'); cbn [telems]; rewrite !map_app; cbn [map fst]; congruence.
Qed.

Lemma telems_tmap : forall f t, map fst (telems (tmap f t)) = map fst (telems t).
Proof.
  intros f. induction t as [|l IHl k' v r IHr]; [reflexivity|]. cbn [tmap telems].
  rewrite !map_app. cbn [map fst]. congruence.
Qed.

Lemma telems_tins : forall k v t x,
  In x (map fst (telems (tins k v t))) -> x = k \/ In x (map fst (telems t)).
Proof.
  intros k v. induction t as [|l IHl k' v' r IHr]; intros x; cbn [tins].
  - cbn. intuition.
  - destruct (strcmp k k'); cbn [telems]; rewrite !map_app, !in_app_iff; cbn [map In fst];
      intuition; [destruct (IHl _ H0)|destruct (IHr _ H)]; auto.
Qed.

Lemma bst_tupd : forall k f t, bst t -> bst (tupd k f t).
Proof.
  intros k f t H. induction H; cbn [tupd]; [constructor|].
  destruct (strcmp k k0); constructor; auto; intros x; rewrite telems_tupd; auto.
Qed.

Lemma bst_tmap : forall f t, bst t -> bst (tmap f t).
Proof.
  intros f t H. induction H; cbn [tmap]; constructor; auto; intros x; rewrite telems_tmap; auto.
Qed.

Lemma bst_tins : forall k v t, bst t -> bst (tins k v t).
Proof.
  intros k v t H. induction H as [|l k' v' r Hl IHl Hr IHr Al Ar]; cbn [tins].
  - constructor; try constructor; cbn; contradiction.
  - destruct (strcmp k k') eqn:E; constructor; auto; intros x Hx.
    + apply telems_tins in Hx. destruct Hx as [->|Hx]; [exact E|auto].
    + apply telems_tins in Hx. destruct Hx as [->|Hx]; [|auto].
      unfold klt. rewrite strcmp_opp, E. reflexivity.
Qed.

Lemma bst_sorted : forall t, bst t -> StronglySorted klt (map fst (telems t)).
Proof.
  intros t H. induction H as [|l k v r Hl IHl Hr IHr Al Ar]; cbn [telems]; [constructor|].
  rewrite map_app. cbn [map fst].
  assert (G : forall a b, StronglySorted klt a -> StronglySorted klt b ->
              (forall x, In x a -> klt x k) -> (forall x, In x b -> klt k x) ->
              StronglySorted klt (a ++ k :: b)).
  { induction a as [|x a IH]; intros b Sa Sb Ha Hb; cbn [app].
    - constructor; [exact Sb|]. apply Forall_forall. exact Hb.
    - inversion Sa; subst. constructor.
      + apply IH; [assumption|assumption| |assumption]. intros y Hy. apply Ha. right. exact Hy.
      + apply Forall_app. split; [assumption|]. constructor; [apply Ha; left; reflexivity|].
        apply Forall_forall. intros y Hy. apply strcmp_lt_trans with k; [apply Ha; left; reflexivity|apply Hb; exact Hy]. }
  apply G; auto.
Qed.

Lemma tfind_In : forall t k v, tfind k t = Some v -> In (k, v) (telems t).
Proof.
  induction t as [|l IHl k' v' r IHr]; intros k v; cbn [tfind telems]; [discriminate|].
  rewrite in_app_iff. cbn [In]. destruct (strcmp k k') eqn:E; intros H.
  - apply strcmp_eq in E. injection H as ->. subst. auto.
  - auto.
  - auto.
Qed.

Lemma In_tfind : forall t, bst t -> forall k v, In (k, v) (telems t) -> tfind k t = Some v.
Proof.
  intros t H. induction H as [|l k' v' r Hl IHl Hr IHr Al Ar]; intros k v; cbn [tfind telems]; [contradiction|].
  rewrite in_app_iff. cbn [In]. intros [H|[H|H]].
  - specialize (Al k (in_map fst _ _ H)). unfold klt in Al. rewrite Al. auto.
  - injection H as -> ->. rewrite strcmp_refl. reflexivity.
  - specialize (Ar k (in_map fst _ _ H)). unfold klt in Ar. rewrite strcmp_opp, Ar. cbn. auto.
Qed.
