(** Two passes over the same lines: how the symbol table of a pass grows.  Nothing here is
    part of the model. *)
From Coq Require Import String Ascii ZArith List Bool Lia.
From Verif Require Import Base State Tree Filter Output Label Operator Parse Scode Tables.
From Verif Require Import Cpu6800 Cpu6502 CpuZ80 Pseudos Macro Xref Crasm.
From Verif Require Import TreeFacts Walk Frame Run SymFacts.
From Verif Require Import SpecLayout.
From Verif Require SpecEmit SpecSymbols EmitFacts Eval TwinFacts.
Import ListNotations.
Open Scope Z_scope.

Notation unused := SpecEmit.unused.
Notation definite := SpecSymbols.definite.

(** ** What the symbols of a pass become during the pass *)
Definition firm (l l' : label) : Prop :=
  exists p, unused l' = set_l_ptr p (unused l) /\ (l.(l_type) <> TMacro -> p = l.(l_ptr)).
Definition keyname (k : str) : Prop := In k (map (fun e => lkey 0 (s2l (fst e))) pseudos).
Definition becomes (k : str) (l l' : label) : Prop :=
  l'.(l_table) = l.(l_table) /\
  (l.(l_flags).(f_forward) = true -> l'.(l_flags).(f_forward) = true) /\
  (l.(l_flags).(f_noredef) = true -> l'.(l_flags).(f_noredef) = true) /\
  (l.(l_flags).(f_undef) = false -> l'.(l_flags).(f_undef) = false /\ l'.(l_flags).(f_noredef) = l.(l_flags).(f_noredef)) /\
  (k <> starkey -> definite l -> firm l l').
Definition grows (t F : tree) : Prop := forall k,
  match tfind k t with
  | Some l => exists l', tfind k F = Some l' /\ becomes k l l'
  | None => forall l', tfind k F = Some l' -> l'.(l_table) = TPseudos -> keyname k
  end.

Lemma set_ptr_same : forall l, set_l_ptr l.(l_ptr) l = l.
Proof. intros []. reflexivity. Qed.
Lemma firm_refl : forall l, firm l l.
Proof. intros l. exists (l_ptr l). split; [destruct l; reflexivity|auto]. Qed.
Lemma firm_unused : forall l l', unused l' = unused l -> firm l l'.
Proof. intros l l' E. exists (l_ptr l). split; [rewrite E; destruct l; reflexivity|auto]. Qed.
Lemma firm_fields : forall l l', firm l l' ->
  l'.(l_type) = l.(l_type) /\ l'.(l_modifier) = l.(l_modifier) /\ l'.(l_value) = l.(l_value) /\ l'.(l_table) = l.(l_table) /\
  set_f_used false l'.(l_flags) = set_f_used false l.(l_flags) /\ (l.(l_type) <> TMacro -> l'.(l_ptr) = l.(l_ptr)).
Proof.
  intros l l' (p & E & N). pose proof (f_equal l_type E) as A1. pose proof (f_equal l_modifier E) as A2. pose proof (f_equal l_value E) as A3.
  pose proof (f_equal l_table E) as A4. pose proof (f_equal l_flags E) as A5. pose proof (f_equal l_ptr E) as A6.
  cbn in A1, A2, A3, A4, A5, A6. repeat split; try assumption. intros X. rewrite A6. auto.
Qed.
Lemma firm_trans : forall a b c, firm a b -> firm b c -> firm a c.
Proof.
  intros a b c H1 (q & E2 & N2). destruct (firm_fields _ _ H1) as (T & _). destruct H1 as (p & E1 & N1). exists q. split.
  - rewrite E2, E1. reflexivity.
  - intros N. rewrite N2 by congruence. apply (f_equal l_ptr) in E1. cbn in E1. rewrite E1. auto.
Qed.
Lemma flag_fields : forall a b, set_f_used false a = set_f_used false b ->
  a.(f_undef) = b.(f_undef) /\ a.(f_forward) = b.(f_forward) /\ a.(f_noredef) = b.(f_noredef) /\
  a.(f_nolabel) = b.(f_nolabel) /\ a.(f_deflabel) = b.(f_deflabel) /\ a.(f_defmacro) = b.(f_defmacro) /\ a.(f_defcond) = b.(f_defcond).
Proof. intros [] [] E. injection E. intros. subst. repeat split. Qed.
Lemma firm_flags : forall l l', firm l l' -> l'.(l_flags).(f_undef) = l.(l_flags).(f_undef) /\
  l'.(l_flags).(f_forward) = l.(l_flags).(f_forward) /\ l'.(l_flags).(f_noredef) = l.(l_flags).(f_noredef).
Proof. intros l l' H. destruct (firm_fields _ _ H) as (_ & _ & _ & _ & E & _). apply flag_fields in E. tauto. Qed.
Lemma becomes_refl : forall k l, becomes k l l.
Proof. intros k l. repeat split; auto. intros; apply firm_refl. Qed.
Lemma becomes_unused : forall k l l', unused l' = unused l -> becomes k l l'.
Proof.
  intros k l l' E. pose proof (firm_unused _ _ E) as F. destruct (firm_fields _ _ F) as (_ & _ & _ & T & _). destruct (firm_flags _ _ F) as (U & W & N).
  unfold becomes. rewrite T, U, W, N. repeat split; auto.
Qed.
Lemma becomes_trans : forall k a b c, becomes k a b -> becomes k b c -> becomes k a c.
Proof.
  intros k a b c (A1 & A2 & A3 & A4 & A5) (B1 & B2 & B3 & B4 & B5). split; [congruence|]. split; [auto|]. split; [auto|]. split.
  - intros U. destruct (A4 U) as [U1 N1]. destruct (B4 U1) as [U2 N2]. split; [exact U2|congruence].
  - intros K D. pose proof (A5 K D) as F1. eapply firm_trans; [exact F1|]. apply B5; [exact K|].
    destruct (firm_flags _ _ F1) as (U & _ & N). destruct D as [D1 D2]. split; congruence.
Qed.
Lemma grows_refl : forall t, grows t t.
Proof. intros t k. destruct (tfind k t) as [l|]; [exists l; split; [reflexivity|apply becomes_refl]|discriminate]. Qed.
Lemma grows_trans : forall a b c, grows a b -> grows b c -> grows a c.
Proof.
  intros a b c X Y k. specialize (X k). specialize (Y k). destruct (tfind k a) as [l|].
  - destruct X as (l1 & E1 & B1). rewrite E1 in Y. destruct Y as (l2 & E2 & B2). exists l2. split; [exact E2|]. eapply becomes_trans; eassumption.
  - intros l' E' T. destruct (tfind k b) as [l1|] eqn:E1; [|eapply Y; eassumption].
    destruct Y as (l2 & E2 & B2). apply (X l1 eq_refl). destruct B2 as [B2 _]. congruence.
Qed.
Lemma grows_upd : forall k f t, (forall l, tfind k t = Some l -> becomes k l (f l)) -> grows t (tupd k f t).
Proof.
  intros k f t H k0. destruct (str_dec k0 k) as [->|N].
  - rewrite tfind_tupd_same. destruct (tfind k t) as [l|]; [|discriminate]. exists (f l). split; [reflexivity|]. apply H. reflexivity.
  - rewrite tfind_tupd_other by exact N. apply grows_refl.
Qed.
Lemma grows_ins : forall k e t, (e.(l_table) = TPseudos -> keyname k) -> grows t (tins k e t).
Proof.
  intros k e t H k0. destruct (tfind k0 t) as [l|] eqn:E.
  - exists l. split; [|apply becomes_refl]. destruct (str_dec k0 k) as [->|N].
    + rewrite tins_present by congruence. exact E.
    + rewrite tfind_tins_other by exact N. exact E.
  - intros l' E' T. destruct (str_dec k0 k) as [->|N].
    + rewrite tfind_tins_same in E' by exact E. injection E' as <-. auto.
    + rewrite tfind_tins_other in E' by exact N. congruence.
Qed.
Lemma systep_grows : forall t t', systep t t' -> grows t t'.
Proof.
  intros t t' [k0|k0 ty F0|k0 flags ty v p m U1 G|k0 lines l0 F0 Ty|k0 e F0 Nm|k0 l0 F0 U0].
  - apply grows_upd. intros l _. apply becomes_unused. reflexivity.
  - apply grows_ins. discriminate.
  - assert (G1 : forall l, l.(l_flags).(f_undef) = true \/ (l.(l_flags).(f_noredef) = false /\ flags.(f_noredef) = false) ->
      becomes k0 l (mkLabel (def_flags l.(l_flags) flags) ty (match m with Some m => m | None => l.(l_modifier) end) p v l.(l_table))).
    { intros l Gl. unfold becomes, def_flags, lf_or, set_f_used; cbn [l_table l_flags f_undef f_forward f_noredef]. rewrite U1.
      split; [reflexivity|]. split; [intros ->; reflexivity|]. split; [intros ->; reflexivity|]. split.
      - intros U. split; [reflexivity|]. destruct Gl as [Gl|[-> ->]]; [congruence|reflexivity].
      - intros _ [D1 D2]. destruct Gl as [Gl|[Gl _]]; congruence. }
    destruct (tfind k0 t) as [l|] eqn:E.
    + apply grows_upd. intros l' E'. apply G1, G. congruence.
    + apply grows_trans with (tins k0 (mkLabel (set_f_undef true lf0) ty 0 PNull 0 TUser) t); [apply grows_ins; discriminate|]. apply grows_upd. intros l E'.
      apply G1. rewrite tfind_tins_same in E' by exact E. injection E' as <-. left. reflexivity.
  - apply grows_upd. intros l E. assert (l = l0) as -> by congruence. split; [reflexivity|]. repeat split; auto.
    intros _ _. exists (PMac lines). split; [reflexivity|congruence].
  - apply grows_ins. exact Nm.
  - apply grows_upd. intros l E. assert (l = l0) as -> by congruence. split; [reflexivity|]. repeat split; auto.
    intros _ [D _]. congruence.
Qed.

Definition growing : relation := always (fun s s' => grows s.(sy) s'.(sy)).
Lemma growing_star : forall v t, grows t (tupd starkey (set_l_value v) t).
Proof. intros v t. apply grows_upd. intros l _. split; [reflexivity|]. repeat split; auto. intros N. elim N. reflexivity. Qed.
Lemma growing_lsteps : lsteps growing.
Proof.
  constructor; [constructor|..]; unfold growing, always; intros; try apply grows_refl.
  - assumption.
  - eapply grows_trans; eassumption.
  - apply growing_star.
Qed.
Lemma growing_error : forall A m s, grows s.(sy) (snd (@error A m s)).(sy).
Proof. intros A m s. apply (error_parts growing growing_lsteps); unfold growing, always; intros; apply grows_refl. Qed.
Lemma growing_steps : steps growing.
Proof.
  assert (B : bsteps growing).
  { constructor; [exact growing_lsteps|..]; unfold growing, always; intros; try apply grows_refl.
    - rewrite setpc_sy. apply grows_refl.
    - apply growing_error.
    - exact H. }
  constructor; [exact B|..]; unfold growing, always; intros; try apply grows_refl.
  - apply systep_grows. exact H.
  - apply (insert8_free growing (p_order _ growing_lsteps)); unfold growing, always; try (intros; apply grows_refl).
    + apply lsteps_osteps, growing_lsteps.
    + intros m s0. apply growing_error.
  - exact H.
Qed.

(** ** Symbols of the two passes *)
Definition numeric (ty : ltype) : bool := match ty with TAbs | TRel | TBit => true | _ => false end.
Definition key_ok (p : lptr) (m : Z) : Prop := p = PFun HZBitop -> In m (map s16 [52032; 52160; 52096]).
Definition vals (ty : ltype) (fwd : bool) (m1 : Z) (p1 : lptr) (v1 : Z) (m2 : Z) (p2 : lptr) (v2 : Z) : Prop :=
  match ty with
  | TAbs | TRel => fwd = false -> v1 = v2
  | TBit => fwd = false -> v1 = v2 /\ m1 = m2
  | _ => v1 = v2 /\ m1 = m2 /\ p1 = p2 /\ key_ok p1 m1
  end.
Definition marks (a b : lflags) : Prop :=
  a.(f_nolabel) = b.(f_nolabel) /\ a.(f_deflabel) = b.(f_deflabel) /\ a.(f_defmacro) = b.(f_defmacro) /\ a.(f_defcond) = b.(f_defcond).
Definition matches (r1 r2 : result) : Prop :=
  r1.(r_type) = r2.(r_type) /\ r1.(r_flags).(f_forward) = r2.(r_flags).(f_forward) /\
  vals r1.(r_type) r1.(r_flags).(f_forward) r1.(r_modifier) r1.(r_ptr) r1.(r_value) r2.(r_modifier) r2.(r_ptr) r2.(r_value) /\
  (numeric r1.(r_type) = false -> marks r1.(r_flags) r2.(r_flags)).
Definition samelab (l1 l2 : label) : Prop :=
  l1.(l_flags).(f_undef) = false /\ l2.(l_flags).(f_undef) = false /\ l1.(l_type) = l2.(l_type) /\
  l1.(l_flags).(f_forward) = l2.(l_flags).(f_forward) /\ l1.(l_flags).(f_noredef) = l2.(l_flags).(f_noredef) /\
  l1.(l_table) = l2.(l_table) /\
  vals l1.(l_type) l1.(l_flags).(f_forward) l1.(l_modifier) l1.(l_ptr) l1.(l_value) l2.(l_modifier) l2.(l_ptr) l2.(l_value) /\
  (numeric l1.(l_type) = false -> marks l1.(l_flags) l2.(l_flags)).
Definition freshlab : label := mkLabel lf_fwd TAbs 0 PNull 0 TUser.
Definition waits (f o2 : option label) : Prop :=
  match f with
  | None => o2 = None
  | Some lF => exists l2, o2 = Some l2 /\ unused l2 = unused (undef_node lF) /\ l2.(l_flags).(f_undef) = true
  end.
Definition starry (l1 l2 : label) : Prop :=
  l1.(l_flags).(f_undef) = l2.(l_flags).(f_undef) /\ l1.(l_flags).(f_forward) = false /\ l2.(l_flags).(f_forward) = false /\
  l1.(l_flags).(f_noredef) = false /\ l2.(l_flags).(f_noredef) = false /\ l1.(l_table) = l2.(l_table) /\
  (l1.(l_flags).(f_undef) = false -> samelab l1 l2).
(** Equal values are only asked for under [g]. *)
Definition twin (g : Prop) (l1 l2 : label) : Prop := samelab l1 l2 /\ (g -> l1.(l_value) = l2.(l_value)).
Definition pair (g : Prop) (k : str) (f o1 o2 : option label) : Prop :=
  (k = starkey -> exists l1 l2, o1 = Some l1 /\ o2 = Some l2 /\ starry l1 l2) /\
  (k <> starkey ->
   match o1 with
   | Some l1 => if l1.(l_flags).(f_undef) then unused l1 = unused freshlab /\ waits f o2
                else exists l2, o2 = Some l2 /\ twin g l1 l2
   | None => waits f o2
   end).
(** The table at the end of the first pass, and the symbols that are only given values that do
    not depend on symbols defined further down. *)
Record final : Type := mkFinal { fin_tree :> tree; pins : str -> Prop }.
Definition tables (F : final) (t1 t2 : tree) : Prop := forall k, pair (pins F k) k (tfind k F) (tfind k t1) (tfind k t2).

Lemma numeric_vals : forall ty m1 p1 v1 m2 p2 v2, numeric ty = true -> vals ty true m1 p1 v1 m2 p2 v2.
Proof. intros [] m1 p1 v1 m2 p2 v2 N; try discriminate N; intros E; discriminate E. Qed.
Lemma vals_value : forall ty m1 p1 v1 m2 p2 v2, vals ty false m1 p1 v1 m2 p2 v2 -> v1 = v2.
Proof. intros [] m1 p1 v1 m2 p2 v2 V; cbn in V; try (apply V; reflexivity); apply V. Qed.
Lemma vals_new_value : forall ty m1 p1 v1 m2 p2 v2 w, vals ty false m1 p1 v1 m2 p2 v2 -> vals ty false m1 p1 w m2 p2 w.
Proof. intros [] m1 p1 v1 m2 p2 v2 w V; cbn in *; auto; try tauto; intros; split; auto; apply V; auto. Qed.
Lemma vals_more : forall ty f g m1 p1 v1 m2 p2 v2, vals ty f m1 p1 v1 m2 p2 v2 -> (f = true -> g = true) -> vals ty g m1 p1 v1 m2 p2 v2.
Proof. intros [] f g m1 p1 v1 m2 p2 v2 V H; cbn in *; auto; intros ->; apply V; destruct f; auto; discriminate H; reflexivity. Qed.

(** The result of a reference. *)
Definition result_of (l : label) : result := mkRes l.(l_flags) l.(l_type) l.(l_modifier) l.(l_ptr) l.(l_value).
Definition use (l : label) : label := set_l_flags (set_f_used true l.(l_flags)) l.
Definition touch (o : option label) : label := use (match o with Some l => l | None => freshlab end).
Lemma samelab_use : forall a b, samelab a b -> samelab (use a) (use b).
Proof. intros a b H. exact H. Qed.
Lemma samelab_matches : forall a b, samelab a b -> matches (result_of a) (result_of b).
Proof. intros a b (A & B & C & D & E & F & G & H). repeat split; try assumption; apply H; assumption. Qed.
Lemma unused_use : forall l, unused (use l) = unused l.
Proof. reflexivity. Qed.

Lemma pair_touch : forall g k f o1 o2 lF, pair g k f o1 o2 -> f = Some lF ->
  pair g k f (Some (touch o1)) (Some (touch o2)).
Proof.
  intros g k f o1 o2 lF [H1 H2] ->. split.
  - intros K. destruct (H1 K) as (l1 & l2 & -> & -> & S). exists (use l1), (use l2). split; [reflexivity|]. split; [reflexivity|].
    destruct S as (A & B & C & D & E & G & X). repeat split; try assumption; apply X; assumption.
  - intros K. specialize (H2 K).
    assert (W : waits (Some lF) o2 -> waits (Some lF) (Some (touch o2))).
    { intros (l2 & -> & A & B). exists (use l2). split; [reflexivity|]. split; [rewrite <- A; reflexivity|exact B]. }
    destruct o1 as [l1|].
    + revert H2. unfold touch at 1. change (f_undef (l_flags (use l1))) with (f_undef (l_flags l1)). destruct (f_undef (l_flags l1)); intros H2.
      * destruct H2 as [A B]. refine (conj _ (W B)). rewrite <- A. reflexivity.
      * destruct H2 as (l2 & -> & S). exists (use l2). split; [reflexivity|exact S].
    + refine (conj _ (W H2)). reflexivity.
Qed.

Lemma undef_forward : forall lF, (undef_node lF).(l_flags).(f_forward) = true ->
  lF.(l_flags).(f_noredef) = true /\ lF.(l_flags).(f_undef) = false /\ lF.(l_flags).(f_forward) = true.
Proof.
  intros lF H. cbn in H. destruct (f_noredef (l_flags lF)), (f_undef (l_flags lF)); cbn in H; try discriminate H. auto.
Qed.
Lemma unused_fields : forall l l', unused l' = unused l -> l'.(l_type) = l.(l_type) /\ l'.(l_modifier) = l.(l_modifier) /\
  l'.(l_value) = l.(l_value) /\ l'.(l_table) = l.(l_table) /\ l'.(l_ptr) = l.(l_ptr) /\
  set_f_used false l'.(l_flags) = set_f_used false l.(l_flags).
Proof.
  intros l l' E. pose proof (f_equal l_type E) as A1. pose proof (f_equal l_modifier E) as A2. pose proof (f_equal l_value E) as A3.
  pose proof (f_equal l_table E) as A4. pose proof (f_equal l_flags E) as A5. pose proof (f_equal l_ptr E) as A6.
  cbn in A1, A2, A3, A4, A5, A6. repeat split; assumption.
Qed.

Lemma pair_result : forall F g k o1 o2, forward_numbers F -> pair g k (tfind k F) o1 o2 -> forall lF, tfind k F = Some lF ->
  (touch o1).(l_flags).(f_undef) && negb (touch o1).(l_flags).(f_forward) = false ->
  (touch o2).(l_flags).(f_undef) && negb (touch o2).(l_flags).(f_forward) = false ->
  matches (result_of (touch o1)) (result_of (touch o2)).
Proof.
  intros F g k o1 o2 SF [H1 H2] lF EF U1 U2. destruct (str_dec k starkey) as [K|K].
  - destruct (H1 K) as (l1 & l2 & -> & -> & (A & B & C & D & E & G & X)). unfold touch in *.
    cbn in U1. rewrite B in U1. destruct (f_undef (l_flags l1)) eqn:U; [discriminate U1|].
    apply (samelab_matches (use l1) (use l2)). apply samelab_use, X. reflexivity.
  - specialize (H2 K).
    assert (W : waits (tfind k F) o2 -> forall r1, r_type r1 = TAbs -> f_forward (r_flags r1) = true -> matches r1 (result_of (touch o2))).
    { rewrite EF. intros (l2 & -> & A & B) r1 T1 F1. unfold touch in *. cbn in U2. rewrite B in U2. cbn in U2.
      apply negb_false_iff in U2. destruct (unused_fields _ _ A) as (E1 & _ & _ & _ & _ & E6). apply flag_fields in E6.
      destruct E6 as (_ & E6 & _). rewrite U2 in E6. symmetry in E6. apply undef_forward in E6. destruct E6 as (_ & _ & E6).
      destruct (SF _ _ EF E6) as [_ Ty]. unfold matches. cbn [result_of r_type r_flags use set_l_flags l_type l_flags].
      rewrite T1, F1, E1. cbn [undef_node set_l_flags l_type]. rewrite Ty. cbn [set_f_used f_forward]. rewrite U2.
      repeat split; try discriminate. }
    destruct o1 as [l1|]; unfold touch in *.
    + destruct (f_undef (l_flags l1)) eqn:U.
      * destruct H2 as [A B]. destruct (unused_fields _ _ A) as (E1 & _ & _ & _ & _ & E6). apply flag_fields in E6. destruct E6 as (_ & E6 & _).
        apply W; [exact B|exact E1|exact E6].
      * destruct H2 as (l2 & -> & S & _). apply (samelab_matches (use l1) (use l2)), samelab_use, S.
    + apply W; [exact H2|reflexivity|reflexivity].
Qed.

(** A definition. *)
Definition define (o : option label) (f : lflags) (ty : ltype) (m : Z) (p : lptr) (v : Z) : label :=
  mkLabel (def_flags (match o with Some l => l.(l_flags) | None => set_f_undef true lf0 end) f) ty m p v
          (match o with Some l => l.(l_table) | None => TUser end).
Lemma define_flags : forall o f ty m p v, f.(f_undef) = false ->
  let g := match o with Some l => l.(l_flags) | None => set_f_undef true lf0 end in
  let l := define o f ty m p v in
  l.(l_flags).(f_undef) = false /\ l.(l_flags).(f_forward) = g.(f_forward) || f.(f_forward) /\
  l.(l_flags).(f_noredef) = g.(f_noredef) || f.(f_noredef) /\ marks l.(l_flags) f.
Proof. intros o f ty m p v U. cbn. rewrite U. repeat split. Qed.

Lemma pair_define : forall F (g : Prop) k o1 o2 f1 f2 ty m1 p1 v1 m2 p2 v2, forward_numbers F -> pair g k (tfind k F) o1 o2 ->
  f1.(f_undef) = false -> f2.(f_undef) = false -> f1.(f_forward) = f2.(f_forward) -> f1.(f_noredef) = f2.(f_noredef) ->
  (k = starkey -> f1.(f_noredef) = false) ->
  vals ty f1.(f_forward) m1 p1 v1 m2 p2 v2 -> (numeric ty = false -> marks f1 f2) -> (g -> v1 = v2) ->
  forall lF, tfind k F = Some lF -> becomes k (define o1 f1 ty m1 p1 v1) lF ->
  pair g k (tfind k F) (Some (define o1 f1 ty m1 p1 v1)) (Some (define o2 f2 ty m2 p2 v2)).
Proof.
  intros F g k o1 o2 f1 f2 ty m1 p1 v1 m2 p2 v2 SF [H1 H2] U1 U2 Ef En Ns V Mk Gv lF EF (B1 & B2 & B3 & B4 & B5).
  destruct (define_flags o1 f1 ty m1 p1 v1 U1) as (D1 & D2 & D3 & D4). destruct (define_flags o2 f2 ty m2 p2 v2 U2) as (G1 & G2 & G3 & G4).
  cbv zeta in *. set (d1 := define o1 f1 ty m1 p1 v1) in *. set (d2 := define o2 f2 ty m2 p2 v2) in *.
  assert (Mm : numeric ty = false -> marks (l_flags d1) (l_flags d2)).
  { intros N. specialize (Mk N). unfold marks in *. intuition congruence. }
  assert (Same : (match o1 with Some l => l.(l_table) | None => TUser end) = (match o2 with Some l => l.(l_table) | None => TUser end) ->
    f_forward (l_flags d1) = f_forward (l_flags d2) -> f_noredef (l_flags d1) = f_noredef (l_flags d2) ->
    vals ty (f_forward (l_flags d1)) m1 p1 v1 m2 p2 v2 -> samelab d1 d2).
  { intros Tb Fw Nr Vv. unfold samelab. repeat split; try assumption; try (apply Mm; assumption). }
  split; intros K.
  - destruct (H1 K) as (l1 & l2 & E1 & E2 & (S1 & S2 & S3 & S4 & S5 & S6 & S7)). rewrite E1 in *. rewrite E2 in *. specialize (Ns K).
    rewrite S2 in D2. rewrite S3 in G2. cbn [orb] in D2, G2.
    assert (Ff : f_forward f1 = false).
    { destruct (f_forward f1) eqn:X; [|reflexivity]. destruct (SF k lF EF) as [A _]; [|contradiction]. apply B2. exact D2. }
    exists d1, d2. split; [reflexivity|]. split; [reflexivity|].
    assert (S : samelab d1 d2).
    { apply Same; [exact S6|congruence| |].
      - rewrite D3, G3, S4, S5. congruence.
      - rewrite D2. exact V. }
    unfold starry. rewrite D1, G1, D2, G2, D3, G3, S4, S5. rewrite <- Ef, <- En, Ff, Ns.
    do 6 (split; [first [reflexivity|apply S]|]). intros _. exact S.
  - specialize (H2 K). rewrite D1. exists d2. split; [reflexivity|]. refine (conj _ Gv).
    destruct (B4 D1) as [LU LN].
    assert (Fd : f_noredef (l_flags d1) = true -> f_forward (l_flags lF) = f_forward (l_flags d1) /\ l_type lF = ty).
    { intros N. pose proof (B5 K (conj D1 N)) as X. split; [apply (firm_flags _ _ X)|]. destruct (firm_fields _ _ X) as (A & _). exact A. }
    assert (W : waits (Some lF) o2 -> exists l2, o2 = Some l2 /\ l_table l2 = l_table lF /\ f_noredef (l_flags l2) = f_noredef (l_flags d1) /\
        f_forward (l_flags l2) = (if f_noredef (l_flags d1) then f_forward (l_flags d1) else false)).
    { intros (l2 & -> & A & _). exists l2. split; [reflexivity|]. destruct (unused_fields _ _ A) as (_ & _ & _ & E4 & _ & E6). apply flag_fields in E6.
      destruct E6 as (_ & E6 & E7 & _). split; [exact E4|]. cbn [undef_node set_l_flags l_flags set_f_undef set_f_forward f_noredef f_forward] in E6, E7.
      rewrite LU, LN in E6. split; [congruence|]. rewrite E6. destruct (f_noredef (l_flags d1)) eqn:N; cbn; [|reflexivity]. apply Fd. reflexivity. }
    rewrite EF in H2. destruct o1 as [l1|].
    + destruct (f_undef (l_flags l1)) eqn:Ul.
      * destruct H2 as [A Ww]. destruct (unused_fields _ _ A) as (_ & _ & _ & A4 & _ & A6). apply flag_fields in A6. destruct A6 as (_ & A6 & A7 & _).
        cbn [freshlab l_flags lf_fwd f_forward f_noredef l_table] in A6, A7, A4.
        rewrite A6 in D2. cbn [orb] in D2. rewrite A7 in D3. cbn [orb] in D3. destruct (W Ww) as (l2 & E2 & T2 & N2 & F2). rewrite E2 in *.
        rewrite D3 in N2, F2. rewrite D2 in F2. rewrite N2 in G3. rewrite F2 in G2. cbn [orb] in G2, G3.
        destruct (Fd D3) as [X1 X2]. rewrite D2 in X1. destruct (SF _ _ EF X1) as [_ X3].
        apply Same; [|congruence|congruence|].
        -- rewrite A4, T2, B1. cbn. symmetry. exact A4.
        -- rewrite D2. apply numeric_vals. rewrite <- X2, X3. reflexivity.
      * destruct H2 as (l2 & E2 & (S1 & S2 & S3 & S4 & S5 & S6 & S7 & S8) & _). rewrite E2 in *.
        apply Same; [exact S6| | |].
        -- rewrite D2, G2, S4, Ef. reflexivity.
        -- rewrite D3, G3, S5, En. reflexivity.
        -- rewrite D2. eapply vals_more; [exact V|]. intros ->. apply orb_true_r.
    + cbn [set_f_undef lf0 f_forward f_noredef orb] in D2, D3. destruct (W H2) as (l2 & E2 & T2 & N2 & F2). rewrite E2 in *.
      rewrite F2 in G2. rewrite N2 in G3.
      apply Same.
      * rewrite T2, B1. reflexivity.
      * rewrite G2, D2, <- Ef. destruct (f_noredef (l_flags d1)), (f_forward f1); reflexivity.
      * rewrite G3, D3, <- En. destruct (f_noredef f1); reflexivity.
      * rewrite D2. exact V.
Qed.

(** A keyword of the processor. *)
Definition keyword (l : label) : Prop :=
  l.(l_flags) = lf_key /\ (l.(l_type) = TMnemo \/ l.(l_type) = TRegs) /\ key_ok l.(l_ptr) l.(l_modifier) /\
  l.(l_table) <> TUser /\ l.(l_table) <> TPseudos.
Lemma table_eqb_true : forall a b, table_eqb a b = true -> a = b.
Proof. intros [] [] E; (reflexivity || discriminate E). Qed.
Lemma table_eqb_refl : forall a, table_eqb a a = true.
Proof. intros []; reflexivity. Qed.
Definition recall (o : option label) (e : label) : option label :=
  match o with
  | None => Some e
  | Some l => if table_eqb l.(l_table) e.(l_table) && l.(l_flags).(f_undef) then Some (set_l_flags (set_f_undef false l.(l_flags)) l) else Some l
  end.
Lemma pair_recall : forall F g k o1 o2 e, pair g k (tfind k F) o1 o2 -> k <> starkey -> keyword e ->
  forall lF l1, recall o1 e = Some l1 -> tfind k F = Some lF -> becomes k l1 lF ->
  pair g k (tfind k F) (recall o1 e) (recall o2 e).
Proof.
  intros F g k o1 o2 e [_ H2] K (Kf & Kt & Kk & Ku & Kp) lF l1 E1 EF (B1 & B2 & B3 & B4 & B5). split; [contradiction|]. intros _. specialize (H2 K).
  rewrite EF in *. destruct o1 as [l|]; cbn [recall] in *.
  - destruct (f_undef (l_flags l)) eqn:U.
    + destruct H2 as [A W]. destruct (unused_fields _ _ A) as (_ & _ & _ & A4 & _). cbn in A4.
      assert (Ne : table_eqb (l_table l) (l_table e) = false).
      { destruct (table_eqb _ _) eqn:X; [|reflexivity]. apply table_eqb_true in X. congruence. }
      rewrite Ne in *. cbn [andb] in *. injection E1 as <-. rewrite U. split; [exact A|].
      destruct W as (l2 & -> & C & D). destruct (unused_fields _ _ C) as (_ & _ & _ & C4 & _). cbn in C4.
      cbn [recall]. rewrite C4, B1, Ne. cbn [andb]. exists l2. auto.
    + rewrite andb_false_r in *. injection E1 as <-. rewrite U. destruct H2 as (l2 & -> & S). cbn [recall].
      rewrite (proj1 (proj2 (proj1 S))), andb_false_r. exists l2. split; [reflexivity|exact S].
  - injection E1 as <-. rewrite Kf. cbn [lf_key f_undef].
    assert (Fm : firm e lF). { apply B5; [exact K|]. unfold SpecSymbols.definite. rewrite Kf. split; reflexivity. }
    destruct (firm_fields _ _ Fm) as (M1 & M2 & M3 & M4 & M5 & M6).
    assert (Np : l_type e <> TMacro) by (destruct Kt; congruence). specialize (M6 Np). apply flag_fields in M5. rewrite Kf in M5.
    destruct M5 as (N1 & N2 & N3 & N4 & N5 & N6 & N7). cbn in N1, N2, N3, N4, N5, N6, N7.
    destruct H2 as (l2 & -> & C & D). destruct (unused_fields _ _ C) as (C1 & C2 & C3 & C4 & C5 & C6). cbn in C1, C2, C3, C4, C5.
    apply flag_fields in C6. cbn in C6. destruct C6 as (_ & X2 & X3 & X4 & X5 & X6 & X7). rewrite N2, N3, N1 in X2. cbn in X2.
    cbn [recall]. rewrite C4, M4, table_eqb_refl, D. cbn [andb]. eexists. split; [reflexivity|]. split; [|intros _; cbn; congruence].
    unfold samelab. rewrite Kf. cbn. do 6 (split; [congruence|]). split.
    + rewrite C3, C2, C5, M3, M2, M6. destruct Kt as [-> | ->]; cbn; auto.
    + intros _. unfold marks. cbn. repeat split; congruence.
Qed.
