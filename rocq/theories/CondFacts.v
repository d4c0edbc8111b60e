(** Conditions (C30). *)
From Coq Require Import String Ascii ZArith List Bool Lia ZifyBool.
From Verif Require Import Base State Tree Filter Output Label Operator Parse Scode Tables.
From Verif Require Import Cpu6800 Macro Crasm Walk TreeFacts Frame Eval SpecEmit SpecSkip SkipFacts SpecCond.
From Verif Require SpecSplit SplitFacts.
Import ListNotations.
Open Scope Z_scope.

(** Evaluation leaves the symbols tidy. *)
Definition tidyrel : relation := fun _ s s' => tidy s -> tidy s'.

Lemma tidy_tupd : forall k f s t, (forall l, (f l).(l_type) = l.(l_type) /\ (f l).(l_modifier) = l.(l_modifier)) ->
  s.(sy) = t -> tidy s -> forall s', s'.(sy) = tupd k f t -> tidy s'.
Proof.
  intros k f s t F E T s' E' k' l' H N. rewrite E' in H. destruct (str_dec k' k) as [->|X].
  - rewrite tfind_tupd_same in H. rewrite <- E in H. destruct (tfind k (sy s)) as [l|] eqn:K; [|discriminate H].
    injection H as <-. destruct (F l) as [F1 F2]. rewrite F2. apply (T k l K). rewrite F1 in N. exact N.
  - rewrite tfind_tupd_other in H by exact X. rewrite <- E in H. exact (T k' l' H N).
Qed.

Lemma esteps_tidy : esteps tidyrel.
Proof.
  assert (L : lsteps tidyrel).
  { constructor; [constructor|..]; unfold tidyrel; intros; auto.
    eapply (tidy_tupd starkey _ s (sy s)); [|reflexivity|eassumption|reflexivity]. intros l. split; reflexivity. }
  constructor.
  - apply lsteps_osteps. exact L.
  - intros s v T. exact T.
  - intros s k T. eapply (tidy_tupd k _ s (sy s)); [|reflexivity|eassumption|reflexivity]. intros l. split; reflexivity.
  - intros s k ty F T k' l' H N. cbn [sy set_sy] in H. destruct (str_dec k' k) as [->|X].
    + rewrite tfind_tins_same in H by exact F. injection H as <-. reflexivity.
    + rewrite tfind_tins_other in H by exact X. exact (T k' l' H N).
  - intros s k l _ _ T. exact T.
  - intros m. apply (error_parts tidyrel L); intros s; intros; intros T; exact T.
Qed.
Lemma tidy_use : forall A (m : M A) s r s', pres tidyrel A m -> m s = (r, s') -> tidy s -> tidy s'.
Proof. intros A m s r s' H E T. specialize (H s). rewrite E in H. exact (H T). Qed.

(** A number has no modifier. *)
Definition good_result (top : bool) (r : result) (s : state) : Prop :=
  (numeric r.(r_type) -> r.(r_modifier) = 0) /\ (top = true -> s.(ct).(calcresult) = r).

Lemma putres_good : forall top r s r' s', putres top r s = (Ok r', s') ->
  (numeric r.(r_type) -> r.(r_modifier) = 0) -> good_result top r' s'.
Proof.
  intros [] r s r' s' E N; unfold putres, when, bind, upd_ct, modify, ret in E; injection E as <- <-;
    (split; [exact N|]); [reflexivity|discriminate].
Qed.

Lemma checktype_ok : forall r ty s u s', checktype r ty s = (Ok u, s') -> r.(r_type) = ty /\ s' = s.
Proof.
  intros r ty s u s' E. unfold checktype in E. destruct (ltype_eqb (r_type r) ty) eqn:Q.
  - injection E as _ <-. split; [|reflexivity]. destruct (r_type r), ty; (reflexivity || discriminate Q).
  - exfalso. destruct (r_type r); exact (error_never _ _ _ _ _ E).
Qed.
Lemma chk64_ok : forall v s a s', chk64 v s = (Ok a, s') -> a = v /\ s' = s.
Proof. intros v s a s' E. unfold chk64 in E. destruct (in_s64 v); [injection E as <- <-; auto|discriminate E]. Qed.

Lemma apply1_good : forall top o r s r' s', good_result top r s -> apply1 top o r s = (Ok r', s') -> good_result top r' s'.
Proof.
  intros top o r s r' s' [N C] E. destruct o; cbn [apply1] in E;
    step E u s1 E1; apply checktype_ok in E1; destruct E1 as [Ty ->];
    try (step E v s2 E2; apply chk64_ok in E2; destruct E2 as [-> ->]);
    (eapply putres_good; [exact E|]); cbn; auto; rewrite ?Ty; auto.
Qed.

Lemma apply2_good : forall top o a b s r' s', (numeric a.(r_type) -> a.(r_modifier) = 0) ->
  apply2 top o a b s = (Ok r', s') -> good_result top r' s'.
Proof.
  intros top o a b s r' s' N E. unfold apply2 in E. cbv zeta in E.
  assert (B : forall u s1, (checktype a TAbs ;;; checktype b TAbs) s = (Ok u, s1) -> a.(r_type) = TAbs /\ s1 = s).
  { intros u s1 E1. step E1 u1 s2 E2. apply checktype_ok in E2. destruct E2 as [T ->].
    apply checktype_ok in E1. destruct E1 as [_ ->]. auto. }
  destruct o;
    try (step E u s1 E1; apply B in E1; destruct E1 as [Ta ->]; rewrite Ta in *;
         repeat match type of E with context [if ?c then _ else _] => destruct c end;
         try discriminate E;
         try (step E v s2 E2; apply chk64_ok in E2; destruct E2 as [-> ->]);
         (eapply putres_good; [exact E|]); cbn; intros _; apply N; left; reflexivity).
  - step E u s1 E1. apply checktype_ok in E1. destruct E1 as [Ta ->]. step E u2 s2 E2.
    apply checktype_ok in E2. destruct E2 as [_ ->]. eapply putres_good; [exact E|].
    cbn. rewrite Ta. intros [X|X]; discriminate X.
  - step E v s1 E1. apply chk64_ok in E1. destruct E1 as [-> ->].
    destruct (r_type a) eqn:Ta; try (exfalso; exact (error_never _ _ _ _ _ E)).
    destruct (r_type b); try (exfalso; exact (error_never _ _ _ _ _ E));
      (eapply putres_good; [exact E|]); cbn; intros _; apply N; left; reflexivity.
  - destruct (r_type a) eqn:Ta; try (exfalso; exact (error_never _ _ _ _ _ E));
      destruct (r_type b); try (exfalso; exact (error_never _ _ _ _ _ E));
      try (step E v s2 E2; apply chk64_ok in E2; destruct E2 as [-> ->];
           (eapply putres_good; [exact E|]); cbn; intros _; apply N; (left; reflexivity) || (right; reflexivity)).
    exfalso. destruct (bitindex 32 0 (r_value a)); [|discriminate E].
    destruct (bitindex 32 0 (r_value b)); [|discriminate E].
    destruct (_ <? _); [exact (error_never _ _ _ _ _ E)|discriminate E].
  - step E u s1 E1. apply B in E1. destruct E1 as [_ ->]. step E r s2 E2.
    destruct (32 <? r_value b); [exfalso; exact (error_never _ _ _ _ _ E)|]. injection E as <- <-.
    eapply putres_good; [exact E2|]. cbn. intros [X|X]; discriminate X.
Qed.

Lemma constant_good : forall top r v s r' s', r.(r_modifier) = 0 -> constant top r v s = (Ok r', s') ->
  good_result top r' s'.
Proof.
  intros top r [z|m] s r' s' R E; cbn [constant] in E; [|exfalso; exact (error_never _ _ _ _ _ E)].
  eapply putres_good; [exact E|]. intros _. exact R.
Qed.

Lemma cstlabel_good : forall top n s r s', tidy s -> cstlabel top n s = (Ok r, s') -> good_result top r s'.
Proof.
  intros top n s r s' T E. unfold cstlabel in E. step E k s1 E1.
  pose proof (tidy_use _ _ _ _ _ (pe_findlabel _ esteps_tidy n) E1 T) as T1.
  step E q s2 E2. injection E2 as <- <-. destruct (tfind k (sy s1)) as [l|] eqn:F; [|discriminate E].
  step E r1 s2 E2.
  destruct (_ && _); [exfalso; exact (error_never _ _ _ _ _ E)|]. injection E as <- <-.
  change (good_result top r1 s2). eapply putres_good; [exact E2|]. cbn. exact (T1 k l F).
Qed.

Lemma trycst_good : forall top e l r s r' s', r.(r_modifier) = 0 -> trycst top r e l s = (Ok r', s') ->
  good_result top r' s'.
Proof.
  intros top e. induction l as [|[f conv] l IH]; intros r s r' s' R E; cbn [trycst] in E.
  - destruct e as [|c t]; [exfalso; exact (error_never _ _ _ _ _ E)|].
    destruct (isdigit c); [exact (constant_good _ _ _ _ _ _ R E)|].
    destruct (_ || _); [exact (constant_good _ _ _ _ _ _ R E)|]. exfalso; exact (error_never _ _ _ _ _ E).
  - step E m s1 E1. destruct m as [[|c t]|]; try exact (IH _ _ _ _ R E).
    exact (constant_good _ _ _ _ _ _ R E).
Qed.

Lemma parse2_good : forall n top r e s r' s', r.(r_modifier) = 0 -> tidy s -> parse2 n top r e s = (Ok r', s') ->
  good_result top r' s'.
Proof.
  induction n as [|n IH]; intros top r e s r' s' R T E; cbn [parse2] in E; [discriminate E|].
  revert s T E. generalize oplist. intros rows. induction rows as [|row rows IHr]; intros s T E.
  - cbn [parserows] in E. cbv zeta in E. destruct (checklabel (reverse e)).
    + exact (cstlabel_good _ _ _ _ _ T E).
    + exact (trycst_good _ _ _ _ _ _ _ R E).
  - destruct row as [l|f o|f]; cbn [parserows] in E; step E m s1 E1.
    + pose proof (tidy_use _ _ _ _ _ (pe_trygroup _ esteps_tidy e l) E1 T) as T1.
      destruct m as [[[[|x c1] [|y c2]] o]|]; try exact (IHr _ T1 E).
      step E a s2 E2. step E b s3 E3. pose proof (IH _ _ _ _ _ _ R T1 E2) as [N _].
      exact (apply2_good _ _ _ _ _ _ _ N E).
    + pose proof (tidy_use _ _ _ _ _ (pe_filter1 _ esteps_tidy e f) E1 T) as T1.
      destruct m as [[|x c1]|]; try exact (IHr _ T1 E).
      step E a s2 E2. exact (apply1_good _ _ _ _ _ _ (IH _ _ _ _ _ _ R T1 E2) E).
    + pose proof (tidy_use _ _ _ _ _ (pe_filter1 _ esteps_tidy e f) E1 T) as T1.
      destruct m as [[|x c1]|]; try exact (IHr _ T1 E).
      exact (IH _ _ _ _ _ _ R T1 E).
Qed.

(** Filters, warnings and findlabel keep the last result. *)
Definition keptresult : relation := fun d s s' => d = Fine -> s'.(ct).(calcresult) = s.(ct).(calcresult).
Lemma osteps_keptresult : osteps keptresult.
Proof.
  constructor; [constructor|..]; unfold keptresult; intros; auto; try discriminate.
  subst d. rewrite H0 by reflexivity. apply H. reflexivity.
Qed.

Theorem parse_clean : forall t s r s', clean s -> parse t s = (Ok r, s') ->
  tidy s' /\ (numeric r.(r_type) -> r.(r_modifier) = 0 /\ clean s').
Proof.
  intros t s r s' [C T] E. pose proof (tidy_use _ _ _ _ _ (pe_parse _ esteps_tidy t) E T) as T'.
  split; [exact T'|]. unfold parse in E. destruct t as [|c t]; [exfalso; exact (error_never _ _ _ _ _ E)|].
  step E m s1 E1. step E u s2 E2. step E r0 s3 E3. injection E3 as <- <-.
  pose proof (tidy_use _ _ _ _ _ (pe_filter1 _ esteps_tidy _ _) E1 T) as T1.
  assert (W : forall P, osteps P -> pres P _ (when (match m with Some _ => true | None => false end)
     (warning "external parenthesis ignored"))).
  { intros P O. destruct m; [apply (pres_warning P O)|apply (pres_ret P (o_order P O))]. }
  pose proof (tidy_use _ _ _ _ _ (W _ (e_osteps _ esteps_tidy)) E2 T1) as T2.
  assert (K1 : s1.(ct).(calcresult) = s.(ct).(calcresult)).
  { assert (K : pres keptresult _ (filter1 (c :: t) "(?)")).
    { unfold filter1. pose proof (o_order _ osteps_keptresult) as O. apply (pres_bind _ O); [apply (pres_filterc _ osteps_keptresult)|].
      intros a. repeat match goal with |- pres _ _ (match ?x with _ => _ end) => destruct x end;
        first [apply (pres_ret _ O)|apply (pres_ub _ O)]. }
    specialize (K s). rewrite E1 in K. apply K. reflexivity. }
  assert (K2 : s2.(ct).(calcresult) = s1.(ct).(calcresult)).
  { pose proof (W _ osteps_keptresult s1) as K. rewrite E2 in K. apply K. reflexivity. }
  assert (R : r_modifier (calcresult (ct s2)) = 0) by (rewrite K2, K1; exact C).
  destruct (parse2_good _ _ _ _ _ _ _ R T2 E) as [N P]. intros Nu. split; [exact (N Nu)|].
  split; [rewrite (P eq_refl); exact (N Nu)|exact T'].
Qed.

(** What the flags of a comparison mean. *)
Definition meaning (c : cmp) (R : Z -> Z -> Prop) : Prop :=
  forall r1 r2, r1.(r_modifier) = r2.(r_modifier) -> (compare_results c r1 r2 = true <-> R r1.(r_value) r2.(r_value)).

Lemma find_first : forall t l (l' : list (list ascii * (Z -> Z -> Prop))) s q s',
  Forall2 (fun p q => s2l (fst p) = SplitFacts.sepat (fst q) /\ fst q <> [] /\
                      forallb SplitFacts.sepchar (fst q) = true /\ meaning (snd p) (snd q)) l l' ->
  findcompar t l s = (Ok q, s') ->
  s' = set_ct (set_bufferpos s'.(ct).(bufferpos) s.(ct)) s /\
  match q with
  | Some (a, b, c) => exists l1 op R l2, l' = l1 ++ (op, R) :: l2 /\
      (forall x, In x l1 -> SpecSplit.uncut (fst x) t) /\ SpecSplit.first_cut op t a b /\ meaning c R
  | None => forall x, In x l' -> SpecSplit.uncut (fst x) t
  end.
Proof.
  intros t l l' s q s' F. revert s. induction F as [|[p c] [op R] l l' (E1 & E2 & E3 & E4) F IH]; intros s E; cbn [findcompar] in E.
  - injection E as <- <-. split; [destruct s as [? ? ? ? ? [] ? ? ? ? ?]; reflexivity|]. intros x [].
  - step E m s1 F1. cbn [fst snd] in *.
    apply (SplitFacts.filter2_sep op p t s m s1 E1 E2 E3) in F1. destruct F1 as [S1 C].
    destruct m as [[a b]|].
    + injection E as <- <-. split; [exact S1|]. exists [], op, R, l'. repeat split; try assumption.
      * intros x [].
      * exact (proj1 C).
      * exact (proj2 C).
      * apply (E4 r1 r2 H).
      * apply (E4 r1 r2 H).
    + apply IH in E. destruct E as [S2 K]. split.
      * rewrite S2, S1. destruct s as [? ? ? ? ? [] ? ? ? ? ?]. reflexivity.
      * destruct q as [[[a b] c']|].
        -- destruct K as (l1 & op' & R' & l2 & -> & K1 & K2 & K3). exists ((op, R) :: l1), op', R', l2.
           split; [reflexivity|]. split; [|split; assumption]. intros x [<-|I]; [exact C|exact (K1 x I)].
        -- intros x [<-|I]; [exact C|exact (K x I)].
Qed.

Lemma compar_meaning : Forall2 (fun p q => s2l (fst p) = SplitFacts.sepat (fst q) /\ fst q <> [] /\
    forallb SplitFacts.sepchar (fst q) = true /\ meaning (snd p) (snd q)) compar comparisons.
Proof.
  unfold compar, comparisons.
  repeat (apply Forall2_cons; [split; [reflexivity|split; [discriminate|split; [reflexivity|]]]|]); [..|apply Forall2_nil];
    intros r1 r2 E; unfold compare_results; cbn [c_gt c_lt c_eq c_ne snd andb orb]; rewrite ?E, ?Z.eqb_refl;
    cbn [negb andb orb]; lia.
Qed.

Lemma same_bufferpos : forall s s', s' = set_ct (set_bufferpos s'.(ct).(bufferpos) s.(ct)) s -> same s s' /\ (clean s -> clean s').
Proof.
  intros s s' E. rewrite E. clear E. set (b := bufferpos (ct s')). clearbody b. split.
  - unfold same. repeat (split; [reflexivity|]). apply keeps_refl.
  - intros C. exact C.
Qed.

Lemma ltype_eq : forall a b, ltype_eqb a b = true -> a = b.
Proof. intros [] []; (reflexivity || discriminate). Qed.

Lemma settled_when : forall r1 r2 s u s', when (fwdundef r1 || fwdundef r2) (err "forward defined expressions are illegal here") s = (Ok u, s') ->
  settled r1 /\ settled r2.
Proof.
  intros r1 r2 s u s' E. destruct (fwdundef r1 || fwdundef r2) eqn:Q; cbn [when] in E; [exfalso; exact (error_never _ _ _ _ _ E)|].
  unfold fwdundef in Q. split; intros [A B]; rewrite A, B in Q; cbn in Q; [discriminate Q|rewrite orb_true_r in Q; discriminate Q].
Qed.

(** The decision of IF. *)
Theorem decides : forall t s v s', clean s -> t <> [] -> testtrue (Some t) s = (Ok v, s') ->
  (exists a b R r1 r2, compares t a b R /\ result_at s a r1 /\ result_at s b r2 /\ settled r1 /\ settled r2 /\ r1.(r_type) = r2.(r_type) /\
      (r1.(r_type) = TAbs -> (v = true <-> R r1.(r_value) r2.(r_value)) /\ clean s')) \/
  (plain t /\ exists r, value_at s t r /\ settled r /\ (v = true <-> r.(r_value) <> 0) /\ clean s').
Proof.
  intros t s v s' C N E. unfold testtrue in E. cbn [otext] in E. destruct t as [|c0 t0]; [contradiction|].
  set (t := c0 :: t0) in *. clearbody t. step E q s1 E1.
  apply (find_first t _ _ _ _ _ compar_meaning) in E1. destruct E1 as [S1 K].
  destruct (same_bufferpos _ _ S1) as [M1 C1]. specialize (C1 C). clear S1.
  destruct q as [[[a b] c]|].
  - left. destruct K as (l1 & op & R & l2 & EL & K1 & K2 & K3).
    step E rrc s2 E2. destruct rrc as [[r1 r2] c'].
    step E2 x1 s3 E3. step E2 x2 s4 E4. injection E2 as -> -> -> ->.
    step E u5 s5 E5. step E u6 s6 E6. step E u7 s7 E7. injection E as <- <-.
    destruct (parse_keeps _ _ _ _ E3) as [M3 _].
    destruct (negb (ltype_eqb (r_type r1) (r_type r2))) eqn:Q; cbn [when] in E6; [exfalso; exact (error_never _ _ _ _ _ E6)|].
    apply negb_false_iff in Q. apply ltype_eq in Q. exists a, b, R, r1, r2.
    split; [exact (comp t a b R l1 op l2 EL K1 K2)|].
    split; [exists s1, s3; split; assumption|]. split; [exists s3, s2; split; [exact (same_trans _ _ _ M1 M3)|exact E4]|].
    destruct (settled_when _ _ _ _ _ E5) as [Se1 Se2]. split; [exact Se1|]. split; [exact Se2|].
    split; [exact Q|]. intros Ty.
    destruct (parse_clean _ _ _ _ C1 E3) as [_ P1]. destruct (P1 (or_introl Ty)) as [Mo1 C3].
    destruct (parse_clean _ _ _ _ C3 E4) as [_ P2]. rewrite Q in Ty. destruct (P2 (or_introl Ty)) as [Mo2 C4].
    split; [apply (K3 r1 r2); congruence|].
    assert (W : forall bb m x u y, when bb (err m) x = (Ok u, y) -> y = x).
    { intros [] m x u y Ew; [exfalso; exact (error_never _ _ _ _ _ Ew)|injection Ew as _ <-; reflexivity]. }
    apply W in E5, E7. injection E6 as _ <-. subst. exact C4.
  - right. split; [exact K|]. step E rrc s2 E2. destruct rrc as [[r1 r2] c'].
    step E2 x1 s3 E3. injection E2 as -> <- <- ->.
    step E u5 s5 E5. step E u6 s6 E6. step E u7 s7 E7. injection E as <- <-.
    destruct (negb (ltype_eqb (r_type r1) (r_type res0))) eqn:Q; cbn [when] in E6; [exfalso; exact (error_never _ _ _ _ _ E6)|].
    apply negb_false_iff in Q. apply ltype_eq in Q. exists r1.
    split; [exists s1, s2; split; [assumption|split; [exact E3|exact Q]]|].
    destruct (parse_clean _ _ _ _ C1 E3) as [_ P1]. destruct (P1 (or_introl Q)) as [Mo1 C3].
    split; [exact (proj1 (settled_when _ _ _ _ _ E5))|]. split.
    + unfold compare_results. cbn [c_gt c_lt c_eq c_ne andb orb r_modifier r_value res0]. rewrite Mo1. cbn [negb orb]. lia.
    + assert (W : forall bb m x u y, when bb (err m) x = (Ok u, y) -> y = x).
      { intros [] m x u y Ew; [exfalso; exact (error_never _ _ _ _ _ Ew)|injection Ew as _ <-; reflexivity]. }
      apply W in E5, E7. injection E6 as _ <-. subst. exact C3.
Qed.

(** A check for concrete states. *)
Fixpoint tall (f : label -> bool) (t : tree) : bool :=
  match t with Leaf => true | Node l _ v r => f v && tall f l && tall f r end.
Lemma tall_find : forall f t k l, tall f t = true -> tfind k t = Some l -> f l = true.
Proof.
  intros f. induction t as [|a IHa k v b IHb]; intros k' l H E; [discriminate E|]. cbn [tall tfind] in *.
  apply andb_prop in H. destruct H as [H Hb]. apply andb_prop in H. destruct H as [Hv Ha].
  destruct (strcmp k' k); [injection E as <-; exact Hv|exact (IHa _ _ Ha E)|exact (IHb _ _ Hb E)].
Qed.
Lemma clean_check : forall s, s.(ct).(calcresult).(r_modifier) = 0 /\
  tall (fun l => match l.(l_type) with TAbs | TRel => l.(l_modifier) =? 0 | _ => true end) s.(sy) = true -> clean s.
Proof.
  intros s [C T]. split; [exact C|]. intros k l E N. apply (tall_find _ _ _ _ T) in E.
  destruct N as [N|N]; rewrite N in E; lia.
Qed.
