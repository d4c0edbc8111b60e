(** What the evaluation of an operand and the emission of a byte can change. *)
From Coq Require Import String Ascii ZArith List Bool Lia.
From Verif Require Import Base State Tree Filter Output Label Operator Parse Scode.
From Verif Require Import Walk TreeFacts Frame Run SpecEmit.
Import ListNotations.
Open Scope Z_scope.

Record esteps (P : relation) : Prop := {
  e_osteps : osteps P;
  e_calc : forall s v, P Fine s (set_ct (set_calcresult v s.(ct)) s);
  e_used : forall s k, P Fine s (set_sy (tupd k (fun l => set_l_flags (set_f_used true l.(l_flags)) l) s.(sy)) s);
  e_new : forall s k (rel : bool), tfind k s.(sy) = None ->
    P Fine s (set_sy (tins k (mkLabel lf_fwd (if rel then TRel else TAbs) 0 PNull 0 TUser) s.(sy)) s);
  e_looked : forall s k l, tfind k s.(sy) = Some l -> usable_now l -> P Fine s (noted k l s);
  e_error : forall m, pres P unit (error m)
}.

(** The same when warnings count. *)
Record psteps (P : relation) : Prop := {
  v_order : order P;
  v_warning : forall m, pres P _ (warning m);
  v_filterc : forall t p, pres P _ (filterc t p);
  v_calc : forall s v, P Fine s (set_ct (set_calcresult v s.(ct)) s);
  v_used : forall s k, P Fine s (set_sy (tupd k (fun l => set_l_flags (set_f_used true l.(l_flags)) l) s.(sy)) s);
  v_new : forall s k (rel : bool), tfind k s.(sy) = None ->
    P Fine s (set_sy (tins k (mkLabel lf_fwd (if rel then TRel else TAbs) 0 PNull 0 TUser) s.(sy)) s);
  v_looked : forall s k l, tfind k s.(sy) = Some l -> usable_now l -> P Fine s (noted k l s);
  v_error : forall m, pres P unit (error m)
}.
Lemma esteps_psteps : forall P, esteps P -> psteps P.
Proof.
  intros P [L C U N K F]. constructor; auto; [apply L|apply (pres_warning P L)|apply (pres_filterc P L)].
Qed.
Coercion esteps_psteps : esteps >-> psteps.

Section Eval.
Variable P : relation.
Variable E : psteps P.
Let O : order P := v_order P E.

Lemma pe_error : forall A m, pres P A (error m).
Proof.
  intros A m s.
  rewrite <- (error_bind unit A m (fun _ => stop NoFuel) s). pose proof (v_error P E m s) as K.
  unfold bind. destruct (error m s) as [[u|b] s']; cbn [fst snd how stop] in *; [|exact K].
  apply (p_dead P O). exact K.
Qed.

Lemma pe_findlabel : forall n, pres P _ (findlabel n).
Proof.
  intros n s. rewrite findlabel_eq. cbn [fst snd how]. set (k := lkey _ n).
  destruct (tfind k (sy s)) eqn:F; [apply (v_used P E)|].
  eapply (p_trans P O); [apply (v_new P E s k (a_relatif (fl s)) F)|].
  match goal with |- P Fine ?a ?b => change b with (set_sy (tupd k (fun l => set_l_flags (set_f_used true l.(l_flags)) l) a.(sy)) a) end.
  apply (v_used P E).
Qed.

Ltac q1 :=
  lazymatch goal with
  | |- pres P _ (bind _ _) => apply (pres_bind P O); [ | intros ]
  | |- pres P _ (ret _) => apply (pres_ret P O)
  | |- pres P _ (gets _) => apply (pres_gets P O)
  | |- pres P _ (when _ _) => unfold when
  | |- pres P _ (stop (UB _)) => apply (pres_ub P O)
  | |- pres P _ (stop Hang) => apply (pres_hang P O)
  | |- pres P _ (stop NoFuel) => apply (pres_fuel P O)
  | |- pres P _ (upd_ct (set_calcresult _)) => intros ?s; apply (v_calc P E)
  | |- pres P _ (error _) => apply pe_error
  | |- pres P _ (err _) => unfold err; apply pe_error
  | |- pres P _ (warning _) => apply (v_warning P E)
  | |- pres P _ (filterc _ _) => apply (v_filterc P E)
  | |- pres P _ (findlabel _) => apply pe_findlabel
  | |- pres P _ (match ?x with _ => _ end) => destruct x
  | |- forall _, _ => intros
  end.
Ltac q := repeat first [q1 | solve [auto with presdb] | progress (cbv beta zeta)].

Lemma pe_filter1 : forall s p, pres P _ (filter1 s p).
Proof. unfold filter1. q. Qed.
Lemma pe_filter2 : forall s p, pres P _ (filter2 s p).
Proof. unfold filter2. q. Qed.
Lemma pe_filter0 : forall s p, pres P _ (filter0 s p).
Proof. unfold filter0. q. Qed.
Lemma pe_putres : forall t r, pres P _ (putres t r).
Proof. unfold putres. q. Qed.
Lemma pe_checktype : forall r t, pres P _ (checktype r t).
Proof. unfold checktype. q. Qed.
Hint Resolve pe_filter0 pe_filter1 pe_filter2 pe_putres pe_checktype : presdb.
Lemma pe_constant : forall t r v, pres P _ (constant t r v).
Proof. unfold constant. q. Qed.
Lemma pe_cstlabel : forall t n, pres P _ (cstlabel t n).
Proof. apply (cstlabel_pres P O pe_findlabel (v_calc P E) (fun A => pe_error A) (v_looked P E)). Qed.
Lemma pe_chk64 : forall v, pres P _ (chk64 v).
Proof. unfold chk64. q. Qed.
Hint Resolve pe_constant pe_cstlabel pe_chk64 : presdb.
Lemma pe_apply1 : forall t o r, pres P _ (apply1 t o r).
Proof. unfold apply1. q. Qed.
Lemma pe_apply2 : forall t o a b, pres P _ (apply2 t o a b).
Proof. unfold apply2. q. Qed.
Hint Resolve pe_apply1 pe_apply2 : presdb.
Lemma pe_trygroup : forall e l, pres P _ (trygroup e l).
Proof. induction l as [|[f o] l IH]; cbn [trygroup]; q. Qed.
Lemma pe_trycst : forall t r e l, pres P _ (trycst t r e l).
Proof. induction l as [|[f o] l IH]; cbn [trycst]; q. Qed.
Hint Resolve pe_trygroup pe_trycst : presdb.
Lemma pe_parserows : forall rec t r e rows, (forall t r e, pres P _ (rec t r e)) ->
  pres P _ (parserows rec t r e rows).
Proof. intros rec t r e rows H. induction rows as [|[]]; cbn [parserows]; q. Qed.
Lemma pe_parse2 : forall n t r e, pres P _ (parse2 n t r e).
Proof. induction n; intros; cbn [parse2]; q. apply pe_parserows; assumption. Qed.
Hint Resolve pe_parse2 : presdb.
Lemma pe_parse : forall e, pres P _ (parse e).
Proof. unfold parse. q. Qed.
End Eval.

Definition evaluating : relation := fun d s s' =>
  match d with Fine => same s s' /\ still s s' | _ => True end.
Definition emitting : relation := fun d s s' =>
  match d with Fine => same s s' | _ => True end.

Lemma keeps_refl : forall t, keeps t t.
Proof. intros t k l E. rewrite E. reflexivity. Qed.
Lemma keeps_trans : forall a b c, keeps a b -> keeps b c -> keeps a c.
Proof.
  intros a b c H1 H2 k l E. specialize (H1 k l E). destruct (tfind k b) as [l'|] eqn:Eb; [|discriminate].
  rewrite (H2 k l' Eb). exact H1.
Qed.
Lemma same_refl : forall s, same s s.
Proof. intros s. unfold same. repeat (split; [reflexivity|]). apply keeps_refl. Qed.
Lemma same_trans : forall a b c, same a b -> same b c -> same a c.
Proof.
  unfold same. intros a b c (A1 & A2 & A3 & A4 & A5 & A6 & A7) (B1 & B2 & B3 & B4 & B5 & B6 & B7).
  repeat (split; [congruence|]). eapply keeps_trans; eassumption.
Qed.
Lemma still_refl : forall s, still s s.
Proof. intros s. repeat split. Qed.
Lemma still_trans : forall a b c, still a b -> still b c -> still a c.
Proof. unfold still. intros a b c (A1 & A2 & A3) (B1 & B2 & B3). repeat split; congruence. Qed.

Lemma evaluating_osteps : osteps evaluating.
Proof.
  constructor; [constructor|..]; unfold evaluating; intros; auto using same_refl, still_refl.
  - destruct d; auto. destruct H, H0. eauto using same_trans, still_trans.
  - split; [apply (same_refl s)|apply (still_refl s)].
  - split; [apply (same_refl s)|apply (still_refl s)].
  - split; [apply (same_refl s)|apply (still_refl s)].
Qed.
Lemma emitting_osteps : osteps emitting.
Proof.
  constructor; [constructor|..]; unfold emitting; intros; auto using same_refl.
  - destruct d; auto. eauto using same_trans.
  - apply (same_refl s).
  - apply (same_refl s).
  - apply (same_refl s).
Qed.

Lemma error_never : forall A m s a s', @error A m s <> (Ok a, s').
Proof.
  intros A m s a s'. unfold error, bind at 1. cbn [gets]. cbv zeta.
  match goal with |- bind ?x _ _ <> _ => generalize x end. intros x.
  unfold bind. destruct (x s) as [[?|?] s1]; [|discriminate].
  destruct (outputline s1) as [[?|?] s2]; [|discriminate].
  destruct (when _ _ s2) as [[?|?] s3]; [|discriminate].
  unfold upd_fl, modify, stop. discriminate.
Qed.

Lemma keeps_used : forall k t, keeps t (tupd k (fun l => set_l_flags (set_f_used true l.(l_flags)) l) t).
Proof.
  intros k t k' l E. destruct (str_dec k' k) as [->|N].
  - rewrite tfind_tupd_same, E. reflexivity.
  - rewrite tfind_tupd_other, E by exact N. reflexivity.
Qed.
Lemma keeps_new : forall k v t, tfind k t = None -> keeps t (tins k v t).
Proof.
  intros k v t F k' l E. destruct (str_dec k' k) as [->|N]; [congruence|].
  rewrite tfind_tins_other, E by exact N. reflexivity.
Qed.

Lemma evaluating_steps : esteps evaluating.
Proof.
  constructor; [apply evaluating_osteps|..].
  - intros s v. split; [apply (same_refl s)|apply (still_refl s)].
  - intros s k. split; [|apply (still_refl s)]. unfold same. repeat (split; [reflexivity|]). apply keeps_used.
  - intros s k ty F. split; [|apply (still_refl s)]. unfold same. repeat (split; [reflexivity|]). apply keeps_new. exact F.
  - intros s k l _ _. split; [apply (same_refl s)|apply (still_refl s)].
  - intros m s. unfold evaluating. destruct (error m s) as [[u|b] s'] eqn:X; [elim (error_never _ _ _ _ _ X)|].
    destruct b; exact I.
Qed.

Theorem parse_keeps : forall t s r s', parse t s = (Ok r, s') -> same s s' /\ still s s'.
Proof.
  intros t s r s' E. pose proof (pe_parse _ evaluating_steps t s) as K. rewrite E in K. exact K.
Qed.

Lemma emitting_error : forall A m, pres emitting A (error m).
Proof.
  intros A m s. unfold emitting. destruct (error m s) as [[u|b] s'] eqn:X; [elim (error_never _ _ _ _ _ X)|].
  destruct b; exact I.
Qed.

Theorem insert8_keeps : forall x s u s', insert8 x s = (Ok u, s') -> same s s'.
Proof.
  intros x s u s' E.
  pose proof (insert8_free emitting (o_order _ emitting_osteps)) as K.
  assert (K' : pres emitting _ (insert8 x)).
  { apply K; try apply emitting_osteps; try (intros; apply (same_refl s0)). apply emitting_error. }
  specialize (K' s). rewrite E in K'. exact K'.
Qed.
