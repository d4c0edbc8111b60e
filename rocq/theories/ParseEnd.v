(** How the evaluation of an operand ends (C48). *)
From Coq Require Import String Ascii ZArith List Bool Lia ZifyBool ZifyNat.
From Verif Require Import Base BaseFacts State Tree Filter Output Label Operator Parse.
From Verif Require Import Macro Walk TreeFacts Frame Eval SkipFacts CondFacts EndFacts SpecEnd.
Import ListNotations.
Open Scope Z_scope.

(** ** A capture is shorter than the text *)
Definition literal (c : ascii) : bool := negb (zc c =? 63) && negb (zc c =? 95).
Fixpoint lits (p : str) : nat := match p with [] => O | c :: p' => (if literal c then 1 else 0) + lits p' end.
Fixpoint total (l : list str) : nat := match l with [] => O | c :: l' => List.length c + total l' end.
Fixpoint lits2 (l : list str) : nat := match l with [] => O | c :: l' => lits c + lits2 l' end.

Lemma skipblanks_len : forall s, (List.length (skipblanks s) <= List.length s)%nat.
Proof. induction s as [|c s IH]; cbn [skipblanks]; [lia|]. destruct (isblank c); cbn [List.length] in *; lia. Qed.

Lemma mlit_len : forall q last seg s r, mlit q last seg s = MOk r -> (List.length r + lits seg <= List.length s)%nat.
Proof.
  intros q last. induction seg as [|f seg IH]; intros s r H; cbn [mlit lits] in *.
  - destruct last; [destruct s; [destruct q|]; try discriminate H; injection H as <-; lia|]. injection H as <-. lia.
  - unfold literal. destruct (zc f =? 95) eqn:E.
    + apply IH in H. pose proof (skipblanks_len s). destruct (zc f =? 63); cbn [negb andb] in *; lia.
    + destruct s as [|c s]; [discriminate H|]. destruct (q && charmatch f c); [|discriminate H]. apply IH in H.
      cbn [List.length]. destruct (zc f =? 63); cbn [negb andb] in *; lia.
Qed.

Lemma wild_len : forall k seg last rem starts q cap l n,
  (forall q s l, fr_caps (k q s) = Some l -> (total l + n <= List.length s)%nat) -> (last = true -> n = O) ->
  fr_caps (wildloop k seg last rem starts q cap) = Some l ->
  (total l + lits seg + n <= List.length cap + List.length starts)%nat.
Proof.
  intros k seg last rem. induction starts as [|c starts IH]; intros q cap l n K N E; cbn [wildloop] in E;
    (destruct (mlit (qzero q) last seg _) as [r| |] eqn:M; cbn [fr_caps] in E; try discriminate E).
  - apply mlit_len in M. destruct last; cbn [fr_caps] in E.
    + injection E as <-. cbn [total]. rewrite rev_length. rewrite (N eq_refl). lia.
    + destruct (fr_caps (k q r)) as [l'|] eqn:R; [|discriminate E]. injection E as <-. apply K in R. cbn [total].
      rewrite rev_length. lia.
  - apply mlit_len in M. destruct last; cbn [fr_caps] in E.
    + injection E as <-. cbn [total]. rewrite rev_length. rewrite (N eq_refl). lia.
    + destruct (fr_caps (k q r)) as [l'|] eqn:R; [|discriminate E]. injection E as <-. apply K in R. cbn [total].
      rewrite rev_length. lia.
  - apply (IH _ _ _ n K N) in E. cbn [List.length] in *. lia.
Qed.

Lemma fwild_len : forall segs q s l, fr_caps (fwild segs q s) = Some l -> (total l + lits2 segs <= List.length s)%nat.
Proof.
  induction segs as [|seg segs IH]; intros q s l E; [discriminate E|].
  assert (G : fr_caps (wildloop (fwild segs) seg (lastseg segs) (zlen s) s q []) = Some l ->
              (total l + lits2 (seg :: segs) <= List.length s)%nat).
  { intros W. eapply (wild_len _ _ _ _ _ _ _ _ (lits2 segs)) in W; [cbn [List.length lits2] in *; lia|exact IH|].
    destruct segs; [reflexivity|discriminate]. }
  destruct seg as [|f seg]; [destruct segs as [|]|]; try exact (G E).
  cbn in E. injection E as <-. cbn [total lits2 lits]. lia.
Qed.

Lemma segments_lits : forall p, lits p = (lits (fst (segments p)) + lits2 (snd (segments p)))%nat.
Proof.
  induction p as [|c p IH]; [reflexivity|]. cbn [segments lits]. destruct (segments p) as [h t]. cbn [fst snd] in IH.
  unfold literal. destruct (zc c =? 63) eqn:E; cbn [fst snd lits lits2 negb andb].
  - lia.
  - unfold literal. rewrite E. cbn [negb andb]. lia.
Qed.

Lemma filter_len : forall s p l, fr_caps (filter_pure s p) = Some l -> (total l + lits p <= List.length s)%nat.
Proof.
  intros s p l E. unfold filter_pure in E. pose proof (segments_lits p) as L. destruct (segments p) as [h t].
  cbn [fst snd] in L. destruct (mlit true (lastseg t) h s) as [r| |] eqn:M; try discriminate E.
  apply mlit_len in M. destruct t as [|x t].
  - cbn in E. injection E as <-. cbn [total lits2] in *. lia.
  - apply fwild_len in E. lia.
Qed.

Lemma filterc_len : forall s p st l n st', filterc s p st = (Ok (Some (l, n)), st') ->
  (total l + lits p <= List.length s)%nat.
Proof.
  intros s p st l n st' E. unfold filterc, bind in E. cbn [gets] in E. destruct (4000 <=? _); [discriminate E|].
  destruct (fr_caps (filter_pure s p)) as [l'|] eqn:F; [|discriminate E]. unfold bind, upd_ct, modify, ret in E.
  injection E as <- <- <-. exact (filter_len _ _ _ F).
Qed.
Lemma filter1_len : forall s p st a st', filter1 s p st = (Ok (Some a), st') ->
  (List.length a + lits (s2l p) <= List.length s)%nat.
Proof.
  intros s p st a st' E. unfold filter1, bind in E. destruct (filterc s (s2l p) st) as [[[[l n]|]|b] s1] eqn:F; try discriminate E.
  destruct l as [|x l]; [discriminate E|]. unfold ret in E. injection E as -> _. apply filterc_len in F. cbn [total] in F. lia.
Qed.
Lemma filter2_len : forall s p st a b st', filter2 s p st = (Ok (Some (a, b)), st') ->
  (List.length a + List.length b + lits (s2l p) <= List.length s)%nat.
Proof.
  intros s p st a b st' E. unfold filter2, bind in E. destruct (filterc s (s2l p) st) as [[[[l n]|]|x] s1] eqn:F; try discriminate E.
  destruct l as [|x [|y l]]; try discriminate E. unfold ret in E. injection E as -> -> _. apply filterc_len in F.
  cbn [total] in F. lia.
Qed.

Lemma revfix_len : forall s acc sq dq, List.length (revfix acc s sq dq) = (List.length acc + List.length s)%nat.
Proof.
  induction s as [|c s IH]; intros acc sq dq; cbn [revfix].
  - rewrite rev_length. cbn. lia.
  - cbv zeta. repeat match goal with |- context [if ?b then _ else _] => destruct b end;
      try (destruct acc as [|p acc]); rewrite IH; cbn [List.length]; lia.
Qed.
Lemma reverse_len : forall s, List.length (reverse s) = List.length s.
Proof. intros s. unfold reverse. rewrite revfix_len, rev_length. reflexivity. Qed.

(** ** The outcomes of the pieces *)
Lemma after_any : forall (Q : bad -> state -> Prop) A s s1 (r : res A * state), after s s1 ->
  match r with (Ok _, s') => after s1 s' | (Bad b, s') => after s1 s' /\ Q b s' end ->
  match r with (Ok _, s') => after s s' | (Bad b, s') => after s s' /\ Q b s' end.
Proof.
  intros Q A s s1 [[v|b] s'] X H; [exact (after_trans _ _ _ X H)|].
  destruct H as [H H']. split; [exact (after_trans _ _ _ X H)|exact H'].
Qed.

Section Pieces.
Variable Q : bad -> state -> Prop.
Hypothesis QL : forall s, s.(ls).(llen) = 1000 -> Q (UB "linebuffer overflow") s.
Hypothesis QF : forall s, Q (UB "filter: buffer overflow") s.
Hypothesis QX : forall m s, Q (Exit m) s.
Hypothesis QE : forall m s, Q (Err m) s.
Hypothesis QM : forall s, ~ 0 <= s.(inp).(linenumber) < 10000000 -> Q (UB "error: message buffer overflow") s.
Hypothesis QS : forall s, Q (UB "star: signed overflow") s.
Hypothesis QO : forall s, Q (UB "signed overflow") s.
Hypothesis QC : forall s, Q (UB "shift count out of range") s.

Notation E := (ends Q).
Lemma e_filter1 : forall t p, E _ (filter1 t p).
Proof. intros. unfold filter1. apply ends_bind; [exact (ends_filterc _ QF t _)|intros; apply ends_ret]. Qed.
Lemma e_filter2 : forall t p, E _ (filter2 t p).
Proof. intros. unfold filter2. apply ends_bind; [exact (ends_filterc _ QF t _)|intros; apply ends_ret]. Qed.
Lemma e_err : forall A m, zlen (s2l m) <=? 64 = true -> E A (err m).
Proof. exact (ends_err _ QL QF QX QE QM QS). Qed.
Lemma e_warning : forall m, E _ (warning m).
Proof. exact (ends_warning _). Qed.
Lemma e_putres : forall top r, E _ (putres top r).
Proof.
  intros [] r s W; unfold putres, when, bind, upd_ct, modify, ret; (apply after_inp; [exact W|reflexivity]).
Qed.
Lemma e_checktype : forall r ty, E _ (checktype r ty).
Proof.
  intros r ty. unfold checktype. destruct (ltype_eqb _ _); [apply ends_ret|]. destruct (r_type r); apply e_err; reflexivity.
Qed.
Lemma e_chk64 : forall v, E _ (chk64 v).
Proof. intros v. unfold chk64. destruct (in_s64 v); [apply ends_ret|]. apply ends_stop. exact QO. Qed.
Lemma e_findlabel : forall n, E _ (findlabel n).
Proof. intros n s W. rewrite findlabel_eq. apply after_inp; [exact W|reflexivity]. Qed.

Ltac e1 :=
  lazymatch goal with
  | |- E _ (bind _ _) => apply ends_bind; [ | intros ]
  | |- E _ (ret _) => apply ends_ret
  | |- E _ (gets _) => apply ends_gets
  | |- E _ (when _ _) => unfold when
  | |- E _ (stop (UB "shift count out of range")) => apply ends_stop; exact QC
  | |- E _ (err _) => apply e_err; reflexivity
  | |- E _ (warning _) => apply e_warning
  | |- E _ (putres _ _) => apply e_putres
  | |- E _ (checktype _ _) => apply e_checktype
  | |- E _ (chk64 _) => apply e_chk64
  | |- E _ (filter1 _ _) => apply e_filter1
  | |- E _ (filter2 _ _) => apply e_filter2
  | |- E _ (match ?x with _ => _ end) => destruct x
  end.
Ltac e := repeat first [e1 | progress (cbv beta zeta)].

Lemma e_apply1 : forall t o r, E _ (apply1 t o r).
Proof. intros. unfold apply1. e. Qed.
Lemma e_apply2 : forall t o a b,
  r_type a = TRegs /\ r_type b = TRegs /\ o = OSub ->
  (forall s, Q Hang s) -> (forall s, Q (UB "opsub: shift by 32") s) -> E _ (apply2 t o a b).
Proof.
  intros t o a b (Ta & Tb & ->) H1 H2. unfold apply2. cbv zeta. rewrite Ta, Tb.
  destruct (bitindex 32 0 (r_value a)); [|apply ends_stop; exact H2].
  destruct (bitindex 32 0 (r_value b)); [|apply ends_stop; exact H2].
  destruct (_ <? _); [apply e_err; reflexivity|apply ends_stop; exact H1].
Qed.
Lemma e_apply2_plain : forall t o a b, ~ (r_type a = TRegs /\ r_type b = TRegs /\ o = OSub) -> E _ (apply2 t o a b).
Proof.
  intros t o a b N. unfold apply2.
  destruct o; try solve [e].
  cbv zeta. destruct (r_type a) eqn:Ta; try solve [e]. destruct (r_type b) eqn:Tb; try solve [e].
  contradiction N. auto.
Qed.

(** The messages of the constants. *)
Definition brief (v : Z + string) : Prop := match v with inl _ => True | inr m => zlen (s2l m) <=? 64 = true end.
Lemma e_constant : forall t r v, brief v -> E _ (constant t r v).
Proof. intros t r [z|m] B; cbn [constant]; [apply e_putres|apply e_err; exact B]. Qed.
Ltac briefly := repeat match goal with
  | IH : forall _, brief _ |- brief (_ _ _) => apply IH
  | |- brief (inl _) => exact I
  | |- brief (inr _) => reflexivity
  | |- brief (if ?b then _ else _) => destruct b
  | |- brief (match ?b with _ => _ end) => destruct b end.
Lemma brief_dec : forall s v, brief (cstdecimal v s).
Proof. induction s as [|c s IH]; intros v; cbn [cstdecimal]; cbv zeta; briefly. Qed.
Lemma brief_hex : forall s v, brief (csthexa v s).
Proof. induction s as [|c s IH]; intros v; cbn [csthexa]; cbv zeta; briefly. Qed.
Lemma brief_oct : forall s v, brief (cstoctal v s).
Proof. induction s as [|c s IH]; intros v; cbn [cstoctal]; cbv zeta; briefly. Qed.
Lemma brief_bin : forall s v, brief (cstbinary v s).
Proof. induction s as [|c s IH]; intros v; cbn [cstbinary]; cbv zeta; briefly. Qed.
Lemma brief_asc : forall d s v, brief (cstascii d v s).
Proof.
  intros d s. remember (List.length s) as n eqn:N. revert s N. induction n as [n IH] using lt_wf_ind. intros s -> v.
  assert (R : forall t v, (List.length t < List.length s)%nat -> brief (cstascii d v t)) by (intros t w L; exact (IH _ L t eq_refl w)).
  destruct s as [|c s]; [reflexivity|]. cbn [cstascii]. cbn [List.length] in R.
  destruct (Ascii.eqb c d); [destruct s; (exact I || reflexivity)|]. destruct (negb (isprint c)); [reflexivity|].
  destruct (zc c =? 92).
  - destruct s as [|x s]; [reflexivity|]. destruct (escape x); [|reflexivity]. cbv zeta.
    destruct (_ =? _); [|reflexivity]. apply R. cbn [List.length]. lia.
  - cbv zeta. destruct (_ =? _); [|reflexivity]. apply R. lia.
Qed.

Lemma e_cstlabel : forall t n, E _ (cstlabel t n).
Proof.
  intros t n s W. unfold cstlabel, bind at 1. rewrite findlabel_eq. set (k := lkey _ n).
  set (s1 := set_sy _ s). unfold bind at 1. cbn [gets].
  assert (F : tfind k (sy s1) <> None).
  { unfold s1. cbn [sy set_sy]. rewrite tfind_tupd_same. destruct (tfind k (sy s)) as [l|] eqn:F.
    - rewrite F. discriminate.
    - rewrite tfind_tins_same by exact F. discriminate. }
  destruct (tfind k (sy s1)) as [l|]; [|contradiction F; reflexivity].
  match goal with |- match ?m s1 with _ => _ end => assert (K : E _ m) end; [e; apply ends_modify; [intros ? W0; exact W0|intro; unfold kept; repeat split; reflexivity]|].
  assert (A : after s s1) by (apply after_inp; [exact W|reflexivity]). exact (after_any Q _ _ _ _ A (K s1 (proj1 A))).
Qed.

Lemma e_trygroup : forall t l, E _ (trygroup t l).
Proof. induction l as [|[f o] l IH]; cbn [trygroup]; e. exact IH. Qed.
Lemma e_trycst : forall top r t, E _ (trycst top r t cstlist).
Proof.
  intros top r t. unfold cstlist. cbn [trycst].
  repeat (apply ends_bind; [apply e_filter1|intros [[|]|]];
          try (apply e_constant; first [apply brief_hex|apply brief_bin|apply brief_oct])).
  all: destruct t as [|x t]; [apply e_err; reflexivity|].
  all: destruct (isdigit x); [apply e_constant; apply brief_dec|].
  all: destruct (_ || _); [apply e_constant; apply brief_asc|apply e_err; reflexivity].
Qed.

End Pieces.

(** Every operator takes a character. *)
Definition row_ok (r : row) : bool :=
  match r with
  | R2 l => forallb (fun p => Nat.leb 1 (lits (s2l (fst p)))) l
  | R1 f _ | RPar f => Nat.leb 1 (lits (s2l f))
  end.
Lemma rows_ok : forallb row_ok oplist = true.
Proof. reflexivity. Qed.

Lemma trygroup_len : forall t l st a b o st', forallb (fun p => Nat.leb 1 (lits (s2l (fst p)))) l = true ->
  trygroup t l st = (Ok (Some (a, b, o)), st') -> (List.length a + List.length b < List.length t)%nat.
Proof.
  intros t. induction l as [|[f p] l IH]; intros st a b o st' F X; cbn [trygroup] in X; [discriminate X|].
  cbn [forallb fst] in F. apply andb_true_iff in F. destruct F as [F1 F2].
  unfold bind in X. destruct (filter2 t f st) as [[m|x] s1] eqn:E1; [|discriminate X].
  destruct (trygroup t l s1) as [[rest|x] s2] eqn:E2; [|discriminate X]. unfold ret in X. injection X as X _.
  destruct m as [[c d]|].
  - injection X as -> -> _. apply filter2_len in E1. apply Nat.leb_le in F1. lia.
  - subst rest. exact (IH _ _ _ _ _ F2 E2).
Qed.

(** ** Registers *)
Definition noreg (s : state) : Prop := forall k l, tfind k s.(sy) = Some l -> l.(l_type) <> TRegs.
Definition regrel : relation := fun _ s s' => noreg s -> noreg s'.

Lemma noreg_tupd : forall k f s t, (forall l, (f l).(l_type) = l.(l_type)) ->
  s.(sy) = t -> noreg s -> forall s', s'.(sy) = tupd k f t -> noreg s'.
Proof.
  intros k f s t F X T s' X' k' l' H. rewrite X' in H. destruct (str_dec k' k) as [->|D].
  - rewrite tfind_tupd_same in H. rewrite <- X in H. destruct (tfind k (sy s)) as [l|] eqn:K; [|discriminate H].
    injection H as <-. rewrite F. exact (T k l K).
  - rewrite tfind_tupd_other in H by exact D. rewrite <- X in H. exact (T k' l' H).
Qed.

Lemma esteps_reg : esteps regrel.
Proof.
  assert (L : lsteps regrel).
  { constructor; [constructor|..]; unfold regrel; intros; auto.
    eapply (noreg_tupd starkey _ s (sy s)); [|reflexivity|eassumption|reflexivity]. reflexivity. }
  constructor.
  - apply lsteps_osteps. exact L.
  - intros s v T. exact T.
  - intros s k T. eapply (noreg_tupd k _ s (sy s)); [|reflexivity|eassumption|reflexivity]. reflexivity.
  - intros s k ty F T k' l' H. cbn [sy set_sy] in H. destruct (str_dec k' k) as [->|X].
    + rewrite tfind_tins_same in H by exact F. injection H as <-. cbn. destruct ty; discriminate.
    + rewrite tfind_tins_other in H by exact X. exact (T k' l' H).
  - intros s k l _ _ T. exact T.
  - intros m. apply (error_parts regrel L); intros s; intros; intros T; exact T.
Qed.
Lemma reg_use : forall A (m : M A) s r s', pres regrel A m -> m s = (r, s') -> noreg s -> noreg s'.
Proof. intros A m s r s' H X T. specialize (H s). rewrite X in H. exact (H T). Qed.

(** A result is a register only if some symbol is. *)
Lemma putres_type : forall top r s a s', putres top r s = (Ok a, s') -> a = r.
Proof. intros [] r s a s' X; unfold putres, when, bind, upd_ct, modify, ret in X; injection X as <- _; reflexivity. Qed.

Lemma apply1_type : forall top o r s a s', apply1 top o r s = (Ok a, s') -> a.(r_type) = TAbs.
Proof.
  intros top o r s a s' X. destruct o; cbn [apply1] in X;
    step X u s1 E1; apply checktype_ok in E1; destruct E1 as [Ty ->];
    try (step X v s2 E2; apply chk64_ok in E2; destruct E2 as [-> ->]);
    apply putres_type in X; subst a; cbn; congruence || reflexivity.
Qed.

Lemma apply2_type : forall top o a b s r s', a.(r_type) <> TRegs -> apply2 top o a b s = (Ok r, s') -> r.(r_type) <> TRegs.
Proof.
  intros top o a b s r s' N X. unfold apply2 in X. cbv zeta in X.
  assert (B : forall u s1, (checktype a TAbs ;;; checktype b TAbs) s = (Ok u, s1) -> s1 = s).
  { intros u s1 E1. step E1 u1 s2 E2. apply checktype_ok in E2. destruct E2 as [T ->].
    apply checktype_ok in E1. destruct E1 as [_ ->]. auto. }
  destruct o;
    try (step X u s1 E1; apply B in E1; subst s1;
         repeat match type of X with context [if ?c then _ else _] => destruct c end;
         try discriminate X;
         try (step X v s2 E2; apply chk64_ok in E2; destruct E2 as [-> ->]);
         apply putres_type in X; subst r; exact N).
  - step X u s1 E1. apply checktype_ok in E1. destruct E1 as [Ta _]. contradiction.
  - step X v s1 E1. destruct (r_type a) eqn:Ta; try (exfalso; exact (error_never _ _ _ _ _ X)).
    destruct (r_type b); try (exfalso; exact (error_never _ _ _ _ _ X)); apply putres_type in X; subst r; discriminate.
  - destruct (r_type a) eqn:Ta; try (exfalso; exact (error_never _ _ _ _ _ X)); try (exfalso; apply N; reflexivity);
      destruct (r_type b); try (exfalso; exact (error_never _ _ _ _ _ X));
      step X v s2 E2; apply putres_type in X; subst r; discriminate.
  - step X u s1 E1. step X r1 s2 E2. apply putres_type in E2. subst r1.
    destruct (32 <? r_value b); [exfalso; exact (error_never _ _ _ _ _ X)|]. injection X as <- _. discriminate.
Qed.

Lemma constant_type : forall top r v s a s', constant top r v s = (Ok a, s') -> a.(r_type) = TAbs.
Proof.
  intros top r [z|m] s a s' X; cbn [constant] in X; [|exfalso; exact (error_never _ _ _ _ _ X)].
  apply putres_type in X. subst a. reflexivity.
Qed.
Lemma trycst_type : forall top e l r s a s', trycst top r e l s = (Ok a, s') -> a.(r_type) = TAbs.
Proof.
  intros top e. induction l as [|[f conv] l IH]; intros r s a s' X; cbn [trycst] in X.
  - destruct e as [|c t]; [exfalso; exact (error_never _ _ _ _ _ X)|].
    destruct (isdigit c); [exact (constant_type _ _ _ _ _ _ X)|].
    destruct (_ || _); [exact (constant_type _ _ _ _ _ _ X)|]. exfalso; exact (error_never _ _ _ _ _ X).
  - step X m s1 E1. destruct m as [[|c t]|]; try exact (IH _ _ _ _ X). exact (constant_type _ _ _ _ _ _ X).
Qed.
Lemma cstlabel_type : forall top n s a s', noreg s -> cstlabel top n s = (Ok a, s') -> a.(r_type) <> TRegs.
Proof.
  intros top n s a s' N X. unfold cstlabel in X. step X k s1 E1.
  pose proof (reg_use _ _ _ _ _ (pe_findlabel _ esteps_reg n) E1 N) as N1.
  step X q s2 E2. injection E2 as <- <-. destruct (tfind k (sy s1)) as [l|] eqn:F; [|discriminate X].
  step X r1 s2 E2. apply putres_type in E2. subst r1.
  destruct (_ && _); [exfalso; exact (error_never _ _ _ _ _ X)|]. injection X as <- _. exact (N1 k l F).
Qed.

(** The two ways in which a range of registers goes wrong. *)
Definition badrange (b : bad) : Prop := b = Hang \/ b = UB "opsub: shift by 32".
Definition norange (b : bad) (s : state) : Prop := ~ badrange b.
Lemma nrL : forall s, s.(ls).(llen) = 1000 -> norange (UB "linebuffer overflow") s.
Proof. intros s _ [H|H]; discriminate H. Qed.
Lemma nrF : forall s, norange (UB "filter: buffer overflow") s.
Proof. intros s [H|H]; discriminate H. Qed.
Lemma nrX : forall m s, norange (Exit m) s.
Proof. intros m s [H|H]; discriminate H. Qed.
Lemma nrE : forall m s, norange (Err m) s.
Proof. intros m s [H|H]; discriminate H. Qed.
Lemma nrM : forall s, ~ 0 <= s.(inp).(linenumber) < 10000000 -> norange (UB "error: message buffer overflow") s.
Proof. intros s _ [H|H]; discriminate H. Qed.
Lemma nrS : forall s, norange (UB "star: signed overflow") s.
Proof. intros s [H|H]; discriminate H. Qed.
Lemma nrO : forall s, norange (UB "signed overflow") s.
Proof. intros s [H|H]; discriminate H. Qed.
Lemma nrC : forall s, norange (UB "shift count out of range") s.
Proof. intros s [H|H]; discriminate H. Qed.

(** What evaluation without registers gives. *)
Definition sober A (T : A -> Prop) (m : M A) : Prop := forall s, wide s -> noreg s ->
  match m s with
  | (Ok a, s') => wide s' /\ noreg s' /\ T a
  | (Bad b, s') => norange b s' end.

Lemma sober_of : forall A (m : M A), ends norange A m -> pres regrel A m -> sober A (fun _ => True) m.
Proof.
  intros A m H P s W N. specialize (H s W). specialize (P s). destruct (m s) as [[a|b] s']; cbn [fst snd how] in P.
  - split; [exact (proj1 H)|]. split; [exact (P N)|exact I].
  - exact (proj2 H).
Qed.
Lemma sober_bind : forall A B T U (m : M A) (k : A -> M B), sober A T m -> (forall a, T a -> sober B U (k a)) ->
  sober B U (bind m k).
Proof.
  intros A B T U m k H K s W N. unfold bind. specialize (H s W N). destruct (m s) as [[a|b] s']; [|exact H].
  destruct H as (W' & N' & Ta). exact (K a Ta s' W' N').
Qed.
Lemma sober_typed : forall A (T : A -> Prop) (m : M A), sober A (fun _ => True) m ->
  (forall s a s', noreg s -> m s = (Ok a, s') -> T a) -> sober A T m.
Proof.
  intros A T m H K s W N. specialize (H s W N). specialize (K s). destruct (m s) as [[a|b] s']; [|exact H].
  destruct H as (W' & N' & _). split; [exact W'|]. split; [exact N'|]. exact (K a s' N eq_refl).
Qed.
Definition unreg (r : result) : Prop := r.(r_type) <> TRegs.

Lemma sober_parse2 : forall n top r t, sober _ unreg (parse2 n top r t).
Proof.
  induction n as [|n IH]; intros top r t; cbn [parse2].
  - intros s W N [H|H]; discriminate H.
  - generalize oplist. intros rows. induction rows as [|row rows IHr]; cbn [parserows].
    + cbv zeta. destruct (checklabel (reverse t)).
      * apply sober_typed; [|exact (cstlabel_type top (reverse t))].
        apply sober_of; [exact (e_cstlabel _ nrL nrF nrX nrE nrM nrS top _)|apply (pe_cstlabel _ esteps_reg)].
      * apply sober_typed.
        -- apply sober_of; [exact (e_trycst _ nrL nrF nrX nrE nrM nrS _ _ _)|apply (pe_trycst _ esteps_reg)].
        -- intros s a s' _ X. unfold unreg. rewrite (trycst_type _ _ _ _ _ _ _ X). discriminate.
    + destruct row as [l|f o|f]; (apply (sober_bind _ _ (fun _ => True)); [apply sober_of|intros m _]).
      * exact (e_trygroup _ nrF t l).
      * apply (pe_trygroup _ esteps_reg).
      * destruct m as [[[[|x c1] [|y c2]] o]|]; try exact IHr.
        apply (sober_bind _ _ unreg); [apply IH|intros a Ta]. apply (sober_bind _ _ unreg); [apply IH|intros b Tb].
        apply sober_typed; [|intros s v s' _ X; exact (apply2_type _ _ _ _ _ _ _ Ta X)].
        apply sober_of; [|apply (pe_apply2 _ esteps_reg)].
        apply (e_apply2_plain _ nrL nrF nrX nrE nrM nrS nrO nrC). intros (X & _). exact (Ta X).
      * exact (e_filter1 _ nrF t f).
      * apply (pe_filter1 _ esteps_reg).
      * destruct m as [[|x c1]|]; try exact IHr.
        apply (sober_bind _ _ unreg); [apply IH|intros a Ta]. apply sober_typed.
        -- apply sober_of; [exact (e_apply1 _ nrL nrF nrX nrE nrM nrS nrO _ _ _)|apply (pe_apply1 _ esteps_reg)].
        -- intros s v s' _ X. unfold unreg. rewrite (apply1_type _ _ _ _ _ _ X). discriminate.
      * exact (e_filter1 _ nrF t f).
      * apply (pe_filter1 _ esteps_reg).
      * destruct m as [[|x c1]|]; try exact IHr. apply IH.
Qed.

Lemma sober_parse : forall t, sober _ unreg (parse t).
Proof.
  intros t. unfold parse. destruct t as [|c t].
  - intros s W N. pose proof (e_err _ nrL nrF nrX nrE nrM nrS result "expression expected" eq_refl s W) as H.
    destruct (err "expression expected" s) as [[a|b] s'] eqn:X; [exfalso; exact (error_never _ _ _ _ _ X)|exact (proj2 H)].
  - apply (sober_bind _ _ (fun _ => True)).
    { apply sober_of; [exact (e_filter1 _ nrF _ _)|apply (pe_filter1 _ esteps_reg)]. }
    intros m _. apply (sober_bind _ _ (fun _ => True)).
    { apply sober_of; (destruct m; cbn [when];
        [try exact (e_warning _ _); apply (pres_warning _ (e_osteps _ esteps_reg))|try apply ends_ret; apply (pres_ret _ (o_order _ (e_osteps _ esteps_reg)))]). }
    intros _ _. apply (sober_bind _ _ (fun _ => True)).
    { intros s W N. cbn [gets]. auto. }
    intros r _. apply sober_parse2.
Qed.

Lemma reg_dec : forall t : tree, {exists k l, tfind k t = Some l /\ l.(l_type) = TRegs} +
  {forall k l, tfind k t = Some l -> l.(l_type) <> TRegs}.
Proof.
  intros t. set (p := fun k => match tfind k t with Some l => ltype_eqb l.(l_type) TRegs | None => false end).
  destruct (existsb p (map fst (telems t))) eqn:X.
  - left. apply existsb_exists in X. destruct X as (k & _ & X). unfold p in X.
    destruct (tfind k t) as [l|] eqn:F; [|discriminate X]. exists k, l. split; [exact F|]. apply ltype_eq. exact X.
  - right. intros k l F T. assert (Y : existsb p (map fst (telems t)) = true).
    { apply existsb_exists. exists k. split; [apply (in_map fst _ (k, l)); apply tfind_In; exact F|].
      unfold p. rewrite F, T. reflexivity. }
    congruence.
Qed.

(** ** The outcomes of evaluation *)
Definition parse_bad (b : bad) (s' : state) : Prop :=
  match b with
  | Err _ | Exit _ | Hang => True
  | NoFuel => False
  | UB w =>
      w = "filter: buffer overflow"%string \/
      w = "signed overflow"%string \/ w = "star: signed overflow"%string \/
      w = "shift count out of range"%string \/
      w = "opsub: shift by 32"%string \/
      w = "linebuffer overflow"%string /\ s'.(ls).(llen) = 1000 \/
      w = "error: message buffer overflow"%string /\ ~ 0 <= s'.(inp).(linenumber) < 10000000
  end.

Lemma pbL : forall s, s.(ls).(llen) = 1000 -> parse_bad (UB "linebuffer overflow") s.
Proof. intros s H. cbn. tauto. Qed.
Lemma pbF : forall s, parse_bad (UB "filter: buffer overflow") s.
Proof. intros s. cbn. tauto. Qed.
Lemma pbX : forall m s, parse_bad (Exit m) s.
Proof. intros m s. exact I. Qed.
Lemma pbE : forall m s, parse_bad (Err m) s.
Proof. intros m s. exact I. Qed.
Lemma pbM : forall s, ~ 0 <= s.(inp).(linenumber) < 10000000 -> parse_bad (UB "error: message buffer overflow") s.
Proof. intros s H. cbn. tauto. Qed.
Lemma pbS : forall s, parse_bad (UB "star: signed overflow") s.
Proof. intros s. cbn. tauto. Qed.
Lemma pbO : forall s, parse_bad (UB "signed overflow") s.
Proof. intros s. cbn. tauto. Qed.
Lemma pbC : forall s, parse_bad (UB "shift count out of range") s.
Proof. intros s. cbn. tauto. Qed.
Notation E := (ends parse_bad).

Lemma full_apply2 : forall t o a b, E _ (apply2 t o a b).
Proof.
  intros t o a b.
  assert (D : {r_type a = TRegs /\ r_type b = TRegs /\ o = OSub} + {~ (r_type a = TRegs /\ r_type b = TRegs /\ o = OSub)}).
  { destruct (r_type a); try (right; intros (X & _); discriminate X).
    destruct (r_type b); try (right; intros (_ & X & _); discriminate X).
    destruct o; try (right; intros (_ & _ & X); discriminate X). left. auto. }
  destruct D as [D|D].
  - apply (e_apply2 _ pbL pbF pbX pbE pbM pbS _ _ _ _ D); intros s; cbn; tauto.
  - exact (e_apply2_plain _ pbL pbF pbX pbE pbM pbS pbO pbC _ _ _ _ D).
Qed.
Lemma e_parserows : forall rec top r t rows,
  (forall top r c, (List.length c < List.length t)%nat -> E _ (rec top r c)) -> forallb row_ok rows = true ->
  E _ (parserows rec top r t rows).
Proof.
  intros rec top r t rows R. induction rows as [|row rows IH]; intros F; cbn [parserows].
  - cbv zeta. destruct (checklabel (reverse t)); [exact (e_cstlabel _ pbL pbF pbX pbE pbM pbS _ _)|exact (e_trycst _ pbL pbF pbX pbE pbM pbS _ _ _)].
  - cbn [forallb] in F. apply andb_true_iff in F. destruct F as [F1 F2]. specialize (IH F2).
    destruct row as [l|f o|f]; cbn [row_ok] in F1.
    + apply ends_bind'; [exact (e_trygroup _ pbF _ _)|]. intros s m s' X.
      destruct m as [[[[|x c1] [|y c2]] o]|]; try exact IH. apply (trygroup_len _ _ _ _ _ _ _ F1) in X.
      cbn [List.length] in X. apply ends_bind; [apply R; cbn [List.length]; lia|intros a].
      apply ends_bind; [apply R; cbn [List.length]; lia|intros b]. apply full_apply2.
    + apply ends_bind'; [exact (e_filter1 _ pbF _ _)|]. intros s m s' X. destruct m as [[|x c]|]; try exact IH.
      apply filter1_len in X. apply Nat.leb_le in F1. apply ends_bind; [apply R; lia|intros a]. exact (e_apply1 _ pbL pbF pbX pbE pbM pbS pbO _ _ _).
    + apply ends_bind'; [exact (e_filter1 _ pbF _ _)|]. intros s m s' X. destruct m as [[|x c]|]; try exact IH.
      apply filter1_len in X. apply Nat.leb_le in F1. apply R. lia.
Qed.

Lemma e_parse2 : forall n top r t, (List.length t < n)%nat -> E _ (parse2 n top r t).
Proof.
  induction n as [|n IH]; intros top r t L; [lia|]. cbn [parse2]. apply e_parserows; [|exact rows_ok].
  intros top' r' c K. apply IH. lia.
Qed.

Lemma e_parse : forall t, E _ (parse t).
Proof.
  intros t. unfold parse. destruct t as [|c t]; [apply (e_err _ pbL pbF pbX pbE pbM pbS); reflexivity|].
  apply ends_bind; [exact (e_filter1 _ pbF _ _)|intros m]. apply ends_bind; [destruct m; cbn [when]; [exact (e_warning _ _)|apply ends_ret]|intros _].
  apply ends_bind; [apply ends_gets|intros r]. apply e_parse2. rewrite reverse_len. lia.
Qed.


Theorem evaluation : forall t s r s', wide s -> parse t s = (r, s') -> evaluation_ends s r s'.
Proof.
  intros t s r s' W X. pose proof (e_parse t s W) as H. rewrite X in H. destruct r as [a|b]; [exact I|].
  destruct H as [_ H].
  assert (R : badrange b -> has_register s).
  { intros B. assert (D : {has_register s} + {noreg s}).
    { unfold has_register, noreg. destruct (reg_dec (sy s)) as [D|D]; [left; exact D|right; exact D]. }
    destruct D as [D|D]; [exact D|]. exfalso. pose proof (sober_parse t s W D) as K. rewrite X in K. exact (K B). }
  unfold evaluation_ends. destruct b as [m|m|w| |]; try exact I.
  - cbn in H. intuition. right. right. right. right. left. split; [assumption|]. apply R. right. subst w. reflexivity.
  - apply R. left. reflexivity.
  - exact H.
Qed.

(** Evaluation keeps the registers. *)
Definition regs_stay : Frame.relation := fun _ s s' => has_register s -> has_register s'.
Lemma regs_order : Frame.lsteps regs_stay.
Proof.
  constructor; [constructor|..]; unfold regs_stay; intros; auto.
  destruct H0 as (k & l & H1 & H2). unfold has_register. cbn [sy set_sy].
  destruct (TreeFacts.str_dec k starkey) as [->|N].
  - exists starkey, (set_l_value (starvalue s + advance (ct s)) l). rewrite TreeFacts.tfind_tupd_same, H1. auto.
  - exists k, l. rewrite TreeFacts.tfind_tupd_other by exact N. auto.
Qed.
Lemma regs_steps : Eval.esteps regs_stay.
Proof.
  constructor.
  - exact (Frame.lsteps_osteps _ regs_order).
  - unfold regs_stay; intros; auto.
  - intros s k (k' & l & H1 & H2). unfold has_register. cbn [sy set_sy]. destruct (TreeFacts.str_dec k' k) as [->|N].
    + eexists k, _. rewrite TreeFacts.tfind_tupd_same, H1. split; [reflexivity|exact H2].
    + exists k', l. rewrite TreeFacts.tfind_tupd_other by exact N. auto.
  - intros s k rel F (k' & l & H1 & H2). unfold has_register. cbn [sy set_sy]. destruct (TreeFacts.str_dec k' k) as [->|N]; [congruence|].
    exists k', l. rewrite TreeFacts.tfind_tins_other by exact N. auto.
  - intros s k l _ _ T. exact T.
  - apply Frame.error_parts; [exact regs_order|unfold regs_stay; auto|unfold regs_stay; auto].
Qed.
Definition reg_bad (b : bad) (s' : state) : Prop := parse_bad b s' /\ (badrange b -> has_register s').
Lemma e_parse_reg : forall t, ends reg_bad _ (parse t).
Proof.
  intros t s W. pose proof (e_parse t s W) as H. destruct (parse t s) as [[a|b] s'] eqn:X; [exact H|].
  destruct H as [H1 H2]. split; [exact H1|]. split; [exact H2|]. intros B.
  pose proof (evaluation t s _ _ W X) as V. pose proof (Eval.pe_parse _ regs_steps t s) as R. rewrite X in R.
  apply R. destruct B as [->| ->]; [exact V|]. cbn in V. 
  repeat (destruct V as [V|V]; [try discriminate V; try exact (proj2 V); try (destruct V as [V _]; discriminate V)|]).
  destruct V as [V _]; discriminate V.
Qed.
