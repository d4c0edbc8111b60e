(** Expressions: the parser, row by row. *)
From Coq Require Import String Ascii ZArith List Bool Lia ZifyBool ZifyNat.
From Verif Require Import Base BaseFacts State Tree Filter Output Label Operator Parse.
From Verif Require Import Walk TreeFacts Frame Run FilterFacts ParseFacts NumberFacts SplitFacts SpecEmit Eval.
From Verif Require Import SpecNumbers SpecText TextFacts TokenFacts SpecExpr ExprFacts.
From Verif Require SpecSplit QuoteFacts InputFacts.
Import ListNotations.
Open Scope Z_scope.
Ltac Zify.zify_post_hook ::= Z.div_mod_to_equations.

Definition overflow : bad := UB "filter: buffer overflow".
(** The matcher's buffer is full, or the outcome is as said. *)
Definition gives {A} (m : M A) (s : state) (P : A -> state -> Prop) : Prop :=
  (exists s', m s = (Bad overflow, s')) \/ (exists a s', m s = (Ok a, s') /\ P a s').

Lemma gives_bind : forall A B (m : M A) (f : A -> M B) s P R,
  gives m s P -> (forall a s', P a s' -> gives (f a) s' R) -> gives (bind m f) s R.
Proof.
  intros A B m f s P R [(s1 & E)|(a & s1 & E & H)] K; unfold gives, bind; rewrite E.
  - left. exists s1. reflexivity.
  - destruct (K a s1 H) as [(s2 & E2)|(b & s2 & E2 & H2)]; rewrite E2; [left; eauto|right; eauto].
Qed.
Lemma gives_ret : forall A (a : A) s (P : A -> state -> Prop), P a s -> gives (ret a) s P.
Proof. intros A a s P H. right. exists a, s. split; [reflexivity|exact H]. Qed.
Lemma gives_weak : forall A (m : M A) s (P R : A -> state -> Prop), gives m s P -> (forall a s', P a s' -> R a s') -> gives m s R.
Proof. intros A m s P R [G|(a & s' & E & H)] K; [left; exact G|right; exists a, s'; split; [exact E|apply K, H]]. Qed.

Definition pure1 (t : str) (pat : string) : option str :=
  match fr_caps (filter_pure t (s2l pat)) with Some (a :: _) => Some a | _ => None end.
Definition pure2 (t : str) (pat : string) : option (str * str) :=
  match fr_caps (filter_pure t (s2l pat)) with Some (a :: b :: _) => Some (a, b) | _ => None end.
Fixpoint puregroup (t : str) (l : list (string * op2)) : option (str * str * op2) :=
  match l with
  | [] => None
  | (f, o) :: l' => match pure2 t f with Some (a, b) => Some (a, b, o) | None => puregroup t l' end
  end.

Lemma gives_filterc : forall t pat s,
  gives (filterc t pat) s (fun r s' => same s s' /\
    r = match fr_caps (filter_pure t pat) with Some l => Some (l, zlen t - fr_rem (filter_pure t pat)) | None => None end).
Proof.
  intros t pat s. unfold filterc, gives, bind. cbn [gets]. destruct (4000 <=? _).
  - left. exists s. reflexivity.
  - right. destruct (fr_caps (filter_pure t pat)).
    + eexists _, _. split; [reflexivity|]. split; [apply (same_refl s)|reflexivity].
    + eexists _, _. split; [reflexivity|]. split; [apply (same_refl s)|reflexivity].
Qed.
Lemma gives_filter1 : forall t pat s, gives (filter1 t pat) s (fun r s' => same s s' /\ r = pure1 t pat).
Proof.
  intros t pat s. eapply gives_bind; [apply gives_filterc|]. intros r s' [S ->]. apply gives_ret. split; [exact S|].
  unfold pure1. destruct (fr_caps _) as [[|? ?]|]; reflexivity.
Qed.
Lemma gives_filter2 : forall t pat s, gives (filter2 t pat) s (fun r s' => same s s' /\ r = pure2 t pat).
Proof.
  intros t pat s. eapply gives_bind; [apply gives_filterc|]. intros r s' [S ->]. apply gives_ret. split; [exact S|].
  unfold pure2. destruct (fr_caps _) as [[|? [|? ?]]|]; reflexivity.
Qed.
Lemma gives_trygroup : forall t l s, gives (trygroup t l) s (fun r s' => same s s' /\ r = puregroup t l).
Proof.
  intros t l. induction l as [|[f o] l IH]; intros s.
  - apply gives_ret. split; [apply same_refl|reflexivity].
  - cbn [trygroup puregroup]. eapply gives_bind; [apply gives_filter2|]. intros r s' [S ->].
    eapply gives_bind; [apply IH|]. intros r s'' [S' ->]. apply gives_ret. split; [eapply same_trans; eassumption|].
    destruct (pure2 t f) as [[a b]|]; reflexivity.
Qed.

(** ** Rows that do not apply *)
Definition falls (t : str) (w : row) : Prop :=
  match w with
  | R2 l => match puregroup t l with Some (_ :: _, _ :: _, _) => False | _ => True end
  | R1 f _ | RPar f => match pure1 t f with Some (_ :: _) => False | _ => True end
  end.

Lemma rows_fall : forall rec top r t rows1 rows2 s P, Forall (falls t) rows1 ->
  (forall s', same s s' -> gives (parserows rec top r t rows2) s' P) ->
  gives (parserows rec top r t (rows1 ++ rows2)) s P.
Proof.
  intros rec top r t rows1 rows2 s P F. revert s. induction F as [|w rows1 Hw F IH]; intros s K; [apply K, same_refl|].
  assert (N : forall s', same s s' -> gives (parserows rec top r t (rows1 ++ rows2)) s' P).
  { intros s' S. apply IH. intros s'' S'. apply K. eapply same_trans; eassumption. }
  destruct w as [l|f o|f]; cbn [app parserows falls] in *.
  - eapply gives_bind; [apply gives_trygroup|]. intros m s' [S ->].
    destruct (puregroup t l) as [[[[|? ?] [|? ?]] ?]|]; try contradiction; apply N, S.
  - eapply gives_bind; [apply gives_filter1|]. intros m s' [S ->].
    destruct (pure1 t f) as [[|? ?]|]; try contradiction; apply N, S.
  - eapply gives_bind; [apply gives_filter1|]. intros m s' [S ->].
    destruct (pure1 t f) as [[|? ?]|]; try contradiction; apply N, S.
Qed.

Lemma row_two : forall rec top r t l rows s P a b o, puregroup t l = Some (a, b, o) -> a <> [] -> b <> [] ->
  (forall s', same s s' -> gives (x <- rec top r b ;; y <- rec false res0 a ;; apply2 top o x y) s' P) ->
  gives (parserows rec top r t (R2 l :: rows)) s P.
Proof.
  intros rec top r t l rows s P a b o E A B K. cbn [parserows]. eapply gives_bind; [apply gives_trygroup|].
  intros m s' [S ->]. rewrite E. destruct a; [congruence|]. destruct b; [congruence|]. apply K, S.
Qed.
Lemma row_one : forall rec top r t f o rows s P a, pure1 t f = Some a -> a <> [] ->
  (forall s', same s s' -> gives (x <- rec top r a ;; apply1 top o x) s' P) ->
  gives (parserows rec top r t (R1 f o :: rows)) s P.
Proof.
  intros rec top r t f o rows s P a E A K. cbn [parserows]. eapply gives_bind; [apply gives_filter1|].
  intros m s' [S ->]. rewrite E. destruct a; [congruence|]. apply K, S.
Qed.
Lemma row_par : forall rec top r t f rows s P a, pure1 t f = Some a -> a <> [] ->
  (forall s', same s s' -> gives (rec top r a) s' P) ->
  gives (parserows rec top r t (RPar f :: rows)) s P.
Proof.
  intros rec top r t f rows s P a E A K. cbn [parserows]. eapply gives_bind; [apply gives_filter1|].
  intros m s' [S ->]. rewrite E. destruct a; [congruence|]. apply K, S.
Qed.

(** ** The dyadic operators *)
Lemma pure2_absent : forall ts pat c sep', s2l pat = sepat (c :: sep') -> forallb sepchar (c :: sep') = true ->
  calm c = true -> Forall good ts -> lacks_sep c ts -> pure2 (flat ts) pat = None.
Proof.
  intros ts pat c sep' E C K G N. unfold pure2. rewrite E.
  pose proof (filter_sep (c :: sep') (flat ts) ltac:(discriminate) C) as F.
  destruct (fr_caps _) as [l|]; [|reflexivity]. destruct F as (a & b & _ & F & _). exfalso.
  apply goes_cut in F. revert F. apply goes_never; try assumption. unfold calmsep.
  cbn [forallb] in C. apply andb_true_iff in C. rewrite K, (proj1 C). reflexivity.
Qed.
Lemma pure2_last : forall ts pat c, s2l pat = sepat [c] -> sepchar c = true -> calm c = true -> Forall good ts ->
  lacks_sep c ts -> match pure2 (flat (ts ++ [Q c])) pat with Some (_, b) => b = [] | None => True end.
Proof.
  intros ts pat c E C K G N. unfold pure2. rewrite E.
  pose proof (filter_sep [c] (flat (ts ++ [Q c])) ltac:(discriminate)) as F. cbn [forallb] in F. rewrite C in F.
  specialize (F eq_refl).
  destruct (fr_caps _) as [l|]; [|exact I]. destruct F as (a & b & -> & F & _).
  apply goes_cut in F. apply (goes_last c ts a b) in F; try assumption. unfold calmsep. rewrite K, C. reflexivity.
Qed.
Lemma pure2_first : forall c sep' pat tb w2 w1 ta, s2l pat = sepat (c :: sep') -> forallb sepchar (c :: sep') = true ->
  calm c = true -> forallb calm sep' = true -> Forall good tb -> Forall good ta -> lacks_sep c tb ->
  blanks w1 -> blanks w2 -> firm (flat tb) -> SpecSplit.tight (flat ta) ->
  pure2 (flat (tb ++ map Q w2 ++ Q c :: map Q sep' ++ map Q w1 ++ ta)) pat = Some (flat tb, flat ta).
Proof.
  intros c sep' pat tb w2 w1 ta E C K K' Gb Ga N W1 W2 F T. unfold pure2. rewrite E.
  assert (Cs : calmsep c = true).
  { unfold calmsep. cbn [forallb] in C. apply andb_true_iff in C. rewrite K, (proj1 C). reflexivity. }
  set (ts := tb ++ _).
  pose proof (filter_sep (c :: sep') (flat ts) ltac:(discriminate) C) as S.
  destruct (fr_caps _) as [l|].
  - destruct S as (a & b & -> & S & M).
    destruct (goes_first c sep' tb w2 w1 ta a b Gb Ga Cs K' N W1 W2 F T) as [G1 G2]. fold ts in G1, G2.
    destruct G2 as [-> ->]; [apply goes_cut; exact S| |reflexivity]. apply (M (flat tb) (flat ta)). apply goes_cut. exact G1.
  - exfalso. destruct (goes_first c sep' tb w2 w1 ta [] [] Gb Ga Cs K' N W1 W2 F T) as [G1 _]. fold ts in G1.
    apply goes_cut in G1. exact (S _ _ G1).
Qed.

Definition op_of (o : binop) : op2 :=
  match o with Plus => OAdd | Minus => OSub | Times => OMul | Over => ODiv | Or => OOr | And => OAnd | Xor => OXor | Shl => OLsh | Shr => ORsh end.
Definition pat_of (o : binop) : string :=
  match o with
  | Plus => "?_+_?" | Minus => "?_-_?" | Times => "?_*_?" | Over => "?_/_?" | Or => "?_|_?" | And => "?_&_?" | Xor => "?_^_?"
  | Shl => "?_<<_?" | Shr => "?_>>_?"
  end.
Definition rows_of (l : list binop) : row := R2 (map (fun o => (pat_of o, op_of o)) l).

Lemma op_absent : forall o e, ranked e -> spelt e -> rank o < level e -> (leading e = true -> o <> Minus) ->
  pure2 (flat (rtoks e)) (pat_of o) = None.
Proof.
  intros o e R S L M. pose proof (lacks_low e o R S L M) as N. pose proof (rtoks_good e R S) as G.
  apply (pure2_absent (rtoks e) (pat_of o) (first_sign o) (tl (sign o))); try exact N; try exact G; destruct o; reflexivity.
Qed.

Lemma first_row_falls : forall e, ranked e -> spelt e -> falls (flat (rtoks e)) (R2 [("?_\_?"%string, ORlist)]).
Proof.
  intros e R S. cbn [falls puregroup]. rewrite (pure2_absent (rtoks e) "?_\_?" "\"%char []); try reflexivity.
  - apply rtoks_good; assumption.
  - apply lacks_slash; assumption.
Qed.

Lemma group_falls : forall l e, ranked e -> spelt e -> Forall (fun o => rank o < level e /\ (leading e = true -> o <> Minus)) l ->
  falls (flat (rtoks e)) (rows_of l).
Proof.
  intros l e R S H. unfold rows_of, falls.
  assert (N : puregroup (flat (rtoks e)) (map (fun o => (pat_of o, op_of o)) l) = None); [|rewrite N; exact I].
  induction H as [|o l [H1 H2] H IH]; [reflexivity|]. cbn [map puregroup]. rewrite op_absent by assumption. exact IH.
Qed.

Lemma sum_falls : forall e, ranked e -> spelt e -> 4 < level e -> falls (flat (rtoks e)) (rows_of [Plus; Minus]).
Proof.
  intros e R S L. destruct (leading e) eqn:D.
  - unfold rows_of, falls. cbn [map puregroup]. rewrite (op_absent Plus); [|assumption..|cbn; lia|discriminate].
    destruct (leading_last e R S D L) as (ts & E & N). pose proof (rtoks_good e R S) as G. rewrite E in *.
    apply Forall_app in G. destruct G as [G _].
    pose proof (pure2_last ts (pat_of Minus) "-"%char eq_refl eq_refl eq_refl G N) as K.
    destruct (pure2 _ _) as [[a b]|]; [subst b; destruct a; exact I|exact I].
  - apply group_falls; [assumption..|]. repeat constructor; cbn; try lia; congruence.
Qed.

Lemma group_applies : forall l1 l2 o a w1 w2 b, ranked (Bin o a w1 w2 b) -> spelt (Bin o a w1 w2 b) ->
  Forall (fun x => rank x < rank o /\ x <> Minus) l1 ->
  puregroup (flat (rtoks (Bin o a w1 w2 b))) (map (fun o => (pat_of o, op_of o)) (l1 ++ o :: l2)) =
  Some (flat (rtoks b), flat (rtoks a), op_of o).
Proof.
  intros l1 l2 o a w1 w2 b R S H. induction H as [|x l1 [H1 H2] H IH].
  - cbn [app map puregroup]. cbn [ranked] in R. destruct R as (R1 & R2 & R3 & R4 & R5 & R6 & R7). destruct S as [S1 S2].
    pose proof (rtoks_good a R3 S1) as Ga. pose proof (rtoks_good b R4 S2) as Gb.
    destruct (rtoks_ends a R3 S1) as [_ Ta]. destruct (rtoks_ends b R4 S2) as [Fb _].
    assert (N : lacks_sep (first_sign o) (rtoks b)).
    { apply lacks_low; try assumption. intros X Y. subst o. specialize (R7 X). discriminate R7. }
    cbn [rtoks].
    assert (E : pure2 (flat (rtoks b ++ map Q (rev w2) ++ map Q (sign o) ++ map Q (rev w1) ++ rtoks a)) (pat_of o) =
      Some (flat (rtoks b), flat (rtoks a))); [|rewrite E; reflexivity].
    destruct o; cbn [sign map first_sign app] in *;
      match goal with |- pure2 (flat (_ ++ _ ++ Q ?c :: Q ?c :: _)) _ = _ => apply (pure2_first c [c])
                    | |- pure2 (flat (_ ++ _ ++ Q ?c :: _)) _ = _ => apply (pure2_first c []) end;
      try reflexivity; try assumption; apply blanks_rev; assumption.
  - cbn [app map puregroup]. rewrite op_absent; [exact IH|exact R|exact S|exact H1|intros _; exact H2].
Qed.

(** ** The monadic operators and parentheses *)
Lemma pure1_final : forall ta w c pat, s2l pat = ["?"; "_"; c]%char -> calmsep c = true -> Forall good ta -> firm (flat ta) ->
  blanks w -> pure1 (flat (ta ++ map Q w ++ [Q c])) pat = Some (flat ta).
Proof.
  intros ta w c pat E C G F W. unfold pure1. rewrite E, !flat_app, flat_Q. cbn [flat flat_map flat1 app].
  change (flat [Q c]) with [c]. rewrite filter_final_some by assumption. reflexivity.
Qed.

Lemma first_char : forall e, ranked e -> spelt e -> exists p c, flat (rtoks e) = p ++ [c] /\
  (20 < level e -> c <> "-"%char) /\ (22 < level e -> c <> "~"%char).
Proof.
  assert (Pl : forall t, t <> [] -> forallb plain t = true -> exists p c, rev t = p ++ [c] /\ c <> "-"%char /\ c <> "~"%char).
  { intros [|c t] N H; [congruence|]. cbn [rev]. exists (rev t), c. split; [reflexivity|]. cbn [forallb] in H.
    apply andb_true_iff in H. destruct H as [H _]. split; intros ->; discriminate H. }
  induction e; cbn [ranked spelt rtoks level]; intros R S.
  - rewrite flat_Q. destruct (Pl t) as (p & c & E & N1 & N2); [apply S..|]. exists p, c. auto.
  - rewrite flat_Q. destruct (Pl t) as (p & c & E & N1 & N2); [apply S..|]. exists p, c. auto.
  - destruct (block_quoted q l R) as (_ & (gs & E) & Qq). exists (q :: QuoteFacts.gflat gs), q.
    cbn [flat flat_map flat1]. rewrite app_nil_r, E. split; [reflexivity|]. split; intros _; destruct Qq; subst; discriminate.
  - exists [], "*"%char. split; [reflexivity|]. split; intros _; discriminate.
  - exists (")"%char :: rev w2 ++ flat (rtoks e) ++ rev w1), "("%char. cbn [flat flat_map flat1]. rewrite app_nil_r.
    cbn [app]. rewrite <- !app_assoc. split; [reflexivity|]. split; intros _; discriminate.
  - destruct R as (R0 & R1 & R2 & R3 & R4). destruct (fname_proper f name R0) as (_ & N1 & N2).
    destruct (Pl name N2 N1) as (p & c & E & M1 & M2). rewrite flat_cons, flat_app, !flat_Q, E.
    eexists _, c. rewrite !app_assoc. split; [reflexivity|]. auto.
  - rewrite !flat_app, flat_Q. change (flat [Q "-"%char]) with ["-"%char]. eexists _, "-"%char. rewrite app_assoc. split; [reflexivity|]. lia.
  - rewrite !flat_app, flat_Q. change (flat [Q "~"%char]) with ["~"%char]. eexists _, "~"%char. rewrite app_assoc. split; [reflexivity|].
    split; [discriminate|lia].
  - destruct R as (R1 & R2 & R3 & R4 & _). destruct S as [S1 S2]. destruct (IHe1 R3 S1) as (p & c & E & _).
    exists (flat (rtoks e2) ++ flat (map Q (rev w2)) ++ flat (map Q (sign o)) ++ flat (map Q (rev w1)) ++ p), c.
    rewrite !flat_app, E, <- !app_assoc. split; [reflexivity|]. destruct o; cbn; lia.
Qed.

Lemma minus_falls : forall e, ranked e -> spelt e -> 20 < level e -> falls (flat (rtoks e)) (R1 "?_-" OMinus).
Proof.
  intros e R S L. destruct (first_char e R S) as (p & c & E & N & _). unfold falls, pure1. change (s2l "?_-") with ["?"; "_"; "-"]%char.
  rewrite filter_final_none; [exact I|reflexivity|]. intros p' X. rewrite E in X. apply app_inj_tail in X. apply (N L), X.
Qed.
Lemma not_falls : forall e, ranked e -> spelt e -> 22 < level e -> falls (flat (rtoks e)) (R1 "?_~" ONot).
Proof.
  intros e R S L. destruct (first_char e R S) as (p & c & E & _ & N). unfold falls, pure1. change (s2l "?_~") with ["?"; "_"; "~"]%char.
  rewrite filter_final_none; [exact I|reflexivity|]. intros p' X. rewrite E in X. apply app_inj_tail in X. apply (N L), X.
Qed.

Lemma pure1_par : forall pat seg ti w2 w1 tail, s2l pat = (")" :: "_" :: "?" :: "_" :: "(" :: seg)%char -> nowild seg = true ->
  Forall good ti -> firm (flat ti) -> SpecSplit.tight (flat ti) -> blanks w1 -> blanks w2 -> forallb calm tail = true ->
  pure1 (")"%char :: w2 ++ flat ti ++ w1 ++ "("%char :: tail) pat =
  match mlit true true seg tail with MOk _ => Some (flat ti) | _ => None end.
Proof.
  intros pat seg ti w2 w1 tail E N G F T W1 W2 C. unfold pure1. rewrite E. rewrite filter_par by assumption.
  destruct (mlit true true seg tail); reflexivity.
Qed.

(** What precedes the parentheses, in reverse. *)
Lemma tail_match : forall kw w n, forallb kwchar kw = true -> blanks w -> SpecSplit.tight n ->
  match mlit true true ("_"%char :: kw) (w ++ n) with MOk _ => map SpecSplit.upper n = kw | _ => map SpecSplit.upper n <> kw end.
Proof.
  intros kw w n H W T. cbn [mlit]. change (zc "_" =? 95) with true. cbv iota. rewrite skipblanks_app by exact W.
  rewrite skipblanks_tight by exact T. clear W T w. revert n H.
  induction kw as [|f kw IH]; intros n H; cbn [mlit].
  - destruct n; [reflexivity|discriminate].
  - cbn [forallb] in H. apply andb_true_iff in H. destruct H as [H H']. rewrite (kw_under f H). destruct n as [|c n]; [discriminate|].
    cbn [andb map]. specialize (IH n H'). destruct (charmatch f c) eqn:M.
    + apply charmatch_kw in M; [|exact H]. destruct (mlit true true kw n); congruence.
    + intros X. injection X as X _. apply charmatch_kw in X; [|exact H]. congruence.
Qed.

Lemma brace_falls : forall c t, Ascii.eqb "}" c = false -> falls (c :: t) (R2 [("}_?_{_?"%string, OBit)]).
Proof.
  intros c t H. unfold falls. cbn [puregroup]. unfold pure2. change (s2l "}_?_{_?") with ("}" :: ["_"; "?"; "_"; "{"; "_"; "?"])%char.
  rewrite filter_par_none; [exact I|discriminate|discriminate|]. rewrite charmatch_sep by reflexivity. exact H.
Qed.
Lemma par_falls : forall c t, Ascii.eqb ")" c = false ->
  Forall (falls (c :: t)) [R1 ")_?_(_TIB" OBitnumb; R1 ")_?_(_RDDA" OBitaddr; R1 ")_?_(_OL" OLo; R1 ")_?_(_IH" OHi] /\
  falls (c :: t) (RPar ")_?_(").
Proof.
  intros c t H.
  assert (K : forall g, fr_caps (filter_pure (c :: t) (")"%char :: g)) = None).
  { intros g. apply filter_par_none; [discriminate|discriminate|]. rewrite charmatch_sep by reflexivity. exact H. }
  split; [repeat constructor; unfold falls, pure1|unfold falls, pure1]; unfold s2l; cbn [list_ascii_of_string]; rewrite K; exact I.
Qed.

(** ** Values *)
(** The name stands for an absolute number. *)
Definition known (s : state) (t : text) (v : Z) : Prop :=
  exists l, tfind (lkey s.(inp).(segment) t) s.(sy) = Some l /\ l.(l_type) = TAbs /\ l.(l_value) = v /\
            (l.(l_flags).(f_undef) && negb l.(l_flags).(f_forward)) = false.

Lemma known_same : forall s s' t v, same s s' -> known s t v -> known s' t v.
Proof.
  intros s s' t v (_ & I & _ & _ & _ & _ & K) (l & F & T & V & U). specialize (K _ _ F). unfold known. rewrite I.
  destruct (tfind _ (sy s')) as [l'|]; [|discriminate K]. cbn in K. exists l'. split; [reflexivity|].
  assert (X : unused l' = unused l) by congruence. destruct l as [[] ? ? ? ? ?], l' as [[] ? ? ? ? ?]. cbn in *.
  injection X as; subst. auto.
Qed.

Definition value (s : state) (v : Z) : result -> state -> Prop :=
  fun r s' => r.(r_type) = TAbs /\ r.(r_value) = v /\ same s s'.

Lemma gives_putres : forall top r s, gives (putres top r) s (fun x s' => x = r /\ same s s').
Proof.
  intros top r s. right. unfold putres, bind, when, upd_ct, modify, ret. destruct top; eexists _, _; (split; [reflexivity|]);
    (split; [reflexivity|apply (same_refl s)]).
Qed.
Lemma gives_putval : forall top r s v, r.(r_type) = TAbs -> r.(r_value) = v -> gives (putres top r) s (value s v).
Proof. intros top r s v T V. eapply gives_weak; [apply gives_putres|]. intros x s' [-> S]. split; [exact T|split; [exact V|exact S]]. Qed.
Lemma gives_check : forall r s (P : unit -> state -> Prop), r.(r_type) = TAbs -> P tt s -> gives (checktype r TAbs) s P.
Proof. intros r s P T H. unfold checktype. rewrite T. apply gives_ret. exact H. Qed.
Lemma gives_chk64 : forall v s (P : Z -> state -> Prop), fits 63 v -> P v s -> gives (chk64 v) s P.
Proof.
  intros v s P F H. unfold chk64, in_s64. unfold fits in F.
  destruct (_ && _) eqn:E; [apply gives_ret; exact H|]. lia.
Qed.

Lemma gives_apply2 : forall top o a b s x y v, a.(r_type) = TAbs -> b.(r_type) = TAbs -> a.(r_value) = x -> b.(r_value) = y ->
  result_of o x y v -> fits 63 v -> gives (apply2 top (op_of o) a b) s (value s v).
Proof.
  intros top o a b s x y v Ta Tb Va Vb R F.
  assert (Both : forall B (k : M B) P, gives k s P -> gives ((checktype a TAbs ;;; checktype b TAbs) ;;; k) s P).
  { intros B k P K. eapply gives_bind with (P := fun _ s' => s' = s).
    - eapply gives_bind with (P := fun _ s' => s' = s); [apply gives_check; auto|].
      intros _ s' ->. apply gives_check; auto.
    - intros _ s' ->. exact K. }
  destruct R; cbn [op_of apply2].
  - eapply gives_bind with (P := fun z s' => z = x + y /\ s' = s); [rewrite Va, Vb; apply gives_chk64; auto|].
    intros z s' [-> ->]. rewrite Ta, Tb. apply gives_putval; reflexivity.
  - rewrite Ta, Tb. eapply gives_bind with (P := fun z s' => z = x - y /\ s' = s); [rewrite Va, Vb; apply gives_chk64; auto|].
    intros z s' [-> ->]. apply gives_putval; reflexivity.
  - apply Both. eapply gives_bind with (P := fun z s' => z = x * y /\ s' = s); [rewrite Va, Vb; apply gives_chk64; auto|].
    intros z s' [-> ->]. apply gives_putval; [exact Ta|reflexivity].
  - apply Both. rewrite Vb. destruct (y =? 0) eqn:E; [lia|].
    eapply gives_bind with (P := fun z s' => z = Z.quot x y /\ s' = s); [rewrite Va; apply gives_chk64; auto|].
    intros z s' [-> ->]. apply gives_putval; [exact Ta|reflexivity].
  - apply Both. apply gives_putval; [exact Ta|cbn; congruence].
  - apply Both. apply gives_putval; [exact Ta|cbn; congruence].
  - apply Both. apply gives_putval; [exact Ta|cbn; congruence].
  - apply Both. rewrite Vb. destruct (_ && _) eqn:E; [|lia]. apply gives_putval; [exact Ta|].
    cbn [r_value]. rewrite Va, Z.shiftl_mul_pow2 by lia. unfold fits in F. unfold s64. 
    rewrite Z.mod_small; lia.
  - apply Both. rewrite Vb. destruct (_ && _) eqn:E; [|lia]. apply gives_putval; [exact Ta|].
    cbn [r_value]. rewrite Va, Z.shiftr_div_pow2 by lia. reflexivity.
Qed.

Lemma gives_apply1 : forall top o a s v w, a.(r_type) = TAbs -> a.(r_value) = v ->
  match o with
  | OMinus => w = - v /\ fits 63 (- v)
  | ONot => w = - 1 - v
  | OLo => w = v mod 256
  | OHi => w = (v / 256) mod 256
  | _ => False
  end -> gives (apply1 top o a) s (value s w).
Proof.
  intros top o a s v w T V H. destruct o; try contradiction; cbn [apply1];
    (eapply gives_bind with (P := fun _ s' => s' = s); [apply gives_check; auto|]; intros _ s' ->).
  - destruct H as [-> F]. eapply gives_bind with (P := fun z s' => z = - v /\ s' = s); [rewrite V; apply gives_chk64; auto|].
    intros z s' [-> ->]. apply gives_putval; [destruct a; exact T|destruct a; reflexivity].
  - apply gives_putval; [destruct a; exact T|]. subst w. rewrite V. destruct a as [a1 a2 a3 a4 a5]. cbn [set_r_value r_value]. unfold Z.lnot, Z.pred. lia.
  - apply gives_putval; [destruct a; exact T|]. subst w. rewrite V. destruct a as [a1 a2 a3 a4 a5]. cbn [set_r_value r_value].
    change 255 with (Z.ones 8). rewrite Z.land_ones by lia. reflexivity.
  - apply gives_putval; [destruct a; exact T|]. subst w. rewrite V. destruct a as [a1 a2 a3 a4 a5]. cbn [set_r_value r_value].
    change 255 with (Z.ones 8). rewrite Z.land_ones, Z.shiftr_div_pow2 by lia. reflexivity.
Qed.

Lemma gives_cstlabel : forall top t s v, known s t v -> gives (cstlabel top t) s (value s v).
Proof.
  intros top t s v (l & F & T & V & U). unfold cstlabel.
  eapply gives_bind with (P := fun k s' => k = lkey s.(inp).(segment) t /\ same s s').
  - pose proof (pe_findlabel _ evaluating_steps t s) as K. pose proof (findlabel_eq t s) as E.
    right. eexists _, _. split; [exact E|]. split; [reflexivity|]. rewrite E in K. apply K.
  - intros k s1 [-> S]. destruct (known_same _ _ _ _ S (ex_intro _ l (conj F (conj T (conj V U))))) as (l1 & F1 & T1 & V1 & U1).
    eapply gives_bind with (P := fun q s' => q = Some l1 /\ s' = s1).
    + right. eexists _, _. split; [reflexivity|]. split; [|reflexivity].
      destruct S as (_ & I & _). rewrite I in F1. exact F1.
    + intros q s2 [-> ->]. eapply gives_bind; [apply gives_putres|]. intros x s3 [-> S3]. rewrite U1. apply gives_ret.
      split; [exact T1|]. split; [exact V1|]. eapply same_trans; eassumption.
Qed.

(** Constants. *)
Fixpoint puretry (t : str) (l : list (string * (Z -> str -> Z + string))) : option (Z + string) :=
  match l with
  | (f, conv) :: l' => match pure1 t f with Some (c :: p) => Some (conv 0 (c :: p)) | _ => puretry t l' end
  | [] => match t with
          | c :: p => if isdigit c then Some (cstdecimal 0 t) else if (zc c =? 39) || (zc c =? 34) then Some (cstascii c 0 p) else None
          | [] => None
          end
  end.
Lemma some_inj : forall A (a b : A), Some a = Some b -> a = b.
Proof. congruence. Qed.
Lemma gives_trycst : forall top r t l s P z, puretry t l = Some z ->
  (forall s', same s s' -> gives (constant top r z) s' P) -> gives (trycst top r t l) s P.
Proof.
  intros top r t l. induction l as [|[f conv] l IH]; intros s P z E K; cbn [puretry trycst] in *.
  - destruct t as [|c p]; [discriminate E|]. destruct (isdigit c); [apply some_inj in E; subst z; apply K, same_refl|].
    destruct (_ || _); [apply some_inj in E; subst z; apply K, same_refl|discriminate E].
  - eapply gives_bind; [apply gives_filter1|]. intros m s' [S ->].
    assert (N : puretry t l = Some z -> gives (trycst top r t l) s' P).
    { intros E'. apply (IH s' P z E'). intros s'' S'. apply K. eapply same_trans; eassumption. }
    destruct (pure1 t f) as [[|c p]|]; [exact (N E)| |exact (N E)].
    apply some_inj in E. subst z. apply K, S.
Qed.
Lemma puretry_search : forall t l conv p, Forall (fun x => fr_caps (filter_pure t (s2l (fst x))) = None \/
                   exists p, fr_caps (filter_pure t (s2l (fst x))) = Some [p]) l ->
  search t l = Some (conv, p) -> puretry t l = Some (conv 0 p).
Proof.
  intros t l conv p H. induction H as [|[f cv] l Hx H IH]; cbn [search puretry fst] in *; intros E.
  - destruct t as [|c t]; [discriminate E|]. destruct (isdigit c); [|discriminate E]. apply some_inj in E. inversion E. subst. reflexivity.
  - unfold pure1. destruct Hx as [X|[x X]]; rewrite X in *; [apply IH, E|]. destruct x as [|c x]; [apply IH, E|].
    apply some_inj in E. inversion E. subst. reflexivity.
Qed.
Lemma gives_constant : forall top r v s, fits 63 v -> gives (constant top r (inl v)) s (value s v).
Proof.
  intros top r v s F. unfold constant. apply gives_putval; [reflexivity|]. cbn [cst r_value]. unfold fits in F. unfold s64.
  rewrite Z.mod_small; lia.
Qed.

Lemma number_conv : forall b d t, written b d t -> digits b d -> number b d < 2 ^ 32 ->
  conv_of b 0 d = inl (number b d) /\ 0 <= number b d.
Proof.
  intros b d t W D V. change (number b d) with (more b 0 d) in *. split.
  - change (2 ^ 32) with 4294967296 in V.
    destruct (written_base b d t W) as [->|[->|[->| ->]]]; unfold conv_of; cbn [Z.eqb Pos.eqb].
    + apply binary_loop; [exact D|lia|exact V].
    + rewrite octal_loop by (try exact D; lia). destruct (_ <? _) eqn:E'; [reflexivity|lia].
    + rewrite decimal_loop by (try exact D; lia). destruct (_ <? _) eqn:E'; [reflexivity|lia].
    + rewrite hexa_loop by (try exact D; lia). destruct (_ <? _) eqn:E'; [reflexivity|lia].
  - apply more_ge; [destruct (written_base b d t W) as [->|[->|[->| ->]]]; lia|lia].
Qed.

Lemma name_plain : forall t, name t -> t <> [] /\ forallb plain t = true /\ checklabel t = true.
Proof.
  intros [|c t] H; [contradiction|]. destruct H as (H1 & H2 & H3).
  assert (K1 : forallb (fun c => implb (letter c) (plain c && (isalpha c || (zc c =? 95) || (zc c =? 46)) && negb (zc c =? 42))) allchars = true)
    by (vm_compute; reflexivity).
  assert (K2 : forallb (fun c => implb (letter c || figure c) (plain c && (isalnum c || (zc c =? 95) || (zc c =? 46)))) allchars = true)
    by (vm_compute; reflexivity).
  pose proof (byte_cases _ K1 c) as L1. cbv beta in L1. rewrite H1 in L1. cbn [implb] in L1.
  apply andb_true_iff in L1. destruct L1 as [L1 L3]. apply andb_true_iff in L1. destruct L1 as [L1 L2].
  assert (T : forallb plain t = true /\ forallb (fun c => isalnum c || (zc c =? 95) || (zc c =? 46)) t = true).
  { split; apply forallb_forall; intros x X; rewrite Forall_forall in H2; specialize (H2 x X);
      pose proof (byte_cases _ K2 x) as L; cbv beta in L;
      replace (letter x || figure x) with true in L by (destruct H2 as [-> | ->]; [reflexivity|rewrite orb_true_r; reflexivity]);
      cbn [implb] in L; apply andb_true_iff in L; apply L. }
  destruct T as [T1 T2]. split; [discriminate|]. split; [cbn [forallb]; rewrite L1, T1; reflexivity|].
  unfold checklabel. destruct (_ <? _) eqn:E.
  { unfold zlen in E. change (Z.of_nat LABLEN) with 48 in E. lia. }
  destruct (zc c =? 42); [discriminate L3|]. cbn [andb]. rewrite L2. exact T2.
Qed.

Lemma worth_spelt : forall k env e v, worth k env e v -> spelt e.
Proof.
  intros k env e v H. induction H; cbn [spelt]; auto.
  - destruct (written_search b d t) as (T & _); try assumption. split; [|exact T].
    destruct H; destruct d; try discriminate; congruence.
  - destruct (name_plain t) as (N & P & _); auto.
Qed.

Lemma text_char : forall e, ranked e -> spelt e -> 22 < level e ->
  exists c t, flat (rtoks e) = c :: t /\ (Ascii.eqb "}" c = false) /\
    match e with Group _ _ _ | Fn _ _ _ _ _ _ => c = ")"%char | _ => Ascii.eqb ")" c = false end.
Proof.
  assert (Pl : forall t, t <> [] -> forallb plain t = true -> exists c t', rev t = c :: t' /\ Ascii.eqb "}" c = false /\ Ascii.eqb ")" c = false).
  { intros t N H. destruct (rev t) as [|c t'] eqn:E.
    - elim N. rewrite <- (rev_involutive t), E. reflexivity.
    - exists c, t'. split; [reflexivity|]. assert (C : In c t) by (apply in_rev; rewrite E; left; reflexivity).
      rewrite forallb_forall in H. specialize (H c C). split; apply Ascii.eqb_neq; intros <-; discriminate H. }
  intros e R S L. destruct e; cbn [ranked spelt rtoks level] in *; try lia.
  - rewrite flat_Q. destruct (Pl t) as (c & t' & E & A & B); [apply S..|]. exists c, t'. auto.
  - rewrite flat_Q. destruct (Pl t) as (c & t' & E & A & B); [apply S..|]. exists c, t'. auto.
  - destruct (block_quoted q l R) as (_ & (gs & E) & Qq). cbn [flat flat_map flat1]. rewrite app_nil_r, E. eexists _, _.
    split; [reflexivity|]. destruct Qq; subst; split; reflexivity.
  - cbn [flat flat_map flat1 app]. eexists _, _. split; [reflexivity|]. split; reflexivity.
  - rewrite flat_cons. cbn [flat1 app]. eexists _, _. split; [reflexivity|]. split; reflexivity.
  - destruct o; cbn in L; lia.
Qed.

Lemma dyadic_fall : forall e, ranked e -> spelt e -> 18 < level e ->
  Forall (falls (flat (rtoks e)))
    [R2 [("?_\_?"%string, ORlist)]; rows_of [Plus; Minus]; rows_of [Times; Over]; rows_of [Or; And; Xor]; rows_of [Shl; Shr]].
Proof.
  intros e R S L. constructor; [apply first_row_falls; assumption|]. constructor; [apply sum_falls; try assumption; lia|].
  repeat (constructor; [apply group_falls; try assumption; repeat constructor; cbn; try lia; discriminate|]). constructor.
Qed.

Lemma show_nonempty : forall e, ranked e -> spelt e -> flat (rtoks e) <> [].
Proof. intros e R S. destruct (rtoks_ends e R S) as [(p & c & -> & _) _]. destruct p; discriminate. Qed.

Lemma show_length : forall e, ranked e -> spelt e -> List.length (flat (rtoks e)) = List.length (show e).
Proof.
  induction e; cbn [ranked spelt rtoks show]; intros R S; rewrite ?flat_Q, ?rev_length; try reflexivity.
  - destruct R as (Qq & W & N). destruct (groups_exact q l W N) as (gs & E & G). cbn [flat flat_map flat1]. rewrite app_nil_r.
    unfold quoted. rewrite E. rewrite QuoteFacts.reverse_groups by assumption. cbn [List.length]. rewrite !app_length. f_equal. f_equal.
    clear. induction gs as [|g gs IH]; [reflexivity|]. cbn [rev]. rewrite QuoteFacts.gflat_app, app_length, IH.
    cbn [QuoteFacts.gflat flat_map]. rewrite app_nil_r, app_length. fold (QuoteFacts.gflat gs). lia.
  - destruct R as (R1 & R2 & R3). cbn [flat flat_map flat1]. rewrite app_nil_r. cbn [List.length]. rewrite !app_length, !rev_length, IHe by assumption. cbn [List.length]. lia.
  - destruct R as (R0 & R1 & R2 & R3 & R4). rewrite flat_cons, flat_app, !flat_Q. cbn [flat1]. rewrite !app_length. cbn [List.length].
    rewrite !app_length, !rev_length, IHe by assumption. cbn [List.length]. lia.
  - destruct R as (R1 & R2 & R3). rewrite !flat_app, flat_Q, !app_length, rev_length, IHe by assumption. cbn [List.length flat flat_map flat1 app]. rewrite app_length. lia.
  - destruct R as (R1 & R2 & R3). rewrite !flat_app, flat_Q, !app_length, rev_length, IHe by assumption. cbn [List.length flat flat_map flat1 app]. rewrite app_length. lia.
  - destruct R as (R1 & R2 & R3 & R4 & _). destruct S as [S1 S2].
    rewrite !flat_app, !flat_Q, !app_length, !rev_length, IHe1, IHe2 by assumption. lia.
Qed.

Lemma sign_length : forall o, (1 <= List.length (sign o))%nat.
Proof. intros []; cbn; lia. Qed.

(** ** The whole parser *)
Definition dyadic : list row :=
  [R2 [("?_\_?"%string, ORlist)]; rows_of [Plus; Minus]; rows_of [Times; Over]; rows_of [Or; And; Xor]; rows_of [Shl; Shr]].
Definition functions : list row :=
  [R1 ")_?_(_TIB" OBitnumb; R1 ")_?_(_RDDA" OBitaddr; R1 ")_?_(_OL" OLo; R1 ")_?_(_IH" OHi].
Definition brace : row := R2 [("}_?_{_?"%string, OBit)].
Lemma oplist_parts : oplist = dyadic ++ [R1 "?_-" OMinus; R1 "?_~" ONot] ++ functions ++ [brace; RPar ")_?_("].
Proof. reflexivity. Qed.

Ltac chain :=
  match goal with
  | |- same ?a ?a => apply same_refl
  | H : same ?a ?x |- same ?a ?b => solve [exact H | apply (same_trans a x b); [exact H|clear H; chain]]
  end.

Lemma value_same : forall s s' v r s'', same s s' -> value s' v r s'' -> value s v r s''.
Proof. intros s s' v r s'' S (T & V & S'). split; [exact T|]. split; [exact V|]. chain. Qed.

(** A word or a quoted text goes through to the end. *)
Lemma atom_rows : forall rec top r e s P, ranked e -> spelt e -> 22 < level e ->
  match e with Group _ _ _ | Fn _ _ _ _ _ _ => False | _ => True end ->
  (forall s', same s s' -> gives (if checklabel (show e) then cstlabel top (show e) else trycst top r (show e) cstlist) s' P) ->
  gives (parserows rec top r (flat (rtoks e)) oplist) s P.
Proof.
  intros rec top r e s P R S L A K. rewrite <- (app_nil_r oplist). apply rows_fall.
  - rewrite oplist_parts. apply Forall_app. split; [apply dyadic_fall; try assumption; lia|].
    apply Forall_app. split; [constructor; [apply minus_falls; try assumption; lia|constructor; [apply not_falls; try assumption; lia|constructor]]|].
    destruct (text_char e R S L) as (c & t & E & B & M). rewrite E.
    assert (M' : Ascii.eqb ")" c = false) by (destruct e; try contradiction; exact M).
    destruct (par_falls c t M') as [F1 F2]. apply Forall_app. split; [exact F1|].
    constructor; [apply brace_falls; exact B|]. constructor; [exact F2|constructor].
  - intros s' S'. cbn [parserows]. rewrite reverse_back by assumption. apply K, S'.
Qed.

Lemma functions_low : functions = [R1 ")_?_(_TIB" OBitnumb; R1 ")_?_(_RDDA" OBitaddr] ++ R1 ")_?_(_OL" OLo :: [R1 ")_?_(_IH" OHi].
Proof. reflexivity. Qed.
Lemma functions_high : functions = [R1 ")_?_(_TIB" OBitnumb; R1 ")_?_(_RDDA" OBitaddr; R1 ")_?_(_OL" OLo] ++ [R1 ")_?_(_IH" OHi].
Proof. reflexivity. Qed.
Lemma signs_split : forall l, [R1 "?_-" OMinus; R1 "?_~" ONot] ++ l = [R1 "?_-" OMinus] ++ R1 "?_~" ONot :: l.
Proof. reflexivity. Qed.

Lemma fn_rows : forall rec top r f n w w1 e w2 s P, ranked (Fn f n w w1 e w2) -> spelt e ->
  (forall s', same s s' -> gives (x <- rec top r (flat (rtoks e)) ;; apply1 top (match f with Low => OLo | High => OHi end) x) s' P) ->
  gives (parserows rec top r (flat (rtoks (Fn f n w w1 e w2))) oplist) s P.
Proof.
  intros rec top r f n w w1 e w2 s P R Sp K. pose proof R as (R0 & R1 & R2 & R3 & R4).
  destruct (fname_proper f n R0) as (_ & N1 & N2).
  set (g := Fn f n w w1 e w2) in *. assert (Sg : spelt g) by exact Sp.
  rewrite oplist_parts. apply rows_fall; [apply dyadic_fall; try assumption; cbn; lia|]. intros sa Sa.
  apply rows_fall; [constructor; [apply minus_falls; try assumption; cbn; lia|constructor; [apply not_falls; try assumption; cbn; lia|constructor]]|]. intros sb Sb.
  destruct (rtoks_ends e R4 Sp) as [Fe Te]. pose proof (rtoks_good e R4 Sp) as Ge.
  assert (E : flat (rtoks g) = ")"%char :: rev w2 ++ flat (rtoks e) ++ rev w1 ++ "("%char :: (rev w ++ rev n)).
  { unfold g. cbn [rtoks]. rewrite flat_cons, flat_app, !flat_Q. cbn [flat1 app]. rewrite <- !app_assoc. reflexivity. }
  assert (Ct : forallb calm (rev w ++ rev n) = true).
  { rewrite forallb_app, (blank_calm (rev w)) by (apply blanks_rev; assumption). apply plain_calm. exact N1. }
  assert (Par : forall pat kw, s2l pat = (")" :: "_" :: "?" :: "_" :: "(" :: "_" :: kw)%char -> nowild kw = true -> forallb kwchar kw = true ->
    pure1 (flat (rtoks g)) pat = if list_eq_dec ascii_dec (rev (fname f)) kw then Some (flat (rtoks e)) else None).
  { intros pat kw Es Ns Kw. rewrite E. erewrite pure1_par; [|exact Es|exact Ns|assumption..|apply blanks_rev; assumption|apply blanks_rev; assumption|exact Ct].
    pose proof (tail_match kw (rev w) (rev n) Kw (blanks_rev _ R1)) as T. specialize (T (proj2 (plain_firm n N2 N1))).
    rewrite map_rev, R0 in T. destruct (mlit _ _ _ _); destruct (list_eq_dec _ _ _); try contradiction; congruence. }
  destruct f; cbn [fname rev app] in Par.
  - rewrite functions_low, <- app_assoc. apply rows_fall.
    { unfold falls. repeat constructor.
      - rewrite (Par ")_?_(_TIB"%string ["T"; "I"; "B"]%char) by reflexivity. exact I.
      - rewrite (Par ")_?_(_RDDA"%string ["R"; "D"; "D"; "A"]%char) by reflexivity. exact I. }
    intros sc Sc. eapply row_one; [rewrite (Par ")_?_(_OL"%string ["O"; "L"]%char) by reflexivity; reflexivity|apply show_nonempty; assumption|].
    intros sd Sd. apply K. chain.
  - rewrite functions_high, <- app_assoc. apply rows_fall.
    { unfold falls. repeat constructor.
      - rewrite (Par ")_?_(_TIB"%string ["T"; "I"; "B"]%char) by reflexivity. exact I.
      - rewrite (Par ")_?_(_RDDA"%string ["R"; "D"; "D"; "A"]%char) by reflexivity. exact I.
      - rewrite (Par ")_?_(_OL"%string ["O"; "L"]%char) by reflexivity. exact I. }
    intros sc Sc. eapply row_one; [rewrite (Par ")_?_(_IH"%string ["I"; "H"]%char) by reflexivity; reflexivity|apply show_nonempty; assumption|].
    intros sd Sd. apply K. chain.
Qed.

Lemma sign_rows : forall rec top r e s P, ranked e -> spelt e ->
  match e with
  | Neg _ a => forall s', same s s' -> gives (x <- rec top r (flat (rtoks a)) ;; apply1 top OMinus x) s' P
  | Not _ a => forall s', same s s' -> gives (x <- rec top r (flat (rtoks a)) ;; apply1 top ONot x) s' P
  | _ => False
  end -> gives (parserows rec top r (flat (rtoks e)) oplist) s P.
Proof.
  intros rec top r e s P R S K. destruct e; try contradiction.
  - set (g := Neg w e) in *. pose proof R as (R1 & R2 & R3). rewrite oplist_parts.
    apply rows_fall; [apply dyadic_fall; try assumption; cbn; lia|]. intros sa Sa.
    destruct (rtoks_ends e R2 S) as [Fe Te]. pose proof (rtoks_good e R2 S) as Ge.
    cbn [app]. eapply row_one.
    + unfold g. cbn [rtoks]. apply pure1_final; try assumption; try reflexivity. apply blanks_rev; assumption.
    + apply show_nonempty; assumption.
    + intros sb Sb. apply K. chain.
  - set (g := Not w e) in *. pose proof R as (R1 & R2 & R3). rewrite oplist_parts.
    apply rows_fall; [apply dyadic_fall; try assumption; cbn; lia|]. intros sa Sa.
    destruct (rtoks_ends e R2 S) as [Fe Te]. pose proof (rtoks_good e R2 S) as Ge.
    rewrite signs_split.
    apply rows_fall; [constructor; [apply minus_falls; try assumption; cbn; lia|constructor]|]. intros sb Sb.
    eapply row_one.
    + unfold g. cbn [rtoks]. apply pure1_final; try assumption; try reflexivity. apply blanks_rev; assumption.
    + apply show_nonempty; assumption.
    + intros sc Sc. apply K. chain.
Qed.

Lemma bin_rows : forall rec top r o a w1 w2 b s P, ranked (Bin o a w1 w2 b) -> spelt (Bin o a w1 w2 b) ->
  (forall s', same s s' -> gives (x <- rec top r (flat (rtoks a)) ;; y <- rec false res0 (flat (rtoks b)) ;; apply2 top (op_of o) x y) s' P) ->
  gives (parserows rec top r (flat (rtoks (Bin o a w1 w2 b))) oplist) s P.
Proof.
  intros rec top r o a w1 w2 b s P R S K. set (g := Bin o a w1 w2 b) in *.
  assert (Na : flat (rtoks a) <> []) by (apply show_nonempty; [apply R|apply S]).
  assert (Nb : flat (rtoks b) <> []) by (apply show_nonempty; [apply R|apply S]).
  assert (Go : forall front l1 l2 back, oplist = front ++ rows_of (l1 ++ o :: l2) :: back ->
    Forall (falls (flat (rtoks g))) front -> Forall (fun x => rank x < rank o /\ x <> Minus) l1 ->
    gives (parserows rec top r (flat (rtoks g)) oplist) s P).
  { intros front l1 l2 back E F L. rewrite E. apply rows_fall; [exact F|]. intros sa Sa.
    eapply row_two; [apply group_applies; assumption|exact Nb|exact Na|]. intros sb Sb. apply K. chain. }
  pose proof (first_row_falls g R S) as F0.
  assert (F1 : 4 < rank o -> falls (flat (rtoks g)) (rows_of [Plus; Minus])) by (intros L; apply sum_falls; assumption).
  assert (F2 : 8 < rank o -> falls (flat (rtoks g)) (rows_of [Times; Over])).
  { intros L. apply group_falls; try assumption. repeat constructor; cbn [level g rank]; try lia; discriminate. }
  assert (F3 : 14 < rank o -> falls (flat (rtoks g)) (rows_of [Or; And; Xor])).
  { intros L. apply group_falls; try assumption. repeat constructor; cbn [level g rank]; try lia; discriminate. }
  destruct o; cbn [rank] in *.
  - apply (Go (firstn 1 dyadic) [] [Minus] (skipn 2 oplist)); [reflexivity|repeat constructor; exact F0|constructor].
  - apply (Go (firstn 1 dyadic) [Plus] [] (skipn 2 oplist)); [reflexivity|repeat constructor; exact F0|repeat constructor; discriminate].
  - apply (Go (firstn 2 dyadic) [] [Over] (skipn 3 oplist)); [reflexivity|repeat (constructor; auto); apply F1; lia|constructor].
  - apply (Go (firstn 2 dyadic) [Times] [] (skipn 3 oplist)); [reflexivity|repeat (constructor; auto); apply F1; lia|repeat constructor; discriminate].
  - apply (Go (firstn 3 dyadic) [] [And; Xor] (skipn 4 oplist)); [reflexivity| |constructor].
    constructor; [exact F0|]. constructor; [apply F1; lia|]. constructor; [apply F2; lia|constructor].
  - apply (Go (firstn 3 dyadic) [Or] [Xor] (skipn 4 oplist)); [reflexivity| |repeat constructor; discriminate].
    constructor; [exact F0|]. constructor; [apply F1; lia|]. constructor; [apply F2; lia|constructor].
  - apply (Go (firstn 3 dyadic) [Or; And] [] (skipn 4 oplist)); [reflexivity| |repeat constructor; discriminate].
    constructor; [exact F0|]. constructor; [apply F1; lia|]. constructor; [apply F2; lia|constructor].
  - apply (Go (firstn 4 dyadic) [] [Shr] (skipn 5 oplist)); [reflexivity| |constructor].
    constructor; [exact F0|]. constructor; [apply F1; lia|]. constructor; [apply F2; lia|constructor; [apply F3; lia|constructor]].
  - apply (Go (firstn 4 dyadic) [Shl] [] (skipn 5 oplist)); [reflexivity| |repeat constructor; discriminate].
    constructor; [exact F0|]. constructor; [apply F1; lia|]. constructor; [apply F2; lia|constructor; [apply F3; lia|constructor]].
Qed.

Theorem parse2_value : forall s0 e v, worth 63 (known s0) e v -> ranked e -> forall n top r s, same s0 s ->
  (List.length (show e) < n)%nat -> gives (parse2 n top r (flat (rtoks e))) s (value s v).
Proof.
  intros s0 e v W. induction W; intros R k top r s Ss Ln;
    (destruct k as [|k]; [lia|]); cbn [parse2].
  - (* number *)
    destruct (written_search b d t H H0 H1) as (T & L & S). assert (Nt : t <> []) by (destruct H; destruct d; try discriminate; congruence).
    apply atom_rows; [exact R|split; assumption|cbn; lia|exact I|]. intros s' S'. cbn [show]. rewrite L.
    eapply gives_trycst; [apply puretry_search; [apply cst_captures; assumption|exact S]|].
    intros s'' S''. destruct (number_conv b d t H H0 H2) as [C1 C2]. rewrite C1.
    eapply gives_weak; [apply gives_constant; unfold fits; lia|]. intros a s3 X.
    eapply value_same; [|exact X]. chain.
  - (* symbol *)
    destruct (name_plain t H) as (N & P & C). apply atom_rows; [exact R|split; assumption|cbn; lia|exact I|]. intros s' S'. cbn [show]. rewrite C.
    eapply gives_weak; [apply gives_cstlabel; eapply known_same; [|exact H0]; chain|].
    intros a s3 X. eapply value_same; [|exact X]; chain.
  - (* quoted constant *)
    apply atom_rows; [exact R|exact I|cbn; lia|exact I|]. intros s' S'. cbn [ranked] in R. pose proof R as (Qq & Wi & Nb).
    assert (C : checklabel (show (Chr q l)) = false).
    { cbn [show]. unfold checklabel, quoted. destruct (_ <? _); [reflexivity|]. destruct Qq; subst; reflexivity. }
    rewrite C. cbn [show].
    assert (Ny : QuoteFacts.noisy (qstep q0 q) (SpecNumbers.flat l ++ [q]) = true).
    { destruct (groups_exact q l Wi Nb) as (gs & -> & G). replace (qstep q0 q) with (QuoteFacts.within_quote q) by (destruct Qq; subst; reflexivity).
      exact (QuoteFacts.noisy_groups q O gs Qq eq_refl G). }
    assert (X : puretry (quoted q l) cstlist = Some (cstascii q 0 (SpecNumbers.flat l ++ [q]))).
    { assert (F : Forall (fun p => pure1 (quoted q l) (fst p) = None) cstlist).
      { unfold cstlist. repeat constructor; cbn [fst]; unfold pure1, quoted; rewrite QuoteFacts.guard_none; try reflexivity; try assumption. }
      revert F. generalize cstlist. induction l0 as [|[f cv] l0 IH]; intros F.
      - cbn [puretry]. unfold quoted. destruct Qq; subst; reflexivity.
      - inversion F as [|? ? F1 F2]; subst. cbn [puretry fst] in *. rewrite F1. apply IH, F2. }
    eapply gives_trycst; [exact X|]. intros s'' S''.
    rewrite (QuoteFacts.ascii_loop q l cs 0 Qq Wi H) by lia. change (QuoteFacts.amount 0 cs) with (packed cs).
    assert (P0 : 0 <= packed cs).
    { change (packed cs) with (QuoteFacts.amount 0 cs). apply QuoteFacts.amount_ge; [lia|].
      clear - H. revert cs H. induction l as [|p l IH]; intros [|c cs] H; try discriminate; [constructor|].
      cbn [map] in H. injection H as H1 H2. constructor; [apply (QuoteFacts.meaning_code _ _ H1)|apply IH; exact H2]. }
    destruct (packed cs <? 2 ^ 64) eqn:E; [|lia].
    eapply gives_weak; [apply gives_constant; unfold fits; lia|]. intros a s3 Y.
    eapply value_same; [|exact Y]. chain.
  - (* here *)
    change (flat (rtoks Here)) with ["*"%char]. rewrite <- (app_nil_r oplist). apply rows_fall.
    + unfold oplist. repeat constructor; vm_compute; exact I.
    + intros s' S'. cbn [parserows]. change (reverse ["*"%char]) with ["*"%char]. change (checklabel ["*"%char]) with true. cbv iota.
      eapply gives_weak; [apply gives_cstlabel; eapply known_same; [|exact H]; chain|].
      intros a s3 X. eapply value_same; [|exact X]; chain.
  - (* parentheses *)
    pose proof (worth_spelt _ _ _ _ W) as Sp. pose proof R as (R1 & R2 & R3). cbn [show] in Ln.
    set (g := Group w1 e w2) in *. assert (Sg : spelt g) by exact Sp.
    rewrite oplist_parts. apply rows_fall; [apply dyadic_fall; try assumption; cbn; lia|]. intros sa Sa.
    apply rows_fall; [constructor; [apply minus_falls; try assumption; cbn; lia|constructor; [apply not_falls; try assumption; cbn; lia|constructor]]|]. intros sb Sb.
    destruct (rtoks_ends e R3 Sp) as [Fe Te]. pose proof (rtoks_good e R3 Sp) as Ge.
    assert (E : flat (rtoks g) = ")"%char :: rev w2 ++ flat (rtoks e) ++ rev w1 ++ "("%char :: []).
    { unfold g. cbn [rtoks flat flat_map flat1]. rewrite app_nil_r. reflexivity. }
    assert (Par : forall pat seg, s2l pat = (")" :: "_" :: "?" :: "_" :: "(" :: seg)%char -> nowild seg = true ->
      pure1 (flat (rtoks g)) pat = match mlit true true seg [] with MOk _ => Some (flat (rtoks e)) | _ => None end).
    { intros pat seg Es Ns. rewrite E. apply pure1_par; try assumption; try (apply blanks_rev; assumption). reflexivity. }
    apply rows_fall.
    { unfold functions, falls. repeat constructor.
      - rewrite (Par ")_?_(_TIB"%string ["_"; "T"; "I"; "B"]%char) by reflexivity. exact I.
      - rewrite (Par ")_?_(_RDDA"%string ["_"; "R"; "D"; "D"; "A"]%char) by reflexivity. exact I.
      - rewrite (Par ")_?_(_OL"%string ["_"; "O"; "L"]%char) by reflexivity. exact I.
      - rewrite (Par ")_?_(_IH"%string ["_"; "I"; "H"]%char) by reflexivity. exact I. }
    intros sc Sc. change [brace; RPar ")_?_("] with ([brace] ++ [RPar ")_?_("]). apply rows_fall.
    { constructor; [|constructor]. rewrite E. apply brace_falls. reflexivity. }
    intros sd Sd. eapply row_par; [rewrite (Par ")_?_("%string []) by reflexivity; reflexivity|apply show_nonempty; assumption|].
    intros se Se.
    assert (Sx : same s se) by (chain).
    eapply gives_weak; [apply IHW; [exact R3|chain|]|].
    + cbn [List.length] in Ln. rewrite !app_length in Ln. lia.
    + intros a s3 X. eapply value_same; [|exact X]; chain.
  - (* LO *)
    pose proof (worth_spelt _ _ _ _ W) as Sp. pose proof R as (R0 & R1 & R2 & R3 & R4). cbn [show] in Ln.
    apply fn_rows; [exact R|exact Sp|]. intros s' S'.
    eapply gives_bind; [apply IHW; [exact R4|chain|rewrite !app_length in Ln; cbn [List.length] in Ln; rewrite !app_length in Ln; lia]|].
    intros x s2 (Tx & Vx & Sx). eapply gives_weak; [apply (gives_apply1 top OLo x s2 v); [exact Tx|exact Vx|reflexivity]|].
    intros y s3 Y. eapply value_same; [|exact Y]. chain.
  - (* HI *)
    pose proof (worth_spelt _ _ _ _ W) as Sp. pose proof R as (R0 & R1 & R2 & R3 & R4). cbn [show] in Ln.
    apply fn_rows; [exact R|exact Sp|]. intros s' S'.
    eapply gives_bind; [apply IHW; [exact R4|chain|rewrite !app_length in Ln; cbn [List.length] in Ln; rewrite !app_length in Ln; lia]|].
    intros x s2 (Tx & Vx & Sx). eapply gives_weak; [apply (gives_apply1 top OHi x s2 v); [exact Tx|exact Vx|reflexivity]|].
    intros y s3 Y. eapply value_same; [|exact Y]. chain.
  - (* minus *)
    pose proof (worth_spelt _ _ _ _ W) as Sp. pose proof R as (R1 & R2 & R3). cbn [show List.length] in Ln. rewrite app_length in Ln.
    apply sign_rows; [exact R|exact Sp|]. intros s' S'.
    eapply gives_bind; [apply IHW; [exact R2|chain|lia]|].
    intros x s2 (Tx & Vx & Sx). eapply gives_weak; [apply (gives_apply1 top OMinus x s2 v); [exact Tx|exact Vx|split; [reflexivity|exact H]]|].
    intros y s3 Y. eapply value_same; [|exact Y]. chain.
  - (* complement *)
    pose proof (worth_spelt _ _ _ _ W) as Sp. pose proof R as (R1 & R2 & R3). cbn [show List.length] in Ln. rewrite app_length in Ln.
    apply sign_rows; [exact R|exact Sp|]. intros s' S'.
    eapply gives_bind; [apply IHW; [exact R2|chain|lia]|].
    intros x s2 (Tx & Vx & Sx). eapply gives_weak; [apply (gives_apply1 top ONot x s2 v); [exact Tx|exact Vx|reflexivity]|].
    intros y s3 Y. eapply value_same; [|exact Y]. chain.
  - (* two operands *)
    pose proof (worth_spelt _ _ _ _ W1) as Sa. pose proof (worth_spelt _ _ _ _ W2) as Sb.
    pose proof R as (R1 & R2 & R3 & R4 & _). cbn [show] in Ln. rewrite !app_length in Ln. pose proof (sign_length o).
    assert (La : (1 <= List.length (show a))%nat).
    { rewrite <- show_length by assumption. pose proof (show_nonempty a R3 Sa). destruct (flat (rtoks a)); [congruence|cbn; lia]. }
    apply bin_rows; [exact R|split; assumption|]. intros s' S'.
    eapply gives_bind; [apply IHW1; [exact R3|chain|lia]|].
    intros p s2 (Tp & Vp & Sp). 
    eapply gives_bind; [apply IHW2; [exact R4|chain|lia]|].
    intros q s3 (Tq & Vq & Sq). eapply gives_weak; [eapply (gives_apply2 top o p q s3 x y v); assumption|].
    intros z s4 Z. eapply value_same; [|exact Z]. chain.
Qed.

Theorem parse_value : forall s e v, worth 63 (known s) e v -> ranked e -> gives (parse (show e)) s (value s v).
Proof.
  intros s e v W R. pose proof (worth_spelt _ _ _ _ W) as S. pose proof (show_nonempty e R S) as N.
  unfold parse. destruct (show e) as [|c t] eqn:E.
  { elim N. pose proof (show_length e R S) as L. rewrite E in L. destruct (flat (rtoks e)); [reflexivity|discriminate L]. }
  rewrite <- E. eapply gives_bind; [apply gives_filter1|]. intros m s1 [S1 ->].
  eapply gives_bind with (P := fun _ s' => same s s').
  { unfold when. destruct (pure1 _ _); [|apply gives_ret; exact S1].
    destruct (InputFacts.warning_total "external parenthesis ignored" s1) as (s2 & X). right. exists tt, s2. split; [exact X|].
    pose proof (pres_warning _ evaluating_osteps "external parenthesis ignored" s1) as K. rewrite X in K.
    eapply same_trans; [exact S1|apply K]. }
  intros _ s2 S2. eapply gives_bind with (P := fun r s' => s' = s2); [right; eexists _, _; split; reflexivity|].
  intros r s3 ->. rewrite (reverse_show e R S).
  eapply gives_weak; [apply (parse2_value s e v W R); [exact S2|lia]|]. intros x s4 X. eapply value_same; [|exact X]; chain.
Qed.
