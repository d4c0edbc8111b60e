(** Texts as sequences of characters outside quotes and parentheses, and of blocks. *)
From Coq Require Import String Ascii ZArith List Bool Lia ZifyBool ZifyNat.
From Verif Require Import Base BaseFacts State Filter FilterFacts.
From Verif Require Import SplitFacts.
From Verif Require SpecSplit QuoteFacts.
Import ListNotations.
Open Scope Z_scope.

Inductive tok := Q (c : ascii) | B (t : str).
Definition flat1 (k : tok) : str := match k with Q c => [c] | B t => t end.
Definition flat (ts : list tok) : str := flat_map flat1 ts.

Lemma flat_app : forall a b, flat (a ++ b) = flat a ++ flat b.
Proof. intros a b. apply flat_map_app. Qed.
Lemma flat_cons : forall k a, flat (k :: a) = flat1 k ++ flat a.
Proof. reflexivity. Qed.
Lemma flat_Q : forall w, flat (map Q w) = w.
Proof. induction w as [|c w IH]; [reflexivity|]. cbn [map]. rewrite flat_cons, IH. reflexivity. Qed.

(** A character that leaves quotes and parentheses alone. *)
Definition calm (c : ascii) : bool :=
  negb (zc c =? 39) && negb (zc c =? 34) && negb (zc c =? 40) && negb (zc c =? 41).

Definition run (q : quote) (t : str) : quote := fold_left qstep t q.

(** A block is outside quotes and parentheses only at its ends. *)
Definition block (t : str) : Prop :=
  (exists c r, t = c :: r /\ calm c = false) /\ run q0 t = q0 /\
  forall p r, t = p ++ r -> q_depth (run q0 p) <= 0 /\ (p <> [] -> r <> [] -> qzero (run q0 p) = false).
Definition good (k : tok) : Prop := match k with Q c => calm c = true | B t => block t end.

Lemma calm_step : forall q c, calm c = true -> q_sq q = false -> q_dq q = false -> q_esc q = false -> qstep q c = q.
Proof.
  intros [sq dq esc d] c H A1 A2 A3. cbn in A1, A2, A3. subst. unfold qstep, calm in *. cbn [q_esc q_sq q_dq q_depth orb].
  destruct (zc c =? 92); [reflexivity|]. destruct (zc c =? 39); [discriminate H|]. destruct (zc c =? 34); [discriminate H|].
  destruct (zc c =? 40); [discriminate H|]. destruct (zc c =? 41); [discriminate H|]. reflexivity.
Qed.

Lemma run_app : forall q a b, run q (a ++ b) = run (run q a) b.
Proof. intros. apply fold_left_app. Qed.

Lemma run_calm : forall t q, forallb calm t = true -> q_sq q = false -> q_dq q = false -> q_esc q = false -> run q t = q.
Proof.
  induction t as [|c t IH]; intros q H A1 A2 A3; [reflexivity|]. cbn [forallb] in H. apply andb_true_iff in H.
  destruct H as [H H']. cbn [run fold_left]. rewrite calm_step by assumption. apply IH; assumption.
Qed.

Lemma run_good : forall k, good k -> run q0 (flat1 k) = q0.
Proof.
  intros [c|t] H; cbn [flat1 good] in *; [|apply H]. apply (run_calm [c]); [|reflexivity..]. cbn. rewrite H. reflexivity.
Qed.
Lemma run_flat : forall ts, Forall good ts -> run q0 (flat ts) = q0.
Proof.
  intros ts H. induction H as [|k ts Hk H IH]; [reflexivity|]. rewrite flat_cons, run_app, run_good by exact Hk. exact IH.
Qed.

(** Splitting a text of tokens. *)
Lemma flat_split : forall ts p r, Forall good ts -> flat ts = p ++ r ->
  q_depth (run q0 p) <= 0 /\
  (qzero (run q0 p) = true -> exists ts1 ts2, ts = ts1 ++ ts2 /\ p = flat ts1 /\ r = flat ts2).
Proof.
  intros ts p r H. revert p r. induction H as [|k ts Hk H IH]; intros p r E.
  - destruct p; [|discriminate E]. destruct r; [|discriminate E]. split; [cbn; lia|]. intros _. exists [], []. auto.
  - rewrite flat_cons in E. destruct p as [|c p].
    { split; [cbn; lia|]. intros _. exists [], (k :: ts). repeat split. rewrite flat_cons. cbn in E. symmetry; exact E. }
    apply app_eq_app in E. destruct E as (l & [[E1 E2]|[E1 E2]]).
    + (* inside the first token *)
      destruct l as [|x l].
      { rewrite app_nil_r in E1. cbn [app] in E2. destruct (IH [] (flat ts) eq_refl) as [I1 I2].
        split; [rewrite <- E1, run_good by exact Hk; cbn; lia|]. intros _. exists [k], ts. repeat split.
        - cbn. rewrite app_nil_r. symmetry. exact E1.
        - exact E2. }
      destruct k as [d|t]; cbn [flat1] in E1; [destruct p; discriminate E1|]. cbn [good] in Hk.
      destruct Hk as (_ & _ & Hk). destruct (Hk _ _ E1) as [K1 K2]. split; [exact K1|].
      intros Z. rewrite K2 in Z; discriminate.
    + rewrite E1, run_app, run_good by exact Hk. destruct (IH l r) as [I1 I2]; [exact E2|].
      split; [exact I1|]. intros Z. destruct (I2 Z) as (ts1 & ts2 & -> & -> & ->). exists (k :: ts1), ts2. repeat split.
Qed.

Lemma flat_calm : forall c ts r, Forall good ts -> flat ts = c :: r -> calm c = true ->
  exists ts', ts = Q c :: ts' /\ flat ts' = r.
Proof.
  intros c [|[d|t] ts] r H E K; [discriminate E| |].
  - cbn in E. injection E as -> E. exists ts. split; [reflexivity|exact E].
  - inversion H as [|? ? H1 H2]; subst. destruct H1 as ((d & r' & -> & N) & _). cbn in E. injection E as -> _. congruence.
Qed.

Lemma flat_calms : forall w ts r, Forall good ts -> flat ts = w ++ r -> forallb calm w = true ->
  exists ts', ts = map Q w ++ ts' /\ flat ts' = r.
Proof.
  induction w as [|c w IH]; intros ts r H E K; [exists ts; split; [reflexivity|exact E]|].
  cbn [forallb] in K. apply andb_true_iff in K. destruct K as [K1 K2].
  destruct (flat_calm c ts (w ++ r) H E K1) as (ts' & -> & E'). inversion H; subst.
  destruct (IH ts' r) as (ts'' & -> & E''); try assumption. exists ts''. split; [reflexivity|exact E''].
Qed.

Lemma blank_calm : forall w, Forall SpecSplit.blank w -> forallb calm w = true.
Proof.
  intros w H. induction H as [|c w Hc _ IH]; [reflexivity|]. cbn [forallb]. rewrite IH.
  destruct Hc as [-> | ->]; reflexivity.
Qed.

Definition calmsep (c : ascii) : bool := sepchar c && calm c.

(** Where a separator can be found. *)
Lemma goes_find : forall c sep' ts a b, Forall good ts -> calmsep c = true ->
  goes (c :: sep') (flat ts) q0 a b ->
  exists ts1 ts2 w1 w2, ts = ts1 ++ Q c :: ts2 /\ flat ts1 = a ++ w1 /\ Forall SpecSplit.blank w1 /\
    flat ts2 = sep' ++ w2 ++ b /\ Forall SpecSplit.blank w2 /\ SpecSplit.tight b.
Proof.
  intros c sep' ts a b H C (w1 & w2 & E & W1 & W2 & T & Z). unfold calmsep in C. apply andb_true_iff in C. destruct C as [C1 C2].
  destruct (flat_split ts a _ H E) as [_ K]. destruct (K Z) as (tsa & tsb & -> & -> & E2).
  apply Forall_app in H. destruct H as [Ha Hb]. symmetry in E2.
  destruct (flat_calms w1 tsb _ Hb E2 (blank_calm w1 W1)) as (tsc & -> & E3).
  apply Forall_app in Hb. destruct Hb as [_ Hc]. cbn [app] in E3.
  destruct (flat_calm c tsc _ Hc E3 C2) as (tsd & -> & E4).
  exists (tsa ++ map Q w1), tsd, w1, w2. rewrite <- app_assoc. rewrite flat_app, flat_Q. repeat split; assumption.
Qed.

Definition lacks_sep (c : ascii) (ts : list tok) : Prop := ~ In (Q c) ts.

Lemma goes_never : forall c sep' ts a b, Forall good ts -> calmsep c = true -> lacks_sep c ts ->
  ~ goes (c :: sep') (flat ts) q0 a b.
Proof.
  intros c sep' ts a b H C N G. destruct (goes_find _ _ _ _ _ H C G) as (ts1 & ts2 & w1 & w2 & -> & _).
  apply N. apply in_or_app. right. left. reflexivity.
Qed.

Lemma goes_last : forall c ts a b, Forall good ts -> calmsep c = true -> lacks_sep c ts ->
  goes [c] (flat (ts ++ [Q c])) q0 a b -> b = [].
Proof.
  intros c ts a b H C N G. apply goes_find in G; [|apply Forall_app; split; [exact H|constructor; [|constructor]]|exact C].
  2:{ unfold calmsep in C. apply andb_true_iff in C. apply C. }
  destruct G as (ts1 & ts2 & w1 & w2 & E & _ & _ & E2 & _). 
  assert (ts2 = []) as ->.
  { destruct ts2 as [|k ts2]; [reflexivity|]. exfalso. apply N.
    assert (D : exists l x, k :: ts2 = l ++ [x]).
    { destruct (@exists_last _ (k :: ts2)) as (l & x & D); [discriminate|]. exists l, x. exact D. }
    destruct D as (l & x & D). replace (ts1 ++ (Q c :: k :: ts2)) with ((ts1 ++ Q c :: l) ++ [x]) in E.
    - apply app_inj_tail in E. destruct E as [-> _]. apply in_or_app. right. left. reflexivity.
    - rewrite D, <- app_assoc. reflexivity. }
  cbn in E2. symmetry in E2. apply app_eq_nil in E2. apply E2.
Qed.

Lemma tight_unique : forall w b w' b', Forall SpecSplit.blank w -> Forall SpecSplit.blank w' ->
  SpecSplit.tight b -> SpecSplit.tight b' -> w ++ b = w' ++ b' -> b = b'.
Proof.
  intros w b w' b' W W' T T' E. rewrite <- (skipblanks_tight b T), <- (skipblanks_tight b' T').
  rewrite <- (skipblanks_app w b W), <- (skipblanks_app w' b' W'). rewrite E. reflexivity.
Qed.

(** Ends with something else than a blank. *)
Definition firm (t : str) : Prop := exists p c, t = p ++ [c] /\ ~ SpecSplit.blank c.

Lemma split_length : forall (A : Type) (a b c d : list A), a ++ b = c ++ d -> (List.length a <= List.length c)%nat ->
  exists m, c = a ++ m /\ b = m ++ d.
Proof.
  induction a as [|x a IH]; intros b c d E L; [exists c; auto|]. destruct c as [|y c]; [cbn in L; lia|].
  cbn in E. injection E as -> E. destruct (IH b c d E) as (m & -> & ->); [cbn in L; lia|]. exists m. auto.
Qed.

Lemma firm_inside : forall t w r a, firm t -> Forall SpecSplit.blank w -> a ++ w = t ++ r ->
  (List.length a <= List.length t)%nat -> a = t /\ w = r.
Proof.
  intros t w r a (p & c & -> & N) W E L. destruct (split_length _ _ _ _ _ E L) as (m & M & ->).
  destruct m as [|y m]; [rewrite app_nil_r in M; split; [symmetry; exact M|reflexivity]|].
  destruct (@exists_last _ (y :: m)) as (m' & x & Em); [discriminate|].
  rewrite Em in M. rewrite app_assoc in M. apply app_inj_tail in M. destruct M as [_ ->].
  rewrite Em in W. apply Forall_app in W. destruct W as [W _]. apply Forall_app in W. destruct W as [_ W].
  inversion W; subst; contradiction.
Qed.

(** The first occurrence of a separator. *)
Lemma goes_first : forall c sep' tb w2 w1 ta a b, Forall good tb -> Forall good ta -> calmsep c = true ->
  forallb calm sep' = true ->
  lacks_sep c tb -> Forall SpecSplit.blank w1 -> Forall SpecSplit.blank w2 -> firm (flat tb) ->
  SpecSplit.tight (flat ta) ->
  let ts := tb ++ map Q w2 ++ Q c :: map Q sep' ++ map Q w1 ++ ta in
  goes (c :: sep') (flat ts) q0 (flat tb) (flat ta) /\
  (goes (c :: sep') (flat ts) q0 a b -> (List.length a <= List.length (flat tb))%nat -> a = flat tb /\ b = flat ta).
Proof.
  intros c sep' tb w2 w1 ta a b Gb Ga C S N W1 W2 F T ts.
  assert (Cc : calm c = true) by (unfold calmsep in C; apply andb_true_iff in C; apply C).
  assert (Fl : flat ts = flat tb ++ w2 ++ (c :: sep') ++ w1 ++ flat ta).
  { unfold ts. rewrite flat_app, flat_app, flat_Q, flat_cons, flat_app, flat_app, !flat_Q. reflexivity. }
  assert (Gt : Forall good ts).
  { assert (M : forall w, forallb calm w = true -> Forall good (map Q w)).
    { intros w. rewrite forallb_forall. intros K. apply Forall_forall. intros x X. apply in_map_iff in X.
      destruct X as (y & <- & Y). exact (K y Y). }
    unfold ts. apply Forall_app. split; [exact Gb|]. apply Forall_app. split; [apply M, blank_calm, W2|].
    constructor; [exact Cc|]. apply Forall_app. split; [apply M, S|]. apply Forall_app. split; [apply M, blank_calm, W1|exact Ga]. }
  split.
  - exists w2, w1. split; [exact Fl|]. split; [exact W2|]. split; [exact W1|]. split; [exact T|].
    fold (run q0 (flat tb)). rewrite run_flat by exact Gb. reflexivity.
  - intros G L. destruct (goes_find _ _ _ _ _ Gt C G) as (ts1 & ts2 & u1 & u2 & E & E1 & U1 & E2 & U2 & Tb).
    assert (P : exists m, ts1 = tb ++ map Q w2 ++ m /\ Q c :: map Q sep' ++ map Q w1 ++ ta = m ++ Q c :: ts2).
    { unfold ts in E. destruct (Nat.le_gt_cases (List.length (tb ++ map Q w2)) (List.length ts1)) as [Le|Gt'].
      - rewrite app_assoc in E. destruct (split_length _ _ _ _ _ E Le) as (m & -> & M). exists m.
        rewrite <- app_assoc. split; [reflexivity|exact M].
      - exfalso. rewrite app_assoc in E. symmetry in E.
        destruct (split_length _ _ _ _ _ E) as (m & M & M2); [lia|]. destruct m as [|k m].
        + rewrite app_nil_r in M. rewrite M in Gt'. lia.
        + cbn [app] in M2. injection M2 as <- M2.
          assert (I : In (Q c) (tb ++ map Q w2)) by (rewrite M; apply in_or_app; right; left; reflexivity).
          apply in_app_or in I. destruct I as [I|I]; [exact (N I)|]. apply in_map_iff in I. destruct I as (y & Y & I).
          injection Y as ->. rewrite Forall_forall in W2. specialize (W2 c I). apply blank_isblank in W2.
          unfold calmsep, sepchar in C. rewrite W2 in C. rewrite ?andb_false_r in C. cbn in C. rewrite ?andb_false_r in C. discriminate C. }
    destruct P as (m & -> & M). rewrite !flat_app, flat_Q in E1. symmetry in E1.
    destruct (firm_inside _ _ _ _ F U1 E1 L) as [-> ->]. split; [reflexivity|].
    destruct m as [|k m].
    + cbn [app] in M. injection M as <-. rewrite flat_app, flat_app, !flat_Q in E2. apply app_inv_head in E2.
      eapply tight_unique; [| | | |symmetry; exact E2]; assumption.
    + cbn [app] in M. injection M as <- M. exfalso. apply Forall_app in U1. destruct U1 as [_ U1].
      rewrite flat_cons in U1. cbn [flat1 app] in U1. inversion U1 as [|? ? Bc _]; subst. apply blank_isblank in Bc.
      unfold calmsep, sepchar in C. rewrite Bc in C. rewrite ?andb_false_r in C. cbn in C. rewrite ?andb_false_r in C. discriminate C.
Qed.

(** ** The pattern for a final sign *)
Definition ends (X : ascii) (rest : str) (q : quote) (a : str) : Prop :=
  exists w, rest = a ++ w ++ [X] /\ Forall SpecSplit.blank w /\ qzero (run q a) = true.

Lemma mlit_final : forall quiet X s, calmsep X = true ->
  mlit quiet true ["_"%char; X] s =
  match skipblanks s with
  | [] => MEnd
  | c :: s' => if quiet && Ascii.eqb X c then match s' with [] => MOk [] | _ => MRetry end else MRetry
  end.
Proof.
  intros quiet X s C. unfold calmsep in C. apply andb_true_iff in C. destruct C as [C _].
  cbn [mlit]. change (zc "_" =? 95) with true. cbv iota.
  assert (N : zc X =? 95 = false) by (unfold sepchar in C; lia). rewrite N.
  destruct (skipblanks s) as [|c s']; [reflexivity|]. rewrite charmatch_sep by exact C.
  destruct quiet; cbn [andb]; [|reflexivity]. destruct (Ascii.eqb X c), s'; reflexivity.
Qed.

Lemma calmsep_blank : forall X, calmsep X = true -> ~ SpecSplit.blank X.
Proof.
  intros X C B. apply blank_isblank in B. unfold calmsep, sepchar in C. rewrite B in C.
  rewrite ?andb_false_r in C. cbn in C. rewrite ?andb_false_r in C. discriminate C.
Qed.

Lemma wild_end : forall X k rem rest q cap, calmsep X = true ->
  match fr_caps (wildloop k ["_"%char; X] true rem rest q cap) with
  | Some l => exists a, l = [rev cap ++ a] /\ ends X rest q a /\
                forall a', ends X rest q a' -> (List.length a <= List.length a')%nat
  | None => forall a, ~ ends X rest q a
  end.
Proof.
  intros X k rem rest. induction rest as [|c rest IH]; intros q cap C.
  - cbn [wildloop]. rewrite mlit_final by exact C. cbn [skipblanks fr_caps].
    intros a (w & E & _). destruct a; [destruct w|]; discriminate E.
  - cbn [wildloop]. rewrite mlit_final by exact C. destruct (skipblanks_split (c :: rest)) as (u & U & Ub & Ut).
    destruct (skipblanks (c :: rest)) as [|d s'] eqn:Sk.
    { cbn [fr_caps]. intros a (w & E & W & Z). rewrite app_nil_r in U. rewrite U in E.
      assert (In X u) by (rewrite E; apply in_or_app; right; apply in_or_app; right; left; reflexivity).
      rewrite Forall_forall in Ub. apply (calmsep_blank X C), Ub. assumption. }
    assert (Step : (~ ends X (c :: rest) q []) ->
      match fr_caps (wildloop k ["_"%char; X] true rem rest (qstep q c) (c :: cap)) with
      | Some l => exists a, l = [rev cap ++ a] /\ ends X (c :: rest) q a /\
                forall a', ends X (c :: rest) q a' -> (List.length a <= List.length a')%nat
      | None => forall a, ~ ends X (c :: rest) q a
      end).
    { intros N. specialize (IH (qstep q c) (c :: cap) C).
      assert (Sh : forall a, ends X (c :: rest) q (c :: a) <-> ends X rest (qstep q c) a).
      { intros a. split; intros (w & E & W & Z); exists w; (split; [|split; [exact W|exact Z]]).
        - cbn in E. injection E as E. exact E.
        - cbn. rewrite E. reflexivity. }
      assert (Hd : forall a, ends X (c :: rest) q a -> exists a', a = c :: a').
      { intros [|x a] H; [contradiction|]. destruct H as (w & E & _). cbn in E. injection E as <- _. exists a. reflexivity. }
      destruct (fr_caps _) as [l|].
      - destruct IH as (a & -> & E & M). exists (c :: a). cbn [rev]. rewrite <- app_assoc. split; [reflexivity|].
        split; [apply Sh; exact E|]. intros a' E'. destruct (Hd _ E') as (a'' & ->). apply Sh in E'. apply M in E'. cbn; lia.
      - intros a E. destruct (Hd _ E) as (a' & ->). apply Sh in E. exact (IH _ E). }
    destruct (qzero q && Ascii.eqb X d) eqn:K.
    + apply andb_true_iff in K. destruct K as [K1 K2]. apply Ascii.eqb_eq in K2. subst d. destruct s' as [|y s'].
      * cbn [fr_caps]. exists []. rewrite app_nil_r. split; [reflexivity|]. split; [|intros; cbn; lia].
        exists u. split; [exact U|]. split; [exact Ub|exact K1].
      * apply Step. intros (w & E & W & Z). cbn [app] in E. rewrite U in E.
        assert (X :: y :: s' = [X]); [|discriminate].
        eapply (tight_unique u _ w); [exact Ub|exact W|exact Ut|exact (calmsep_blank X C)|exact E].
    + apply Step. intros (w & E & W & Z). cbn [app] in E. rewrite U in E.
      assert (D : d :: s' = [X]).
      { eapply (tight_unique u _ w); [exact Ub|exact W|exact Ut|exact (calmsep_blank X C)|exact E]. }
      injection D as -> ->. cbn [run fold_left] in Z. rewrite Z, Ascii.eqb_refl in K. discriminate K.
Qed.

Lemma filter_final : forall X t, calmsep X = true ->
  fr_caps (filter_pure t ["?"; "_"; X]%char) = fr_caps (wildloop (fwild []) ["_"%char; X] true (zlen t) t q0 []).
Proof.
  intros X t C. unfold filter_pure. cbn [segments]. change (zc "?" =? 63) with true. change (zc "_" =? 63) with false.
  assert (N : zc X =? 63 = false) by (unfold calmsep, sepchar in C; lia). rewrite N. reflexivity.
Qed.

Lemma filter_final_some : forall X ta w, calmsep X = true -> Forall good ta -> firm (flat ta) -> Forall SpecSplit.blank w ->
  fr_caps (filter_pure (flat ta ++ w ++ [X]) ["?"; "_"; X]%char) = Some [flat ta].
Proof.
  intros X ta w C G F W. rewrite filter_final by exact C.
  pose proof (wild_end X (fwild []) (zlen (flat ta ++ w ++ [X])) (flat ta ++ w ++ [X]) q0 [] C) as K.
  assert (E : ends X (flat ta ++ w ++ [X]) q0 (flat ta)).
  { exists w. split; [reflexivity|]. split; [exact W|]. rewrite run_flat by exact G. reflexivity. }
  destruct (fr_caps _) as [l|]; [|elim (K _ E)]. destruct K as (a & -> & (w' & E' & W' & _) & M). specialize (M _ E).
  cbn [rev app]. rewrite !app_assoc in E'. apply app_inj_tail in E'. destruct E' as [E' _]. symmetry in E'.
  destruct (firm_inside _ _ _ _ F W' E' M) as [-> _]. reflexivity.
Qed.

Lemma filter_final_none : forall X t, calmsep X = true -> (forall p, t <> p ++ [X]) ->
  fr_caps (filter_pure t ["?"; "_"; X]%char) = None.
Proof.
  intros X t C N. rewrite filter_final by exact C.
  pose proof (wild_end X (fwild []) (zlen t) t q0 [] C) as K. destruct (fr_caps _) as [l|]; [|reflexivity].
  destruct K as (a & _ & (w & E & _) & _). rewrite app_assoc in E. elim (N _ E).
Qed.

(** ** The patterns for parentheses *)
Lemma firm_skip : forall s r, firm s -> exists u d v, s = u ++ d :: v /\ Forall SpecSplit.blank u /\ ~ SpecSplit.blank d /\
  skipblanks (s ++ r) = d :: v ++ r.
Proof.
  intros s r (p & c & E & N). destruct (skipblanks_split s) as (u & U & Ub & Ut). destruct (skipblanks s) as [|d v] eqn:Sk.
  - exfalso. rewrite app_nil_r in U. subst u. rewrite E in Ub. apply Forall_app in Ub. destruct Ub as [_ Ub]. inversion Ub; subst; contradiction.
  - exists u, d, v. split; [exact U|]. split; [exact Ub|]. split; [exact Ut|]. rewrite U, <- app_assoc.
    rewrite skipblanks_app by exact Ub. apply skipblanks_tight. exact Ut.
Qed.

Lemma qzero_parts : forall q, qzero q = true -> q = q0.
Proof.
  intros [sq dq esc d] H. unfold qzero in H. cbn in H. destruct sq, dq, esc; try discriminate H.
  cbn in H. apply Z.eqb_eq in H. subst. reflexivity.
Qed.

Lemma noisy_calm : forall t d, d <> 0 -> forallb calm t = true -> QuoteFacts.noisy (mkQ false false false d) t = true.
Proof.
  induction t as [|c t IH]; intros d D H; [reflexivity|]. cbn [forallb] in H. apply andb_true_iff in H. destruct H as [H H'].
  cbn [QuoteFacts.noisy]. rewrite (calm_step _ c H) by reflexivity. rewrite IH by assumption.
  unfold qzero. cbn. rewrite andb_true_r. destruct (Z.eqb_spec d 0); [contradiction|reflexivity].
Qed.

Lemma wild_par : forall k seg rem ti w tail, Forall good ti -> firm (flat ti) -> Forall SpecSplit.blank w ->
  forallb calm tail = true ->
  fr_caps (wildloop k ("_"%char :: "("%char :: seg) true rem (flat ti ++ w ++ "("%char :: tail) q0 []) =
  match mlit true true seg tail with MOk _ => Some [flat ti] | _ => None end.
Proof.
  intros k seg rem ti w tail G F W T.
  (* the end of the scan *)
  assert (Fin : forall w' cap, Forall SpecSplit.blank w' ->
    fr_caps (wildloop k ("_"%char :: "("%char :: seg) true rem (w' ++ "("%char :: tail) q0 cap) =
    match mlit true true seg tail with MOk _ => Some [rev cap] | _ => None end).
  { intros w' cap W'. revert cap. induction W' as [|c w' Hc W' IH]; intros cap; cbn [app wildloop].
    - cbn [mlit]. change (zc "_" =? 95) with true. change (zc "(" =? 95) with false. cbv iota.
      cbn [skipblanks]. change (isblank "(") with false. cbv iota. change (qzero q0) with true.
      change (charmatch "(" "(") with true. cbn [andb].
      destruct (mlit true true seg tail); try reflexivity.
      change (qstep q0 "(") with (mkQ false false false 1). apply QuoteFacts.wildloop_noisy; [reflexivity|].
      apply noisy_calm; [lia|exact T].
    - pose proof (proj1 (blank_isblank c) Hc) as Bc.
      replace (mlit (qzero q0) true ("_"%char :: "("%char :: seg) (c :: w' ++ "("%char :: tail)) with (mlit true true seg tail).
      + assert (Qc : qstep q0 c = q0) by (apply calm_step; try reflexivity; destruct Hc as [-> | ->]; reflexivity).
        rewrite Qc. destruct (mlit true true seg tail) eqn:M; try reflexivity. rewrite IH. reflexivity.
      + cbn [mlit]. change (zc "_" =? 95) with true. change (zc "(" =? 95) with false. cbv iota.
        cbn [skipblanks]. rewrite Bc. rewrite skipblanks_app by exact W'. cbn [skipblanks]. change (isblank "(") with false.
        cbv iota. change (qzero q0) with true. change (charmatch "(" "(") with true. reflexivity. }
  enough (X : forall s p, flat ti = p ++ s ->
    fr_caps (wildloop k ("_"%char :: "("%char :: seg) true rem (s ++ w ++ "("%char :: tail) (run q0 p) (rev p)) =
    match mlit true true seg tail with MOk _ => Some [flat ti] | _ => None end) by exact (X (flat ti) [] eq_refl).
  induction s as [|c s IH]; intros p E.
  - rewrite app_nil_r in E. subst p. rewrite run_flat by exact G. cbn [app]. rewrite Fin by exact W.
    rewrite rev_involutive. reflexivity.
  - cbn [app wildloop].
    assert (Fs : firm (c :: s)).
    { destruct F as (a & x & Fa & Fx). rewrite E in Fa. destruct (@exists_last _ (c :: s)) as (l & y & Ly); [discriminate|].
      rewrite Ly, app_assoc in Fa. apply app_inj_tail in Fa. destruct Fa as [_ <-]. exists l, y. auto. }
    assert (M : mlit (qzero (run q0 p)) true ("_"%char :: "("%char :: seg) (c :: s ++ w ++ "("%char :: tail) = MRetry).
    { destruct (firm_skip (c :: s) (w ++ "("%char :: tail) Fs) as (u & d & v & U & Ub & Ud & Sk).
      cbn [mlit]. change (zc "_" =? 95) with true. change (zc "(" =? 95) with false. cbv iota.
      cbn [app] in Sk. rewrite Sk. rewrite (charmatch_sep "(") by reflexivity.
      destruct (qzero (run q0 p)) eqn:Z; [|reflexivity]. cbn [andb].
      destruct (Ascii.eqb_spec "(" d) as [<-|]; [|reflexivity]. exfalso.
      assert (Ep : flat ti = (p ++ u ++ ["("%char]) ++ v).
      { rewrite E, U. rewrite <- !app_assoc. reflexivity. }
      destruct (flat_split ti _ _ G Ep) as [D _]. rewrite !run_app in D. apply qzero_parts in Z. rewrite Z in D.
      rewrite (run_calm u) in D; try reflexivity; [|apply blank_calm; exact Ub]. cbn in D. lia. }
    rewrite M. specialize (IH (p ++ [c])). rewrite run_app, rev_app_distr in IH. cbn [run fold_left rev app] in IH.
    apply IH. rewrite <- app_assoc. exact E.
Qed.

Definition nowild (seg : str) : bool := forallb (fun f => negb (zc f =? 63)) seg.
Lemma segments_nowild : forall seg, nowild seg = true -> segments seg = (seg, []).
Proof.
  induction seg as [|f seg IH]; intros H; [reflexivity|]. cbn [nowild forallb] in H. apply andb_true_iff in H. destruct H as [H H'].
  cbn [segments]. rewrite IH by exact H'. destruct (zc f =? 63); [discriminate H|reflexivity].
Qed.

Lemma filter_par : forall seg ti w2 w1 tail, nowild seg = true -> Forall good ti -> firm (flat ti) ->
  SpecSplit.tight (flat ti) -> Forall SpecSplit.blank w1 -> Forall SpecSplit.blank w2 -> forallb calm tail = true ->
  fr_caps (filter_pure (")"%char :: w2 ++ flat ti ++ w1 ++ "("%char :: tail) (")"%char :: "_"%char :: "?"%char :: "_"%char :: "("%char :: seg)) =
  match mlit true true seg tail with MOk _ => Some [flat ti] | _ => None end.
Proof.
  intros seg ti w2 w1 tail S G F T W1 W2 C. unfold filter_pure. cbn [segments]. rewrite segments_nowild by exact S.
  change (zc ")" =? 63) with false. change (zc "_" =? 63) with false. change (zc "?" =? 63) with true. change (zc "(" =? 63) with false.
  cbv iota. cbn [lastseg mlit]. change (zc ")" =? 95) with false. change (zc "_" =? 95) with true. cbv iota.
  change (charmatch ")" ")") with true. cbn [andb mlit]. rewrite skipblanks_app by exact W2.
  rewrite skipblanks_tight.
  - cbn [fwild lastseg]. apply wild_par; assumption.
  - destruct F as (p & c & Fe & _). destruct (flat ti) as [|x l]; [destruct p; discriminate Fe|exact T].
Qed.

Lemma filter_par_none : forall f g c t, zc f <> 95 -> zc f <> 63 -> charmatch f c = false ->
  fr_caps (filter_pure (c :: t) (f :: g)) = None.
Proof.
  intros f g c t N1 N2 M. unfold filter_pure. cbn [segments]. destruct (segments g) as [h l].
  destruct (zc f =? 63) eqn:E; [lia|]. cbn [mlit]. destruct (zc f =? 95) eqn:E'; [lia|]. rewrite M. reflexivity.
Qed.
