(** Lemmas on the patterns with two wildcards and a separator. *)
From Coq Require Import String Ascii ZArith List Bool Lia ZifyBool ZifyNat.
From Verif Require Import Base BaseFacts State Filter FilterFacts SpecSplit.
Import ListNotations.
Open Scope Z_scope.

(** ** The two descriptions of quotes and parentheses *)
Definition view (q : quote) : place :=
  let c := if q.(q_sq) then "'"%char else """"%char in
  if q.(q_sq) || q.(q_dq) then (if q.(q_esc) then Escaped c q.(q_depth) else In c q.(q_depth))
  else Out q.(q_depth).
Definition sane (q : quote) : bool :=
  negb (q.(q_sq) && q.(q_dq)) && implb q.(q_esc) (q.(q_sq) || q.(q_dq)).

Lemma zc_eqb : forall c n x, zc x = n -> (zc c =? n) = Ascii.eqb c x.
Proof.
  intros c n x H. destruct (Ascii.eqb_spec c x) as [->|N]; [lia|].
  destruct (zc c =? n) eqn:E; [|reflexivity]. elim N. apply zc_inj. lia.
Qed.

Lemma qstep_view : forall q c, sane q = true -> view (qstep q c) = step (view q) c /\ sane (qstep q c) = true.
Proof.
  intros [sq dq esc d] c H. unfold qstep.
  rewrite (zc_eqb c 92 "\"), (zc_eqb c 39 "'"), (zc_eqb c 34 """"), (zc_eqb c 40 "("), (zc_eqb c 41 ")") by reflexivity.
  cbn [q_sq q_dq q_esc q_depth]. unfold sane in *. cbn [q_sq q_dq q_esc q_depth] in *.
  destruct sq, dq, esc; try discriminate H; unfold view, step; cbn [q_sq q_dq q_esc q_depth orb andb negb implb].
  - split; reflexivity.
  - destruct (Ascii.eqb_spec c "\"); [split; reflexivity|]. destruct (Ascii.eqb_spec c "'"); [split; reflexivity|].
    destruct (Ascii.eqb c """"), (Ascii.eqb c "("), (Ascii.eqb c ")"); split; reflexivity.
  - split; reflexivity.
  - destruct (Ascii.eqb_spec c "\"); [split; reflexivity|].
    destruct (Ascii.eqb_spec c "'") as [->|]; [split; reflexivity|].
    destruct (Ascii.eqb c """"), (Ascii.eqb c "("), (Ascii.eqb c ")"); split; reflexivity.
  - destruct (Ascii.eqb_spec c "\") as [->|]; [split; reflexivity|].
    destruct (Ascii.eqb_spec c "'") as [->|]; [split; reflexivity|].
    destruct (Ascii.eqb_spec c """") as [->|]; [split; reflexivity|].
    destruct (Ascii.eqb c "("), (Ascii.eqb c ")"); split; reflexivity.
Qed.

Lemma qzero_view : forall q, sane q = true -> (qzero q = true <-> view q = Out 0).
Proof.
  intros [sq dq esc d] H. unfold sane, qzero, view in *. cbn [q_sq q_dq q_esc q_depth] in *.
  destruct sq, dq, esc; try discriminate H; cbn [orb andb negb] in *; split; intros E; try discriminate.
  - destruct (Z.eqb_spec d 0); [congruence|discriminate].
  - injection E as ->. reflexivity.
Qed.

(** ** The separator *)
(** Separators: no wildcard, no blank, no letter. *)
Definition sepchar (f : ascii) : bool :=
  negb (zc f =? 63) && negb (zc f =? 95) && negb (isblank f) && negb (isalpha f).

Lemma charmatch_sep : forall f c, sepchar f = true -> charmatch f c = Ascii.eqb f c.
Proof.
  intros f c H. destruct (Ascii.eqb_spec f c) as [->|N].
  - unfold charmatch. rewrite Ascii.eqb_refl. reflexivity.
  - unfold charmatch. unfold sepchar, isblank, isalpha in H.
    destruct (Ascii.eqb_spec (toupper f) (toupper c)) as [E|E]; cbn [orb].
    + exfalso. unfold toupper in E. unfold islower, isupper in *.
      pose proof (zc_range f). pose proof (zc_range c).
      destruct ((97 <=? zc f) && (zc f <=? 122)) eqn:E1; [lia|].
      destruct ((97 <=? zc c) && (zc c <=? 122)) eqn:E2; [|congruence].
      apply (f_equal zc) in E. rewrite zc_cz_small in E by lia. lia.
    + destruct (zc f =? 32) eqn:E1; [lia|]. reflexivity.
Qed.

Lemma blank_isblank : forall c, blank c <-> isblank c = true.
Proof.
  intros c. unfold blank, isblank. split.
  - intros [->| ->]; reflexivity.
  - intros H. apply orb_true_iff in H. destruct H as [H|H]; [left|right]; apply zc_inj.
    + change (zc " ") with 32. lia.
    + change (zc (ascii_of_nat 9)) with 9. lia.
Qed.

Lemma skipblanks_tight : forall t, tight t -> skipblanks t = t.
Proof.
  intros [|c t] H; [reflexivity|]. cbn [skipblanks]. destruct (isblank c) eqn:E; [|reflexivity].
  elim H. apply blank_isblank. exact E.
Qed.
Lemma skipblanks_app : forall w t, Forall blank w -> skipblanks (w ++ t) = skipblanks t.
Proof.
  intros w t H. induction H as [|c w Hc H IH]; [reflexivity|]. cbn [app skipblanks].
  apply blank_isblank in Hc. rewrite Hc. exact IH.
Qed.
Lemma skipblanks_split : forall t, exists w, t = w ++ skipblanks t /\ Forall blank w /\ tight (skipblanks t).
Proof.
  induction t as [|c t (w & E & W & T)]; [exists []; repeat split; constructor|]. cbn [skipblanks].
  destruct (isblank c) eqn:B.
  - exists (c :: w). cbn [app]. rewrite <- E. split; [reflexivity|]. split; [|exact T].
    constructor; [apply blank_isblank; exact B|exact W].
  - exists []. split; [reflexivity|]. split; [constructor|]. intros H. apply blank_isblank in H. congruence.
Qed.

Lemma mlit_sep : forall sep s, forallb sepchar sep = true ->
  match mlit true false (sep ++ ["_"%char]) s with
  | MOk b => exists r, s = sep ++ r /\ b = skipblanks r
  | MEnd => (List.length s < List.length sep)%nat
  | MRetry => forall r, s <> sep ++ r
  end.
Proof.
  induction sep as [|f sep IH]; intros s H.
  - cbn [app mlit]. change (zc "_" =? 95) with true. cbn [mlit]. exists s. split; reflexivity.
  - cbn [forallb] in H. apply andb_true_iff in H. destruct H as [H H']. cbn [app mlit].
    assert (E : zc f =? 95 = false) by (unfold sepchar in H; lia). rewrite E.
    destruct s as [|c s]; [cbn; lia|]. cbn [andb]. rewrite charmatch_sep by exact H.
    destruct (Ascii.eqb_spec f c) as [<-|N].
    + specialize (IH s H'). destruct (mlit true false (sep ++ ["_"%char]) s).
      * destruct IH as (r & -> & ->). exists r. split; reflexivity.
      * cbn [List.length]. lia.
      * intros r R. injection R as R. exact (IH r R).
    + intros r R. injection R as R _. congruence.
Qed.

Lemma mlit_loud : forall sep s, sep <> [] -> forallb sepchar sep = true ->
  match mlit false false (sep ++ ["_"%char]) s with
  | MOk _ => False
  | MEnd => s = []
  | MRetry => True
  end.
Proof.
  intros [|f sep] s N H; [congruence|]. cbn [forallb] in H. apply andb_true_iff in H. destruct H as [H H'].
  cbn [app mlit]. assert (E : zc f =? 95 = false) by (unfold sepchar in H; lia). rewrite E.
  destruct s; [reflexivity|exact I].
Qed.

(** ** The loop *)
Definition goes (sep rest : str) (q : quote) (a b : str) : Prop :=
  exists w1 w2, rest = a ++ w1 ++ sep ++ w2 ++ b /\ Forall blank w1 /\ Forall blank w2 /\ tight b /\
                qzero (fold_left qstep a q) = true.

Lemma sep_tight : forall sep r, sep <> [] -> forallb sepchar sep = true -> tight (sep ++ r).
Proof.
  intros [|f sep] r N H; [congruence|]. cbn [forallb app tight] in *. apply andb_true_iff in H. destruct H as [H _].
  intros B. apply blank_isblank in B. unfold sepchar in H. rewrite B in H.
  rewrite andb_false_r in H. discriminate H.
Qed.

Lemma skip_length : forall t, (List.length (skipblanks t) <= List.length t)%nat.
Proof. induction t as [|c t IH]; [reflexivity|]. cbn [skipblanks]. destruct (isblank c); cbn [List.length]; lia. Qed.

Lemma skip_suffix : forall a t, (List.length (skipblanks t) <= List.length (skipblanks (a ++ t)))%nat.
Proof.
  induction a as [|c a IH]; intros t; [reflexivity|]. cbn [app skipblanks]. destruct (isblank c); [apply IH|].
  cbn [List.length]. rewrite app_length. pose proof (skip_length t). lia.
Qed.

Lemma wild_sep : forall sep rem rest q cap, sep <> [] -> forallb sepchar sep = true ->
  match fr_caps (wildloop (fwild [[]]) ("_"%char :: sep ++ ["_"%char]) false rem rest q cap) with
  | Some l => exists a b, l = [rev cap ++ a; b] /\ goes sep rest q a b /\
                forall a' b', goes sep rest q a' b' -> (List.length a <= List.length a')%nat
  | None => forall a b, ~ goes sep rest q a b
  end.
Proof.
  intros sep rem rest. induction rest as [|c rest IH]; intros q cap N S; cbn [wildloop mlit];
    change (zc "_" =? 95) with true; cbv iota; cbn [skipblanks].
  - assert (G : forall a b, ~ goes sep [] q a b).
    { intros a b (w1 & w2 & E & _). symmetry in E. apply app_eq_nil in E. destruct E as [_ E].
      apply app_eq_nil in E. destruct E as [_ E]. apply app_eq_nil in E. destruct E as [E _]. congruence. }
    destruct (qzero q).
    + pose proof (mlit_sep sep [] S) as K. destruct (mlit true false (sep ++ ["_"%char]) []); try exact G.
      destruct K as (r & E & _). symmetry in E. apply app_eq_nil in E. destruct E as [E _]. congruence.
    + pose proof (mlit_loud sep [] N S) as K. destruct (mlit false false (sep ++ ["_"%char]) []); try exact G.
      contradiction.
  - change (if isblank c then skipblanks rest else c :: rest) with (skipblanks (c :: rest)).
    assert (Next : qzero q = false \/ (forall r, skipblanks (c :: rest) <> sep ++ r) ->
      match fr_caps (wildloop (fwild [[]]) ("_"%char :: sep ++ ["_"%char]) false rem rest (qstep q c) (c :: cap)) with
      | Some l => exists a b, l = [rev cap ++ a; b] /\ goes sep (c :: rest) q a b /\
                forall a' b', goes sep (c :: rest) q a' b' -> (List.length a <= List.length a')%nat
      | None => forall a b, ~ goes sep (c :: rest) q a b
      end).
    { intros Here.
      assert (Z : forall b, ~ goes sep (c :: rest) q [] b).
      { intros b (w1 & w2 & E & W1 & W2 & T & Q). cbn [fold_left app] in *. destruct Here as [H|H]; [congruence|].
        apply (H (w2 ++ b)). rewrite E. rewrite skipblanks_app by exact W1.
        apply skipblanks_tight. apply sep_tight; assumption. }
      assert (St : forall x a b, goes sep (c :: rest) q (x :: a) b <-> x = c /\ goes sep rest (qstep q c) a b).
      { intros x a b. split.
        - intros (w1 & w2 & E & H). cbn [app] in E. injection E as <- E. split; [reflexivity|].
          exists w1, w2. split; [exact E|]. exact H.
        - intros (-> & w1 & w2 & E & H). exists w1, w2. split; [cbn [app]; rewrite E; reflexivity|exact H]. }
      specialize (IH (qstep q c) (c :: cap) N S).
      destruct (fr_caps _) as [l|].
      - destruct IH as (a & b & -> & G & M). exists (c :: a), b. split; [cbn [rev]; rewrite <- app_assoc; reflexivity|].
        split; [apply St; split; [reflexivity|exact G]|].
        intros [|x a'] b' G'; [elim (Z b' G')|]. apply St in G'. destruct G' as [_ G']. specialize (M a' b' G').
        cbn [List.length]. lia.
      - intros [|x a] b G; [exact (Z b G)|]. apply St in G. destruct G as [_ G]. exact (IH a b G). }
    destruct (qzero q) eqn:Q.
    + pose proof (mlit_sep sep (skipblanks (c :: rest)) S) as K.
      destruct (mlit true false (sep ++ ["_"%char]) (skipblanks (c :: rest))) as [b| |].
      * destruct K as (r & E & ->). cbn [fwild fr_caps]. exists [], (skipblanks r).
        rewrite app_nil_r. split; [reflexivity|]. split; [|intros; cbn; lia].
        destruct (skipblanks_split (c :: rest)) as (w1 & E1 & W1 & _).
        destruct (skipblanks_split r) as (w2 & E2 & W2 & T2).
        exists w1, w2. split; [cbn [app]; rewrite <- E2, <- E; exact E1|]. repeat split; assumption.
      * cbn [fr_caps]. intros a b (w1 & w2 & E & W1 & W2 & T & _).
        pose proof (skip_suffix a (w1 ++ sep ++ w2 ++ b)) as L. rewrite <- E in L.
        rewrite skipblanks_app in L by exact W1.
        rewrite (skipblanks_tight (sep ++ w2 ++ b)) in L by (apply sep_tight; assumption).
        rewrite app_length in L. lia.
      * apply Next. right. exact K.
    + pose proof (mlit_loud sep (skipblanks (c :: rest)) N S) as K.
      destruct (mlit false false (sep ++ ["_"%char]) (skipblanks (c :: rest))) as [b| |].
      * contradiction.
      * cbn [fr_caps]. intros a b (w1 & w2 & E & W1 & W2 & T & _).
        pose proof (skip_suffix a (w1 ++ sep ++ w2 ++ b)) as L. rewrite <- E, K in L.
        rewrite skipblanks_app in L by exact W1.
        rewrite (skipblanks_tight (sep ++ w2 ++ b)) in L by (apply sep_tight; assumption).
        rewrite app_length in L. destruct sep; [congruence|]. cbn [List.length] in L. lia.
      * apply Next. left. reflexivity.
Qed.

Lemma fold_view : forall a q, sane q = true ->
  view (fold_left qstep a q) = fold_left step a (view q) /\ sane (fold_left qstep a q) = true.
Proof.
  induction a as [|c a IH]; intros q S; [split; [reflexivity|exact S]|]. cbn [fold_left].
  destruct (qstep_view q c S) as [E S']. rewrite <- E. apply IH. exact S'.
Qed.

Lemma goes_cut : forall sep t a b, goes sep t q0 a b <-> cut sep t a b.
Proof.
  intros sep t a b. destruct (fold_view a q0 eq_refl) as [V S].
  assert (Q : qzero (fold_left qstep a q0) = true <-> outside a).
  { rewrite (qzero_view _ S), V. reflexivity. }
  unfold goes, cut. split; intros (w1 & w2 & E & H1 & H2 & H3 & H4); exists w1, w2; repeat split; try assumption;
    apply Q; exact H4.
Qed.

(** The pattern made of a separator. *)
Definition sepat (sep : str) : str := "?"%char :: "_"%char :: sep ++ ["_"; "?"]%char.

Lemma segments_sep : forall sep, forallb sepchar sep = true ->
  segments (sep ++ ["_"; "?"]%char) = (sep ++ ["_"%char], [[]]).
Proof.
  induction sep as [|f sep IH]; intros S; [reflexivity|]. cbn [forallb app segments] in *.
  apply andb_true_iff in S. destruct S as [S S']. rewrite IH by exact S'.
  destruct (zc f =? 63) eqn:E; [unfold sepchar in S; lia|]. reflexivity.
Qed.

Theorem filter_sep : forall sep t, sep <> [] -> forallb sepchar sep = true ->
  match fr_caps (filter_pure t (sepat sep)) with
  | Some l => exists a b, l = [a; b] /\ first_cut sep t a b
  | None => uncut sep t
  end.
Proof.
  intros sep t N S. unfold filter_pure, sepat. cbn [segments]. rewrite segments_sep by exact S.
  change (zc "?" =? 63) with true. change (zc "_" =? 63) with false. cbn [mlit lastseg fwild].
  pose proof (wild_sep sep (zlen t) t q0 [] N S) as K.
  destruct (fr_caps _) as [l|].
  - destruct K as (a & b & -> & G & M). exists a, b. split; [reflexivity|]. split; [apply goes_cut; exact G|].
    intros a' b' C. apply (M a' b'). apply goes_cut. exact C.
  - intros a b C. apply (K a b). apply goes_cut. exact C.
Qed.

(** The matcher with two results on such a pattern. *)
Theorem filter2_sep : forall sep pat t s r s', s2l pat = sepat sep -> sep <> [] -> forallb sepchar sep = true ->
  filter2 t pat s = (Ok r, s') ->
  s' = set_ct (set_bufferpos s'.(ct).(bufferpos) s.(ct)) s /\
  match r with Some (a, b) => first_cut sep t a b | None => uncut sep t end.
Proof.
  intros sep pat t s r s' E N S. unfold filter2, filterc, bind. cbn [gets]. rewrite E.
  pose proof (filter_sep sep t N S) as K.
  destruct (4000 <=? _); [discriminate|].
  destruct (fr_caps (filter_pure t (sepat sep))) as [l|].
  - destruct K as (a & b & -> & K). cbn. intros H. injection H as <- <-. split; [reflexivity|exact K].
  - cbn. intros H. injection H as <- <-. split; [destruct s as [? ? ? ? ? [] ? ? ? ? ?]; reflexivity|exact K].
Qed.

(** It returns when the buffer has room. *)
Lemma filter2_ok : forall pat t s, room s t -> short (s2l pat) ->
  exists r s', filter2 t pat s = (Ok r, s').
Proof.
  intros pat t s R S. unfold filter2, bind. destruct (fr_caps (filter_pure t (s2l pat))) as [l|] eqn:E.
  - rewrite (filterc_some s t _ l) by assumption. eexists _, _. reflexivity.
  - rewrite filterc_none by assumption. eexists _, _. reflexivity.
Qed.

(** ** Words *)
Lemma upper_toupper : forall c, upper c = toupper c.
Proof. intros [[] [] [] [] [] [] [] []]; vm_compute; reflexivity. Qed.

Definition kwchar (f : ascii) : bool :=
  negb (zc f =? 63) && negb (zc f =? 95) && negb (isblank f) && negb (islower f).

Lemma kw_blank : forall f, kwchar f = true -> zc f =? 32 = false.
Proof. intros f H. unfold kwchar, isblank in H. destruct (zc f =? 32); [|reflexivity]. rewrite andb_false_r in H. discriminate. Qed.
Lemma kw_upper : forall f, kwchar f = true -> toupper f = f.
Proof. intros f H. unfold kwchar in H. unfold toupper. destruct (islower f); [|reflexivity]. rewrite andb_false_r in H. discriminate. Qed.
Lemma kw_under : forall f, kwchar f = true -> zc f =? 95 = false.
Proof. intros f H. unfold kwchar in H. destruct (zc f =? 95); [|reflexivity]. rewrite andb_false_r in H. discriminate. Qed.

Lemma charmatch_kw : forall f c, kwchar f = true -> (charmatch f c = true <-> upper c = f).
Proof.
  intros f c H. unfold charmatch. rewrite (kw_blank f H), (kw_upper f H), upper_toupper. cbn [andb]. rewrite orb_false_r.
  split; intros E; [apply Ascii.eqb_eq in E; congruence|]. subst f. apply Ascii.eqb_refl.
Qed.

Lemma all_blank : forall t, skipblanks t = [] <-> Forall blank t.
Proof.
  intros t. split.
  - intros E. destruct (skipblanks_split t) as (w & W & B & _). rewrite E, app_nil_r in W. subst. exact B.
  - intros B. rewrite <- (app_nil_r t). rewrite skipblanks_app by exact B. reflexivity.
Qed.

Lemma mlit_kw : forall kw t, forallb kwchar kw = true ->
  (exists r, mlit true true (kw ++ ["_"%char]) t = MOk r) <->
  exists e w, t = e ++ w /\ Forall blank w /\ map upper e = kw.
Proof.
  induction kw as [|f kw IH]; intros t H.
  - cbn [app mlit]. change (zc "_" =? 95) with true. cbn [mlit]. split.
    + intros [r E]. exists [], t. split; [reflexivity|]. split; [|reflexivity]. apply all_blank.
      destruct (skipblanks t); [reflexivity|discriminate].
    + intros (e & w & -> & B & E). apply map_eq_nil in E. subst e. cbn [app]. apply all_blank in B. rewrite B.
      exists []. reflexivity.
  - cbn [forallb] in H. apply andb_true_iff in H. destruct H as [H H']. cbn [app mlit].
    rewrite (kw_under f H). destruct t as [|c t].
    + split; [intros [r E]; discriminate|]. intros (e & w & E & _ & K). symmetry in E. apply app_eq_nil in E.
      destruct E as [-> _]. discriminate K.
    + cbn [andb]. destruct (charmatch f c) eqn:C.
      * apply charmatch_kw in C; [|exact H]. rewrite (IH t H'). split.
        { intros (e & w & -> & B & E). exists (c :: e), w. split; [reflexivity|]. split; [exact B|]. cbn [map]. congruence. }
        { intros (e & w & E & B & K). destruct e as [|c' e]; [discriminate|]. cbn [map app] in *.
          injection E as <- ->. injection K as _ K. exists e, w. repeat split; assumption. }
      * split; [intros [r E]; discriminate|]. intros (e & w & E & B & K). destruct e as [|c' e]; [discriminate|].
        cbn [map app] in *. injection E as <- ->. injection K as K _.
        apply (charmatch_kw f c H) in K. congruence.
Qed.

Lemma segments_kw : forall kw, forallb kwchar kw = true -> segments (kw ++ ["_"%char]) = (kw ++ ["_"%char], []).
Proof.
  induction kw as [|f kw IH]; intros H; [reflexivity|]. cbn [forallb app segments] in *.
  apply andb_true_iff in H. destruct H as [H H']. rewrite IH by exact H'.
  destruct (zc f =? 63) eqn:E; [|reflexivity]. unfold kwchar in H. rewrite E in H. discriminate H.
Qed.

Theorem filter0_kw : forall kw pat t s b s', s2l pat = "_"%char :: kw ++ ["_"%char] -> forallb kwchar kw = true ->
  kw <> [] -> filter0 t pat s = (Ok b, s') -> s' = s /\ (b = true <-> keyword kw t).
Proof.
  intros kw pat t s b s' P H N E. unfold filter0, filterc, bind in E. cbn [gets] in E. rewrite P in E.
  assert (F : filter_pure t ("_"%char :: kw ++ ["_"%char]) =
     mkFR (match mlit true true (kw ++ ["_"%char]) (skipblanks t) with MOk _ => Some [] | _ => None end) 0 0).
  { unfold filter_pure. cbn [segments]. rewrite segments_kw by exact H. change (zc "_" =? 63) with false.
    cbv iota. cbn [lastseg mlit]. change (zc "_" =? 95) with true. cbv iota.
    destruct (mlit true true (kw ++ ["_"%char]) (skipblanks t)); reflexivity. }
  rewrite F in E. cbn [fr_used fr_caps fr_rem] in E. rewrite Z.add_0_r in E.
  destruct (4000 <=? bufferpos (ct s)); [discriminate|].
  assert (K : (exists r, mlit true true (kw ++ ["_"%char]) (skipblanks t) = MOk r) <-> keyword kw t).
  { rewrite (mlit_kw kw (skipblanks t) H). split.
    - intros (e & w & T & B & M). destruct (skipblanks_split t) as (w1 & T1 & B1 & _).
      exists w1, e, w. repeat split; try assumption. rewrite <- T. exact T1.
    - intros (w1 & e & w & -> & B1 & B & M). exists e, w. split; [|split; assumption].
      rewrite skipblanks_app by exact B1. apply skipblanks_tight.
      destruct kw as [|f kw]; [congruence|]. destruct e as [|c e]; [discriminate|]. cbn [map] in M. injection M as M _.
      cbn [app tight]. intros X. cbn [forallb] in H. apply andb_true_iff in H. destruct H as [H _].
      unfold kwchar in H. subst f. destruct X as [-> | ->]; discriminate H. }
  destruct (mlit true true (kw ++ ["_"%char]) (skipblanks t)) as [r| |] eqn:Q; cbn in E; injection E as <- <-.
  - split; [destruct s as [? ? ? ? ? [] ? ? ? ? ?]; reflexivity|]. split; [intros _|reflexivity]. apply K. exists r. reflexivity.
  - split; [reflexivity|]. split; [discriminate|]. intros X. apply K in X. destruct X as [? X]. discriminate X.
  - split; [reflexivity|]. split; [discriminate|]. intros X. apply K in X. destruct X as [? X]. discriminate X.
Qed.

(** ** Any pattern *)
Lemma skip_gap : forall t, exists g, t = g ++ skipblanks t.
Proof. intros t. destruct (skipblanks_split t) as (w & E & _). exists w. exact E. Qed.

Lemma mlit_gap : forall seg qt last t r, mlit qt last seg t = MOk r -> exists g, t = g ++ r.
Proof.
  induction seg as [|f seg IH]; intros qt last t r H; cbn [mlit] in H.
  - destruct last; [|injection H as <-; exists []; reflexivity].
    destruct t; [|discriminate]. destruct qt; [|discriminate]. injection H as <-. exists []. reflexivity.
  - destruct (zc f =? 95).
    + apply IH in H. destruct H as [g E]. destruct (skip_gap t) as [g' E']. exists (g' ++ g).
      rewrite <- app_assoc, <- E. exact E'.
    + destruct t as [|c t]; [discriminate|]. destruct (qt && charmatch f c); [|discriminate].
      apply IH in H. destruct H as [g ->]. exists (c :: g). reflexivity.
Qed.

Lemma scattered_gap : forall l g t, scattered l t -> scattered l (g ++ t).
Proof.
  intros l g t H. destruct H as [t|gap c l t H]; [constructor|]. rewrite app_assoc. constructor. exact H.
Qed.

Lemma wild_scattered : forall k seg last rem starts q cap l,
  (forall q s l, fr_caps (k q s) = Some l -> scattered l s) ->
  fr_caps (wildloop k seg last rem starts q cap) = Some l ->
  exists a b l', starts = a ++ b /\ l = (rev cap ++ a) :: l' /\ scattered l' b.
Proof.
  intros k seg last rem starts. induction starts as [|c starts IH]; intros q cap l K E; cbn [wildloop] in E.
  - destruct (mlit (qzero q) last seg []) as [s'| |] eqn:Q; try discriminate E. destruct (mlit_gap _ _ _ _ _ Q) as [g G].
    destruct last; cbn [fr_caps] in E.
    + injection E as <-. exists [], [], []. rewrite (app_nil_r (rev cap)). repeat split. constructor.
    + destruct (fr_caps (k q s')) as [l'|] eqn:Ek; [|discriminate]. injection E as <-.
      exists [], [], l'. rewrite (app_nil_r (rev cap)). repeat split. rewrite G. apply scattered_gap. apply (K _ _ _ Ek).
  - destruct (mlit (qzero q) last seg (c :: starts)) as [s'| |] eqn:Q; try discriminate E.
    + destruct (mlit_gap _ _ _ _ _ Q) as [g G]. destruct last; cbn [fr_caps] in E.
      * injection E as <-. exists [], (c :: starts), []. rewrite (app_nil_r (rev cap)). repeat split. constructor.
      * destruct (fr_caps (k q s')) as [l'|] eqn:Ek; [|discriminate]. injection E as <-.
        exists [], (c :: starts), l'. rewrite (app_nil_r (rev cap)). repeat split. rewrite G. apply scattered_gap. apply (K _ _ _ Ek).
    + apply IH in E; [|exact K]. destruct E as (a & b & l' & -> & -> & S). exists (c :: a), b, l'.
      cbn [rev]. rewrite <- app_assoc. repeat split. exact S.
Qed.

Lemma fwild_scattered : forall segs q s l, fr_caps (fwild segs q s) = Some l -> scattered l s.
Proof.
  induction segs as [|seg segs IH]; intros q s l E; [discriminate|].
  assert (W : forall last, fr_caps (wildloop (fwild segs) seg last (zlen s) s q []) = Some l -> scattered l s).
  { intros last X. apply wild_scattered in X; [|exact IH]. destruct X as (a & b & l' & -> & -> & S).
    exact (sc_cons [] a l' b S). }
  cbn [fwild] in E. destruct seg as [|x seg]; [|apply W in E; exact E].
  destruct segs; [|apply W in E; exact E]. injection E as <-.
  pose proof (sc_cons [] s [] [] (sc_nil [])) as K. rewrite app_nil_r in K. exact K.
Qed.

Theorem filter_scattered : forall s pat l, fr_caps (filter_pure s pat) = Some l -> scattered l s.
Proof.
  intros s pat l E. unfold filter_pure in E. destruct (segments pat) as [h t].
  destruct (mlit true (lastseg t) h s) as [s'| |] eqn:Q; try discriminate E.
  destruct t as [|x t]; [injection E as <-; constructor|]. destruct (mlit_gap _ _ _ _ _ Q) as [g ->].
  apply scattered_gap. exact (fwild_scattered _ _ _ _ E).
Qed.

Theorem filterc_scattered : forall t pat s l n s', filterc t pat s = (Ok (Some (l, n)), s') -> scattered l t.
Proof.
  intros t pat s l n s' E. unfold filterc, bind in E. cbn [gets] in E. destruct (4000 <=? _); [discriminate|].
  destruct (fr_caps (filter_pure t pat)) as [l'|] eqn:Q; [|discriminate].
  cbn in E. injection E as <- _ _. exact (filter_scattered _ _ _ Q).
Qed.
