(** Lemmas on the pattern matcher. *)
From Coq Require Import String Ascii ZArith List Bool Lia ZifyBool ZifyNat.
From Verif Require Import Base BaseFacts State Filter.
Import ListNotations.
Open Scope Z_scope.

(** ** What a successful match needs *)
Lemma skipblanks_incl : forall s c, In c (skipblanks s) -> In c s.
Proof.
  induction s as [|d s IH]; intros c H; [exact H|]. cbn [skipblanks] in H.
  destruct (isblank d); [right; apply IH; exact H|exact H].
Qed.

Lemma mlit_rest : forall q last seg s r, mlit q last seg s = MOk r -> forall c, In c r -> In c s.
Proof.
  intros q last. induction seg as [|f seg IH]; intros s r H c Hc; cbn [mlit] in H.
  - destruct last; [destruct s; [destruct q|]; try discriminate; injection H as <-; contradiction|].
    injection H as <-. exact Hc.
  - destruct (zc f =? 95); [apply skipblanks_incl; apply (IH _ _ H); exact Hc|].
    destruct s as [|d s]; [discriminate|]. destruct (q && charmatch f d); [|discriminate].
    right. apply (IH _ _ H). exact Hc.
Qed.

Lemma mlit_needs : forall q last seg s r, mlit q last seg s = MOk r ->
  forall f, In f seg -> zc f <> 95 -> exists c, In c s /\ charmatch f c = true.
Proof.
  intros q last. induction seg as [|g seg IH]; intros s r H f Hf Hn; [contradiction|].
  cbn [mlit] in H. destruct (zc g =? 95) eqn:E.
  - destruct Hf as [->|Hf]; [lia|]. destruct (IH _ _ H f Hf Hn) as (c & Hc & Hm).
    exists c. split; [apply skipblanks_incl; exact Hc|exact Hm].
  - destruct s as [|d s]; [discriminate|].
    destruct (q && charmatch g d) eqn:Ec; [|discriminate].
    apply andb_true_iff in Ec. destruct Ec as [_ Ec].
    destruct Hf as [->|Hf]; [exists d; split; [left; reflexivity|exact Ec]|].
    destruct (IH _ _ H f Hf Hn) as (c & Hc & Hm). exists c. split; [right; exact Hc|exact Hm].
Qed.

Lemma wildloop_needs : forall k seg last rem s q cap l,
  fr_caps (wildloop k seg last rem s q cap) = Some l ->
  exists q' s1 r, (forall c, In c s1 -> In c s) /\ mlit (qzero q') last seg s1 = MOk r /\
    (last = false -> exists l', fr_caps (k q' r) = Some l').
Proof.
  intros k seg last rem. induction s as [|c s IH]; intros q cap l H; cbn [wildloop] in H.
  - destruct (mlit (qzero q) last seg []) as [r| |] eqn:E; try discriminate.
    exists q, [], r. split; [auto|]. split; [exact E|]. intros ->.
    cbn [fr_caps] in H. destruct (fr_caps (k q r)) as [l'|]; [exists l'; reflexivity|discriminate].
  - destruct (mlit (qzero q) last seg (c :: s)) as [r| |] eqn:E; try discriminate.
    + exists q, (c :: s), r. split; [auto|]. split; [exact E|]. intros ->.
      cbn [fr_caps] in H. destruct (fr_caps (k q r)) as [l'|]; [exists l'; reflexivity|discriminate].
    + destruct (IH _ _ _ H) as (q' & s1 & r & H1 & H2 & H3).
      exists q', s1, r. split; [intros d Hd; right; apply H1; exact Hd|]. split; assumption.
Qed.

Lemma fwild_needs : forall segs q s l, fr_caps (fwild segs q s) = Some l ->
  forall f, In f (List.concat segs) -> zc f <> 95 -> exists c, In c s /\ charmatch f c = true.
Proof.
  induction segs as [|seg segs IH]; intros q s l H f Hf Hn; [contradiction|].
  assert (G : fr_caps (wildloop (fwild segs) seg (lastseg segs) (zlen s) s q []) = Some l ->
    exists c, In c s /\ charmatch f c = true).
  { clear H. intros H. apply wildloop_needs in H. destruct H as (q' & s1 & r & H1 & H2 & H3).
    cbn [List.concat] in Hf. apply in_app_or in Hf. destruct Hf as [Hf|Hf].
    - destruct (mlit_needs _ _ _ _ _ H2 f Hf Hn) as (c & Hc & Hm).
      exists c. split; [apply H1; exact Hc|exact Hm].
    - destruct segs as [|seg' segs']; [contradiction|]. destruct (H3 eq_refl) as [l' H4].
      destruct (IH _ _ _ H4 f Hf Hn) as (c & Hc & Hm).
      exists c. split; [apply H1; apply (mlit_rest _ _ _ _ _ H2); exact Hc|exact Hm]. }
  destruct seg as [|g seg], segs as [|seg' segs]; auto. contradiction.
Qed.

Lemma segments_lits : forall pat f, In f pat -> zc f <> 63 ->
  In f (fst (segments pat)) \/ In f (List.concat (snd (segments pat))).
Proof.
  induction pat as [|g pat IH]; intros f Hf Hn; [contradiction|]. cbn [segments].
  destruct (segments pat) as [h t] eqn:E. cbn [fst snd] in IH.
  destruct (zc g =? 63) eqn:Eg.
  - destruct Hf as [->|Hf]; [lia|]. right. cbn [snd List.concat]. apply in_or_app.
    destruct (IH f Hf Hn); auto.
  - cbn [fst snd In]. destruct Hf as [->|Hf]; [auto|]. destruct (IH f Hf Hn); auto.
Qed.

Lemma filter_needs : forall s pat l, fr_caps (filter_pure s pat) = Some l ->
  forall f, In f pat -> zc f <> 63 -> zc f <> 95 -> exists c, In c s /\ charmatch f c = true.
Proof.
  intros s pat l H f Hf Hw Hn. unfold filter_pure in H.
  pose proof (segments_lits pat f Hf Hw) as K. destruct (segments pat) as [h t]. cbn [fst snd] in K.
  destruct (mlit true (lastseg t) h s) as [r| |] eqn:E; try discriminate.
  destruct K as [K|K].
  - exact (mlit_needs _ _ _ _ _ E f K Hn).
  - destruct t as [|x t]; [contradiction|].
    destruct (fwild_needs _ _ _ _ H f K Hn) as (c & Hc & Hm).
    exists c. split; [apply (mlit_rest _ _ _ _ _ E); exact Hc|exact Hm].
Qed.

(** ** Room needed in the buffer *)
Lemma skipblanks_zlen : forall s, zlen (skipblanks s) <= zlen s.
Proof. intros s. pose proof (skipblanks_length s). unfold zlen. lia. Qed.

Lemma mlit_zlen : forall q last seg s r, mlit q last seg s = MOk r -> zlen r <= zlen s.
Proof.
  intros q last. induction seg as [|f seg IH]; intros s r H; cbn [mlit] in H.
  - destruct last; [destruct s; [destruct q|]; try discriminate; injection H as <-; lia|].
    injection H as <-. lia.
  - destruct (zc f =? 95).
    + apply IH in H. pose proof (skipblanks_zlen s). lia.
    + destruct s as [|d s]; [discriminate|]. destruct (q && charmatch f d); [|discriminate].
      apply IH in H. rewrite zlen_cons. lia.
Qed.

Lemma wildloop_used : forall k m seg last rem,
  (forall q s, 0 <= fr_used (k q s) <= m + zlen s) -> 0 <= m ->
  forall s q cap, 0 <= fr_used (wildloop k seg last rem s q cap) <= 1 + m + zlen s + zlen cap.
Proof.
  intros k m seg last rem Hk Hm. induction s as [|c s IH]; intros q cap; cbn [wildloop];
    pose proof (zlen_nonneg _ cap).
  - destruct (mlit (qzero q) last seg []) as [r| |] eqn:E; cbn [fr_used]; try (rewrite ?zlen_nil; lia).
    destruct last; cbn [fr_used]; [rewrite ?zlen_nil; lia|]. apply mlit_zlen in E.
    specialize (Hk q r). lia.
  - pose proof (zlen_nonneg _ s). destruct (mlit (qzero q) last seg (c :: s)) as [r| |] eqn:E; cbn [fr_used].
    + destruct last; cbn [fr_used]; [rewrite ?zlen_cons; lia|]. apply mlit_zlen in E.
      specialize (Hk q r). lia.
    + rewrite zlen_cons. lia.
    + specialize (IH (qstep q c) (c :: cap)). rewrite zlen_cons in *. lia.
Qed.

Lemma fwild_used : forall segs q s, 0 <= fr_used (fwild segs q s) <= zlen segs + zlen s.
Proof.
  induction segs as [|seg segs IH]; intros q s.
  - cbn [fwild fr_used]. pose proof (zlen_nonneg _ s). rewrite zlen_nil. lia.
  - assert (G : 0 <= fr_used (wildloop (fwild segs) seg (lastseg segs) (zlen s) s q []) <= zlen (seg :: segs) + zlen s).
    { pose proof (wildloop_used (fwild segs) (zlen segs) seg (lastseg segs) (zlen s) IH
         (zlen_nonneg _ segs) s q []) as K. rewrite zlen_nil in K. rewrite zlen_cons. lia. }
    destruct seg as [|g seg], segs as [|seg' segs]; try exact G.
    cbn [fwild fr_used]. pose proof (zlen_nonneg _ s). rewrite zlen_cons, zlen_nil. lia.
Qed.

Lemma filter_used : forall s pat,
  0 <= fr_used (filter_pure s pat) <= zlen (snd (segments pat)) + zlen s.
Proof.
  intros s pat. unfold filter_pure. destruct (segments pat) as [h t]. cbn [snd].
  pose proof (zlen_nonneg _ t). pose proof (zlen_nonneg _ s).
  destruct (mlit true (lastseg t) h s) as [r| |] eqn:E; cbn [fr_used]; try lia.
  destruct t as [|x t]; cbn [fr_used]; [lia|]. apply mlit_zlen in E.
  pose proof (fwild_used (x :: t) q0 r). lia.
Qed.

(** ** The matcher as an operation *)
Definition room (s : state) (t : str) : Prop := s.(ct).(bufferpos) + zlen t + 3 < 4000.
(** Patterns have at most three wildcards. *)
Definition short (pat : str) : Prop := zlen (snd (segments pat)) <= 3.

Lemma filterc_none : forall s t pat, room s t -> short pat ->
  fr_caps (filter_pure t pat) = None -> filterc t pat s = (Ok None, s).
Proof.
  intros s t pat R S H. unfold filterc, bind. cbn [gets]. pose proof (filter_used t pat).
  unfold room, short in *. destruct (4000 <=? _) eqn:E; [lia|]. rewrite H. reflexivity.
Qed.

Lemma filterc_some : forall s t pat l, room s t -> short pat ->
  fr_caps (filter_pure t pat) = Some l ->
  filterc t pat s = (Ok (Some (l, zlen t - fr_rem (filter_pure t pat))),
    set_ct (set_bufferpos (s.(ct).(bufferpos) + fr_used (filter_pure t pat)) s.(ct)) s).
Proof.
  intros s t pat l R S H. unfold filterc, bind. cbn [gets]. pose proof (filter_used t pat).
  unfold room, short in *. destruct (4000 <=? _) eqn:E; [lia|]. rewrite H. reflexivity.
Qed.

(** What a successful match writes: each capture and a final NUL. *)
Fixpoint capsize (l : list str) : Z := match l with [] => 0 | c :: l' => 1 + zlen c + capsize l' end.

Lemma wildloop_size : forall k seg last rem st q cap l,
  (forall q s l, fr_caps (k q s) = Some l -> fr_used (k q s) = capsize l) ->
  fr_caps (wildloop k seg last rem st q cap) = Some l ->
  fr_used (wildloop k seg last rem st q cap) = capsize l.
Proof.
  intros k seg last rem st. induction st as [|c st IH]; intros q cap l K; cbn [wildloop];
    destruct (mlit _ _ _ _) as [r| |]; cbn [fr_caps]; try discriminate; try (apply IH; exact K).
  all: destruct last; cbn [fr_caps fr_used];
    [intros E; injection E as <-; cbn [capsize]; unfold zlen; rewrite rev_length; lia|].
  all: destruct (fr_caps (k q r)) as [l'|] eqn:E; [|discriminate];
    intros E'; injection E' as <-; rewrite (K _ _ _ E); cbn [capsize]; unfold zlen; rewrite rev_length; lia.
Qed.

Lemma fwild_size : forall segs q s l, fr_caps (fwild segs q s) = Some l -> fr_used (fwild segs q s) = capsize l.
Proof.
  induction segs as [|seg segs IH]; intros q s l H; cbn [fwild] in *; [discriminate|].
  destruct seg as [|f seg]; [destruct segs as [|s2 segs]|].
  - cbn [fr_caps fr_used] in *. injection H as <-. cbn [capsize]. lia.
  - apply wildloop_size; assumption.
  - apply wildloop_size; assumption.
Qed.

Lemma filter_size : forall s pat l, fr_caps (filter_pure s pat) = Some l ->
  fr_used (filter_pure s pat) = capsize l.
Proof.
  intros s pat l. unfold filter_pure. destruct (segments pat) as [h t].
  destruct (mlit true (lastseg t) h s) as [r| |]; try discriminate.
  destruct t as [|x t]; [cbn; intros E; injection E as <-; reflexivity|]. apply fwild_size.
Qed.

(** Some literal of the pattern occurs nowhere in the text. *)
Definition lacks (t pat : str) : bool :=
  existsb (fun f => negb (zc f =? 63) && negb (zc f =? 95) &&
                    negb (existsb (charmatch f) t)) pat.

Lemma lacks_none : forall t pat, lacks t pat = true -> fr_caps (filter_pure t pat) = None.
Proof.
  intros t pat H. destruct (fr_caps (filter_pure t pat)) as [l|] eqn:E; [|reflexivity].
  unfold lacks in H. apply existsb_exists in H. destruct H as (f & Hf & H).
  apply andb_true_iff in H. destruct H as [H H3]. apply andb_true_iff in H. destruct H as [H1 H2].
  destruct (filter_needs _ _ _ E f Hf ltac:(lia) ltac:(lia)) as (c & Hc & Hm).
  assert (K : existsb (charmatch f) t = true) by (apply existsb_exists; exists c; auto).
  rewrite K in H3. discriminate.
Qed.

Lemma filter2_lacks : forall s t pat, room s t -> short (s2l pat) -> lacks t (s2l pat) = true ->
  filter2 t pat s = (Ok None, s).
Proof.
  intros s t pat R S H. unfold filter2, bind. rewrite filterc_none; auto using lacks_none.
Qed.
Lemma filter1_lacks : forall s t pat, room s t -> short (s2l pat) -> lacks t (s2l pat) = true ->
  filter1 t pat s = (Ok None, s).
Proof.
  intros s t pat R S H. unfold filter1, bind. rewrite filterc_none; auto using lacks_none.
Qed.

(** ** Reversal of texts without quotes *)
Definition noquote (c : ascii) : bool := negb (zc c =? 39) && negb (zc c =? 34).

Lemma revfix_plain : forall s acc, forallb noquote s = true -> revfix acc s false false = rev acc ++ s.
Proof.
  induction s as [|c s IH]; intros acc H; cbn [revfix].
  - rewrite app_nil_r. reflexivity.
  - cbn [forallb] in H. apply andb_true_iff in H. destruct H as [H1 H2]. unfold noquote in H1.
    destruct (zc c =? 39); [discriminate|]. destruct (zc c =? 34); [discriminate|].
    cbn [orb andb]. rewrite andb_false_r. rewrite IH by exact H2. cbn [rev].
    rewrite <- app_assoc. reflexivity.
Qed.

Lemma reverse_plain : forall s, forallb noquote s = true -> reverse s = rev s.
Proof.
  intros s H. unfold reverse. rewrite revfix_plain; [reflexivity|].
  rewrite forallb_forall in *. intros c Hc. apply H, in_rev. exact Hc.
Qed.

Lemma forallb_rev : forall A (f : A -> bool) l, forallb f (rev l) = forallb f l.
Proof.
  intros A f l. destruct (forallb f l) eqn:E.
  - rewrite forallb_forall in *. intros x Hx. apply E, in_rev. exact Hx.
  - destruct (forallb f (rev l)) eqn:E'; [|reflexivity]. rewrite <- E. rewrite forallb_forall in E'.
    symmetry. apply forallb_forall. intros x Hx. apply E'. apply -> in_rev. exact Hx.
Qed.
