(** The matcher on patterns with at most one wildcard. *)
From Coq Require Import String Ascii ZArith List Bool Lia ZifyBool.
From Verif Require Import Base State Filter BaseFacts FilterFacts SplitFacts SpecForms.
From Verif Require SpecSplit.
Import ListNotations.
Open Scope Z_scope.

(** Patterns without blanks. *)
Definition sign (f : ascii) : bool := negb (isblank f) && negb (zc f =? 63).
Definition nonblank (c : ascii) : bool := negb (isblank c).
Definition letters (t : str) : nat := List.length (List.filter nonblank t).
Definition signs (p : str) : nat := List.length (List.filter (fun c => negb (zc c =? 95)) p).

Lemma under : forall c, (zc c =? 95) = true <-> c = "_"%char.
Proof. intros c. rewrite (zc_eqb c 95 "_"%char eq_refl). apply Ascii.eqb_eq. Qed.
Lemma toupper_blank : forall c, isblank (toupper c) = isblank c.
Proof.
  intros c. unfold toupper, islower. destruct (_ && _) eqn:E; [|reflexivity].
  unfold isblank. rewrite zc_cz_small by lia. lia.
Qed.
Lemma charmatch_sign : forall f c, isblank f = false -> (charmatch f c = true <-> SpecSplit.upper f = SpecSplit.upper c).
Proof.
  intros f c B. unfold charmatch. rewrite !upper_toupper. unfold isblank in B.
  rewrite Bool.orb_true_iff, Bool.andb_true_iff, Ascii.eqb_eq. split; [intros [H|[H _]]; [exact H|lia]|auto].
Qed.
Lemma upper_nonblank : forall c d, SpecSplit.upper c = SpecSplit.upper d -> isblank c = false -> isblank d = false.
Proof. intros c d E B. rewrite !upper_toupper in E. rewrite <- toupper_blank, <- E, toupper_blank. exact B. Qed.

Lemma letters_app : forall a b, letters (a ++ b) = (letters a + letters b)%nat.
Proof. intros a b. unfold letters. rewrite List.filter_app, app_length. reflexivity. Qed.
Lemma letters_blank : forall w, Forall SpecSplit.blank w -> letters w = 0%nat.
Proof.
  induction 1 as [|c w B F IH]; [reflexivity|]. unfold letters in *. cbn [List.filter]. apply blank_isblank in B.
  unfold nonblank at 1. rewrite B. exact IH.
Qed.
Lemma letters_skip : forall t, letters (skipblanks t) = letters t.
Proof.
  intros t. destruct (skipblanks_split t) as (w & E & B & _). rewrite E at 2. rewrite letters_app, (letters_blank w B). reflexivity.
Qed.
Lemma spells_letters : forall p t, forallb sign p = true -> spells p t -> letters t = signs p.
Proof.
  intros p t S H. induction H as [|p w t W H IH|c p d t N U H IH]; [reflexivity|..]; cbn [forallb] in S; apply andb_prop in S; destruct S as [Sc S].
  - rewrite letters_app, letters_blank by exact W. rewrite IH by exact S. reflexivity.
  - unfold sign in Sc. assert (B : isblank c = false) by (destruct (isblank c); [discriminate Sc|reflexivity]).
    apply (upper_nonblank c d U) in B. unfold letters, signs in *. cbn [List.filter]. unfold nonblank at 1. rewrite B. cbn [negb List.length].
    destruct (zc c =? 95) eqn:E; [apply under in E; contradiction|]. cbn [negb List.length]. rewrite IH by exact S. reflexivity.
Qed.

Lemma spells_skip : forall p t, forallb sign p = true -> spells p t -> spells p (skipblanks t).
Proof.
  intros p t S H. induction H as [|p w t W H IH|c p d t N U H IH]; [constructor|..]; cbn [forallb] in S; apply andb_prop in S; destruct S as [Sc S].
  - rewrite skipblanks_app by exact W. apply (sp_blanks p []); [constructor|]. apply IH. exact S.
  - unfold sign in Sc. assert (B : isblank c = false) by (destruct (isblank c); [discriminate Sc|reflexivity]).
    apply (upper_nonblank c d U) in B. rewrite skipblanks_tight; [constructor; assumption|].
    cbn. intros X. apply blank_isblank in X. congruence.
Qed.

Lemma mlit_sound : forall seg s r last, forallb sign seg = true -> mlit true last seg s = MOk r ->
  exists x, s = x ++ r /\ spells seg x /\ (last = true -> r = []).
Proof.
  induction seg as [|f seg IH]; intros s r last S H; cbn [mlit] in H.
  - exists []. destruct last.
    + destruct s; [injection H as <-|discriminate H]. repeat split. constructor.
    + injection H as <-. repeat split; [constructor|discriminate].
  - cbn [forallb] in S. apply andb_prop in S. destruct S as [Sf S]. destruct (zc f =? 95) eqn:U.
    + apply under in U. subst f. destruct (IH _ _ _ S H) as (x & E & X & L).
      destruct (skipblanks_split s) as (w & Es & B & _). exists (w ++ x).
      rewrite Es, E, app_assoc. repeat split; [constructor; assumption|exact L].
    + destruct s as [|c s]; [discriminate H|]. cbn [andb] in H. destruct (charmatch f c) eqn:C; [|discriminate H].
      destruct (IH _ _ _ S H) as (x & -> & X & L). exists (c :: x). repeat split; [|exact L].
      constructor; [|apply charmatch_sign; [|exact C]|exact X].
      * intros ->. discriminate U.
      * unfold sign in Sf. destruct (isblank f); [discriminate Sf|reflexivity].
Qed.
Lemma mlit_complete : forall seg s, forallb sign seg = true -> spells seg s -> mlit true true seg s = MOk [].
Proof.
  induction seg as [|f seg IH]; intros s S H.
  - inversion H. reflexivity.
  - cbn [forallb] in S. apply andb_prop in S. destruct S as [Sf S]. cbn [mlit].
    inversion H as [|p w t W X|c p d t N U X]; subst.
    + change (zc "_"%char =? 95) with true. cbv iota. apply IH; [exact S|].
      rewrite skipblanks_app by exact W. apply spells_skip; assumption.
    + destruct (zc f =? 95) eqn:E; [apply under in E; contradiction|]. cbn [andb].
      rewrite (proj2 (charmatch_sign f d ltac:(unfold sign in Sf; destruct (isblank f); [discriminate Sf|reflexivity])) U).
      apply IH; assumption.
Qed.
Lemma skip_skip : forall t, skipblanks (skipblanks t) = skipblanks t.
Proof. intros t. destruct (skipblanks_split t) as (w & _ & _ & T). apply skipblanks_tight. exact T. Qed.
(** A prefix that is spelled is read. *)
Lemma mlit_prefix : forall seg x r, forallb sign seg = true -> spells seg x ->
  exists r', mlit true false seg (x ++ r) = MOk r' /\ (r' = r \/ r' = skipblanks r).
Proof.
  induction seg as [|f seg IH]; intros x r S H.
  - inversion H. exists r. split; [reflexivity|left; reflexivity].
  - cbn [forallb] in S. apply andb_prop in S. destruct S as [Sf S]. cbn [mlit].
    inversion H as [|p w t W X|c p d t N U X]; subst.
    + change (zc "_"%char =? 95) with true. cbv iota. rewrite <- app_assoc, skipblanks_app by exact W.
      destruct seg as [|g seg'].
      * inversion X. subst t. cbn [app mlit]. exists (skipblanks r). auto.
      * assert (Q : skipblanks (t ++ r) = skipblanks t ++ r \/ t = [] \/ Forall SpecSplit.blank t).
        { destruct (skipblanks_split t) as (w' & Et & B & T). destruct (skipblanks t) as [|a u] eqn:K.
          - right. right. rewrite Et, app_nil_r. exact B.
          - left. rewrite Et, <- app_assoc, skipblanks_app by exact B. rewrite skipblanks_tight; [reflexivity|exact T]. }
        destruct Q as [Q|[Q|Q]].
        -- rewrite Q. apply IH; [exact S|]. apply spells_skip; assumption.
        -- subst t. cbn [app]. assert (G : g = "_"%char).
           { inversion X; reflexivity. }
           assert (X' : spells (g :: seg') []) by exact X.
           destruct (IH [] r S X') as (r' & M & R). subst g. cbn [mlit] in *. change (zc "_"%char =? 95) with true in *. cbv iota in *.
           cbn [app] in M. rewrite skip_skip. exists r'. auto.
        -- rewrite skipblanks_app by exact Q. destruct (IH t r S X) as (r' & M & R).
           assert (G : g = "_"%char).
           { inversion X as [|p0 w0 t0 W0 X0|c p0 d t0 N U X0]; subst; [reflexivity|exfalso].
             inversion Q as [|? ? Bd]; subst. apply blank_isblank in Bd. cbn [forallb] in S. apply andb_prop in S. destruct S as [Sg _].
             unfold sign in Sg. assert (Bg : isblank g = false) by (destruct (isblank g); [discriminate Sg|reflexivity]).
             apply (upper_nonblank g d U) in Bg. congruence. }
           subst g. cbn [mlit] in *. change (zc "_"%char =? 95) with true in *. cbv iota in *.
           rewrite skipblanks_app in M by exact Q. rewrite skip_skip. exists r'. auto.
    + destruct (zc f =? 95) eqn:E; [apply under in E; contradiction|]. cbn [andb app].
      rewrite (proj2 (charmatch_sign f d ltac:(unfold sign in Sf; destruct (isblank f); [discriminate Sf|reflexivity])) U).
      apply IH; assumption.
Qed.

Lemma letters_cons : forall c t, (letters (c :: t) <= S (letters t))%nat.
Proof. intros c t. unfold letters. cbn [List.filter]. destruct (nonblank c); cbn [List.length]; lia. Qed.
Lemma mlit_end : forall seg qt s, mlit qt true seg s = MEnd ->
  (letters s < signs seg)%nat \/ (qt = false /\ signs seg = 0%nat).
Proof.
  induction seg as [|f seg IH]; intros qt s H; cbn [mlit] in H.
  - destruct s; [|discriminate H]. destruct qt; [discriminate H|]. right. auto.
  - unfold signs. cbn [List.filter]. destruct (zc f =? 95) eqn:U; cbn [negb].
    + apply IH in H. rewrite letters_skip in H. exact H.
    + cbn [List.length]. destruct s as [|c s]; [left; cbn; lia|]. destruct qt; cbn [andb] in H; [|discriminate H].
      destruct (charmatch f c); [|discriminate H]. apply IH in H. pose proof (letters_cons c s). unfold signs in H.
      destruct H as [H|[H _]]; [lia|discriminate H].
Qed.
Lemma mlit_quiet : forall seg s qt r, (1 <= signs seg)%nat -> mlit qt true seg s = MOk r -> qt = true.
Proof.
  induction seg as [|f seg IH]; intros s qt r S H; [cbn in S; lia|]. cbn [mlit] in H. unfold signs in S. cbn [List.filter] in S.
  destruct (zc f =? 95); cbn [negb] in S; [eapply IH; eassumption|].
  destruct s; [discriminate H|]. destruct qt; [reflexivity|discriminate H].
Qed.

Lemma wild_last : forall k seg rem, forallb sign seg = true -> (1 <= signs seg)%nat -> forall starts q cap,
  match fr_caps (wildloop k seg true rem starts q cap) with
  | Some l => exists a y, starts = a ++ y /\ l = [rev cap ++ a] /\ qzero (fold_left qstep a q) = true /\ spells seg y
  | None => forall a y, starts = a ++ y -> qzero (fold_left qstep a q) = true -> ~ spells seg y
  end.
Proof.
  intros k seg rem S Sg. induction starts as [|c starts IH]; intros q cap; cbn [wildloop].
  - destruct (mlit (qzero q) true seg []) as [r| |] eqn:M; cbn [fr_caps].
    + pose proof (mlit_quiet _ _ _ _ Sg M) as Q. rewrite Q in M. destruct (mlit_sound _ _ _ _ S M) as (x & E & X & L).
      rewrite (L eq_refl), app_nil_r in E. subst x. exists [], []. rewrite (app_nil_r (rev cap)). auto.
    + intros a y E Q H. destruct a; [|discriminate E]. cbn in E, Q. subst y. rewrite Q in M. rewrite (mlit_complete _ _ S H) in M. discriminate M.
    + intros a y E Q H. destruct a; [|discriminate E]. cbn in E, Q. subst y. rewrite Q in M. rewrite (mlit_complete _ _ S H) in M. discriminate M.
  - destruct (mlit (qzero q) true seg (c :: starts)) as [r| |] eqn:M; cbn [fr_caps].
    + pose proof (mlit_quiet _ _ _ _ Sg M) as Q. rewrite Q in M. destruct (mlit_sound _ _ _ _ S M) as (x & E & X & L).
      rewrite (L eq_refl), app_nil_r in E. subst x. exists [], (c :: starts). rewrite (app_nil_r (rev cap)). auto.
    + intros a y E Q H. apply mlit_end in M. pose proof (spells_letters _ _ S H) as Le.
      assert (letters (c :: starts) = letters a + letters y)%nat by (rewrite E; apply letters_app). destruct M as [M|[_ M]]; lia.
    + specialize (IH (qstep q c) (c :: cap)). destruct (fr_caps _) as [l|].
      * destruct IH as (a & y & -> & -> & Q & H). exists (c :: a), y. cbn [rev fold_left]. rewrite <- app_assoc. auto.
      * intros a y E Q H. destruct a as [|c' a].
        -- cbn in E, Q. subst y. rewrite Q in M. rewrite (mlit_complete _ _ S H) in M. discriminate M.
        -- injection E as <- E. exact (IH a y E Q H).
Qed.

Lemma quiet_outside : forall a, qzero (fold_left qstep a q0) = true <-> SpecSplit.outside a.
Proof.
  intros a. destruct (fold_view a q0 eq_refl) as [V S]. rewrite (qzero_view _ S), V. reflexivity.
Qed.
Lemma outside_blanks : forall w a, Forall SpecSplit.blank w -> SpecSplit.outside (w ++ a) -> SpecSplit.outside a.
Proof.
  induction 1 as [|c w B F IH]; intros H; [exact H|]. apply IH. unfold SpecSplit.outside in *. cbn [app fold_left] in H.
  destruct B as [->| ->]; exact H.
Qed.

(** The form a pattern stands for. *)
Definition form_of (pat : str) : option form :=
  match segments pat with
  | (h, []) => if forallb sign h then Some (Fixed h) else None
  | (h, [p]) => if forallb sign h && forallb sign p && (match p with [] => true | _ => (1 <=? signs p)%nat end) then Some (Free h p) else None
  | _ => None
  end.

Theorem filter_form : forall pat f t, form_of pat = Some f ->
  match fr_caps (filter_pure t pat) with
  | Some l => exists a, fits f t a /\ match f with Fixed _ => l = [] | Free _ _ => l = [a] end
  | None => forall b, ~ fits f t b
  end.
Proof.
  intros pat f t F. unfold form_of in F. unfold filter_pure. destruct (segments pat) as [h [|p [|p2 ps]]]; [..|discriminate F].
  - destruct (forallb sign h) eqn:S; [|discriminate F]. injection F as <-. cbn [lastseg].
    destruct (mlit true true h t) as [r| |] eqn:M; cbn [fr_caps].
    + destruct (mlit_sound _ _ _ _ S M) as (x & E & X & L). rewrite (L eq_refl), app_nil_r in E. subst x. exists []. split; [constructor; exact X|reflexivity].
    + intros b H. inversion H. subst. rewrite (mlit_complete _ _ S) in M by assumption. discriminate M.
    + intros b H. inversion H. subst. rewrite (mlit_complete _ _ S) in M by assumption. discriminate M.
  - destruct (forallb sign h) eqn:S; [|discriminate F]. destruct (forallb sign p) eqn:Sp; [|discriminate F]. cbn [andb] in F.
    destruct (match p with [] => true | _ :: _ => (1 <=? signs p)%nat end) eqn:C; [|discriminate F]. injection F as <-. cbn [lastseg].
    assert (Pre : forall b, fits (Free h p) t b -> exists a' y', mlit true false h t = MOk (a' ++ y') /\ spells p y' /\ (p <> [] -> SpecSplit.outside a')).
    { intros b H. inversion H as [|h' p' x a y X Y O]; subst. destruct (mlit_prefix h x (b ++ y) S X) as (r' & M & R).
      destruct R as [->| ->]; [exists b, y; auto|].
      destruct (skipblanks_split b) as (w & E & B & T). destruct (skipblanks b) as [|a0 u] eqn:K.
      - rewrite app_nil_r in E. subst w. rewrite skipblanks_app in M by exact B. exists [], (skipblanks y).
        split; [exact M|]. split; [apply spells_skip; assumption|]. intros _. reflexivity.
      - exists (a0 :: u), y. assert (Q : skipblanks (b ++ y) = (a0 :: u) ++ y).
        { rewrite E, <- app_assoc, skipblanks_app by exact B. apply (skipblanks_tight ((a0 :: u) ++ y)). exact T. }
        rewrite Q in M. split; [exact M|]. split; [exact Y|].
        intros N. apply (outside_blanks w); [exact B|]. rewrite <- E. apply O. exact N. }
    destruct (mlit true false h t) as [r| |] eqn:M; [|intros b H; destruct (Pre b H) as (? & ? & D & _); discriminate D|intros b H; destruct (Pre b H) as (? & ? & D & _); discriminate D].
    destruct (mlit_sound _ _ _ _ S M) as (x & -> & X & _).
    destruct p as [|p0 p].
    + cbn [fwild fr_caps]. exists r. split; [|reflexivity]. replace (x ++ r) with (x ++ r ++ []) by (rewrite app_nil_r; reflexivity).
      constructor; [exact X|constructor|congruence].
    + change (fwild [p0 :: p] q0 r) with (wildloop (fwild []) (p0 :: p) true (zlen r) r q0 []).
      assert (Sg : (1 <= signs (p0 :: p))%nat) by lia.
      pose proof (wild_last (fwild []) (p0 :: p) (zlen r) Sp Sg r q0 []) as W. destruct (fr_caps _) as [l|].
      * destruct W as (a & y & -> & -> & Q & Y). exists a. split; [|reflexivity]. constructor; [exact X|exact Y|].
        intros _. apply quiet_outside. exact Q.
      * intros b H. destruct (Pre b H) as (a' & y' & [= E] & Y & O). apply (W a' y' E); [|exact Y].
        apply quiet_outside. apply O. discriminate.
Qed.

Theorem filterc_form : forall pat f t s r s', form_of (s2l pat) = Some f -> filterc t (s2l pat) s = (Ok r, s') ->
  match r with
  | Some (l, _) => exists a, fits f t a /\ match f with Fixed _ => l = [] | Free _ _ => l = [a] end
  | None => forall b, ~ fits f t b
  end.
Proof.
  intros pat f t s r s' F H. pose proof (filter_form _ _ t F) as K. unfold filterc, bind in H. cbn [gets] in H.
  destruct (4000 <=? _); [discriminate H|]. destruct (fr_caps _) as [l|]; injection H as <- _; exact K.
Qed.
