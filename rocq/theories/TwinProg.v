(** Two runs of the program that differ in the listing options.  Nothing here is part of the model. *)
From Coq Require Import String Ascii ZArith List Bool Lia.
From Verif Require Import Base BaseFacts State Output Label Pseudos Macro Cpu6800 Crasm Walk TwinFacts FuelFacts SpecTwin.
Import ListNotations.
Open Scope Z_scope.

Definition alike (o o' : options) : Prop := o_scode o = o_scode o' /\ o_input o = o_input o'.

Lemma observed : forall n n' o o' s out out' obj obj', o_scode o = o_scode o' ->
  observe n o s = Seen out 0 obj -> observe n' o' s = Seen out' 0 obj' -> obj = obj'.
Proof.
  intros n n' o o' s out out' obj obj' A E E'.
  apply (observe_budget n (Nat.max n n')) in E; [|lia|discriminate].
  apply (observe_budget n' (Nat.max n n')) in E'; [|lia|discriminate].
  assert (G : ogiven (o_scode o) = ogiven (o_scode o')) by (rewrite A; reflexivity).
  pose proof (twins_assemble (Nat.max n n') o o' G s s eq_refl) as T. unfold observe in E, E'.
  destruct (assemble (Nat.max n n') o s) as [[u|b] s1]; [|destruct b; discriminate].
  destruct (assemble (Nat.max n n') o' s) as [[u'|b'] t1]; [|destruct b'; discriminate].
  destruct T as [_ V].
  assert (X : obj = leftover o s1).
  { destruct (symbols o s1) as [[v|[]] s2]; try discriminate; injection E; auto. }
  assert (Y : obj' = leftover o' t1).
  { destruct (symbols o' t1) as [[v|[]] s2]; try discriminate; injection E'; auto. }
  rewrite X, Y. unfold leftover. rewrite A.
  assert (W : wr s1 = wr t1) by exact (f_equal wr V).
  assert (C : errnumber (ct s1) = errnumber (ct t1)) by exact (f_equal (fun x => errnumber (ct x)) V).
  rewrite W, C. reflexivity.
Qed.

Definition agreed (x y : options + string) : Prop :=
  match x, y with inl o, inl o' => alike o o' | inr _, inr _ => True | _, _ => False end.
Lemma cluster_alike : forall s next o o', alike o o' ->
  match cluster s next o, cluster s next o' with
  | Some (p, b), Some (p', b') => b = b' /\ alike p p'
  | None, None => True
  | _, _ => False
  end.
Proof.
  induction s as [|c s IH]; intros next o o' [A B]; cbn [cluster]; [repeat split; assumption|].
  destruct (zc c =? 115); [apply IH; split; assumption|].
  destruct (zc c =? 108); [apply IH; split; assumption|].
  destruct (zc c =? 120); [apply IH; split; assumption|].
  destruct (zc c =? 111); [|exact I]. rewrite A.
  destruct s as [|d s]; [|apply IH; split; assumption].
  destruct next as [name|]; [|apply IH; split; assumption].
  destruct (o_scode o') eqn:E; [apply IH; split; congruence|]. repeat split; cbn; auto.
Qed.
Lemma lastarg_alike : forall o o', alike o o' -> agreed (lastarg o) (lastarg o').
Proof. intros o o' [A B]. unfold lastarg. rewrite B. destruct (o_input o') eqn:E; cbn; [|exact I]. split; congruence. Qed.
Lemma arguments_alike : forall l o o', alike o o' -> agreed (arguments l o) (arguments l o').
Proof.
  intros l. remember (length l) as n. assert (L : (length l <= n)%nat) by lia. clear Heqn. revert l L.
  induction n as [|n IH]; intros [|w l] L o o' A; cbn [length] in L; try (apply lastarg_alike; exact A); [lia|].
  assert (K : forall p, agreed
    (match o_input o with Some _ => inr "One input only"%string | None => arguments l (mkOpt o.(o_scode) o.(o_list) o.(o_warn) o.(o_xref) (Some p)) end)
    (match o_input o' with Some _ => inr "One input only"%string | None => arguments l (mkOpt o'.(o_scode) o'.(o_list) o'.(o_warn) o'.(o_xref) (Some p)) end)).
  { intros p. destruct A as [A B]. rewrite B. destruct (o_input o'); [exact I|]. apply IH; [lia|]. split; cbn; [exact A|reflexivity]. }
  cbn [arguments]. destruct w as [|c s]; [apply K|]. destruct (zc c =? 45); [|apply K].
  destruct l as [|name l].
  - pose proof (cluster_alike s None o o' A) as C. destruct (cluster s None o) as [[p b]|], (cluster s None o') as [[p' b']|]; try contradiction; [|exact I].
    apply lastarg_alike. apply C.
  - pose proof (cluster_alike s (Some name) o o' A) as C. cbn [length] in L.
    destruct (cluster s (Some name) o) as [[p b]|], (cluster s (Some name) o') as [[p' b']|]; try contradiction; [|exact I].
    destruct C as [<- C]. destruct b; apply IH; cbn [length]; auto; lia.
Qed.
Lemma alike_refl : forall o, alike o o.
Proof. split; reflexivity. Qed.
Lemma alike_sym : forall o o', alike o o' -> alike o' o.
Proof. intros o o' [A B]. split; congruence. Qed.
Lemma agreed_sym : forall x y, agreed x y -> agreed y x.
Proof. intros [o|m] [o'|m']; cbn; auto using alike_sym. Qed.
Lemma agreed_trans : forall x y z, agreed x y -> agreed y z -> agreed x z.
Proof. intros [o|m] [o'|m'] [o''|m'']; cbn; try tauto. intros [A B] [C D]. split; congruence. Qed.
Lemma letters_cluster : forall s next o, Forall listing_letter s -> exists p, cluster s next o = Some (p, false) /\ alike p o.
Proof.
  induction s as [|c s IH]; intros next o H; [exists o; split; [reflexivity|apply alike_refl]|].
  inversion_clear H as [|? ? C F]. destruct C as [->|[->| ->]]; cbn [cluster].
  - destruct (IH next (mkOpt o.(o_scode) false o.(o_warn) o.(o_xref) o.(o_input)) F) as (p & E & A). exists p. split; [exact E|exact A].
  - destruct (IH next (mkOpt o.(o_scode) o.(o_list) false o.(o_xref) o.(o_input)) F) as (p & E & A). exists p. split; [exact E|exact A].
  - destruct (IH next (mkOpt o.(o_scode) o.(o_list) o.(o_warn) true o.(o_input)) F) as (p & E & A). exists p. split; [exact E|exact A].
Qed.
Lemma arguments_option : forall c s n k o, zc c = 45 -> arguments ((c :: s) :: n :: k) o = match cluster s (Some n) o with
  | Some (o', true) => arguments k o' | Some (o', false) => arguments (n :: k) o' | None => inr "Bad Option(s)"%string end.
Proof. intros c s n k o E. cbn [arguments]. rewrite E. reflexivity. Qed.
Lemma word_arguments : forall w l o, listing_word w -> agreed (arguments (w :: l) o) (arguments l o).
Proof.
  intros w l o [t F].
  destruct l as [|name l].
  - cbn [arguments]. change (zc "-"%char =? 45) with true. cbv iota. destruct (letters_cluster t None o F) as (p & -> & A). apply lastarg_alike. exact A.
  - rewrite arguments_option by reflexivity. destruct (letters_cluster t (Some name) o F) as (p & -> & A). apply arguments_alike. exact A.
Qed.
Lemma not_taken : forall s n o, (forall t, s <> t ++ ["o"%char]) ->
  match cluster s (Some n) o with Some (p, b) => b = false /\ cluster s None o = Some (p, false) | None => cluster s None o = None end.
Proof.
  induction s as [|c s IH]; intros n o N; cbn [cluster]; [auto|].
  assert (N' : forall t, s <> t ++ ["o"%char]) by (intros t ->; apply (N (c :: t)); reflexivity).
  destruct (zc c =? 115); [apply IH; exact N'|]. destruct (zc c =? 108); [apply IH; exact N'|]. destruct (zc c =? 120); [apply IH; exact N'|].
  destruct (zc c =? 111) eqn:E; [|reflexivity]. destruct s as [|d s].
  - exfalso. apply (N []). apply Z.eqb_eq in E. cbn [app]. f_equal. rewrite <- (cz_zc c), E. reflexivity.
  - apply IH; exact N'.
Qed.
Lemma plain_word : forall w l l' o, (forall t, w <> "-"%char :: t) -> (forall o, agreed (arguments l o) (arguments l' o)) ->
  agreed (arguments (w :: l) o) (arguments (w :: l') o).
Proof.
  intros w l l' o N H. cbn [arguments]. destruct w as [|c s]; [destruct (o_input o); [exact I|apply H]|].
  destruct (zc c =? 45) eqn:E; [|destruct (o_input o); [exact I|apply H]].
  exfalso. apply Z.eqb_eq in E. apply (N s). f_equal. rewrite <- (cz_zc c), E. reflexivity.
Qed.
Lemma same_arguments : forall l l', same_but_listing l l' -> forall o, agreed (arguments l o) (arguments l' o).
Proof.
  intros l l' H. induction H as [l|w l l' W H IH|w l l' W H IH|w l l' N H IH|w n l l' N H IH]; intros o.
  - apply arguments_alike, alike_refl.
  - eapply agreed_trans; [apply word_arguments; exact W|apply IH].
  - apply agreed_sym. eapply agreed_trans; [apply word_arguments; exact W|apply agreed_sym, IH].
  - destruct w as [|c s]; [apply plain_word; [discriminate|exact IH]|].
    destruct (zc c =? 45) eqn:E.
    + apply Z.eqb_eq in E. assert (C : c = "-"%char) by (rewrite <- (cz_zc c), E; reflexivity). subst c.
      assert (N' : forall t, s <> t ++ ["o"%char]) by (intros t ->; apply (N t); reflexivity).
      assert (K : forall l, match cluster s None o with
                            | Some (p, _) => agreed (arguments (("-"%char :: s) :: l) o) (arguments l p)
                            | None => agreed (arguments (("-"%char :: s) :: l) o) (inr EmptyString) end).
      { intros [|n k].
        - cbn [arguments]. change (zc "-"%char =? 45) with true. cbv iota. destruct (cluster s None o) as [[p b]|]; [|exact I].
          apply lastarg_alike, alike_refl.
        - pose proof (not_taken s n o N') as T.
          rewrite arguments_option by reflexivity.
          revert T. change str with (list ascii). destruct (cluster s (Some n) o) as [[p b]|]; [|intros ->; exact I].
          intros [-> ->]. apply arguments_alike, alike_refl. }
      pose proof (K l) as A. pose proof (K l') as B. destruct (cluster s None o) as [[p b]|].
      * eapply agreed_trans; [exact A|]. eapply agreed_trans; [apply IH|]. apply agreed_sym. exact B.
      * eapply agreed_trans; [exact A|]. apply agreed_sym. exact B.
    + apply plain_word; [|exact IH]. intros t [= -> ->]. discriminate E.
  - destruct w as [|c s]; [apply plain_word; [discriminate|intros; apply plain_word; assumption]|].
    destruct (zc c =? 45) eqn:E; [|apply plain_word; [|intros; apply plain_word; assumption]].
    + apply Z.eqb_eq in E. rewrite !arguments_option by exact E. destruct (cluster s (Some n) o) as [[p [|]]|]; [apply IH|apply (plain_word n l l' p N IH)|exact I].
    + intros t [= -> ->]. discriminate E.
Qed.
Theorem same_object : forall n n' fs args args' out out' obj obj', same_but_listing args args' ->
  program n fs args = Seen out 0 obj -> program n' fs args' = Seen out' 0 obj' -> obj = obj'.
Proof.
  intros n n' fs args args' out out' obj obj' H E E'. pose proof (same_arguments args args' H opt0) as A. unfold program in E, E'.
  destruct (arguments args opt0) as [o|m]; [|discriminate]. destruct (arguments args' opt0) as [o'|m']; [|discriminate].
  cbn in A. destruct A as [A B]. rewrite <- B in E'. destruct (o_input o) as [name|]; [|discriminate]. destruct (fs name) as [text|]; [|discriminate].
  apply (observed n n' o o' _ _ _ _ _ A E E').
Qed.
