(** Expressions: the parser computes what they are worth. *)
From Coq Require Import String Ascii ZArith List Bool Lia ZifyBool ZifyNat.
From Verif Require Import Base BaseFacts State Tree Filter Output Label Operator Parse.
From Verif Require Import Walk TreeFacts Frame Run FilterFacts ParseFacts NumberFacts SplitFacts SpecEmit Eval.
From Verif Require Import SpecNumbers SpecText TextFacts TokenFacts SpecExpr.
From Verif Require SpecSplit QuoteFacts.
Import ListNotations.
Open Scope Z_scope.
Ltac Zify.zify_post_hook ::= Z.div_mod_to_equations.

(** ** The reversed text as tokens *)
Fixpoint rtoks (e : expr) : list tok :=
  match e with
  | Num t | Sym t => map Q (rev t)
  | Chr q l => [B (reverse (quoted q l))]
  | Here => [Q "*"%char]
  | Group w1 e w2 => [B (")"%char :: rev w2 ++ flat (rtoks e) ++ rev w1 ++ ["("%char])]
  | Fn _ n w w1 e w2 =>
      B (")"%char :: rev w2 ++ flat (rtoks e) ++ rev w1 ++ ["("%char]) :: map Q (rev w) ++ map Q (rev n)
  | Neg w e => rtoks e ++ map Q (rev w) ++ [Q "-"%char]
  | Not w e => rtoks e ++ map Q (rev w) ++ [Q "~"%char]
  | Bin o a w1 w2 b => rtoks b ++ map Q (rev w2) ++ map Q (sign o) ++ map Q (rev w1) ++ rtoks a
  end.

Fixpoint chunks (e : expr) : list chunk :=
  match e with
  | Num t | Sym t => map Bare t
  | Chr q l => [Quoted q l]
  | Here => [Bare "*"%char]
  | Group w1 e w2 => Bare "("%char :: map Bare w1 ++ chunks e ++ map Bare w2 ++ [Bare ")"%char]
  | Fn _ n w w1 e w2 => map Bare n ++ map Bare w ++ Bare "("%char :: map Bare w1 ++ chunks e ++ map Bare w2 ++ [Bare ")"%char]
  | Neg w e => Bare "-"%char :: map Bare w ++ chunks e
  | Not w e => Bare "~"%char :: map Bare w ++ chunks e
  | Bin o a w1 w2 b => chunks a ++ map Bare w1 ++ map Bare (sign o) ++ map Bare w2 ++ chunks b
  end.

(** Words are made of word characters. *)
Fixpoint spelt (e : expr) : Prop :=
  match e with
  | Num t | Sym t => t <> [] /\ forallb plain t = true
  | Chr _ _ | Here => True
  | Group _ e _ | Fn _ _ _ _ e _ | Neg _ e | Not _ e => spelt e
  | Bin _ a _ _ b => spelt a /\ spelt b
  end.

Lemma spelled_app : forall a b, spelled (a ++ b) = spelled a ++ spelled b.
Proof. intros. apply flat_map_app. Qed.
Lemma spelled_bare : forall t, spelled (map Bare t) = t.
Proof. induction t as [|c t IH]; [reflexivity|]. cbn [map]. change (Bare c :: map Bare t) with ([Bare c] ++ map Bare t). rewrite spelled_app, IH. reflexivity. Qed.
Lemma spelled_cons : forall c l, spelled (Bare c :: l) = c :: spelled l.
Proof. reflexivity. Qed.

Lemma chunks_show : forall e, spelled (chunks e) = show e.
Proof.
  induction e; cbn [chunks show]; repeat (rewrite ?spelled_app, ?spelled_cons, ?spelled_bare);
    rewrite ?IHe, ?IHe1, ?IHe2; try reflexivity. cbn. rewrite app_nil_r. reflexivity.
Qed.

Lemma bare_proper : forall t, (forall c, In c t -> c <> "'"%char /\ c <> """"%char /\ c <> "\"%char) -> Forall proper (map Bare t).
Proof. intros t H. apply Forall_forall. intros x X. apply in_map_iff in X. destruct X as (c & <- & C). exact (H c C). Qed.
Lemma blank_proper : forall w, blanks w -> Forall proper (map Bare w).
Proof.
  intros w W. apply bare_proper. intros c C. unfold blanks in W. rewrite Forall_forall in W. destruct (W c C) as [-> | ->]; repeat split; discriminate.
Qed.
Lemma plain_facts : forall c, plain c = true -> calm c = true /\ c <> "'"%char /\ c <> """"%char /\ c <> "\"%char /\
  c <> ")"%char /\ isblank c = false.
Proof.
  intros c H.
  assert (K : forallb (fun c => implb (plain c) (calm c && negb (Ascii.eqb c "'") && negb (Ascii.eqb c """") && negb (Ascii.eqb c "\") &&
     negb (Ascii.eqb c ")") && negb (isblank c))) allchars = true) by (vm_compute; reflexivity).
  pose proof (byte_cases _ K c) as K'. cbv beta in K'. rewrite H in K'. cbn [implb] in K'.
  apply andb_true_iff in K'. destruct K' as [K' K6]. apply andb_true_iff in K'. destruct K' as [K' K5].
  apply andb_true_iff in K'. destruct K' as [K' K4]. apply andb_true_iff in K'. destruct K' as [K' K3].
  apply andb_true_iff in K'. destruct K' as [K1 K2].
  repeat split; try (intros ->; discriminate); try assumption. destruct (isblank c); [discriminate|reflexivity].
Qed.
Lemma fname_proper : forall f n, map SpecSplit.upper n = fname f -> Forall proper (map Bare n) /\ forallb plain n = true /\ n <> [].
Proof.
  assert (K : forallb (fun c => implb (existsb (Ascii.eqb (SpecSplit.upper c)) (fname Low ++ fname High)) (plain c)) allchars = true)
    by (vm_compute; reflexivity).
  intros f n H.
  assert (P : forallb plain n = true).
  { apply forallb_forall. intros c C. pose proof (byte_cases _ K c) as K'. cbv beta in K'.
    assert (I : In (SpecSplit.upper c) (fname Low ++ fname High)).
    { assert (I : In (SpecSplit.upper c) (fname f)) by (rewrite <- H; apply in_map; exact C).
      apply in_or_app. destruct f; [left|right]; exact I. }
    assert (E : existsb (Ascii.eqb (SpecSplit.upper c)) (fname Low ++ fname High) = true).
    { apply existsb_exists. exists (SpecSplit.upper c). split; [exact I|apply Ascii.eqb_refl]. }
    rewrite E in K'. exact K'. }
  split; [|split; [exact P|intros ->; destruct f; discriminate H]].
  apply bare_proper. intros c C. rewrite forallb_forall in P. destruct (plain_facts c (P c C)) as (_ & A & A' & A'' & _). auto.
Qed.

Lemma chunks_proper : forall e, ranked e -> spelt e -> Forall proper (chunks e).
Proof.
  assert (One : forall c, c <> "'"%char /\ c <> """"%char /\ c <> "\"%char -> Forall proper [Bare c]).
  { intros c H. constructor; [exact H|constructor]. }
  assert (Pl : forall t, forallb plain t = true -> Forall proper (map Bare t)).
  { intros t H. apply bare_proper. intros c C. rewrite forallb_forall in H. destruct (plain_facts c (H c C)) as (_ & A & A' & A'' & _). auto. }
  induction e; cbn [ranked spelt chunks]; intros R S.
  - apply Pl, S.
  - apply Pl, S.
  - constructor; [exact R|constructor].
  - apply One. repeat split; discriminate.
  - destruct R as (R1 & R2 & R3). constructor; [repeat split; discriminate|]. repeat (apply Forall_app; split); auto using blank_proper.
    apply One. repeat split; discriminate.
  - destruct R as (R0 & R1 & R2 & R3 & R4). apply Forall_app. split; [apply (fname_proper f); exact R0|].
    apply Forall_app. split; [auto using blank_proper|]. constructor; [repeat split; discriminate|].
    repeat (apply Forall_app; split); auto using blank_proper. apply One. repeat split; discriminate.
  - destruct R as (R1 & R2 & R3). constructor; [repeat split; discriminate|]. apply Forall_app; split; auto using blank_proper.
  - destruct R as (R1 & R2 & R3). constructor; [repeat split; discriminate|]. apply Forall_app; split; auto using blank_proper.
  - destruct R as (R1 & R2 & R3 & R4 & _). destruct S as [S1 S2]. repeat (apply Forall_app; split); auto using blank_proper.
    apply bare_proper. intros c C. destruct o; cbn in C; intuition (subst; discriminate).
Qed.

Lemma reverse_chunks : forall a b, Forall proper a -> Forall proper b ->
  reverse (spelled a ++ spelled b) = reverse (spelled b) ++ reverse (spelled a).
Proof.
  intros a b A B. destruct (chunks_exact a A) as (ga & Ea & Ga). destruct (chunks_exact b B) as (gb & Eb & Gb).
  unfold reverse. rewrite Ea, Eb, <- gspell_app. rewrite !revfix_chunks by (try apply Forall_app; auto).
  rewrite map_app, rev_app_distr, gspell_app. reflexivity.
Qed.
Lemma reverse_bare : forall t, Forall proper (map Bare t) -> reverse t = rev t.
Proof.
  intros t H. apply reverse_plain. apply forallb_forall. intros c C. rewrite Forall_forall in H.
  specialize (H (Bare c) (in_map Bare t c C)). cbn in H. destruct H as (H1 & H2 & _). unfold noquote.
  rewrite (zc_eqb c 39 "'"), (zc_eqb c 34 """") by reflexivity.
  destruct (Ascii.eqb_spec c "'"); [contradiction|]. destruct (Ascii.eqb_spec c """"); [contradiction|]. reflexivity.
Qed.

Lemma reverse_show : forall e, ranked e -> spelt e -> reverse (show e) = flat (rtoks e).
Proof.
  assert (Pl : forall t, forallb plain t = true -> reverse t = rev t).
  { intros t H. apply reverse_plain, plain_noquote, H. }
  assert (Two : forall a b, Forall proper a -> Forall proper b -> reverse (spelled a ++ spelled b) = reverse (spelled b) ++ reverse (spelled a))
    by exact reverse_chunks.
  assert (Cat : forall x y a b, x = spelled a -> y = spelled b -> Forall proper a -> Forall proper b ->
     reverse (x ++ y) = reverse y ++ reverse x).
  { intros x y a b -> -> A B. apply Two; assumption. }
  assert (Bl : forall w, blanks w -> reverse w = rev w).
  { intros w W. apply reverse_bare, blank_proper, W. }
  assert (PB : forall c, c <> "'"%char /\ c <> """"%char /\ c <> "\"%char -> Forall proper [Bare c]).
  { intros c H. constructor; [exact H|constructor]. }
  assert (Par : forall w1 e w2, blanks w1 -> blanks w2 -> ranked e -> spelt e -> reverse (show e) = flat (rtoks e) ->
    reverse ("("%char :: w1 ++ show e ++ w2 ++ [")"%char]) = ")"%char :: rev w2 ++ flat (rtoks e) ++ rev w1 ++ ["("%char]).
  { intros w1 e w2 W1 W2 R S IH.
    pose proof (chunks_proper e R S) as C.
    change ("("%char :: w1 ++ show e ++ w2 ++ [")"%char]) with (["("%char] ++ w1 ++ show e ++ w2 ++ [")"%char]).
    rewrite (Cat ["("%char] (w1 ++ show e ++ w2 ++ [")"%char]) [Bare "("%char] (map Bare w1 ++ chunks e ++ map Bare w2 ++ [Bare ")"%char])).
    - rewrite (Cat w1 (show e ++ w2 ++ [")"%char]) (map Bare w1) (chunks e ++ map Bare w2 ++ [Bare ")"%char])).
      + rewrite (Cat (show e) (w2 ++ [")"%char]) (chunks e) (map Bare w2 ++ [Bare ")"%char])).
        * rewrite (Cat w2 [")"%char] (map Bare w2) [Bare ")"%char]).
          -- rewrite IH, (Bl w1), (Bl w2) by assumption. change (reverse ["("%char]) with ["("%char]. change (reverse [")"%char]) with [")"%char].
             cbn [app]. rewrite <- !app_assoc. reflexivity.
          -- rewrite spelled_bare; reflexivity.
          -- reflexivity.
          -- apply blank_proper; assumption.
          -- apply PB; repeat split; discriminate.
        * symmetry; apply chunks_show.
        * rewrite spelled_app, spelled_bare; reflexivity.
        * exact C.
        * apply Forall_app; split; [apply blank_proper; assumption|apply PB; repeat split; discriminate].
      + rewrite spelled_bare; reflexivity.
      + rewrite !spelled_app, spelled_bare, chunks_show; reflexivity.
      + apply blank_proper; assumption.
      + repeat (apply Forall_app; split); auto using blank_proper. apply PB; repeat split; discriminate.
    - reflexivity.
    - rewrite !spelled_app, !spelled_bare, chunks_show; reflexivity.
    - apply PB; repeat split; discriminate.
    - repeat (apply Forall_app; split); auto using blank_proper. apply PB; repeat split; discriminate. }
  induction e; cbn [ranked spelt show rtoks]; intros R S.
  - rewrite flat_Q. apply Pl, S.
  - rewrite flat_Q. apply Pl, S.
  - cbn. rewrite app_nil_r. reflexivity.
  - reflexivity.
  - destruct R as (R1 & R2 & R3). rewrite Par by auto. cbn. rewrite app_nil_r. reflexivity.
  - destruct R as (R0 & R1 & R2 & R3 & R4). destruct (fname_proper f name R0) as (N1 & N2 & _).
    pose proof (chunks_proper e R4 S) as C.
    assert (CP : Forall proper (Bare "("%char :: map Bare w1 ++ chunks e ++ map Bare w2 ++ [Bare ")"%char])).
    { constructor; [repeat split; discriminate|]. repeat (apply Forall_app; split); auto using blank_proper. apply PB; repeat split; discriminate. }
    assert (CE : "("%char :: w1 ++ show e ++ w2 ++ [")"%char] = spelled (Bare "("%char :: map Bare w1 ++ chunks e ++ map Bare w2 ++ [Bare ")"%char])).
    { rewrite spelled_cons, !spelled_app, !spelled_bare, chunks_show. reflexivity. }
    rewrite (Cat name _ (map Bare name) (map Bare w ++ Bare "("%char :: map Bare w1 ++ chunks e ++ map Bare w2 ++ [Bare ")"%char])).
    + rewrite (Cat w _ (map Bare w) (Bare "("%char :: map Bare w1 ++ chunks e ++ map Bare w2 ++ [Bare ")"%char])).
      * rewrite Par by auto. rewrite (Bl w) by assumption. rewrite (Pl name) by assumption.
        rewrite flat_cons, flat_app, !flat_Q. cbn [flat1]. rewrite <- app_assoc. reflexivity.
      * rewrite spelled_bare; reflexivity.
      * exact CE.
      * apply blank_proper; assumption.
      * exact CP.
    + rewrite spelled_bare; reflexivity.
    + rewrite spelled_app, spelled_bare, <- CE. reflexivity.
    + exact N1.
    + apply Forall_app; split; [apply blank_proper; assumption|exact CP].
  - destruct R as (R1 & R2 & R3). pose proof (chunks_proper e R2 S) as C.
    change ("-"%char :: w ++ show e) with (["-"%char] ++ w ++ show e).
    rewrite (Cat ["-"%char] (w ++ show e) [Bare "-"%char] (map Bare w ++ chunks e)).
    + rewrite (Cat w (show e) (map Bare w) (chunks e)).
      * rewrite IHe, (Bl w) by assumption. rewrite !flat_app, flat_Q, <- app_assoc. reflexivity.
      * rewrite spelled_bare; reflexivity.
      * symmetry; apply chunks_show.
      * apply blank_proper; assumption.
      * exact C.
    + reflexivity.
    + rewrite spelled_app, spelled_bare, chunks_show; reflexivity.
    + apply PB; repeat split; discriminate.
    + apply Forall_app; split; [apply blank_proper; assumption|exact C].
  - destruct R as (R1 & R2 & R3). pose proof (chunks_proper e R2 S) as C.
    change ("~"%char :: w ++ show e) with (["~"%char] ++ w ++ show e).
    rewrite (Cat ["~"%char] (w ++ show e) [Bare "~"%char] (map Bare w ++ chunks e)).
    + rewrite (Cat w (show e) (map Bare w) (chunks e)).
      * rewrite IHe, (Bl w) by assumption. rewrite !flat_app, flat_Q, <- app_assoc. reflexivity.
      * rewrite spelled_bare; reflexivity.
      * symmetry; apply chunks_show.
      * apply blank_proper; assumption.
      * exact C.
    + reflexivity.
    + rewrite spelled_app, spelled_bare, chunks_show; reflexivity.
    + apply PB; repeat split; discriminate.
    + apply Forall_app; split; [apply blank_proper; assumption|exact C].
  - destruct R as (R1 & R2 & R3 & R4 & _). destruct S as [S1 S2].
    pose proof (chunks_proper e1 R3 S1) as C1. pose proof (chunks_proper e2 R4 S2) as C2.
    assert (Cs : Forall proper (map Bare (sign o))).
    { apply bare_proper. intros c C. destruct o; cbn in C; intuition (subst; discriminate). }
    rewrite (Cat (show e1) (w1 ++ sign o ++ w2 ++ show e2) (chunks e1) (map Bare w1 ++ map Bare (sign o) ++ map Bare w2 ++ chunks e2)).
    + rewrite (Cat w1 (sign o ++ w2 ++ show e2) (map Bare w1) (map Bare (sign o) ++ map Bare w2 ++ chunks e2)).
      * rewrite (Cat (sign o) (w2 ++ show e2) (map Bare (sign o)) (map Bare w2 ++ chunks e2)).
        -- rewrite (Cat w2 (show e2) (map Bare w2) (chunks e2)).
           ++ rewrite IHe1, IHe2, (Bl w1), (Bl w2) by assumption. rewrite !flat_app, !flat_Q, <- !app_assoc.
              f_equal. f_equal. f_equal. destruct o; reflexivity.
           ++ rewrite spelled_bare; reflexivity.
           ++ symmetry; apply chunks_show.
           ++ apply blank_proper; assumption.
           ++ exact C2.
        -- rewrite spelled_bare; reflexivity.
        -- rewrite spelled_app, spelled_bare, chunks_show; reflexivity.
        -- exact Cs.
        -- apply Forall_app; split; [apply blank_proper; assumption|exact C2].
      * rewrite spelled_bare; reflexivity.
      * rewrite !spelled_app, !spelled_bare, chunks_show; reflexivity.
      * apply blank_proper; assumption.
      * repeat (apply Forall_app; split); auto using blank_proper.
    + symmetry; apply chunks_show.
    + rewrite !spelled_app, !spelled_bare, chunks_show; reflexivity.
    + exact C1.
    + repeat (apply Forall_app; split); auto using blank_proper.
Qed.

Lemma reverse_back : forall e, ranked e -> spelt e -> reverse (flat (rtoks e)) = show e.
Proof.
  intros e R S. rewrite <- reverse_show by assumption. rewrite <- chunks_show. apply reverse_proper. apply chunks_proper; assumption.
Qed.

(** ** The tokens are good ones *)
Lemma noisy_split : forall t q p c r, QuoteFacts.noisy q t = true -> t = p ++ c :: r -> qzero (run q p) = false.
Proof.
  induction t as [|x t IH]; intros q p c r N E; [destruct p; discriminate E|].
  cbn [QuoteFacts.noisy] in N. apply andb_true_iff in N. destruct N as [N1 N2]. destruct p as [|y p].
  - cbn [run fold_left]. destruct (qzero q); [discriminate|reflexivity].
  - cbn in E. injection E as <- E. cbn [run fold_left]. apply (IH _ p c r); assumption.
Qed.
Lemma noisy_depth : forall t q p r, QuoteFacts.noisy q t = true -> q_depth q = 0 -> t = p ++ r -> q_depth (run q p) = 0.
Proof.
  induction t as [|x t IH]; intros q p r N D E.
  - destruct p; [exact D|discriminate E].
  - cbn [QuoteFacts.noisy] in N. apply andb_true_iff in N. destruct N as [N1 N2]. destruct p as [|y p]; [exact D|].
    cbn in E. injection E as <- E. cbn [run fold_left]. apply (IH _ p r); try assumption.
    destruct q as [sq dq esc d]. cbn in D. subst d. unfold qzero in N1. cbn in N1. unfold qstep. cbn [q_sq q_dq q_esc q_depth].
    destruct esc; [reflexivity|]. destruct sq, dq; try discriminate N1; cbn [orb negb]; 
      destruct (zc x =? 92), (zc x =? 39), (zc x =? 34), (zc x =? 40), (zc x =? 41); reflexivity.
Qed.

Lemma run_backslashes : forall q n e t, QuoteFacts.isquote q ->
  run (mkQ (QuoteFacts.insq q) (QuoteFacts.inq q) e 0) (repeat "\"%char n ++ t) =
  run (mkQ (QuoteFacts.insq q) (QuoteFacts.inq q) (xorb e (Nat.odd n)) 0) t.
Proof.
  intros q n. induction n as [|n IH]; intros e t Qq; cbn [repeat app].
  - rewrite xorb_false_r. reflexivity.
  - cbn [run fold_left].
    replace (qstep (mkQ (QuoteFacts.insq q) (QuoteFacts.inq q) e 0) "\") with (mkQ (QuoteFacts.insq q) (QuoteFacts.inq q) (negb e) 0)
      by (destruct Qq, e; subst; reflexivity).
    fold (run (mkQ (QuoteFacts.insq q) (QuoteFacts.inq q) (negb e) 0) (repeat "\"%char n ++ t)).
    rewrite IH by exact Qq. rewrite Nat.odd_succ, <- Nat.negb_odd. destruct e, (Nat.odd n); reflexivity.
Qed.

Lemma run_groups : forall q gs, QuoteFacts.isquote q -> Forall (QuoteFacts.gok q) gs ->
  run (QuoteFacts.within_quote q) (QuoteFacts.gflat gs ++ [q]) = q0.
Proof.
  intros q gs Qq. induction gs as [|[n c] gs IH]; intros G.
  - destruct Qq; subst; reflexivity.
  - inversion G as [|? ? [G1 G2] G3]; subst. cbn [QuoteFacts.gflat flat_map]. fold (QuoteFacts.gflat gs). unfold QuoteFacts.gtext.
    cbn [fst snd] in *. rewrite <- !app_assoc. unfold QuoteFacts.within_quote. rewrite run_backslashes by exact Qq.
    rewrite xorb_false_l. cbn [app run fold_left].
    assert (S : qstep (mkQ (QuoteFacts.insq q) (QuoteFacts.inq q) (Nat.odd n) 0) c = QuoteFacts.within_quote q).
    { unfold qstep. cbn [q_esc q_sq q_dq q_depth]. destruct (Nat.odd n) eqn:O; [reflexivity|].
      assert (Nq : c <> q) by (intros H; specialize (G2 H); congruence).
      destruct (zc c =? 92) eqn:E; [elim G1; apply zc_inj; change (zc "\") with 92; lia|].
      destruct (zc c =? 39) eqn:E1.
      { assert (C : c = "'"%char) by (apply zc_inj; change (zc "'") with 39; lia).
        destruct Qq; subst; [congruence|reflexivity]. }
      destruct (zc c =? 34) eqn:E2.
      { assert (C : c = """"%char) by (apply zc_inj; change (zc """") with 34; lia).
        destruct Qq; subst; [reflexivity|congruence]. }
      destruct (zc c =? 40), (zc c =? 41), Qq; subst; reflexivity. }
    rewrite S. apply IH. exact G3.
Qed.

Lemma block_quoted : forall q l, proper (Quoted q l) -> block (reverse (quoted q l)) /\
  (exists gs, reverse (quoted q l) = q :: QuoteFacts.gflat gs ++ [q]) /\ QuoteFacts.isquote q.
Proof.
  intros q l (Qq & W & N). destruct (groups_exact q l W N) as (gs & E & G). unfold quoted. rewrite E.
  rewrite QuoteFacts.reverse_groups by assumption. split; [|split; [exists (rev gs); reflexivity|exact Qq]].
  apply Forall_rev in G. set (gs' := rev gs) in *. clearbody gs'.
  assert (St : qstep q0 q = QuoteFacts.within_quote q) by (destruct Qq; subst; reflexivity).
  pose proof (QuoteFacts.noisy_groups q O gs' Qq eq_refl G) as Ny. cbn [repeat app] in Ny.
  split; [exists q; eexists; split; [reflexivity|destruct Qq; subst; reflexivity]|]. split.
  - cbn [run fold_left]. rewrite St. apply run_groups; assumption.
  - intros p r Ep. destruct p as [|c p]; [split; [cbn; lia|congruence]|].
    cbn in Ep. injection Ep as <- Ep. cbn [run fold_left]. rewrite St. fold (run (QuoteFacts.within_quote q) p). split.
    + assert (D : q_depth (run (QuoteFacts.within_quote q) p) = 0) by (eapply noisy_depth; [exact Ny|reflexivity|exact Ep]). unfold run in D |- *. lia.
    + intros _ R. destruct r as [|x r]; [congruence|]. eapply noisy_split; [exact Ny|exact Ep].
Qed.

Definition deeper (d : Z) (q : quote) : quote := mkQ q.(q_sq) q.(q_dq) q.(q_esc) (q.(q_depth) + d).
Lemma run_deeper : forall t d q, run (deeper d q) t = deeper d (run q t).
Proof.
  induction t as [|c t IH]; intros d q; [reflexivity|].
  change (run (qstep (deeper d q) c) t = deeper d (run (qstep q c) t)). rewrite <- IH. f_equal.
  destruct q as [sq dq esc x]. unfold qstep, deeper. cbn [q_sq q_dq q_esc q_depth].
  destruct esc; [reflexivity|]. destruct (zc c =? 92); [destruct (sq || dq); reflexivity|].
  destruct (zc c =? 39); [destruct dq; reflexivity|]. destruct (zc c =? 34); [destruct sq; reflexivity|].
  destruct (zc c =? 40); [destruct (sq || dq); [reflexivity|]; cbn; f_equal; lia|].
  destruct (zc c =? 41); [destruct (sq || dq); [reflexivity|]; cbn; f_equal; lia|]. reflexivity.
Qed.

Lemma good_Q : forall w, forallb calm w = true -> Forall good (map Q w).
Proof.
  intros w. rewrite forallb_forall. intros K. apply Forall_forall. intros x X. apply in_map_iff in X.
  destruct X as (y & <- & Y). exact (K y Y).
Qed.

Lemma block_par : forall ts, Forall good ts -> block (")"%char :: flat ts ++ ["("%char]).
Proof.
  intros ts G. split; [exists ")"%char; eexists; split; [reflexivity|reflexivity]|].
  change (run q0 (")"%char :: flat ts ++ ["("%char])) with (run (deeper (-1) q0) (flat ts ++ ["("%char])).
  rewrite run_deeper, run_app, run_flat by exact G. split; [reflexivity|].
  intros p r E. destruct p as [|c p]; [split; [cbn; lia|congruence]|].
  cbn in E. injection E as <- E. change (run q0 (")"%char :: p)) with (run (deeper (-1) q0) p). rewrite run_deeper.
  destruct r as [|x r] using rev_ind.
  - rewrite app_nil_r in E. subst p. split; [|congruence]. rewrite run_app, run_flat by exact G. cbn. lia.
  - rewrite app_assoc in E. apply app_inj_tail in E. destruct E as [E _]. destruct (flat_split ts p r G E) as [D _]. split.
    + cbn [deeper q_depth]. lia.
    + intros _ _. unfold qzero. cbn [deeper q_depth]. destruct (_ =? 0) eqn:Z; [lia|]. apply andb_false_r.
Qed.

Lemma sign_calm : forall o, forallb calm (sign o) = true.
Proof. intros []; reflexivity. Qed.
Lemma blanks_rev : forall w, blanks w -> blanks (rev w).
Proof. intros w. apply Forall_rev. Qed.
Lemma plain_calm : forall t, forallb plain t = true -> forallb calm (rev t) = true.
Proof.
  intros t H. rewrite forallb_rev. rewrite forallb_forall in *. intros c C. apply (plain_facts c (H c C)).
Qed.

Lemma blanks_good : forall w, blanks w -> Forall good (map Q (rev w)).
Proof. intros w W. apply good_Q, blank_calm, blanks_rev, W. Qed.

Lemma rtoks_good : forall e, ranked e -> spelt e -> Forall good (rtoks e).
Proof.
  assert (Par : forall w1 e w2, blanks w1 -> blanks w2 -> Forall good (rtoks e) ->
    block (")"%char :: rev w2 ++ flat (rtoks e) ++ rev w1 ++ ["("%char])).
  { intros w1 e w2 W1 W2 G.
    replace (rev w2 ++ flat (rtoks e) ++ rev w1 ++ ["("%char]) with (flat (map Q (rev w2) ++ rtoks e ++ map Q (rev w1)) ++ ["("%char])
      by (rewrite !flat_app, !flat_Q, <- !app_assoc; reflexivity).
    apply block_par. repeat (apply Forall_app; split); auto using blanks_good. }
  induction e; cbn [ranked spelt rtoks]; intros R S.
  - apply good_Q, plain_calm, S.
  - apply good_Q, plain_calm, S.
  - constructor; [|constructor]. apply block_quoted. exact R.
  - repeat constructor.
  - destruct R as (R1 & R2 & R3). constructor; [|constructor]. apply Par; auto.
  - destruct R as (R0 & R1 & R2 & R3 & R4). constructor; [apply Par; auto|].
    apply Forall_app; split; [apply blanks_good; assumption|apply good_Q, plain_calm, (fname_proper f name R0)].
  - destruct R as (R1 & R2 & R3). repeat (apply Forall_app; split); auto using blanks_good. repeat constructor.
  - destruct R as (R1 & R2 & R3). repeat (apply Forall_app; split); auto using blanks_good. repeat constructor.
  - destruct R as (R1 & R2 & R3 & R4 & _). destruct S as [S1 S2].
    repeat (apply Forall_app; split); auto using blanks_good, good_Q, sign_calm.
Qed.

(** Neither end is blank. *)
Lemma firm_app : forall a b, firm b -> firm (a ++ b).
Proof. intros a b (p & c & -> & N). exists (a ++ p), c. rewrite <- app_assoc. auto. Qed.
Lemma plain_firm : forall t, t <> [] -> forallb plain t = true -> firm (rev t) /\ SpecSplit.tight (rev t).
Proof.
  intros t N H.
  assert (K : forall c, In c t -> ~ SpecSplit.blank c).
  { rewrite forallb_forall in H. intros c C B. apply blank_isblank in B. destruct (plain_facts c (H c C)) as (_ & _ & _ & _ & _ & X). congruence. }
  split.
  - destruct t as [|c t]; [congruence|]. cbn [rev]. exists (rev t), c. split; [reflexivity|]. apply K. left; reflexivity.
  - destruct (rev t) as [|c r] eqn:E; [exact I|]. apply K. apply in_rev. rewrite E. left; reflexivity.
Qed.
Lemma tight_app : forall a b, SpecSplit.tight a -> firm a -> SpecSplit.tight (a ++ b).
Proof. intros [|c a] b T (p & d & E & _); [destruct p; discriminate E|exact T]. Qed.
Lemma nblank : forall c, isblank c = false -> ~ SpecSplit.blank c.
Proof. intros c H B. apply blank_isblank in B. congruence. Qed.

Lemma rtoks_ends : forall e, ranked e -> spelt e -> firm (flat (rtoks e)) /\ SpecSplit.tight (flat (rtoks e)).
Proof.
  induction e; cbn [ranked spelt rtoks]; intros R S; rewrite ?flat_Q.
  - apply plain_firm; apply S.
  - apply plain_firm; apply S.
  - destruct (block_quoted q l R) as (_ & (gs & E) & Qq). cbn [flat flat_map flat1]. rewrite app_nil_r, E.
    assert (Nb : ~ SpecSplit.blank q) by (apply nblank; destruct Qq; subst; reflexivity).
    split; [exists (q :: QuoteFacts.gflat gs), q; split; [reflexivity|exact Nb]|exact Nb].
  - split; [exists [], "*"%char; split; [reflexivity|apply nblank; reflexivity]|apply (nblank "*"); reflexivity].
  - cbn [flat flat_map flat1]. rewrite app_nil_r. split; [|apply (nblank ")"); reflexivity].
    rewrite !app_assoc. apply (firm_app (")"%char :: _)). exists [], "("%char. split; [reflexivity|apply nblank; reflexivity].
  - destruct R as (R0 & R1 & R2 & R3 & R4). destruct (fname_proper f name R0) as (_ & N1 & N2).
    rewrite flat_cons, flat_app, !flat_Q. split; [|apply (nblank ")"); reflexivity].
    apply firm_app, firm_app. apply plain_firm; assumption.
  - destruct R as (R1 & R2 & R3). destruct (IHe R2 S) as [F T]. rewrite !flat_app, flat_Q. split.
    + apply firm_app, firm_app. exists [], "-"%char. split; [reflexivity|apply nblank; reflexivity].
    + apply tight_app; assumption.
  - destruct R as (R1 & R2 & R3). destruct (IHe R2 S) as [F T]. rewrite !flat_app, flat_Q. split.
    + apply firm_app, firm_app. exists [], "~"%char. split; [reflexivity|apply nblank; reflexivity].
    + apply tight_app; assumption.
  - destruct R as (R1 & R2 & R3 & R4 & _). destruct S as [S1 S2]. destruct (IHe1 R3 S1) as [F1 T1]. destruct (IHe2 R4 S2) as [F2 T2].
    rewrite !flat_app. split; [repeat apply firm_app; exact F1|apply tight_app; assumption].
Qed.

(** ** Which operator characters are in sight *)
Definition first_sign (o : binop) : ascii := match sign o with c :: _ => c | [] => " "%char end.

Lemma quiet_in : forall e c, ranked e -> spelt e -> In (Q c) (rtoks e) ->
  plain c = true \/ SpecSplit.blank c \/ c = "~"%char \/ (exists o, In c (sign o) /\ level e <= rank o) \/
  (c = "-"%char /\ leading e = true) \/ (c = "*"%char /\ level e <= 5).
Proof.
  assert (Bl : forall w c, blanks w -> In (Q c) (map Q (rev w)) -> SpecSplit.blank c).
  { intros w c W H. apply in_map_iff in H. destruct H as (x & [= ->] & H). apply in_rev in H.
    unfold blanks in W. rewrite Forall_forall in W. apply W, H. }
  assert (Pl : forall t c, forallb plain t = true -> In (Q c) (map Q (rev t)) -> plain c = true).
  { intros w c W H. apply in_map_iff in H. destruct H as (x & [= ->] & H). apply in_rev in H.
    rewrite forallb_forall in W. apply W, H. }
  induction e; cbn [ranked spelt rtoks level leading]; intros c R S H.
  - left. eapply Pl; [apply S|exact H].
  - left. eapply Pl; [apply S|exact H].
  - destruct H as [H|[]]; discriminate H.
  - destruct H as [[= <-]|[]]. do 5 right. split; [reflexivity|lia].
  - destruct H as [H|[]]; discriminate H.
  - destruct R as (R0 & R1 & R2 & R3 & R4). destruct (fname_proper f name R0) as (_ & N1 & N2).
    destruct H as [H|H]; [discriminate H|]. apply in_app_or in H. destruct H as [H|H]; [right; left; exact (Bl w c R1 H)|left; exact (Pl name c N1 H)].
  - destruct R as (R1 & R2 & R3). apply in_app_or in H. destruct H as [H|H].
    + destruct (IHe c R2 S H) as [K|[K|[K|[(o & K1 & K2)|[[K1 K2]|[K1 K2]]]]]]; auto 4.
      * do 3 right. left. exists o. split; [exact K1|lia].
      * do 4 right. left. auto.
      * lia.
    + apply in_app_or in H. destruct H as [H|[[= <-]|[]]]; [right; left; eapply Bl; [|exact H]; assumption|].
      do 4 right. left. auto.
  - destruct R as (R1 & R2 & R3). apply in_app_or in H. destruct H as [H|H].
    + destruct (IHe c R2 S H) as [K|[K|[K|[(o & K1 & K2)|[[K1 K2]|[K1 K2]]]]]]; auto 4.
      * do 3 right. left. exists o. split; [exact K1|lia].
      * exfalso. destruct e; cbn [level leading] in *; try discriminate K2; try lia. destruct o; cbn in R3; lia.
      * lia.
    + apply in_app_or in H. destruct H as [H|[[= <-]|[]]]; [right; left; eapply Bl; [|exact H]; assumption|]. auto.
  - destruct R as (R1 & R2 & R3 & R4 & R5 & R6 & R7). destruct S as [S1 S2].
    apply in_app_or in H. destruct H as [H|H].
    + destruct (IHe2 c R4 S2 H) as [K|[K|[K|[(x & K1 & K2)|[[K1 K2]|[K1 K2]]]]]]; auto 4.
      * do 3 right. left. exists x. split; [exact K1|lia].
      * specialize (R7 K2). subst o. do 3 right. left. exists Minus. split; [left; symmetry; exact K1|cbn; lia].
      * do 3 right. left. exists Times. split; [left; symmetry; exact K1|cbn; lia].
    + apply in_app_or in H. destruct H as [H|H]; [right; left; eapply Bl; [|exact H]; assumption|].
      apply in_app_or in H. destruct H as [H|H].
      * apply in_map_iff in H. destruct H as (x & [= ->] & H). do 3 right. left. exists o. split; [exact H|lia].
      * apply in_app_or in H. destruct H as [H|H]; [right; left; eapply Bl; [|exact H]; assumption|].
        destruct (IHe1 c R3 S1 H) as [K|[K|[K|[(x & K1 & K2)|[[K1 K2]|[K1 K2]]]]]]; auto 4.
        -- do 3 right. left. exists x. split; [exact K1|lia].
        -- do 4 right. left. auto.
        -- do 5 right. split; [exact K1|lia].
Qed.

Lemma first_sign_of : forall o o', In (first_sign o) (sign o') -> o' = o.
Proof. intros [] []; cbn; intros H; intuition discriminate. Qed.

Lemma lacks_low : forall e o, ranked e -> spelt e -> rank o < level e -> (leading e = true -> o <> Minus) ->
  lacks_sep (first_sign o) (rtoks e).
Proof.
  intros e o R S L M H. destruct (quiet_in e _ R S H) as [K|[K|[K|[(x & K1 & K2)|[[K1 K2]|[K1 K2]]]]]].
  - destruct o; discriminate K.
  - apply blank_isblank in K. destruct o; discriminate K.
  - destruct o; discriminate K.
  - apply first_sign_of in K1. subst x. lia.
  - apply M; [exact K2|]. destruct o; try discriminate K1; reflexivity.
  - destruct o; try discriminate K1. cbn in L. lia.
Qed.
Lemma lacks_slash : forall e, ranked e -> spelt e -> lacks_sep "\"%char (rtoks e).
Proof.
  intros e R S H. destruct (quiet_in e _ R S H) as [K|[K|[K|[(x & K1 & K2)|[[K1 K2]|[K1 K2]]]]]]; try discriminate.
  - apply blank_isblank in K. discriminate K.
  - destruct x; cbn in K1; intuition discriminate.
Qed.

Lemma leading_last : forall e, ranked e -> spelt e -> leading e = true -> 4 < level e ->
  exists ts, rtoks e = ts ++ [Q "-"%char] /\ lacks_sep "-"%char ts.
Proof.
  assert (Bl : forall w c, blanks w -> In (Q c) (map Q (rev w)) -> SpecSplit.blank c).
  { intros w c W H. apply in_map_iff in H. destruct H as (x & [= ->] & H). apply in_rev in H.
    unfold blanks in W. rewrite Forall_forall in W. apply W, H. }
  assert (Bm : ~ SpecSplit.blank "-"%char) by (apply nblank; reflexivity).
  induction e; cbn [ranked spelt rtoks level leading]; intros R S D L; try discriminate D.
  - destruct R as (R1 & R2 & R3). exists (rtoks e ++ map Q (rev w)). rewrite <- app_assoc. split; [reflexivity|].
    intros H. apply in_app_or in H. destruct H as [H|H].
    + apply (lacks_low e Minus) in H; auto; [cbn; lia|]. intros X _.
      destruct e; cbn [level leading] in *; try discriminate X; try lia. destruct o; cbn in R3; lia.
    + apply Bm. eapply Bl; [|exact H]; assumption.
  - destruct R as (R1 & R2 & R3 & R4 & R5 & R6 & R7). destruct S as [S1 S2].
    destruct (IHe1 R3 S1 D) as (ts & E & N); [lia|]. rewrite E.
    exists (rtoks e2 ++ map Q (rev w2) ++ map Q (sign o) ++ map Q (rev w1) ++ ts). rewrite <- !app_assoc. split; [reflexivity|].
    intros H. apply in_app_or in H. destruct H as [H|H].
    { apply (lacks_low e2 Minus) in H; auto; [cbn; lia|]. intros X _. specialize (R7 X). subst o. cbn in L. lia. }
    apply in_app_or in H. destruct H as [H|H]; [apply Bm; eapply Bl; [|exact H]; assumption|].
    apply in_app_or in H. destruct H as [H|H].
    { apply in_map_iff in H. destruct H as (x & [= ->] & H). destruct o; cbn in H; try (intuition discriminate); cbn in L; lia. }
    apply in_app_or in H. destruct H as [H|H]; [apply Bm; eapply Bl; [|exact H]; assumption|]. exact (N H).
Qed.
