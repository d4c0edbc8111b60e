(** The text of a line: its comment and its equals sign. *)
From Coq Require Import String Ascii ZArith List Bool Lia ZifyBool ZifyNat.
From Verif Require Import Base State Tree Filter Label Parse Crasm.
From Verif Require Import BaseFacts FilterFacts SplitFacts FormFacts GrammarFacts SpecForms SpecMacro SpecLine InputFacts CpuFacts MacroFacts.
From Verif Require SpecSplit.
Import ListNotations.
Open Scope Z_scope.

Local Notation blank := SpecSplit.blank.
Local Notation tight := SpecSplit.tight.

Lemma app_length_eq : forall (a b c d : str), a ++ b = c ++ d -> List.length a = List.length c -> a = c /\ b = d.
Proof.
  induction a as [|x a IH]; intros b [|y c] d E L; cbn in *; try discriminate; [auto|].
  injection E as -> E. injection L as L. destruct (IH _ _ _ E L) as [-> ->]. auto.
Qed.
Lemma blanks_tight : forall w u w' u', w ++ u = w' ++ u' -> Forall blank w -> Forall blank w' -> tight u -> tight u' -> w = w' /\ u = u'.
Proof.
  induction w as [|c w IH]; intros u w' u' E W W' T T'.
  - destruct w' as [|d w']; [auto|]. cbn [app] in E. subst u. inversion W' as [|? ? B]; subst. elim T. exact B.
  - inversion W as [|? ? B Wt]; subst. destruct w' as [|d w'].
    + cbn [app] in E. subst u'. elim T'. exact B.
    + injection E as <- E. inversion W'; subst. destruct (IH _ _ _ E) as [-> ->]; auto.
Qed.
Lemma tight_blanks : forall t w t' w', t ++ w = t' ++ w' -> Forall blank w -> Forall blank w' -> tight (rev t) -> tight (rev t') -> t = t' /\ w = w'.
Proof.
  intros t w t' w' E W W' T T'. apply (f_equal (@rev ascii)) in E. rewrite !rev_app_distr in E.
  apply Forall_rev in W, W'. destruct (blanks_tight _ _ _ _ E W W' T T') as [A B].
  apply (f_equal (@rev ascii)) in A, B. rewrite !rev_involutive in A, B. auto.
Qed.

Lemma uncommented_unique : forall u v v', uncommented u v -> uncommented u v' -> v = v'.
Proof.
  intros u v v' [(b & C & M)|[-> N]] [(b' & C' & M')|[-> N']]; auto.
  - pose proof C as (y & E & _). pose proof C' as (y' & E' & _). pose proof (M _ _ C'). pose proof (M' _ _ C).
    rewrite E in E'. apply app_length_eq in E'; [apply E'|lia].
  - elim (N' _ _ C).
  - elim (N _ _ C').
Qed.

Lemma statement_unique : forall c t t', statement c t -> statement c t' -> t = t'.
Proof.
  intros c t t' (w & u & x & E & W & T & U & X & R) (w' & u' & x' & E' & W' & T' & U' & X' & R').
  rewrite E in E'. destruct (blanks_tight _ _ _ _ E' W W' T T') as [-> ->].
  pose proof (uncommented_unique _ _ _ U U') as F. apply (tight_blanks _ _ _ _ F); auto.
Qed.

Lemma first_cut_unique : forall sep t a b a' b', sep <> [] -> forallb sepchar sep = true ->
  SpecSplit.first_cut sep t a b -> SpecSplit.first_cut sep t a' b' -> a = a' /\ b = b'.
Proof.
  intros sep t a b a' b' N S [C M] [C' M']. pose proof (M _ _ C') as L. pose proof (M' _ _ C) as L'.
  destruct C as (w & x & E & W & X & T & O). destruct C' as (w' & x' & E' & W' & X' & T' & O').
  rewrite E in E'. apply app_length_eq in E'; [|lia]. destruct E' as [-> E']. split; [reflexivity|].
  apply blanks_tight in E'; auto; try (apply sep_tight; assumption). destruct E' as [_ E'].
  apply app_length_eq in E'; [|reflexivity]. destruct E' as [_ E']. apply blanks_tight in E'; auto. apply E'.
Qed.

(** The pattern of comments skips the blanks in front. *)
Lemma comment_lead : forall c, fr_caps (filter_pure c (s2l "_?_;?")) = fr_caps (filter_pure (skipblanks c) (s2l "?_;?")).
Proof. intros c. reflexivity. Qed.

Lemma quoted_by : forall t p, match p with SpecSplit.Out _ => True | SpecSplit.In q _ | SpecSplit.Escaped q _ => q = "'"%char \/ q = """"%char end ->
  match fold_left SpecSplit.step t p with SpecSplit.Out _ => True | SpecSplit.In q _ | SpecSplit.Escaped q _ => q = "'"%char \/ q = """"%char end.
Proof.
  induction t as [|c t IH]; intros p H; cbn [fold_left]; [exact H|]. apply IH. destruct p as [d|q d|q d]; cbn [SpecSplit.step].
  - destruct (Ascii.eqb_spec c "'"); [cbn [orb]; auto|]. destruct (Ascii.eqb_spec c """"); [cbn [orb]; auto|]. cbn [orb].
    destruct (Ascii.eqb c "("); [exact I|]. destruct (Ascii.eqb c ")"); exact I.
  - destruct (Ascii.eqb c "\"); [exact H|]. destruct (Ascii.eqb c q); [exact I|exact H].
  - exact H.
Qed.

Lemma comment_tight : forall u a b, (exists y, u = a ++ y ++ b /\ spells (s2l "_;") y /\ SpecSplit.outside a) ->
  (forall a' b', comment_at u a' b' -> (List.length a <= List.length a')%nat) -> tight (rev a).
Proof.
  intros u a b (y & E & Y & O) M. destruct (rev a) as [|c r] eqn:R; [exact I|]. intros B.
  assert (A : a = rev r ++ [c]) by (rewrite <- (rev_involutive a), R; reflexivity).
  specialize (M (rev r) b). assert (L : (List.length a <= List.length (rev r))%nat).
  { apply M. exists (c :: y). split; [rewrite E, A, <- app_assoc; reflexivity|]. split.
    - apply spells_blank in Y. destruct Y as (w & y' & -> & Wb & Y). apply (sp_blanks _ (c :: w)); [constructor; assumption|exact Y].
    - rewrite A in O. unfold SpecSplit.outside in *. rewrite fold_left_app in O. cbn [fold_left] in O.
      pose proof (quoted_by (rev r) (SpecSplit.Out 0) I) as Q.
      destruct (fold_left SpecSplit.step (rev r) (SpecSplit.Out 0)) as [d|p d|p d]; destruct B as [-> | ->]; cbn [SpecSplit.step] in O; try discriminate O; try exact O;
        destruct Q as [-> | ->]; discriminate O. }
  rewrite A, app_length in L. cbn in L. lia.
Qed.

Lemma skip_trim : forall c, exists w t w', c = w ++ t ++ w' /\ Forall blank w /\ Forall blank w' /\ tight t /\ tight (rev t) /\ skipblanks (trimblanks c) = t /\
  skipblanks c = t ++ w'.
Proof.
  intros c. destruct (skipblanks c) as [|k0 r0] eqn:Z.
  { exists c, [], []. pose proof (proj1 (all_blank c) Z) as B. rewrite app_nil_r. repeat split; auto.
    unfold trimblanks. rewrite (proj2 (all_blank (rev c))) by (apply Forall_rev; exact B). reflexivity. }
  rewrite <- Z. unfold trimblanks. destruct (skipblanks_split (rev c)) as (x & E & X & T).
  set (d := skipblanks (rev c)) in *. assert (C : c = rev d ++ rev x) by (rewrite <- rev_app_distr, <- E, rev_involutive; reflexivity).
  destruct (skipblanks_split (rev d)) as (y & E' & Y & T'). exists y, (skipblanks (rev d)), (rev x).
  assert (TT : tight (rev (skipblanks (rev d)))).
  { destruct (rev (skipblanks (rev d))) as [|k r] eqn:R; [exact I|]. rewrite <- (rev_involutive d), E', rev_app_distr, R in T. exact T. }
  split; [rewrite app_assoc, <- E'; exact C|]. repeat split; auto using Forall_rev.
  rewrite C, E' at 1. rewrite <- app_assoc, skipblanks_app by exact Y.
  destruct (skipblanks (rev d)) as [|k r] eqn:R; [|apply skipblanks_tight; exact T'].
  exfalso. rewrite app_nil_r in E'. assert (B : skipblanks c = []); [|congruence].
  apply all_blank. rewrite C, E'. apply Forall_app. auto using Forall_rev.
Qed.

Theorem stripline_text : forall s t s', stripline s = (Ok t, s') -> statement s.(inp).(curline) t.
Proof.
  intros s t s' E. unfold stripline in E. unfold bind at 1 in E. cbn [gets] in E. set (c := curline (inp s)) in *. step E m s1 E1.
  destruct (filter2_eq _ _ _ _ _ E1) as [_ M]. rewrite comment_lead in M. pose proof (comment_pat (skipblanks c)) as K. rewrite <- M in K.
  destruct (skip_trim c) as (w & u & x & C & W & X & T & R & S1 & S2). destruct (skipblanks_split c) as (w0 & C0 & W0 & T0).
  destruct m as [[a b]|].
  - injection E as <- <-. exists w0, (skipblanks c), []. rewrite app_nil_r. repeat split; auto.
    pose proof K as K0. destruct K as [(b0 & K1 & K2)|[K1 K2]]; [exact (comment_tight _ _ _ K1 K2)|].
    exfalso. pose proof (wild_first (fwild [[]]) (s2l "_;") (zlen (skipblanks c)) eq_refl ltac:(vm_compute; auto) (skipblanks c) q0 []) as Wf.
    change (fr_caps (filter_pure (skipblanks c) (s2l "?_;?"))) with (fr_caps (wildloop (fwild [[]]) (s2l "_;") false (zlen (skipblanks c)) (skipblanks c) q0 [])) in M.
    destruct (fr_caps _) as [l|]; [|discriminate M]. destruct Wf as (a1 & y & r & l' & E2 & Q & Y & _). apply quiet_outside in Q.
    elim (K2 a1 r). exists y. auto.
  - step E u1 s2 E2. injection E as <- <-. rewrite S1. exists w0, (skipblanks c), x. repeat split; auto. rewrite S2 in *. exact K.
Qed.
