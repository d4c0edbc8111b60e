(** References and definitions over the two passes. *)
From Coq Require Import String Ascii ZArith List Bool Lia ZifyBool.
From Verif Require Import Base State Tree Output Label Operator Scode BaseFacts TreeFacts Walk Frame Run Pseudos Tables Macro Crasm CountFacts SpecRef SpecSymbols.
From Verif Require SymFacts.
Import ListNotations.
Open Scope Z_scope.

(** ** The first pass: nothing is logged for the second *)
Definition pass1 (s : state) : Prop := s.(ct).(passnumber) <> 2 /\ Forall (fun e => lk_pass e <> 2) s.(looked).
Definition firstly : relation := holds pass1 pass1 pass1.
Lemma firstly_steps : steps firstly.
Proof.
  assert (L : lsteps firstly).
  { constructor; [apply holds_order; auto|..]; triv. }
  pose proof (p_order _ L) as O.
  assert (W : forall s w, firstly Fine s (set_wr w s)) by triv.
  assert (Er : forall m, pres firstly unit (error m)).
  { apply error_parts; [exact L|triv|triv]. }
  constructor; [constructor; [exact L|..]|..]; try triv.
  - intros s a. apply (setpc_free _ O W).
  - intros s m. apply Er.
  - intros s k l _ _ [A B]. split; [exact A|]. unfold noted. cbn [looked set_looked]. constructor; [exact A|exact B].
  - intros s x. apply (insert8_free _ O W L); try triv. exact Er.
Qed.

(** ** The second pass *)
Section Second.
Variable t1 : tree.

(** A symbol of the first pass that is not yet defined in the second. *)
Definition pending (k : str) (l1 l : label) : Prop :=
  l.(l_flags).(f_forward) = true ->
  k <> starkey /\ l1.(l_flags).(f_noredef) = true /\ l1.(l_flags).(f_undef) = false /\
  l.(l_value) = l1.(l_value) /\ l.(l_type) = l1.(l_type).
Definition carried (t : tree) : Prop := forall k l1, tfind k t1 = Some l1 ->
  exists l, tfind k t = Some l /\ (l.(l_flags).(f_undef) = false \/ pending k l1 l).

(** What the log says. *)
Definition sound (t : tree) (e : look) : Prop := lk_pass e = 2 ->
  (after_definition e \/ tfind (lk_key e) t1 = None \/
   exists l1, tfind (lk_key e) t1 = Some l1 /\ pending (lk_key e) l1 (lk_label e) /\ f_forward (l_flags (lk_label e)) = true) /\
  (lk_key e <> starkey -> definite (lk_label e) ->
   exists l, tfind (lk_key e) t = Some l /\ is_still (lk_label e) l).

Definition pass2 (s : state) : Prop := carried s.(sy) /\ Forall (sound s.(sy)) s.(looked).

Lemma carried_upd : forall t k f, carried t ->
  (forall l1 l, tfind k t1 = Some l1 -> tfind k t = Some l ->
     l.(l_flags).(f_undef) = false \/ pending k l1 l ->
     (f l).(l_flags).(f_undef) = false \/ pending k l1 (f l)) -> carried (tupd k f t).
Proof.
  intros t k f C F k' l1 T. destruct (C k' l1 T) as (l & A & B). destruct (str_dec k' k) as [->|N].
  - exists (f l). rewrite tfind_tupd_same, A. split; [reflexivity|]. exact (F l1 l T A B).
  - exists l. rewrite tfind_tupd_other by exact N. split; assumption.
Qed.
Lemma carried_ins : forall t k e, carried t -> carried (tins k e t).
Proof.
  intros t k e C k' l1 T. destruct (C k' l1 T) as (l & A & B). exists l. split; [|exact B].
  destruct (str_dec k' k) as [->|N].
  - rewrite tins_present by congruence. exact A.
  - rewrite tfind_tins_other by exact N. exact A.
Qed.
Lemma carried_systep : forall t t', systep t t' -> carried t -> carried t'.
Proof.
  intros t t' H C. destruct H as [k0|k0 ty F0|k0 flags ty v p m U G|k0 lines l0 F0 T|k0 e F0|k0 l0 F0 U0].
  - apply carried_upd; [exact C|]. intros l1 l _ _ X. exact X.
  - apply carried_ins. exact C.
  - apply carried_upd; [destruct (tfind k0 t); [exact C|apply carried_ins; exact C]|].
    intros l1 l _ _ _. left. cbn. rewrite U. reflexivity.
  - apply carried_upd; [exact C|]. intros l1 l _ _ X. exact X.
  - apply carried_ins. exact C.
  - apply carried_upd; [exact C|]. intros l1 l _ _ _. left. reflexivity.
Qed.
Lemma sound_keeps : forall s s' e, SymFacts.keeps s s' -> sound s.(sy) e -> sound s'.(sy) e.
Proof.
  intros s s' e K S P. destruct (S P) as [A B]. split; [exact A|]. intros N D.
  destruct (B N D) as (l & F & E). destruct (K _ _ N F (SymFacts.see_definite _ _ E D)) as (l' & F' & E').
  exists l'. split; [exact F'|]. eapply SymFacts.still_trans; eassumption.
Qed.
Lemma sounds_keeps : forall s s' q, SymFacts.keeps s s' -> Forall (sound s.(sy)) q -> Forall (sound s'.(sy)) q.
Proof. intros s s' q K. apply Forall_impl. intros e. apply sound_keeps. exact K. Qed.

Definition secondly : relation := holds pass2 pass2 pass2.
Lemma secondly_lsteps : lsteps secondly.
Proof.
  constructor; [apply holds_order; auto|..]; try triv.
  intros s _ [C Q]. split.
  - cbn [sy set_sy]. apply carried_upd; [exact C|]. intros l1 l _ _ [X|X]; [left; exact X|right].
    intros F. destruct (X F) as [N _]. contradiction N. reflexivity.
  - cbn [looked set_sy]. eapply sounds_keeps; [|exact Q]. apply SymFacts.keeps_same. intros k N.
    cbn [sy set_sy]. apply tfind_tupd_other. exact N.
Qed.
Lemma secondly_steps : steps secondly.
Proof.
  pose proof secondly_lsteps as L. pose proof (p_order _ L) as O.
  assert (W : forall s w, secondly Fine s (set_wr w s)) by triv.
  assert (Er : forall m, pres secondly unit (error m)).
  { apply error_parts; [exact L|triv|triv]. }
  constructor; [constructor; [exact L|..]|..]; try triv.
  - intros s a. apply (setpc_free _ O W).
  - intros s m. apply Er.
  - intros s t K [C Q]. split; [exact (carried_systep _ _ K C)|]. cbn [looked set_sy].
    eapply sounds_keeps; [|exact Q]. apply SymFacts.systep_keeps. exact K.
  - intros s k l F U [C Q]. split; [exact C|]. unfold noted. cbn [looked set_looked sy]. constructor; [|exact Q].
    intros _. cbn [lk_key lk_label]. split.
    + unfold after_definition. cbn [lk_label]. unfold usable_now in U.
      destruct (f_undef (l_flags l)) eqn:D; [|left; reflexivity]. right.
      destruct (tfind k t1) as [l1|] eqn:T; [right|left; reflexivity].
      destruct (C k l1 T) as (l' & F' & X). assert (l' = l) as -> by congruence.
      destruct X as [X|X]; [congruence|]. exists l1. split; [reflexivity|]. split; [exact X|].
      destruct (f_forward (l_flags l)); [reflexivity|discriminate U].
    + intros _ _. exists l. split; [exact F|apply SymFacts.still_refl].
  - intros s x. apply (insert8_free _ O W L); try triv. exact Er.
Qed.
End Second.

(** The start of the second pass. *)
Lemma turned_pass2 : forall o s, pass1 s -> pass2 s.(sy) (turned o s).
Proof.
  intros o s [_ Q]. unfold turned, started. rewrite between_eq, passstart_eq. cbn [snd]. split.
  - cbn [sy set_ct set_sy set_fl fl]. intros k l1 T. unfold startstar.
    set (t := tmap undef_node (sy s)). assert (E : tfind k t = Some (undef_node l1)) by (unfold t; rewrite tfind_tmap, T; reflexivity).
    destruct (str_dec k starkey) as [->|N].
    + rewrite E. rewrite !tfind_tupd_same, E. cbn [option_map]. eexists. split; [reflexivity|]. right. intros F. discriminate F.
    + rewrite !tfind_tupd_other by exact N. exists (undef_node l1). split.
      * destruct (tfind starkey t) eqn:S; [exact E|]. rewrite tfind_tins_other by exact N. exact E.
      * right. unfold pending, undef_node. cbn. intros F.
        destruct (f_noredef (l_flags l1)); [|discriminate F]. destruct (f_undef (l_flags l1)); [discriminate F|].
        auto 6.
  - cbn [looked set_ct set_sy set_fl set_inp]. eapply Forall_impl; [|exact Q]. intros e N P. contradiction.
Qed.

(** The whole run. *)
Lemma started_pass1 : forall s, pass1 s -> pass1 (started 1 s).
Proof. intros s2 [_ Q]. unfold started. rewrite passstart_eq. cbn [snd]. split; [discriminate|exact Q]. Qed.
Lemma run_sound0 : forall n o s0 s1 s, pass1 s0 -> first n s0 = (Ok tt, s1) ->
  assemble n o s0 = (Ok tt, s) -> Forall (sound s1.(sy) s.(sy)) s.(looked).
Proof.
  intros n o s0 s1 s J0 E1 E. rewrite assemble_split in E. revert E1 E.
  pose proof (first_holds pass1 pass1 pass1 pass1 pass1 firstly_steps firstly_steps started_pass1 n s0 J0) as A.
  generalize dependent (first n). intros f A E1 E. rewrite E1 in A. unfold bind at 1 in E. rewrite E1 in E. clear E1.
  assert (H2 : forall s, s = s1 -> pass2 s1.(sy) (turned o s)) by (intros ? ->; apply turned_pass2; exact A).
  pose proof (second_holds (fun s => s = s1) (pass2 s1.(sy)) (pass2 s1.(sy)) (pass2 s1.(sy)) (secondly_steps s1.(sy)) o H2 n s1 eq_refl) as B.
  clear H2 A J0.
  assert (F : pres (secondly (sy s1)) _ finish) by (apply (finish_free _ (secondly_lsteps s1.(sy))); triv).
  revert F B E. generalize (pass n 2). generalize finish. intros fi p F B E. rewrite <- bind_assoc in E.
  unfold bind at 1 in E. destruct ((between o ;;; p) s1) as [[[]|b] s2]; [|discriminate E].
  specialize (F s2). rewrite E in F. exact (proj2 (F B)).
Qed.
Lemma run_sound : forall n o files main s1 s,
  (init_label_list pseudos ;;; pass n 1) (init_state files main) = (Ok tt, s1) ->
  assemble n o (init_state files main) = (Ok tt, s) -> Forall (sound s1.(sy) s.(sy)) s.(looked).
Proof.
  intros n o files main s1 s E1 E. eapply run_sound0; [|exact E1|exact E]. split; [discriminate|constructor].
Qed.

Lemma run_look : forall n o files main s1 s e,
  (init_label_list pseudos ;;; pass n 1) (init_state files main) = (Ok tt, s1) ->
  assemble n o (init_state files main) = (Ok tt, s) -> In e s.(looked) -> lk_pass e = 2 -> sound s1.(sy) s.(sy) e.
Proof.
  intros n o files main s1 s e E1 E I P. pose proof (run_sound _ _ _ _ _ _ E1 E) as F. rewrite Forall_forall in F. exact (F e I).
Qed.

Lemma referenced : forall n o files main s1 s e,
  (init_label_list pseudos ;;; pass n 1) (init_state files main) = (Ok tt, s1) ->
  assemble n o (init_state files main) = (Ok tt, s) -> In e s.(looked) -> lk_pass e = 2 -> met (lk_key e) s1 ->
  after_definition e \/ (fixed_in s1 (lk_key e) /\ defined_with (lk_key e) (used_type e) (used_value e) s1).
Proof.
  intros n o files main s1 s e E1 E I P M. destruct (run_look _ _ _ _ _ _ _ E1 E I P P) as [[A|[A|(l1 & T & Q & F)]] _].
  - left. exact A.
  - contradiction.
  - right. destruct (Q F) as (_ & R & U & V & Y). split; exists l1; repeat split; auto.
Qed.

Lemma cstlabel_logs : forall top name s r s', cstlabel top name s = (r, s') ->
  (exists b, r = Bad b) \/
  (exists l v, r = Ok v /\ r_value v = l_value l /\ r_type v = l_type l /\
     looked s' = mkLook (passnumber (ct s)) (lkey (segment (inp s)) name) l :: looked s).
Proof.
  intros top name s r s' E. unfold cstlabel in E. unfold bind at 1 in E. rewrite findlabel_eq in E.
  set (k := lkey _ name) in *. set (s1 := set_sy _ s) in E.
  assert (L1 : looked s1 = looked s) by reflexivity. assert (P1 : passnumber (ct s1) = passnumber (ct s)) by reflexivity.
  assert (K : exists l, tfind k (sy s1) = Some l).
  { unfold s1. cbn [sy set_sy]. rewrite tfind_tupd_same. destruct (tfind k (sy s)) as [l|] eqn:T.
    - rewrite T. eexists. reflexivity.
    - rewrite tfind_tins_same by exact T. eexists. reflexivity. }
  clearbody s1. destruct K as [l K].
  unfold bind at 1 in E. cbn [gets] in E. rewrite K in E.
  unfold bind at 1, putres in E. unfold bind at 1 in E. set (v := mkRes _ _ _ _ _) in E.
  assert (G : exists s2, when top (upd_ct (set_calcresult v)) s1 = (Ok tt, s2) /\ looked s2 = looked s1 /\ passnumber (ct s2) = passnumber (ct s1)).
  { destruct top; eexists; (split; [reflexivity|]); split; reflexivity. }
  destruct G as (s2 & G & L2 & P2). rewrite G in E. cbn [ret] in E.
  destruct (_ && _).
  - left. unfold err in E. destruct (SymFacts.error_bad result (s2l "Undefined label") s2) as [b X]. rewrite E in X. exists b. exact X.
  - right. unfold bind, modify, ret in E. injection E as <- <-. exists l, v. repeat split.
    cbn [looked set_looked]. congruence.
Qed.

Lemma final_value : forall n o files main s1 s e,
  (init_label_list pseudos ;;; pass n 1) (init_state files main) = (Ok tt, s1) ->
  assemble n o (init_state files main) = (Ok tt, s) -> In e s.(looked) -> lk_pass e = 2 -> met (lk_key e) s1 ->
  fixed e -> lk_key e <> s2l "*" ->
  (after_definition e /\ defined_with (lk_key e) (used_type e) (used_value e) s) \/
  (~ after_definition e /\ defined_with (lk_key e) (used_type e) (used_value e) s1).
Proof.
  intros n o files main s1 s e E1 E I P M F N.
  destruct (f_undef (l_flags (lk_label e))) eqn:U.
  - right. assert (X : ~ after_definition e) by (unfold after_definition; congruence). split; [exact X|].
    destruct (referenced _ _ _ _ _ _ _ E1 E I P M) as [A|[_ A]]; [contradiction|exact A].
  - left. split; [exact U|]. destruct (run_look _ _ _ _ _ _ _ E1 E I P P) as [_ B].
    destruct (B N (conj U F)) as (l & T & S). exists l. split; [exact T|].
    pose proof (SymFacts.see_definite _ _ S (conj U F)) as [D _]. destruct S as ([= Ty V _ _ _] & _). auto.
Qed.
Lemma agreeing : forall n o files main s1 s e,
  (init_label_list pseudos ;;; pass n 1) (init_state files main) = (Ok tt, s1) ->
  assemble n o (init_state files main) = (Ok tt, s) -> In e s.(looked) -> lk_pass e = 2 -> met (lk_key e) s1 ->
  fixed e -> lk_key e <> s2l "*" -> same_addresses s1 s ->
  forall ty v, defined_with (lk_key e) ty v s -> used_value e = v.
Proof.
  intros n o files main s1 s e E1 E I P M F N A ty v (l & T & U & Y & V).
  destruct (final_value _ _ _ _ _ _ _ E1 E I P M F N) as [[_ (l' & T' & _ & _ & V')]|[_ (l1 & T1 & U1 & _ & V1)]].
  - congruence.
  - rewrite <- V, <- V1. symmetry. eapply A; eassumption.
Qed.
