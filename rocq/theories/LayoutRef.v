(** References of a program that both passes lay out identically. *)
From Coq Require Import String Ascii ZArith List Bool Lia.
From Verif Require Import Base State Tree Output Label Operator Scode BaseFacts TreeFacts Walk Frame Run Pseudos Tables Macro Crasm CountFacts.
From Verif Require Import SpecRef SpecJoin SpecLayout RefFacts LayoutRun.
Import ListNotations.
Open Scope Z_scope.

(** ** What is referred to is in the table *)
Definition there (s : state) : Prop := Forall (fun e => tfind (lk_key e) s.(sy) <> None) s.(looked).
Definition wider (t t' : tree) : Prop := forall k, tfind k t <> None -> tfind k t' <> None.
Lemma wider_upd : forall k f t, wider t (tupd k f t).
Proof.
  intros k f t j N. destruct (str_dec j k) as [->|X]; [|rewrite tfind_tupd_other by exact X; exact N].
  rewrite tfind_tupd_same. destruct (tfind k t); [discriminate|exact N].
Qed.
Lemma wider_ins : forall k e t, wider t (tins k e t).
Proof.
  intros k e t j N. destruct (str_dec j k) as [->|X]; [rewrite tins_present by exact N; exact N|rewrite tfind_tins_other by exact X; exact N].
Qed.
Lemma wider_trans : forall a b c, wider a b -> wider b c -> wider a c.
Proof. intros a b c A B k N. auto. Qed.
Lemma wider_systep : forall t t', systep t t' -> wider t t'.
Proof.
  intros t t' [k0|k0 ty F0|k0 flags ty v p m U1 G|k0 lines l0 F0 Ty|k0 e F0 Nm|k0 l0 F0 U0].
  all: try apply wider_upd; try apply wider_ins.
  destruct (tfind k0 t); [apply wider_upd|]. eapply wider_trans; [apply wider_ins|apply wider_upd].
Qed.
Lemma there_wider : forall s t, wider s.(sy) t -> there s -> Forall (fun e => tfind (lk_key e) t <> None) s.(looked).
Proof. intros s t W H. eapply Forall_impl; [|exact H]. intros e. apply W. Qed.
Definition theres : relation := holds there there there.
Lemma theres_lsteps : lsteps theres.
Proof.
  constructor; [apply holds_order; auto|..]; try triv.
  intros s _ H. apply (there_wider _ _ (wider_upd _ _ _) H).
Qed.
Lemma theres_steps : steps theres.
Proof.
  pose proof theres_lsteps as L. pose proof (p_order _ L) as O.
  assert (W : forall s w, theres Fine s (set_wr w s)) by triv.
  assert (Er : forall m, pres theres unit (error m)).
  { apply error_parts; [exact L|triv|triv]. }
  constructor; [constructor; [exact L|..]|..]; try triv.
  - intros s a. apply (setpc_free _ O W).
  - intros s m. apply Er.
  - intros s t K H. exact (there_wider s t (wider_systep _ _ K) H).
  - intros s k l F U H. unfold there, noted. cbn [looked set_looked sy]. constructor; [cbn; congruence|exact H].
  - intros s x. apply (insert8_free _ O W L); try triv. exact Er.
Qed.
Lemma wider_start : forall r t, wider t (startstar r t).
Proof.
  intros r t. unfold startstar. eapply wider_trans; [|apply wider_upd]. eapply wider_trans; [|apply wider_upd].
  destruct (tfind starkey t); [intros k N; exact N|apply wider_ins].
Qed.
Lemma wider_map : forall f t, wider t (tmap f t).
Proof. intros f t k N. rewrite tfind_tmap. destruct (tfind k t); [discriminate|exact N]. Qed.
Lemma there_started : forall s, there s -> there (started 1 s).
Proof.
  intros s H. unfold started. rewrite passstart_eq. unfold there. cbn [snd looked sy set_ct set_sy set_fl set_inp].
  exact (there_wider s _ (wider_start _ _) H).
Qed.
Lemma there_turned : forall o s, there s -> there (turned o s).
Proof.
  intros o s H. unfold turned, started. rewrite between_eq, passstart_eq. unfold there. cbn [snd looked sy set_ct set_sy set_fl set_inp fl].
  apply (there_wider s _). 2:exact H. eapply wider_trans; [apply wider_map|apply wider_start].
Qed.
Lemma run_there0 : forall n o s0 s, there s0 -> assemble n o s0 = (Ok tt, s) -> there s.
Proof.
  intros n o s0 s J0 E. rewrite assemble_split in E. revert E.
  pose proof (first_holds there there there there there theres_steps theres_steps there_started n s0 J0) as A.
  generalize dependent (first n). intros f A E. unfold bind at 1 in E. destruct (f s0) as [[[]|x] s1]; [|discriminate E].
  pose proof (second_holds there there there there theres_steps o (there_turned o) n s1 A) as B.
  assert (F : pres theres _ finish) by (apply (finish_free _ theres_lsteps); triv).
  revert F B E. generalize (pass n 2). generalize finish. intros fi p F B E. rewrite <- bind_assoc in E.
  unfold bind at 1 in E. destruct ((between o ;;; p) s1) as [[[]|b] s2]; [|discriminate E].
  specialize (F s2). rewrite E in F. exact (F B).
Qed.
Lemma run_there : forall n o fs main s e, assemble n o (init_state fs main) = (Ok tt, s) -> In e s.(looked) -> tfind (lk_key e) s.(sy) <> None.
Proof.
  intros n o fs main s e E I. assert (H : there s) by (apply (run_there0 n o (init_state fs main)); [constructor|exact E]).
  unfold there in H. rewrite Forall_forall in H. exact (H e I).
Qed.

(** ** What is found defined stays defined *)
Definition up (t : tree) (k : str) : Prop := exists l, tfind k t = Some l /\ l.(l_flags).(f_undef) = false.
Definition higher (t t' : tree) : Prop := forall k, up t k -> up t' k.
Lemma higher_upd : forall k f t, (forall l, l.(l_flags).(f_undef) = false -> (f l).(l_flags).(f_undef) = false) -> higher t (tupd k f t).
Proof.
  intros k f t H j (l & E & U). destruct (str_dec j k) as [->|X].
  - exists (f l). rewrite tfind_tupd_same, E. split; [reflexivity|auto].
  - exists l. rewrite tfind_tupd_other by exact X. auto.
Qed.
Lemma higher_ins : forall k e t, higher t (tins k e t).
Proof.
  intros k e t j (l & E & U). exists l. split; [|exact U]. destruct (str_dec j k) as [->|X].
  - rewrite tins_present by congruence. exact E.
  - rewrite tfind_tins_other by exact X. exact E.
Qed.
Lemma higher_systep : forall t t', systep t t' -> higher t t'.
Proof.
  intros t t' [k0|k0 ty F0|k0 flags ty v p m U1 G|k0 lines l0 F0 Ty|k0 e F0 Nm|k0 l0 F0 U0].
  - apply higher_upd. intros l U. exact U.
  - apply higher_ins.
  - assert (X : forall t, higher t (tupd k0 (fun l => mkLabel (def_flags l.(l_flags) flags) ty (match m with Some m => m | None => l.(l_modifier) end) p v l.(l_table)) t)).
    { intros t0. apply higher_upd. intros l U. cbn. exact U1. }
    destruct (tfind k0 t); [apply X|]. intros j Hj. apply X, higher_ins, Hj.
  - apply higher_upd. intros l U. exact U.
  - apply higher_ins.
  - apply higher_upd. intros l U. reflexivity.
Qed.
Definition stays (s : state) : Prop := Forall (fun e => lk_pass e = 2 -> after_definition e -> up s.(sy) (lk_key e)) s.(looked).
Lemma stays_higher : forall s t, higher s.(sy) t -> stays s -> Forall (fun e => lk_pass e = 2 -> after_definition e -> up t (lk_key e)) s.(looked).
Proof. intros s t W H. eapply Forall_impl; [|exact H]. intros e X A B. apply W. auto. Qed.
Definition stayed : relation := holds stays stays stays.
Lemma stayed_lsteps : lsteps stayed.
Proof.
  constructor; [apply holds_order; auto|..]; try triv.
  intros s _ H. refine (stays_higher _ _ (higher_upd _ _ _ _) H). intros l U. exact U.
Qed.
Lemma stayed_steps : steps stayed.
Proof.
  pose proof stayed_lsteps as L. pose proof (p_order _ L) as O.
  assert (W : forall s w, stayed Fine s (set_wr w s)) by triv.
  assert (Er : forall m, pres stayed unit (error m)).
  { apply error_parts; [exact L|triv|triv]. }
  constructor; [constructor; [exact L|..]|..]; try triv.
  - intros s a. apply (setpc_free _ O W).
  - intros s m. apply Er.
  - intros s t K H. exact (stays_higher s t (higher_systep _ _ K) H).
  - intros s k l F U H. unfold stays, noted. cbn [looked set_looked sy]. constructor; [|exact H]. intros _ A. exists l. auto.
  - intros s x. apply (insert8_free _ O W L); try triv. exact Er.
Qed.
Lemma stays_turned : forall o s, pass1 s -> stays (turned o s).
Proof.
  intros o s [_ Q]. unfold turned, started. rewrite between_eq, passstart_eq. unfold stays. cbn [snd looked sy set_ct set_sy set_fl set_inp fl].
  eapply Forall_impl; [|exact Q]. intros e N P. contradiction.
Qed.
Lemma run_stays0 : forall n o s0 s, pass1 s0 -> assemble n o s0 = (Ok tt, s) -> stays s.
Proof.
  intros n o s0 s J0 E. rewrite assemble_split in E. revert E.
  pose proof (first_holds pass1 pass1 pass1 pass1 pass1 firstly_steps firstly_steps started_pass1 n s0 J0) as A.
  generalize dependent (first n). intros f A E. unfold bind at 1 in E. destruct (f s0) as [[[]|x] s1]; [|discriminate E].
  pose proof (second_holds pass1 stays stays stays stayed_steps o (stays_turned o) n s1 A) as B.
  assert (F : pres stayed _ finish) by (apply (finish_free _ stayed_lsteps); triv).
  revert F B E. generalize (pass n 2). generalize finish. intros fi p F B E. rewrite <- bind_assoc in E.
  unfold bind at 1 in E. destruct ((between o ;;; p) s1) as [[[]|b] s2]; [|discriminate E].
  specialize (F s2). rewrite E in F. exact (F B).
Qed.
Lemma run_stays : forall n o fs main s e, assemble n o (init_state fs main) = (Ok tt, s) -> In e s.(looked) ->
  lk_pass e = 2 -> after_definition e -> up s.(sy) (lk_key e).
Proof.
  intros n o fs main s e E I. assert (H : stays s) by (apply (run_stays0 n o (init_state fs main)); [split; [discriminate|constructor]|exact E]).
  unfold stays in H. rewrite Forall_forall in H. exact (H e I).
Qed.

(** ** References of the second pass *)
Theorem references : forall n o fs main b1 b2 s1 s e,
  pass_starts n o fs main 1 b1 -> pass_starts n o fs main 2 b2 ->
  first n (init_state fs main) = (Ok tt, s1) -> assemble n o (init_state fs main) = (Ok tt, s) -> s.(ct).(errnumber) = 0 ->
  straight n b1 -> (forall x, complains n b1 x -> late x) -> forward_numbers s1.(sy) ->
  In e s.(looked) -> lk_pass e = 2 -> lk_key e <> s2l "*" ->
  (exists ty v, defined_with (lk_key e) ty v s) /\
  (fixed e -> steadily n b1 (lk_key e) -> defined_with (lk_key e) (used_type e) (used_value e) s).
Proof.
  intros n o fs main b1 b2 s1 s e P1 P2 Ef Ea Z St La SF I P N.
  destruct (layout_all n o fs main b1 b2 s1 s P1 P2 Ef Ea Z St La SF) as (_ & _ & C & D).
  assert (M : met (lk_key e) s1) by (intros X; exact (run_there _ _ _ _ _ _ Ea I (D _ N X))).
  assert (K : forall ty v, defined_with (lk_key e) ty v s1 -> exists v', defined_with (lk_key e) ty v' s /\ (steadily n b1 (lk_key e) -> v' = v)).
  { intros ty v (l1 & T1 & U1 & Y1 & V1). destruct (C _ _ N T1 U1) as (l & T & U & Y & V). exists (l_value l). split.
    - exists l. repeat split; auto. congruence.
    - intros Sd. rewrite <- V1. apply V. right. exact Sd. }
  pose proof Ef as Ef'. rewrite first_eq in Ef'. split.
  - destruct (referenced _ _ _ _ _ _ _ Ef' Ea I P M) as [A|[_ A]].
    { destruct (run_stays _ _ _ _ _ _ Ea I P A) as (l & T & U). exists (l_type l), (l_value l), l. auto. }
    destruct (K _ _ A) as (v' & X & _). exists (used_type e), v'. exact X.
  - intros F Sd. destruct (final_value _ _ _ _ _ _ _ Ef' Ea I P M F N) as [[_ A]|[_ A]]; [exact A|].
    destruct (K _ _ A) as (v' & X & Y). rewrite <- (Y Sd). exact X.
Qed.
