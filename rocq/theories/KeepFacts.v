(** The names of the directives keep their meaning.  Nothing here is part of the model. *)
From Coq Require Import String Ascii ZArith List Bool Lia ZifyBool ZifyNat.
From Verif Require Import Base BaseFacts State Tree TreeFacts Filter Output Label Operator Parse Scode Tables.
From Verif Require Import Cpu6800 Cpu6502 CpuZ80 Pseudos Macro Xref Crasm.
From Verif Require Import SpecForms SpecCpu SpecChoice SpecKeep Walk Frame Run CountFacts FormFacts ChoiceFacts.
Import ListNotations.
Open Scope Z_scope.

Definition standing (l0 l : label) : Prop := exists b, l = set_l_flags (set_f_used b l0.(l_flags)) l0.
Definition kept_in (t : tree) : Prop := forall e, In e pseudos -> exists l, tfind (key e) t = Some l /\ standing (snd e) l.
Definition kept (s : state) : Prop := kept_in s.(sy).

Lemma pseudos_regular : forallb (fun e : entry => negb (streq (key e) starkey) && negb (snd e).(l_flags).(f_undef) && (snd e).(l_flags).(f_noredef)
   && negb (snd e).(l_flags).(f_forward) && ltype_eqb (snd e).(l_type) TMnemo && table_eqb (snd e).(l_table) TPseudos) pseudos = true.
Proof. vm_compute. reflexivity. Qed.
Lemma pseudo_flags : forall e, In e pseudos -> key e <> starkey /\ (snd e).(l_flags).(f_undef) = false /\ (snd e).(l_flags).(f_noredef) = true /\
  (snd e).(l_flags).(f_forward) = false /\ (snd e).(l_type) = TMnemo /\ (snd e).(l_table) = TPseudos.
Proof.
  intros e I. pose proof (proj1 (forallb_forall _ _) pseudos_regular e I) as H. cbv beta in H.
  repeat (apply andb_prop in H; destruct H as [H ?]). repeat split.
  - intros K. rewrite K, streq_refl in H. discriminate H.
  - destruct (f_undef _); [discriminate|reflexivity].
  - assumption.
  - destruct (f_forward _); [discriminate|reflexivity].
  - destruct (l_type _); try discriminate; reflexivity.
  - destruct (l_table _); try discriminate; reflexivity.
Qed.
Lemma standing_flags : forall e l, In e pseudos -> standing (snd e) l -> l.(l_flags).(f_undef) = false /\ l.(l_flags).(f_noredef) = true /\
  l.(l_flags).(f_forward) = false /\ l.(l_type) = TMnemo /\ l.(l_table) = TPseudos.
Proof. intros e l I [b ->]. destruct (pseudo_flags e I) as (_ & A & B & C & D & E). cbn. repeat split; assumption. Qed.

(** Changes of other nodes. *)
Lemma kept_upd : forall t k f, kept_in t -> (forall e l, In e pseudos -> key e = k -> tfind k t = Some l -> standing (snd e) l -> standing (snd e) (f l)) ->
  kept_in (tupd k f t).
Proof.
  intros t k f H K e I. destruct (H e I) as (l & F & S). destruct (str_dec k (key e)) as [E|E].
  - subst k. exists (f l). split; [rewrite tfind_tupd_same, F; reflexivity|exact (K e l I eq_refl F S)].
  - exists l. split; [rewrite tfind_tupd_other by congruence; exact F|exact S].
Qed.
Lemma kept_ins : forall t k x, kept_in t -> tfind k t = None -> kept_in (tins k x t).
Proof.
  intros t k x H N e I. destruct (H e I) as (l & F & S). exists l. split; [|exact S]. rewrite tfind_tins_other; [exact F|]. intros E. congruence.
Qed.
Lemma standing_used : forall l0 l, standing l0 l -> standing l0 (set_l_flags (set_f_used true l.(l_flags)) l).
Proof. intros l0 l [b ->]. exists true. reflexivity. Qed.
Lemma kept_systep : forall t t', systep t t' -> kept_in t -> kept_in t'.
Proof.
  intros t t' H B. destruct H.
  - apply kept_upd; [exact B|]. intros e l I E F S. apply standing_used. exact S.
  - apply kept_ins; assumption.
  - apply kept_upd.
    + destruct (tfind k t) eqn:F; [exact B|]. apply kept_ins; assumption.
    + intros e l I E F S. destruct (B e I) as (l' & F' & S'). rewrite E in F'. rewrite F' in F. assert (l' = l) by congruence. subst l'.
      destruct (standing_flags e l I S) as (A1 & A2 & _). destruct (H0 l F') as [X|[X _]]; congruence.
  - apply kept_upd; [exact B|]. intros e l' I E F S. destruct (standing_flags e l' I S) as (_ & _ & _ & A & _). congruence.
  - apply kept_ins; assumption.
  - apply kept_upd; [exact B|]. intros e l' I E F S. destruct (standing_flags e l' I S) as (A & _). congruence.
Qed.
Definition keeping : relation := holds kept kept kept.
Lemma keeping_steps : steps keeping.
Proof.
  assert (L : lsteps keeping).
  { constructor; [apply holds_order; auto|..]; try triv. intros s _ H. apply kept_upd; [exact H|].
    intros e l I E. destruct (pseudo_flags e I) as (A & _). contradiction. }
  pose proof (p_order _ L) as O.
  assert (W : forall s w, keeping Fine s (set_wr w s)) by triv.
  assert (Er : forall m, pres keeping unit (error m)).
  { apply error_parts; [exact L|triv|triv]. }
  constructor; [constructor; [exact L|..]|..]; try triv.
  - intros s a. apply (setpc_free _ O W).
  - intros s m. apply Er.
  - intros s t K H. exact (kept_systep _ _ K H).
  - intros s x. apply (insert8_free _ O W L); try triv. exact Er.
Qed.
Lemma kept_started : forall k s, kept s -> kept (started k s).
Proof.
  intros k s H. unfold started. rewrite passstart_eq. unfold kept. cbn [snd sy set_ct set_sy set_inp set_fl]. unfold startstar.
  assert (X : forall f t, kept_in t -> kept_in (tupd starkey f t)).
  { intros f t K. apply kept_upd; [exact K|]. intros e l I E. destruct (pseudo_flags e I) as (A & _). contradiction. }
  do 2 apply X. destruct (tfind starkey (sy s)) eqn:F; [exact H|]. apply kept_ins; assumption.
Qed.
Lemma kept_between : forall o s, kept s -> kept (snd (between o s)).
Proof.
  intros o s H. rewrite between_eq. intros e I. cbn [snd sy set_sy].
  destruct (H e I) as (l & F & S). destruct (standing_flags e l I S) as (A1 & A2 & A3 & A4 & A5).
  rewrite tfind_tmap, F. exists (undef_node l). split; [reflexivity|]. unfold undef_node. rewrite A1, A2, A3, A5. cbn [negb orb table_eqb].
  destruct S as [b ->]. exists b. destruct (snd e) as [[] ? ? ? ? ?]. cbn in *. subst. reflexivity.
Qed.

(** The run. *)
Definition stays {A} (m : M A) : Prop := forall s, kept s -> kept (snd (m s)).
Lemma stays_bind : forall A B (m : M A) (k : A -> M B), stays m -> (forall a, stays (k a)) -> stays (bind m k).
Proof.
  intros A B m k H K s V. specialize (H s V). unfold bind. destruct (m s) as [[a|b] s1]; cbn [snd] in *; [apply K; exact H|exact H].
Qed.
Lemma stays_pres : forall A (m : M A), pres keeping A m -> stays m.
Proof. intros A m H s V. specialize (H s V). destruct (how (fst (m s))); exact H. Qed.
Lemma stays_pass : forall n k, stays (pass n k).
Proof.
  intros n k. unfold pass. apply stays_bind; [intros s V; exact (kept_started k s V)|intros _].
  apply stays_pres, (J_passloop _ (pres_walk _ keeping_steps)).
Qed.
Lemma stays_finish : stays finish.
Proof. apply stays_pres. apply finish_free; [apply (p_lsteps _ (p_bsteps _ keeping_steps))|triv|triv]. Qed.
Definition body (n : nat) (o : options) : M unit := pass n 1 ;;; between o ;;; pass n 2 ;;; finish.
Lemma stays_body : forall n o, stays (body n o).
Proof.
  intros n o. unfold body. apply stays_bind; [apply stays_pass|intros _]. apply stays_bind; [intros s; apply kept_between|intros _].
  apply stays_bind; [apply stays_pass|intros _; apply stays_finish].
Qed.

(** The start. *)
Definition first_tree : tree := Eval vm_compute in sy (snd (init_label_list pseudos (init_state (fun _ => None) []))).
Lemma init_tree : forall fs text, init_label_list pseudos (init_state fs text) = (Ok tt, set_sy first_tree (init_state fs text)).
Proof. intros fs text. vm_compute. reflexivity. Qed.
Lemma kept_init : kept_in first_tree.
Proof.
  intros e I. exists (snd e). split; [|exists (f_used (l_flags (snd e))); destruct e as [? [[] ? ? ? ? ?]]; reflexivity].
  revert e I. apply Forall_forall. unfold pseudos.
  repeat apply Forall_cons; [..|apply Forall_nil]; vm_compute; reflexivity.
Qed.
Lemma bind_ok : forall A B (m : M A) (k : A -> M B) s a s1, m s = (Ok a, s1) -> bind m k s = k a s1.
Proof. intros A B m k s a s1 E. unfold bind. rewrite E. reflexivity. Qed.
Lemma assemble_start : forall n o s, assemble n o s = bind (init_label_list pseudos) (fun _ => body n o) s.
Proof. intros n o s. reflexivity. Qed.
Lemma assemble_body : forall n o fs text,
  assemble n o (init_state fs text) = body n o (set_sy first_tree (init_state fs text)).
Proof. intros n o fs text. rewrite assemble_start. exact (bind_ok _ _ _ (fun _ => body n o) _ _ _ (init_tree fs text)). Qed.
Theorem always_kept : forall n o fs text r s, assemble n o (init_state fs text) = (r, s) -> kept s.
Proof.
  intros n o fs text r s E. rewrite assemble_body in E. pose proof (stays_body n o _ (kept_init : kept (set_sy first_tree (init_state fs text)))) as K.
  rewrite E in K. exact K.
Qed.

(** ** The names *)
Lemma directives_names : forallb (fun d : string * handler * Z => let n := fst (fst d) in
  match list_ascii_of_string n with [] => false | c :: _ => negb (zc c =? 46) end &&
  Nat.leb (String.length n) 48 && forallb (fun c => negb (zc c =? 95)) (list_ascii_of_string n)) directives = true.
Proof. vm_compute. reflexivity. Qed.
Lemma directives_listed : forall n h k, In (n, h, k) directives -> exists e, In e pseudos /\ key e = identifier n /\
  (snd e).(l_ptr) = PFun h /\ (snd e).(l_modifier) = k.
Proof.
  assert (X : Forall (fun d : string * handler * Z => Exists (fun e : entry => key e = identifier (fst (fst d)) /\
     (snd e).(l_ptr) = PFun (snd (fst d)) /\ (snd e).(l_modifier) = snd d) pseudos) directives).
  { unfold directives, pseudos. repeat apply Forall_cons; [..|apply Forall_nil]; repeat first [solve [apply Exists_cons_hd; vm_compute; repeat split] | apply Exists_cons_tl]. }
  intros n h k I. rewrite Forall_forall in X. specialize (X _ I). apply Exists_exists in X. exact X.
Qed.
Lemma kept_name : forall s n h k m, kept s -> In (n, h, k) directives -> spells (t_ n) m ->
  exists l, tfind (lkey s.(inp).(segment) m) s.(sy) = Some l /\ lkey s.(inp).(segment) m = identifier n /\ l.(l_flags).(f_undef) = false /\ l.(l_flags).(f_noredef) = true /\ l.(l_type) = TMnemo /\
    l.(l_ptr) = PFun h /\ l.(l_modifier) = k /\ findmnemo m s = (Ok (Some (identifier n, l)), s) /\
    exists e, In e pseudos /\ key e = identifier n /\ standing (snd e) l.
Proof.
  intros s n h k m K I S. destruct (directives_listed n h k I) as (e & Ie & Ke & Pe & Me).
  destruct (K e Ie) as (l & F & St). destruct (standing_flags e l Ie St) as (A1 & A2 & A3 & A4 & A5).
  pose proof (proj1 (forallb_forall _ _) directives_names _ I) as N. cbv beta zeta in N. cbn [fst] in N.
  apply andb_prop in N. destruct N as [N N3]. apply andb_prop in N. destruct N as [N1 N2].
  assert (U : map SpecSplit.upper m = identifier n) by (apply (spells_upper _ _ N3 S)).
  rewrite Ke in F.
  assert (D : match list_ascii_of_string n with [] => False | c :: _ => c <> "."%char end).
  { destruct (list_ascii_of_string n) as [|c r]; [discriminate N1|]. intros ->. discriminate N1. }
  assert (E : findmnemo m s = (Ok (Some (identifier n, l)), s)).
  { apply findmnemo_found; auto. apply Nat.leb_le. exact N2. }
  exists l. assert (L : lkey s.(inp).(segment) m = identifier n).
  { apply lkey_name; auto. apply Nat.leb_le. exact N2. }
  rewrite L. repeat split; auto.
  - destruct St as [b ->]. exact Pe.
  - destruct St as [b ->]. exact Me.
  - exists e. auto.
Qed.
Theorem names_kept : forall n o fs text r s d h k m, assemble n o (init_state fs text) = (r, s) ->
  In (d, h, k) directives -> spells (t_ d) m ->
  (exists l, findmnemo m s = (Ok (Some (identifier d, l)), s) /\ l.(l_type) = TMnemo /\ l.(l_ptr) = PFun h /\ l.(l_modifier) = k) /\
  (forall f y v, deflabel m f y v s = error (s2l "attempt to redefine a keyword") s).
Proof.
  intros n o fs text r s d h k m E I S. apply always_kept in E.
  destruct (kept_name s d h k m E I S) as (l & F & L & A1 & A2 & A3 & A4 & A5 & A6 & _). split; [exists l; auto|].
  intros f y v. unfold deflabel, searchlabel, bind at 1. unfold bind at 1. cbn [gets ret]. cbn zeta. rewrite F, A1, A2, A3. cbn [negb andb orb].
  unfold err. apply error_bind.
Qed.
