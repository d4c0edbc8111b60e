(** Two passes over the same lines: running an operation of the first pass beside the same
    operation of the second.  Nothing here is part of the model. *)
From Coq Require Import String Ascii ZArith List Bool Lia.
From Verif Require Import Base State Tree Filter Output Label Operator Parse Scode Tables.
From Verif Require Import Cpu6800 Cpu6502 CpuZ80 Pseudos Macro Xref Crasm.
From Verif Require Import TreeFacts Walk Frame Run SymFacts LayoutFacts SpecLayout.
From Verif Require SpecEmit SpecSymbols EmitFacts Eval TwinFacts.
Import ListNotations.
Open Scope Z_scope.

(** ** The part of the state that matters *)
Record core := mkCore { k_pass : Z; k_adv : Z; k_inp : input; k_sy : tree; k_rel : bool; k_org : bool; k_pc : Z;
                        k_cp : cpustate; k_em : list emission }.
Definition coreof (s : state) : core :=
  mkCore s.(ct).(passnumber) s.(ct).(advance) s.(inp) s.(sy) s.(fl).(a_relatif) s.(fl).(a_org_gv) s.(wr).(pc) s.(cp) s.(emitted).

(** Operations that change nothing of it, and do not fail. *)
Definition mute : relation := fun d s s' =>
  match d with Fine => coreof s' = coreof s | Failed => False | Dead => True end.
Lemma mute_osteps : osteps mute.
Proof.
  constructor; [constructor|..]; unfold mute; intros; auto.
  destruct d; auto. congruence.
Qed.
Lemma mute_order : order mute.
Proof. exact (o_order _ mute_osteps). Qed.
Lemma mute_modify : forall f, (forall s, coreof (f s) = coreof s) -> pres mute unit (modify f).
Proof. intros f H s. exact (H s). Qed.
Lemma mute_scwrite : forall t, pres mute _ (scwrite t).
Proof.
  intros t. unfold scwrite. apply (pres_bind _ mute_order); [apply (pres_gets _ mute_order)|intros w].
  destruct (scode w); [intros s; reflexivity|apply (pres_ub _ mute_order)].
Qed.
Ltac mutes :=
  repeat first
    [ match goal with |- pres _ _ (bind _ _) => apply (pres_bind _ mute_order); [|intros] end
    | apply (pres_gets _ mute_order) | apply (pres_ret _ mute_order) | apply mute_scwrite
    | apply (pres_outputbyte _ mute_osteps) | apply (pres_outputline _ mute_osteps) | apply (pres_outputEOL _ mute_osteps)
    | apply (pres_outputEOP _ mute_osteps) | apply (pres_position _ mute_osteps) | apply (pres_outputaddr _ mute_osteps)
    | apply (pres_warning _ mute_osteps) | apply (pres_fatal _ mute_osteps) | apply (pres_ub _ mute_order) | apply (pres_hang _ mute_order)
    | apply (pres_fuel _ mute_order) | apply (pres_filterc _ mute_osteps)
    | match goal with |- pres _ _ (match ?x with _ => _ end) => destruct x end
    | match goal with |- pres _ _ (when ?x _) => destruct x; cbn [when] end
    | let z := fresh in intros z; reflexivity ].
Lemma mute_flush : pres mute _ flushscoderaw.
Proof. unfold flushscoderaw. mutes. Qed.
Lemma mute_ok : forall A (m : M A) s a s', pres mute A m -> m s = (Ok a, s') -> coreof s' = coreof s.
Proof. intros A m s a s' H E. specialize (H s). rewrite E in H. exact H. Qed.

(** ** The relation between the states *)
Definition zflags (c : cpustate) : Z * bool * bool * bool := (c.(z_indexflag), c.(z_offsetflag), c.(z_arg8flag), c.(z_arg16flag)).

Definition starup (t : tree) : Prop := exists l, tfind starkey t = Some l /\ l.(l_flags).(f_undef) = false.

Section Rel.
Variable F : final.
Variable SF : forward_numbers F.

Record along (z : bool) (c1 c2 : core) : Prop := {
  a_pass1 : c1.(k_pass) = 1;
  a_pass2 : c2.(k_pass) = 2;
  a_inp : c1.(k_inp) = c2.(k_inp);
  a_srcs : c1.(k_inp).(srcs) = [];
  a_rel1 : c1.(k_rel) = false;
  a_rel2 : c2.(k_rel) = false;
  a_tables : tables F c1.(k_sy) c2.(k_sy);
  a_org : c1.(k_org) = c2.(k_org);
  a_pc : c1.(k_org) = true -> c1.(k_pc) = c2.(k_pc);
  a_up : c1.(k_org) = true -> starup c1.(k_sy);
  a_adv : c1.(k_adv) = c2.(k_adv);
  a_z : z = true -> zflags c1.(k_cp) = zflags c2.(k_cp);
  a_em : addresses 1 c1.(k_em) = addresses 2 c2.(k_em);
  a_end : c1.(k_inp).(maineof) = true -> c1.(k_inp).(mainrest) = []
}.
Record between_lines (c1 c2 : core) : Prop := {
  b_pass1 : c1.(k_pass) = 1;
  b_pass2 : c2.(k_pass) = 2;
  b_inp : set_curline [] c1.(k_inp) = set_curline [] c2.(k_inp);
  b_srcs : c1.(k_inp).(srcs) = [];
  b_rel1 : c1.(k_rel) = false;
  b_rel2 : c2.(k_rel) = false;
  b_tables : tables F c1.(k_sy) c2.(k_sy);
  b_em : addresses 1 c1.(k_em) = addresses 2 c2.(k_em);
  b_end : c1.(k_inp).(maineof) = true -> c1.(k_inp).(mainrest) = []
}.
Definition T (z : bool) (s1 s2 : state) : Prop := along z (coreof s1) (coreof s2).
Definition Tb (s1 s2 : state) : Prop := between_lines (coreof s1) (coreof s2).
Lemma T_b : forall z s1 s2, T z s1 s2 -> Tb s1 s2.
Proof. intros z s1 s2 []. constructor; try assumption. congruence. Qed.
Lemma T_weak : forall z s1 s2, T z s1 s2 -> T false s1 s2.
Proof. intros z s1 s2 []. constructor; try assumption. discriminate. Qed.

(** After a line of the second pass, [*] moves on. *)
Definition after (s1 s2 : state) : Prop := forall s3, star_advance s2 = (Ok tt, s3) -> Tb s1 s3.

Definition rel (z z' lt : bool) {A B} (Q : A -> B -> Prop) (m1 : M A) (m2 : M B) : Prop :=
  forall s1 s2 b s2', T z s1 s2 -> m2 s2 = (Ok b, s2') ->
  match m1 s1 with
  | (Ok a, s1') => grows s1'.(sy) F -> T z' s1' s2' /\ Q a b
  | (Bad (Err e), s1') => grows s1'.(sy) F -> late e -> lt = true /\ after s1' s2'
  | _ => True
  end.

Lemma rel_bind : forall z z1 z2 lt A B A' B' (Q : A -> A' -> Prop) (R : B -> B' -> Prop) m1 m2 (k1 : A -> M B) (k2 : A' -> M B'),
  rel z z1 false Q m1 m2 -> (forall a, pres growing _ (k1 a)) -> (forall a a', Q a a' -> rel z1 z2 lt R (k1 a) (k2 a')) ->
  rel z z2 lt R (bind m1 k1) (bind m2 k2).
Proof.
  intros z z1 z2 lt A B A' B' Q R m1 m2 k1 k2 Hm G Hk s1 s2 b s2' Ht E. apply EmitFacts.seq_ok in E. destruct E as (a' & s3 & E1 & E2).
  specialize (Hm _ _ _ _ Ht E1). unfold bind. destruct (m1 s1) as [[a|[e|?|?| |]] s1']; try exact Logic.I.
  - specialize (G a s1'). unfold growing, always in G.
    destruct (k1 a s1') as [[c|[e|?|?| |]] s1''] eqn:Ek; cbn [snd] in G; try exact Logic.I; intros GF;
      destruct (Hm (grows_trans _ _ _ G GF)) as [Ht' Hq]; specialize (Hk _ _ Hq _ _ _ _ Ht' E2); rewrite Ek in Hk; auto.
  - intros GF Lt. destruct (Hm GF Lt) as [X _]. discriminate X.
Qed.
Lemma rel_weaken : forall z z' lt A B (Q R : A -> B -> Prop) m1 m2, rel z z' lt Q m1 m2 -> (forall a b, Q a b -> R a b) ->
  rel z z' lt R m1 m2.
Proof.
  intros z z' lt A B Q R m1 m2 H I s1 s2 b s2' Ht E. specialize (H _ _ _ _ Ht E). destruct (m1 s1) as [[a|[e|?|?| |]] s1']; auto.
  intros G. destruct (H G). auto.
Qed.
Lemma rel_lt : forall z z' lt A B (Q : A -> B -> Prop) m1 m2, rel z z' false Q m1 m2 -> rel z z' lt Q m1 m2.
Proof.
  intros z z' lt A B Q m1 m2 H s1 s2 b s2' Ht E. specialize (H _ _ _ _ Ht E). destruct (m1 s1) as [[a|[e|?|?| |]] s1']; auto.
  intros G Lt. destruct (H G Lt) as [X _]. discriminate X.
Qed.
Lemma rel_ext : forall z z' lt A B (Q : A -> B -> Prop) m1 m2 n1 n2, (forall s, m1 s = n1 s) -> (forall s, m2 s = n2 s) ->
  rel z z' lt Q m1 m2 -> rel z z' lt Q n1 n2.
Proof. intros z z' lt A B Q m1 m2 n1 n2 E1 E2 H s1 s2 b s2' Ht E. rewrite <- E2 in E. rewrite <- E1. exact (H _ _ _ _ Ht E). Qed.
Lemma rel_z : forall z z' lt A B (Q : A -> B -> Prop) m1 m2, rel z z' lt Q m1 m2 -> rel z false lt Q m1 m2.
Proof.
  intros z z' lt A B Q m1 m2 H s1 s2 b s2' Ht E. specialize (H _ _ _ _ Ht E). destruct (m1 s1) as [[a|[e|?|?| |]] s1']; auto.
  intros G. destruct (H G). split; [eapply T_weak; eassumption|assumption].
Qed.
Lemma rel_from : forall z' lt A B (Q : A -> B -> Prop) m1 m2, rel false z' lt Q m1 m2 -> forall z, rel z z' lt Q m1 m2.
Proof. intros z' lt A B Q m1 m2 H z s1 s2 b s2' Ht E. exact (H _ _ _ _ (T_weak _ _ _ Ht) E). Qed.
Lemma rel_ret : forall z lt A B (Q : A -> B -> Prop) a b, Q a b -> rel z z lt Q (ret a) (ret b).
Proof. intros z lt A B Q a b H s1 s2 c s2' Ht E. injection E as <- <-. cbn. auto. Qed.
Lemma rel_gets : forall z lt A (f : core -> A), rel z z lt (fun a b => exists c1 c2, along z c1 c2 /\ a = f c1 /\ b = f c2)
  (gets (fun s => f (coreof s))) (gets (fun s => f (coreof s))).
Proof. intros z lt A f s1 s2 c s2' Ht E. injection E as <- <-. cbn. intros _. split; [exact Ht|]. exists (coreof s1), (coreof s2). auto. Qed.
Lemma rel_any : forall z lt A B (f : state -> A) (g : state -> B), rel z z lt (fun _ _ => True) (gets f) (gets g).
Proof. intros z lt A B f g s1 s2 c s2' Ht E. injection E as <- <-. cbn. auto. Qed.
(** Reading the state, and going on. *)
Lemma rel_look : forall z z' lt A B C D (f : state -> A) (g : state -> B) (k1 : A -> M C) (k2 : B -> M D) Q,
  (forall s1 s2, T z s1 s2 -> forall b s2', k2 (g s2) s2 = (Ok b, s2') ->
   match k1 (f s1) s1 with
  | (Ok a, s1') => grows s1'.(sy) F -> T z' s1' s2' /\ Q a b
  | (Bad (Err e), s1') => grows s1'.(sy) F -> late e -> lt = true /\ after s1' s2'
  | _ => True
  end) -> rel z z' lt Q (bind (gets f) k1) (bind (gets g) k2).
Proof. intros z z' lt A B C D f g k1 k2 Q H s1 s2 b s2' Ht E. exact (H _ _ Ht _ _ E). Qed.
Lemma T_core : forall z s1 s2 s1' s2', T z s1 s2 -> coreof s1' = coreof s1 -> coreof s2' = coreof s2 -> T z s1' s2'.
Proof. unfold T. intros z s1 s2 s1' s2' H E1 E2. rewrite E1, E2. exact H. Qed.
Lemma Tb_core : forall s1 s2 s1' s2', Tb s1 s2 -> coreof s1' = coreof s1 -> coreof s2' = coreof s2 -> Tb s1' s2'.
Proof. unfold Tb. intros s1 s2 s1' s2' H E1 E2. rewrite E1, E2. exact H. Qed.
Lemma rel_mute : forall z lt A B (m1 : M A) (m2 : M B), pres mute _ m1 -> pres mute _ m2 -> rel z z lt (fun _ _ => True) m1 m2.
Proof.
  intros z lt A B m1 m2 H1 H2 s1 s2 b s2' Ht E. specialize (H1 s1). specialize (H2 s2). rewrite E in H2.
  destruct (m1 s1) as [[a|[e|?|?| |]] s1']; cbn [fst snd how] in H1, H2; try exact Logic.I; [|destruct H1].
  intros _. split; [|exact Logic.I]. exact (T_core _ _ _ _ _ Ht H1 H2).
Qed.
Lemma rel_mute1 : forall z z' lt A B C (Q : A -> B -> Prop) (m1 : M C) k1 m2, pres mute _ m1 -> (forall a, pres growing _ (k1 a)) ->
  (forall a, rel z z' lt Q (k1 a) m2) -> rel z z' lt Q (bind m1 k1) m2.
Proof.
  intros z z' lt A B C Q m1 k1 m2 Hm G Hk s1 s2 b s2' Ht E. specialize (Hm s1). unfold bind.
  destruct (m1 s1) as [[a|[e|?|?| |]] s1']; cbn [fst snd how] in Hm; try exact Logic.I; [|destruct Hm].
  exact (Hk a _ _ _ _ (T_core _ _ _ _ _ Ht Hm eq_refl) E).
Qed.
Lemma rel_mute2 : forall z z' lt A B C (Q : A -> B -> Prop) (m2 : M C) k2 m1, pres mute _ m2 ->
  (forall a, rel z z' lt Q m1 (k2 a)) -> rel z z' lt Q m1 (bind m2 k2).
Proof.
  intros z z' lt A B C Q m2 k2 m1 Hm Hk s1 s2 b s2' Ht E. apply EmitFacts.seq_ok in E. destruct E as (a & s3 & E1 & E2).
  specialize (Hm s2). rewrite E1 in Hm. exact (Hk a _ _ _ _ (T_core _ _ _ _ _ Ht eq_refl Hm) E2).
Qed.
(** The second pass does not get through. *)
Definition never {B} (m : M B) : Prop := forall s b s', m s <> (Ok b, s').
Lemma rel_never : forall z z' lt A B (Q : A -> B -> Prop) m1 m2, never m2 -> rel z z' lt Q m1 m2.
Proof. intros z z' lt A B Q m1 m2 N s1 s2 b s2' _ E. elim (N _ _ _ E). Qed.
Lemma never_error : forall A m, never (@error A m).
Proof. intros A m s b s' E. exact (Eval.error_never _ _ _ _ _ E). Qed.
Lemma never_err : forall A m, never (@err A m).
Proof. intros A m. apply never_error. Qed.
Lemma never_bind : forall A B (m : M A) (k : A -> M B), never m -> never (bind m k).
Proof. intros A B m k N s b s' E. apply EmitFacts.seq_ok in E. destruct E as (a & s1 & E & _). exact (N _ _ _ E). Qed.
Lemma never_stop : forall A x, never (@stop A x).
Proof. intros A x s b s' E. discriminate E. Qed.
Definition calm {A} (m : M A) : Prop := forall s e s', m s <> (Bad (Err e), s').
Lemma calm_mute : forall A (m : M A), pres mute _ m -> calm m.
Proof. intros A m H s e s' E. specialize (H s). rewrite E in H. exact H. Qed.
Lemma calm_bind : forall A B (m : M A) (k : A -> M B) s e s', calm m -> bind m k s = (Bad (Err e), s') ->
  exists a s1, m s = (Ok a, s1) /\ k a s1 = (Bad (Err e), s').
Proof.
  intros A B m k s e s' C E. unfold bind in E. destruct (m s) as [[a|[y|?|?| |]] s1] eqn:Em; try discriminate E.
  - exists a, s1. auto.
  - elim (C _ _ _ Em).
Qed.
Lemma calm_star : calm star_advance.
Proof. intros s e s'. unfold star_advance, bind, gets. destruct (in_s64 _); discriminate. Qed.
Lemma mute_message : forall (c : bool) (r : str), pres mute unit
  (if c then let r := r in if 80 <=? zlen r then stop (UB "error: message buffer overflow") else upd_fl (set_a_list_on true) ;;; outputraw (markline r) else ret tt).
Proof.
  intros c r. destruct c; [|mutes]. cbv zeta. destruct (80 <=? _); [mutes|]. apply (pres_bind _ mute_order); [intros z; reflexivity|intros _].
  apply (pres_outputraw _ mute_osteps).
Qed.
(** What [error] does. *)
Lemma error_effect : forall A m s e s', @error A m s = (Bad (Err e), s') -> e = m /\
  coreof s' = mkCore s.(ct).(passnumber) s.(ct).(advance) s.(inp)
    (if s.(ct).(advance) =? 0 then s.(sy) else tupd starkey (set_l_value (starvalue s + s.(ct).(advance))) s.(sy))
    s.(fl).(a_relatif) s.(fl).(a_org_gv) s.(wr).(pc) s.(cp) s.(emitted).
Proof.
  intros A m s e s' E. unfold error in E. apply calm_bind in E; [|intros ? ? ?; discriminate]. destruct E as (x & s1 & E0 & E). injection E0 as <- <-.
  apply calm_bind in E.
  2:{ apply calm_mute, mute_message. }
  destruct E as (x1 & s2 & E1 & E).
  assert (C1 : coreof s2 = coreof s).
  { revert E1. apply mute_ok, mute_message. }
  apply calm_bind in E; [|apply calm_mute, (pres_outputline _ mute_osteps)]. destruct E as (x2 & s3 & E2 & E).
  apply mute_ok in E2; [|apply (pres_outputline _ mute_osteps)]. rewrite C1 in E2.
  apply calm_bind in E; [|unfold when; destruct (negb (advance (ct s) =? 0)); [apply calm_star|intros ? ? ?; discriminate]].
  destruct E as (x3 & s4 & E3 & E). unfold bind, upd_fl, modify, stop in E. injection E as <- <-. split; [reflexivity|].
  assert (X : coreof s4 = mkCore s.(ct).(passnumber) s.(ct).(advance) s.(inp)
    (if s.(ct).(advance) =? 0 then s.(sy) else tupd starkey (set_l_value (starvalue s + s.(ct).(advance))) s.(sy))
    s.(fl).(a_relatif) s.(fl).(a_org_gv) s.(wr).(pc) s.(cp) s.(emitted)).
  { destruct (advance (ct s) =? 0) eqn:Ea; cbn [negb when] in E3.
    - injection E3 as _ <-. exact E2.
    - unfold star_advance, bind, gets in E3. destruct (in_s64 _); [|discriminate]. apply (f_equal snd) in E3. cbn [snd upd_sy modify] in E3. subst s4.
      pose proof (f_equal k_sy E2) as K1. pose proof (f_equal k_adv E2) as K2. cbn in K1, K2.
      clear E1 C1. unfold starvalue, star, coreof in *. cbn. rewrite K1, K2. injection E2. intros. f_equal; assumption. }
  injection X. intros. unfold coreof. cbn. f_equal; first [assumption|reflexivity].
Qed.
Lemma error_text : forall A m s e s', @error A m s = (Bad (Err e), s') -> e = m.
Proof. intros A m s e s' E. apply (error_effect _ _ _ _ _ E). Qed.
Lemma rel_err : forall z z' lt A B (Q : A -> B -> Prop) m m2, ~ late (s2l m) -> rel z z' lt Q (err m) m2.
Proof.
  intros z z' lt A B Q m m2 N s1 s2 b s2' _ _. destruct (err m s1) as [[a|[e|?|?| |]] s1'] eqn:E; try exact Logic.I.
  - elim (never_err _ _ _ _ _ E).
  - apply error_text in E. subst e. intros _ X. contradiction.
Qed.
Lemma rel_stop : forall z z' lt A B (Q : A -> B -> Prop) x m2, (forall e, x <> Err e) -> rel z z' lt Q (stop x) m2.
Proof. intros z z' lt A B Q x m2 N s1 s2 b s2' _ _. cbn. destruct x as [e|?|?| |]; try exact Logic.I. elim (N e). reflexivity. Qed.

(** ** Symbols *)
Lemma tables_at : forall t1 t2 t1' t2' k, tables F t1 t2 -> (forall j, j <> k -> tfind j t1' = tfind j t1) ->
  (forall j, j <> k -> tfind j t2' = tfind j t2) -> pair (pins F k) k (tfind k F) (tfind k t1') (tfind k t2') -> tables F t1' t2'.
Proof.
  intros t1 t2 t1' t2' k H E1 E2 P j. destruct (str_dec j k) as [->|N]; [exact P|]. rewrite (E1 _ N), (E2 _ N). apply H.
Qed.
Lemma T_sy : forall z s1 s2 t1 t2, T z s1 s2 -> tables F t1 t2 -> (starup s1.(sy) -> starup t1) -> T z (set_sy t1 s1) (set_sy t2 s2).
Proof. intros z s1 s2 t1 t2 [] H U. constructor; auto. Qed.
Lemma starup_at : forall t t', tfind starkey t' = tfind starkey t -> starup t -> starup t'.
Proof. unfold starup. intros t t' -> H. exact H. Qed.
Definition marked (k : str) (t : tree) : tree :=
  tupd k (fun l => set_l_flags (set_f_used true l.(l_flags)) l)
    (match tfind k t with None => tins k (mkLabel lf_fwd TAbs 0 PNull 0 TUser) t | Some _ => t end).
Lemma marked_same : forall k t, tfind k (marked k t) = Some (touch (tfind k t)).
Proof.
  intros k t. unfold marked. rewrite tfind_tupd_same. destruct (tfind k t) as [l|] eqn:E.
  - rewrite E. reflexivity.
  - rewrite tfind_tins_same by exact E. reflexivity.
Qed.
Lemma marked_other : forall k t j, j <> k -> tfind j (marked k t) = tfind j t.
Proof.
  intros k t j N. unfold marked. rewrite tfind_tupd_other by exact N. destruct (tfind k t); [reflexivity|]. apply tfind_tins_other, N.
Qed.
Lemma marked_up : forall k t, starup t -> starup (marked k t).
Proof.
  intros k t (l & E & U). destruct (str_dec starkey k) as [<-|N].
  - exists (touch (Some l)). rewrite marked_same, E. split; [reflexivity|exact U].
  - exists l. rewrite marked_other by exact N. auto.
Qed.
Lemma marked_tables : forall k t1 t2, tables F t1 t2 -> grows (marked k t1) F -> tables F (marked k t1) (marked k t2).
Proof.
  intros k t1 t2 H G. apply (tables_at t1 t2 _ _ k H); try (intros; apply marked_other; assumption).
  specialize (G k). rewrite !marked_same in *. destruct G as (lF & EF & _). eapply pair_touch; [apply H|exact EF].
Qed.
Lemma findlabel_marks : forall n s, s.(fl).(a_relatif) = false ->
  findlabel n s = (Ok (lkey s.(inp).(segment) n), set_sy (marked (lkey s.(inp).(segment) n) s.(sy)) s).
Proof. intros n s R. rewrite findlabel_eq, R. reflexivity. Qed.

Lemma rel_cstlabel : forall z top n, rel z z false matches (cstlabel top n) (cstlabel top n).
Proof.
  intros z top n s1 s2 b s2' Ht E. pose proof Ht as [P1 P2 Pi Ps Pr1 Pr2 Pt Po Pp Py Pa Pz Pe]. cbn in P1, P2, Pi, Ps, Pr1, Pr2, Pt, Po, Pp, Py, Pa, Pz, Pe.
  unfold cstlabel in *. unfold bind at 1 in E. unfold bind at 1. rewrite (findlabel_marks n s2 Pr2) in E. rewrite (findlabel_marks n s1 Pr1).
  rewrite Pi in *. set (k := lkey _ n) in *. unfold bind at 1 in E. unfold bind at 1. unfold gets at 1 in E. unfold gets at 1.
  cbn [sy set_sy] in E |- *. rewrite marked_same in E |- *.
  set (l1 := touch (tfind k (sy s1))) in *. set (l2 := touch (tfind k (sy s2))) in *.
  assert (Pu : forall r s, putres top r s = (Ok r, if top then set_ct (set_calcresult r (ct s)) s else s)).
  { intros r s. unfold putres, when, bind, upd_ct, modify, ret. destruct top; reflexivity. }
  unfold bind at 1 in E. unfold bind at 1. rewrite Pu in E |- *.
  destruct (f_undef (l_flags l2) && negb (f_forward (l_flags l2))) eqn:U2; [elim (never_err _ _ _ _ _ E)|].
  destruct (f_undef (l_flags l1) && negb (f_forward (l_flags l1))) eqn:U1.
  { match goal with |- match err _ ?x with _ => _ end => destruct (err (A := result) "Undefined label" x) as [[a|[e|?|?| |]] s1'] eqn:Er end; try exact Logic.I.
    - elim (never_err _ _ _ _ _ Er).
    - apply error_text in Er. subst e. intros _ [X|[X|X]]; vm_compute in X; discriminate X. }
  unfold bind, modify, ret in E |- *. injection E as <- <-. intros G.
  assert (G' : grows (marked k (sy s1)) F) by (destruct top; exact G). clear G.
  pose proof (marked_tables _ _ _ Pt G') as Tb1. split.
  - apply (T_core z (set_sy (marked k (sy s1)) s1) (set_sy (marked k (sy s2)) s2)); [apply T_sy; [assumption..|apply marked_up]|..]; destruct top; reflexivity.
  - specialize (G' k). rewrite marked_same in G'. destruct G' as (lF & EF & _).
    exact (pair_result F _ k _ _ SF (Pt k) lF EF U1 U2).
Qed.

(** Definitions. *)
Definition defined_in (k : str) (t : tree) (f : lflags) (ty : ltype) (m : option Z) (p : lptr) (v : Z) : tree :=
  tupd k (fun l => mkLabel (def_flags l.(l_flags) f) ty (match m with Some m => m | None => l.(l_modifier) end) p v l.(l_table))
    (match tfind k t with Some _ => t | None => tins k (mkLabel (set_f_undef true lf0) ty 0 PNull 0 TUser) t end).
Definition oldmod (k : str) (t : tree) (m : option Z) : Z :=
  match m with Some m => m | None => match tfind k t with Some l => l.(l_modifier) | None => 0 end end.
Lemma defined_same : forall k t f ty m p v, tfind k (defined_in k t f ty m p v) = Some (define (tfind k t) f ty (oldmod k t m) p v).
Proof.
  intros k t f ty m p v. unfold defined_in, oldmod. rewrite tfind_tupd_same. destruct (tfind k t) as [l|] eqn:E.
  - rewrite E. reflexivity.
  - rewrite tfind_tins_same by exact E. destruct m; reflexivity.
Qed.
Lemma defined_other : forall k t f ty m p v j, j <> k -> tfind j (defined_in k t f ty m p v) = tfind j t.
Proof.
  intros k t f ty m p v j N. unfold defined_in. rewrite tfind_tupd_other by exact N. destruct (tfind k t); [reflexivity|]. apply tfind_tins_other, N.
Qed.
Lemma defined_tables : forall k t1 t2 f1 f2 ty m1 m2 p1 p2 v1 v2, tables F t1 t2 ->
  f1.(f_undef) = false -> f2.(f_undef) = false -> f1.(f_forward) = f2.(f_forward) -> f1.(f_noredef) = f2.(f_noredef) ->
  (k = starkey -> f1.(f_noredef) = false) ->
  vals ty f1.(f_forward) (oldmod k t1 m1) p1 v1 (oldmod k t2 m2) p2 v2 -> (numeric ty = false -> marks f1 f2) -> (pins F k -> v1 = v2) ->
  grows (defined_in k t1 f1 ty m1 p1 v1) F -> tables F (defined_in k t1 f1 ty m1 p1 v1) (defined_in k t2 f2 ty m2 p2 v2).
Proof.
  intros k t1 t2 f1 f2 ty m1 m2 p1 p2 v1 v2 H U1 U2 Ef En Ns V Mk Gv G.
  apply (tables_at t1 t2 _ _ k H); try (intros; apply defined_other; assumption).
  specialize (G k). rewrite !defined_same in *. destruct G as (lF & EF & B). eapply pair_define; eauto.
Qed.

(** ** [*] moves on *)
Lemma starry_moves : forall l1 l2 a, starry l1 l2 -> starry (set_l_value (l_value l1 + a) l1) (set_l_value (l_value l2 + a) l2).
Proof.
  intros l1 l2 a (A & B & C & D & E & G & X). unfold starry. cbn [set_l_value l_flags l_table].
  do 6 (split; [assumption|]). intros U. destruct (X U) as (S1 & S2 & S3 & S4 & S5 & S6 & S7 & S8). unfold samelab. cbn [set_l_value l_flags l_table l_type l_modifier l_ptr l_value].
  do 6 (split; [assumption|]). split; [|exact S8]. rewrite B in S7 |- *. rewrite <- (vals_value _ _ _ _ _ _ _ S7). exact (vals_new_value _ _ _ _ _ _ _ _ S7).
Qed.
Lemma star_tables : forall t1 t2 a, tables F t1 t2 ->
  exists l1 l2, tfind starkey t1 = Some l1 /\ tfind starkey t2 = Some l2 /\ starry l1 l2 /\
  tables F (tupd starkey (set_l_value (l_value l1 + a)) t1) (tupd starkey (set_l_value (l_value l2 + a)) t2).
Proof.
  intros t1 t2 a H. destruct (proj1 (H starkey) eq_refl) as (l1 & l2 & E1 & E2 & S). exists l1, l2. repeat (split; [assumption|]).
  apply (tables_at t1 t2 _ _ starkey H); try (intros; apply tfind_tupd_other; assumption).
  rewrite !tfind_tupd_same, E1, E2. split; [|intros X; elim X; reflexivity]. intros _.
  eexists. eexists. split; [reflexivity|]. split; [reflexivity|]. apply starry_moves, S.
Qed.
Lemma tables_stay : forall t1 t2 t1' t2', tables F t1 t2 -> (forall j, tfind j t1' = tfind j t1) -> (forall j, tfind j t2' = tfind j t2) -> tables F t1' t2'.
Proof. intros t1 t2 t1' t2' H E1 E2 k. rewrite E1, E2. apply H. Qed.
Lemma star_stays : forall t l j, tfind starkey t = Some l -> tfind j (tupd starkey (set_l_value (l_value l + 0)) t) = tfind j t.
Proof.
  intros t l j E. destruct (str_dec j starkey) as [->|N]; [|apply tfind_tupd_other, N]. rewrite tfind_tupd_same, E. cbn.
  rewrite Z.add_0_r. destruct l; reflexivity.
Qed.
Lemma star_advance_ok : forall s u s', star_advance s = (Ok u, s') ->
  s' = set_sy (tupd starkey (set_l_value (starvalue s + s.(ct).(advance))) s.(sy)) s.
Proof. intros s u s' E. unfold star_advance, bind, gets in E. destruct (in_s64 _); [|discriminate]. apply (f_equal snd) in E. symmetry. exact E. Qed.
Lemma starvalue_is : forall s l, tfind starkey s.(sy) = Some l -> starvalue s = l.(l_value).
Proof. intros s l E. unfold starvalue, star. rewrite E. reflexivity. Qed.

Lemma rel_star : forall z lt, rel z z lt (fun _ _ => True) star_advance star_advance.
Proof.
  intros z lt s1 s2 b s2' Ht E. apply star_advance_ok in E. subst s2'.
  destruct (star_advance s1) as [[u|[e|?|?| |]] s1'] eqn:E1; try exact Logic.I; [|elim (calm_star _ _ _ E1)].
  apply star_advance_ok in E1. subst s1'. intros _. split; [|exact Logic.I].
  destruct (star_tables _ _ (advance (ct s1)) (a_tables _ _ _ Ht)) as (l1 & l2 & F1 & F2 & S & H). apply T_sy; [exact Ht| |].
  2:{ intros (l & E & U). rewrite (starvalue_is _ _ F1). exists (set_l_value (l_value l1 + advance (ct s1)) l1). rewrite tfind_tupd_same. change (k_sy (coreof s1)) with (sy s1) in F1. rewrite F1. split; [reflexivity|]. rewrite F1 in E. injection E as ->. exact U. }
  rewrite (starvalue_is _ _ F1), (starvalue_is _ _ F2). replace (advance (ct s2)) with (advance (ct s1)) by exact (a_adv _ _ _ Ht). exact H.
Qed.

(** A late complaint. *)
Lemma rel_late : forall z m c1 c2, late (s2l m) -> rel z z true (fun _ _ => True) (when c1 (err m)) (when c2 (err m)).
Proof.
  intros z m c1 c2 Lt s1 s2 b s2' Ht E. destruct c2; cbn [when] in E; [elim (never_err _ _ _ _ _ E)|]. injection E as _ <-.
  destruct c1; cbn [when].
  2:{ cbn. auto. }
  destruct (err m s1) as [[u|[e|?|?| |]] s1'] eqn:E1; try exact Logic.I; [elim (never_err _ _ _ _ _ E1)|].
  apply error_effect in E1. destruct E1 as [-> E1]. intros _ _. split; [reflexivity|]. intros s3 E3. apply star_advance_ok in E3. subst s3.
  destruct (star_tables _ _ (advance (ct s1)) (a_tables _ _ _ Ht)) as (l1 & l2 & F1 & F2 & S & H).
  pose proof Ht as [P1 P2 Pi Ps Pr1 Pr2 Pt Po Pp Py Pa Pz Pe]. cbn in P1, P2, Pi, Ps, Pr1, Pr2, Pt, Po, Pp, Py, Pa, Pz, Pe.
  unfold Tb. rewrite E1. rewrite (starvalue_is _ _ F1), (starvalue_is _ _ F2), <- Pa.
  constructor; cbn [coreof k_pass k_inp k_rel k_sy k_em set_sy ct inp fl sy emitted]; try assumption; [congruence|].
  destruct (advance (ct s1) =? 0) eqn:Ea; [|exact H]. apply Z.eqb_eq in Ea. rewrite Ea. eapply tables_stay; [exact Pt|reflexivity|].
  intros j. apply star_stays, F2.
Qed.

(** ** Bytes *)
Definition bumped (x : Z) (c : core) : core :=
  mkCore c.(k_pass) (c.(k_adv) + 1) c.(k_inp) c.(k_sy) c.(k_rel) c.(k_org) (u64 (c.(k_pc) + 1)) c.(k_cp) c.(k_em).
Lemma insert8_core : forall x s, s.(fl).(a_org_gv) = true ->
  match insert8 x s with
  | (Ok _, s') => exists b, coreof s' = mkCore s.(ct).(passnumber) (s.(ct).(advance) + 1) s.(inp) s.(sy) s.(fl).(a_relatif) true
                    (u64 (s.(wr).(pc) + 1)) s.(cp) (mkEm s.(ct).(passnumber) s.(wr).(pc) (u8 x) b :: s.(emitted))
  | (Bad (Err _), _) => False
  | _ => True
  end.
Proof.
  intros x s Or. unfold insert8. unfold bind at 1. cbn [gets]. rewrite Or. cbn [negb when]. unfold bind at 1. cbn [ret]. unfold bind at 1. unfold modify at 1.
  set (s1 := set_emitted _ s).
  assert (C1 : coreof s1 = mkCore s.(ct).(passnumber) s.(ct).(advance) s.(inp) s.(sy) s.(fl).(a_relatif) true
                    s.(wr).(pc) s.(cp) (mkEm s.(ct).(passnumber) s.(wr).(pc) (u8 x) s.(fl).(a_code_on) :: s.(emitted))).
  { unfold coreof, s1. cbn. rewrite Or. reflexivity. }
  clearbody s1.
  assert (St : forall A (m : M A) (k : A -> M unit) s1 (R : res unit * state -> Prop), pres mute _ m ->
     R (Bad (Exit []), s1) -> (forall b s', b <> Err [] \/ True -> (forall e, b <> Err e) -> R (Bad b, s')) ->
     (forall a s2, coreof s2 = coreof s1 -> R (k a s2)) -> R (bind m k s1)).
  { intros A m k s0 R Hm _ Hb Hk. specialize (Hm s0). unfold bind. destruct (m s0) as [[a|b] s2]; cbn [fst snd how] in Hm; [apply Hk; exact Hm|].
    apply Hb; [auto|]. intros e ->. exact Hm. }
  match goal with |- context [bind ?m ?k s1] => apply (St _ m k s1 (fun r => match r with
    | (Ok _, s') => exists b, coreof s' = mkCore s.(ct).(passnumber) (s.(ct).(advance) + 1) s.(inp) s.(sy) s.(fl).(a_relatif) true
                    (u64 (s.(wr).(pc) + 1)) s.(cp) (mkEm s.(ct).(passnumber) s.(wr).(pc) (u8 x) b :: s.(emitted))
    | (Bad (Err _), _) => False | _ => True end)) end.
  - destruct (negb _); [|mutes]. destruct (scode _); [mutes|]. apply (pres_bind _ mute_order); intros; intros z; reflexivity.
  - exact Logic.I.
  - intros b s' _ N. destruct b as [e|?|?| |]; try exact Logic.I. elim (N e). reflexivity.
  - intros _ s2 C2.
    match goal with |- context [bind ?m ?k s2] => apply (St _ m k s2 (fun r => match r with
      | (Ok _, s') => exists b, coreof s' = mkCore s.(ct).(passnumber) (s.(ct).(advance) + 1) s.(inp) s.(sy) s.(fl).(a_relatif) true
                    (u64 (s.(wr).(pc) + 1)) s.(cp) (mkEm s.(ct).(passnumber) s.(wr).(pc) (u8 x) b :: s.(emitted))
      | (Bad (Err _), _) => False | _ => True end)) end.
    + destruct (a_code_on (fl s)); [|mutes]. apply (pres_bind _ mute_order); [mutes|intros w]. apply (pres_bind _ mute_order).
      * destruct (scode w); [|mutes]. apply (pres_bind _ mute_order); [|intros _ z; reflexivity]. unfold when. destruct (16 <=? _); [apply mute_flush|mutes].
      * intros _. apply (pres_bind _ mute_order); [intros z; reflexivity|intros _]. apply (pres_outputbyte _ mute_osteps).
    + exact Logic.I.
    + intros b s' _ N. destruct b as [e|?|?| |]; try exact Logic.I. elim (N e). reflexivity.
    + intros _ s3 C3. unfold bind, upd_ct, upd_wr, modify. exists (a_code_on (fl s)). rewrite C2, C1 in C3. injection C3. intros.
      unfold coreof. cbn. f_equal; congruence.
Qed.
Lemma rel_insert8 : forall z lt x y, rel z z lt (fun _ _ => True) (insert8 x) (insert8 y).
Proof.
  intros z lt x y s1 s2 b s2' Ht E. pose proof Ht as [P1 P2 Pi Ps Pr1 Pr2 Pt Po Pp Py Pa Pz Pe]. cbn in P1, P2, Pi, Ps, Pr1, Pr2, Pt, Po, Pp, Py, Pa, Pz, Pe.
  destruct (a_org_gv (fl s2)) eqn:O2.
  2:{ unfold insert8, bind at 1 in E. cbn [gets] in E. rewrite O2 in E. cbn [negb when] in E. unfold err in E. rewrite error_bind in E.
      elim (never_error _ _ _ _ _ E). }
  pose proof (insert8_core y s2 O2) as C2. rewrite E in C2. destruct C2 as [b2 C2].
  pose proof (insert8_core x s1 Po) as C1. destruct (insert8 x s1) as [[u|[e|?|?| |]] s1']; try exact Logic.I; [|destruct C1].
  destruct C1 as [b1 C1]. intros _. split; [|exact Logic.I]. unfold T. rewrite C1, C2. specialize (Pp Po).
  constructor; cbn [k_pass k_inp k_rel k_sy k_em k_org k_pc k_adv k_cp]; try assumption; try congruence; try reflexivity; try (intros _; exact (Py Po)).
  unfold addresses in *. cbn [filter em_pass]. rewrite P1, P2. cbn. rewrite Pe, Pp. reflexivity.
Qed.
End Rel.
