(** Two passes over the same lines: the directives.  Nothing here is part of the model. *)
From Coq Require Import String Ascii ZArith List Bool Lia ZifyBool.
From Verif Require Import Base State Tree Filter Output Label Operator Parse Scode Tables.
From Verif Require Import Cpu6800 Cpu6502 CpuZ80 Pseudos Macro Xref Crasm.
From Verif Require Import TreeFacts Walk Frame Run SymFacts LayoutFacts SpecLayout LayoutRel LayoutOps LayoutCpu.
From Verif Require EmitFacts Eval CondFacts.
Import ListNotations.
Open Scope Z_scope.

(** ** The last result *)
Definition stored (top : bool) (r : result) (s : state) : Prop := top = true -> s.(ct).(calcresult) = r.
Lemma putres_stored : forall top r s r' s', putres top r s = (Ok r', s') -> stored top r' s'.
Proof. intros [] r s r' s' E; unfold putres, when, bind, upd_ct, modify, ret in E; injection E as <- <-; intros X; [reflexivity|discriminate X]. Qed.
Ltac seq E := let a := fresh "a" in let z := fresh "s" in let H := fresh "E" in apply EmitFacts.seq_ok in E; destruct E as (a & z & H & E).
Ltac nope E := exfalso; exact (never_err _ _ _ _ _ E).
Lemma apply1_stored : forall top o r s r' s', apply1 top o r s = (Ok r', s') -> stored top r' s'.
Proof.
  intros top o r s r' s' E. destruct o; cbn [apply1] in E; seq E; first [exact (putres_stored _ _ _ _ _ E)|seq E; exact (putres_stored _ _ _ _ _ E)].
Qed.
Lemma apply2_stored : forall top o a b s r' s', apply2 top o a b s = (Ok r', s') -> stored top r' s'.
Proof.
  intros top o a b s r' s' E. unfold apply2 in E. cbv zeta in E.
  destruct o; repeat first
    [ exact (putres_stored _ _ _ _ _ E) | discriminate E | nope E
    | match type of E with (if ?c then _ else _) _ = _ => destruct c end
    | match type of E with (match ?c with _ => _ end) _ = _ => destruct c end
    | match type of E with bind (putres _ _) _ _ = _ => fail 1 | bind _ _ _ = _ => seq E end ].
  seq E. destruct (32 <? r_value b); [nope E|]. injection E as <- <-. exact (putres_stored _ _ _ _ _ E1).
Qed.
Lemma constant_stored : forall top r v s r' s', constant top r v s = (Ok r', s') -> stored top r' s'.
Proof. intros top r [z|m] s r' s' E; cbn [constant] in E; [|nope E]. exact (putres_stored _ _ _ _ _ E). Qed.
Lemma cstlabel_stored : forall top n s r s', cstlabel top n s = (Ok r, s') -> stored top r s'.
Proof.
  intros top n s r s' E. unfold cstlabel in E. seq E. seq E. destruct a0; [|discriminate E]. seq E.
  destruct (_ && _); [nope E|]. injection E as <- <-. exact (putres_stored _ _ _ _ _ E2).
Qed.
Lemma trycst_stored : forall top e l r s r' s', trycst top r e l s = (Ok r', s') -> stored top r' s'.
Proof.
  intros top e. induction l as [|[f conv] l IH]; intros r s r' s' E; cbn [trycst] in E.
  - destruct e as [|c t]; [nope E|]. destruct (isdigit c); [exact (constant_stored _ _ _ _ _ _ E)|].
    destruct (_ || _); [exact (constant_stored _ _ _ _ _ _ E)|nope E].
  - seq E. destruct a as [[|c t]|]; try exact (IH _ _ _ _ E). exact (constant_stored _ _ _ _ _ _ E).
Qed.
Lemma parse2_stored : forall n top r e s r' s', parse2 n top r e s = (Ok r', s') -> stored top r' s'.
Proof.
  induction n as [|n IH]; intros top r e s r' s' E; cbn [parse2] in E; [discriminate E|].
  revert s E. generalize oplist. intros rows. induction rows as [|row rows IHr]; intros s E.
  - cbn [parserows] in E. cbv zeta in E. destruct (checklabel (reverse e)); [exact (cstlabel_stored _ _ _ _ _ E)|exact (trycst_stored _ _ _ _ _ _ _ E)].
  - destruct row as [l|f o|f]; cbn [parserows] in E; seq E.
    + destruct a as [[[[|x c1] [|y c2]] o]|]; try exact (IHr _ E). seq E. seq E. exact (apply2_stored _ _ _ _ _ _ _ E).
    + destruct a as [[|x c1]|]; try exact (IHr _ E). seq E. exact (apply1_stored _ _ _ _ _ _ E).
    + destruct a as [[|x c1]|]; try exact (IHr _ E). exact (IH _ _ _ _ _ _ E).
Qed.
Lemma parse_stored : forall t s r s', parse t s = (Ok r, s') -> s'.(ct).(calcresult) = r.
Proof.
  intros [|c t] s r s' E; cbn [parse] in E; [nope E|]. seq E. seq E. seq E. exact (parse2_stored _ _ _ _ _ _ _ E eq_refl).
Qed.
Definition keptres : relation := fun d s s' => d = Fine -> s'.(ct).(calcresult) = s.(ct).(calcresult).
Lemma keptres_osteps : osteps keptres.
Proof.
  constructor; [constructor|..]; unfold keptres; intros; auto; try discriminate. subst d. rewrite H0 by reflexivity. apply H. reflexivity.
Qed.
Lemma keptres_order : order keptres.
Proof. exact (o_order _ keptres_osteps). Qed.
Lemma keptres_scwrite : forall t, pres keptres _ (scwrite t).
Proof.
  intros t. unfold scwrite. apply (pres_bind _ keptres_order); [apply (pres_gets _ keptres_order)|intros w].
  destruct (scode w); [intros s _; reflexivity|apply (pres_ub _ keptres_order)].
Qed.
Ltac kres :=
  repeat first
    [ match goal with |- pres _ _ (bind _ _) => apply (pres_bind _ keptres_order); [|intros] end
    | apply (pres_gets _ keptres_order) | apply (pres_ret _ keptres_order) | apply keptres_scwrite
    | apply (pres_outputbyte _ keptres_osteps) | apply (pres_position _ keptres_osteps) | apply (pres_outputaddr _ keptres_osteps) | apply (pres_outputline _ keptres_osteps)
    | apply (pres_warning _ keptres_osteps) | apply (pres_fatal _ keptres_osteps) | apply (pres_ub _ keptres_order)
    | match goal with |- pres _ _ (match ?x with _ => _ end) => destruct x end
    | match goal with |- pres _ _ (when ?x _) => destruct x; cbn [when] end
    | let z := fresh in intros z _; reflexivity ].
Lemma keptres_err : forall A m, pres keptres A (err m).
Proof. intros A m s X. destruct (err m s) as [[a|[]] s'] eqn:E; try discriminate X. elim (never_err _ _ _ _ _ E). Qed.
Lemma keptres_flush : pres keptres _ flushscoderaw.
Proof. unfold flushscoderaw. kres. Qed.
Lemma keptres_insert8 : forall x, pres keptres _ (insert8 x).
Proof. intros x. unfold insert8. kres; first [apply keptres_err|apply keptres_flush]. Qed.
Lemma keptres_star : pres keptres _ star_advance.
Proof. unfold star_advance. kres. Qed.
Lemma keptres_ok : forall A (m : M A) s a s', pres keptres A m -> m s = (Ok a, s') -> s'.(ct).(calcresult) = s.(ct).(calcresult).
Proof. intros A m s a s' H E. specialize (H s). rewrite E in H. apply H. reflexivity. Qed.

Lemma grow_same : forall f, (forall s, sy (f s) = sy s) -> pres growing _ (modify f).
Proof. intros f H s. unfold growing, always. cbn. rewrite H. apply grows_refl. Qed.
Lemma grow_flip : pres growing _ flip_lohi.
Proof. apply grow_same. reflexivity. Qed.
Lemma grow_ct : forall f, pres growing _ (upd_ct f).
Proof. intros. apply grow_same. reflexivity. Qed.
Lemma grow_fl : forall f, pres growing _ (upd_fl f).
Proof. intros. apply grow_same. reflexivity. Qed.
Lemma grow_inp : forall f, pres growing _ (upd_inp f).
Proof. intros. apply grow_same. reflexivity. Qed.
#[export] Hint Resolve grow_flip grow_ct grow_fl grow_inp : grodb.

Section Pseudo.
Variable F : final.
Variable SF : forward_numbers F.
Notation rel := (rel F).
Notation T := (T F).

(** The judgement under a condition on the state that the first pass reaches. *)
Definition relc (C : state -> Prop) (z z' lt : bool) {A B} (Q : A -> B -> Prop) (m1 : M A) (m2 : M B) : Prop :=
  forall s1 s2 b s2', T z s1 s2 -> m2 s2 = (Ok b, s2') ->
  match m1 s1 with
  | (Ok a, s1') => grows s1'.(sy) F -> C s1' -> T z' s1' s2' /\ Q a b
  | (Bad (Err e), s1') => grows s1'.(sy) F -> late e -> lt = true /\ after F s1' s2'
  | _ => True
  end.
Lemma rel_relc : forall C z z' lt A B (Q : A -> B -> Prop) m1 m2, rel z z' lt Q m1 m2 -> relc C z z' lt Q m1 m2.
Proof.
  intros C z z' lt A B Q m1 m2 H s1 s2 b s2' Ht E. specialize (H _ _ _ _ Ht E). destruct (m1 s1) as [[a|[e|?|?| |]] s1']; auto.
Qed.
Lemma relc_bind : forall C z z1 z2 lt A B A' B' (Q : A -> A' -> Prop) (R : B -> B' -> Prop) m1 m2 (k1 : A -> M B) (k2 : A' -> M B'),
  rel z z1 false Q m1 m2 -> (forall a, pres growing _ (k1 a)) -> (forall a a', Q a a' -> relc C z1 z2 lt R (k1 a) (k2 a')) ->
  relc C z z2 lt R (bind m1 k1) (bind m2 k2).
Proof.
  intros C z z1 z2 lt A B A' B' Q R m1 m2 k1 k2 Hm G Hk s1 s2 b s2' Ht E. seq E.
  specialize (Hm _ _ _ _ Ht E0). unfold bind. destruct (m1 s1) as [[x|[e|?|?| |]] s1']; try exact Logic.I.
  - specialize (G x s1'). unfold growing, always in G.
    destruct (k1 x s1') as [[c|[e|?|?| |]] s1''] eqn:Ek; cbn [snd] in G; try exact Logic.I; intros GF;
      destruct (Hm (grows_trans _ _ _ G GF)) as [Ht' Hq]; specialize (Hk _ _ Hq _ _ _ _ Ht' E); rewrite Ek in Hk; auto.
  - intros GF Lt. destruct (Hm GF Lt) as [X _]. discriminate X.
Qed.
(** The judgement for the rest of a line. *)
Definition lrel (C : state -> Prop) (z : bool) {A B} (Q : A -> B -> Prop) (m1 : M A) (m2 : M B) : Prop :=
  forall s1 s2 b s2', T z s1 s2 -> m2 s2 = (Ok b, s2') ->
  match m1 s1 with
  | (Ok a, s1') => grows s1'.(sy) F -> C s1' -> Tb F s1' s2' /\ Q a b
  | (Bad (Err e), s1') => grows s1'.(sy) F -> late e -> Tb F s1' s2'
  | _ => True
  end.
Lemma rel_lrel : forall C z z' A B (Q : A -> B -> Prop) m1 m2, rel z z' false Q m1 m2 -> lrel C z Q m1 m2.
Proof.
  intros C z z' A B Q m1 m2 H s1 s2 b s2' Ht E. specialize (H _ _ _ _ Ht E). destruct (m1 s1) as [[a|[e|?|?| |]] s1']; auto.
  - intros G _. destruct (H G) as [X Y]. split; [exact (T_b _ _ _ _ X)|exact Y].
  - intros G L. destruct (H G L) as [X _]. discriminate X.
Qed.
Lemma lrel_bind : forall C z z1 A B A' B' (Q : A -> A' -> Prop) (R : B -> B' -> Prop) m1 m2 (k1 : A -> M B) (k2 : A' -> M B'),
  rel z z1 false Q m1 m2 -> (forall a, pres growing _ (k1 a)) -> (forall a a', Q a a' -> lrel C z1 R (k1 a) (k2 a')) ->
  lrel C z R (bind m1 k1) (bind m2 k2).
Proof.
  intros C z z1 A B A' B' Q R m1 m2 k1 k2 Hm G Hk s1 s2 b s2' Ht E. seq E.
  specialize (Hm _ _ _ _ Ht E0). unfold bind. destruct (m1 s1) as [[x|[e|?|?| |]] s1']; try exact Logic.I.
  - specialize (G x s1'). unfold growing, always in G.
    destruct (k1 x s1') as [[c|[e|?|?| |]] s1''] eqn:Ek; cbn [snd] in G; try exact Logic.I; intros GF;
      destruct (Hm (grows_trans _ _ _ G GF)) as [Ht' Hq]; specialize (Hk _ _ Hq _ _ _ _ Ht' E); rewrite Ek in Hk; auto.
  - intros GF Lt. destruct (Hm GF Lt) as [X _]. discriminate X.
Qed.
(** The end of the line of an instruction. *)
Definition ended (li : bool) : M flag := star_advance ;;; when li outputline ;;; ret FNone.
Lemma ended_grows : forall li, pres growing _ (ended li).
Proof. intros li. unfold ended. gro. Qed.
Lemma rel_ended : forall z li, rel z z false eq (ended li) (ended li).
Proof.
  intros z li. unfold ended. eapply rel_bind; [apply rel_star|gro|]. intros _ _ _.
  apply (rel_bind F z z z false unit flag unit flag any eq); [apply rel_mute; mutes|gro|]. intros _ _ _. apply rel_ret. reflexivity.
Qed.
Lemma ended_ok : forall li s f s', ended li s = (Ok f, s') ->
  f = FNone /\ (s'.(ct).(calcresult) = s.(ct).(calcresult) /\ s'.(inp) = s.(inp)) /\ exists s1, star_advance s = (Ok tt, s1) /\ coreof s' = coreof s1.
Proof.
  intros li s f s' E. unfold ended in E. seq E. seq E. injection E as <- <-. split; [reflexivity|]. split.
  - split.
    + apply keptres_ok in E0; [|apply keptres_star]. apply keptres_ok in E1; [|unfold when; kres]. congruence.
    + apply mute_ok in E1; [|unfold when; mutes]. apply (f_equal k_inp) in E1. cbn in E1. rewrite E1.
      unfold star_advance in E0. apply (f_equal snd) in E0. cbn [snd] in E0. rewrite <- E0. unfold bind, gets, upd_sy, modify. destruct (in_s64 _); reflexivity.
  - exists s0. destruct a. split; [exact E0|]. apply mute_ok in E1; [exact E1|unfold when; mutes].
Qed.
Lemma lrel_ended : forall (C : result -> input -> Prop) z z' li (m1 m2 : M unit), relc (fun s => C s.(ct).(calcresult) s.(inp)) z z' true any m1 m2 ->
  lrel (fun s => C s.(ct).(calcresult) s.(inp)) z eq (m1 ;;; ended li) (m2 ;;; ended li).
Proof.
  intros C z z' li m1 m2 H s1 s2 b s2' Ht E. seq E. specialize (H _ _ _ _ Ht E0). unfold bind.
  destruct (ended_ok _ _ _ _ E) as (-> & _ & s4 & E4 & C4).
  destruct (m1 s1) as [[x|[e|?|?| |]] s1']; try exact Logic.I.
  - pose proof (ended_grows li s1') as G. unfold growing, always in G. pose proof (rel_ended z' li s1') as R.
    destruct (ended li s1') as [[c|[e|?|?| |]] s1''] eqn:Ek; cbn [snd] in G; try exact Logic.I.
    + intros GF Cc. destruct (ended_ok _ _ _ _ Ek) as (-> & [Kr Ki] & _). rewrite Kr, Ki in Cc. destruct (H (grows_trans _ _ _ G GF) Cc) as [Ht' _].
      specialize (R _ _ _ Ht' E GF). destruct R as [R _]. split; [exact (T_b _ _ _ _ R)|reflexivity].
    + exfalso. unfold ended, bind in Ek. destruct (star_advance s1') as [[u|[e'|?|?| |]] s5] eqn:Es; try discriminate Ek.
      * destruct (when li outputline s5) as [[u'|[e'|?|?| |]] s6] eqn:Eo; try discriminate Ek.
        assert (X : pres mute _ (when li outputline)) by mutes. exact (calm_mute _ _ X _ _ _ Eo).
      * exact (calm_star _ _ _ Es).
  - intros G L. destruct (H G L) as [_ A]. specialize (A _ E4). exact (Tb_core _ _ _ _ _ A eq_refl C4).
Qed.

(** ** Assignments and labels *)
Lemma refused_late : forall q f m, refused q f = Some m -> ~ late (s2l m).
Proof.
  intros [l|] f m E; cbn [refused] in E; [|discriminate E]. destruct (_ && _); [|discriminate E]. destruct (l_type l); injection E as <-; nolate.
Qed.
Definition put (k : str) (f : lflags) (ty : ltype) (m : option Z) (p : lptr) (v : Z) (t t' : tree) : Prop :=
  (forall j, j <> k -> tfind j t' = tfind j t) /\ tfind k t' = Some (define (tfind k t) f ty (oldmod k t m) p v).
Lemma put_rel : forall z s1 s2 k f1 f2 ty m1 m2 p1 p2 v1 v2 t1 t2, T z s1 s2 ->
  put k f1 ty m1 p1 v1 s1.(sy) t1 -> put k f2 ty m2 p2 v2 s2.(sy) t2 -> grows t1 F ->
  f1.(f_undef) = false -> f2.(f_undef) = false -> f1.(f_forward) = f2.(f_forward) -> f1.(f_noredef) = f2.(f_noredef) ->
  (k = starkey -> f1.(f_noredef) = false) ->
  vals ty f1.(f_forward) (oldmod k s1.(sy) m1) p1 v1 (oldmod k s2.(sy) m2) p2 v2 -> (numeric ty = false -> marks f1 f2) -> (pins F k -> v1 = v2) ->
  T z (set_sy t1 s1) (set_sy t2 s2).
Proof.
  intros z s1 s2 k f1 f2 ty m1 m2 p1 p2 v1 v2 t1 t2 Ht [O1 D1] [O2 D2] G U1 U2 Ef En Ns V Mk Gv. apply T_sy; [exact Ht| |].
  - apply (tables_at F (sy s1) (sy s2) _ _ k (a_tables _ _ _ _ Ht)); [exact O1|exact O2|]. rewrite D1, D2.
    pose proof (G k) as Gk. rewrite D1 in Gk. destruct Gk as (lF & EF & Bk). eapply pair_define; eauto. exact (a_tables _ _ _ _ Ht k).
  - intros (l & E & U). destruct (str_dec starkey k) as [X|X].
    + subst k. exists (define (tfind starkey (sy s1)) f1 ty (oldmod starkey (sy s1) m1) p1 v1). split; [exact D1|].
      destruct (define_flags (tfind starkey (sy s1)) f1 ty (oldmod starkey (sy s1) m1) p1 v1 U1) as (Y & _). exact Y.
    + exists l. rewrite (O1 _ X). auto.
Qed.
Lemma deflabel_put : forall n f ty v s, refused (tfind (lkey s.(inp).(segment) n) s.(sy)) f = None ->
  exists t, deflabel n f ty v s = (Ok (lkey s.(inp).(segment) n), set_sy t s) /\ put (lkey s.(inp).(segment) n) f ty None PNull v s.(sy) t.
Proof.
  intros n f ty v s R. rewrite deflabel_eq, R. eexists. split; [reflexivity|]. split.
  - intros j N. exact (defined_other (lkey (segment (inp s)) n) (sy s) f ty None PNull v j N).
  - exact (defined_same (lkey (segment (inp s)) n) (sy s) f ty None PNull v).
Qed.
Definition pinned (label : str) (i : input) : Prop := pins F (lkey i.(segment) label).
Lemma rel_equ : forall z lt label r1 r2, matches r1 r2 ->
  relc (fun s => pinned label s.(inp) -> r1.(r_value) = r2.(r_value)) z z lt any (k <- deflabel label (equ_flags r1.(r_flags)) r1.(r_type) r1.(r_value) ;;
                  upd_sy (tupd k (fun l => set_l_ptr r1.(r_ptr) (set_l_modifier r1.(r_modifier) l))))
                 (k <- deflabel label (equ_flags r2.(r_flags)) r2.(r_type) r2.(r_value) ;;
                  upd_sy (tupd k (fun l => set_l_ptr r2.(r_ptr) (set_l_modifier r2.(r_modifier) l)))).
Proof.
  intros z lt label r1 r2 (Mt & Mf & Mv & Mm) s1 s2 b s2' Ht E.
  assert (Sg : segment (inp s2) = segment (inp s1)) by (exact (f_equal segment (eq_sym (a_inp _ _ _ _ Ht)))).
  set (k := lkey (segment (inp s1)) label) in *.
  assert (Put : forall s r t, put k (equ_flags (r_flags r)) (r_type r) None PNull (r_value r) (sy s) t ->
    put k (equ_flags (r_flags r)) (r_type r) (Some (r_modifier r)) (r_ptr r) (r_value r) (sy s)
      (tupd k (fun l => set_l_ptr (r_ptr r) (set_l_modifier (r_modifier r) l)) t)).
  { intros s r t [A B]. split.
    - intros j N. rewrite tfind_tupd_other by exact N. apply A, N.
    - rewrite tfind_tupd_same, B. reflexivity. }
  seq E. destruct (refused (tfind (lkey (segment (inp s2)) label) (sy s2)) (equ_flags (r_flags r2))) eqn:R2.
  { rewrite deflabel_eq, R2 in E0. elim (never_error _ _ _ _ _ E0). }
  destruct (deflabel_put label (equ_flags (r_flags r2)) (r_type r2) (r_value r2) s2 R2) as (t2 & D2 & P2). rewrite E0 in D2.
  injection D2 as -> ->. rewrite Sg in *. fold k in E, P2. apply (f_equal snd) in E. cbn [snd upd_sy modify] in E. subst s2'.
  unfold bind. destruct (refused (tfind k (sy s1)) (equ_flags (r_flags r1))) eqn:R1.
  { rewrite deflabel_eq. fold k. rewrite R1. destruct (error (s2l s) s1) as [[x|[e|?|?| |]] s1'] eqn:Er; try exact Logic.I; [elim (never_error _ _ _ _ _ Er)|].
    apply error_text in Er. subst e. intros _ L. elim (refused_late _ _ _ R1 L). }
  destruct (deflabel_put label (equ_flags (r_flags r1)) (r_type r1) (r_value r1) s1 R1) as (t1 & D1 & P1). rewrite D1. fold k in P1 |- *.
  cbn [upd_sy modify]. intros G Gv. split; [|exact Logic.I]. cbn [sy set_sy] in G |- *. unfold pinned in Gv. cbn [inp set_sy] in Gv. fold k in Gv.
  apply Put in P1. apply Put in P2. rewrite <- Mt in P2.
  apply (put_rel z s1 s2 k _ _ _ _ _ _ _ _ _ _ _ Ht P1 P2 G); try reflexivity.
  - exact Mf.
  - exact Mv.
  - exact Mm.
  - exact Gv.
Qed.
Lemma rel_Xequ : forall z lt l o, relc (fun s => pinned l s.(inp) -> settled s.(ct).(calcresult)) z z lt any (Xequ l o) (Xequ l o).
Proof.
  intros z lt l o s1 s2 b s2' Ht E.
  set (shown := fun r : result => s <- gets (fun s => s) ;;
    when ((ltype_eqb r.(r_type) TAbs || ltype_eqb r.(r_type) TRel) && ((s.(inp).(macrolevel) =? 0) || s.(fl).(a_macrolist_on)) && (s.(ls).(lpos) =? 0))
       (position 2 ;;; outputaddr r.(r_value))).
  set (rest := fun r : result => shown r ;;; k <- deflabel l (equ_flags r.(r_flags)) r.(r_type) r.(r_value) ;;
                  upd_sy (tupd k (fun x => set_l_ptr r.(r_ptr) (set_l_modifier r.(r_modifier) x)))).
  assert (X : forall s, Xequ l o s = bind (parse (otext o)) rest s).
  { intros s. unfold Xequ, bind. destruct (parse (otext o) s) as [[r|x] s']; reflexivity. }
  rewrite X in E |- *. clear X.
  assert (We : forall r, pres growing _ (k <- deflabel l (equ_flags r.(r_flags)) r.(r_type) r.(r_value) ;;
                  upd_sy (tupd k (fun x => set_l_ptr r.(r_ptr) (set_l_modifier r.(r_modifier) x)))))
    by (intros r; exact (w_equ _ GW l r)).
  assert (G : forall r, pres growing _ (rest r)) by (intros r; unfold rest, shown; apply (w_bind _ GW); [gro|intros _; apply We]).
  assert (Sh : forall r, pres mute _ (shown r)) by (intros r; unfold shown; mutes).
  assert (R : forall r1 r2, matches r1 r2 -> relc (fun s => pinned l s.(inp) -> r1.(r_value) = r2.(r_value)) z z lt any (rest r1) (rest r2)).
  { intros r1 r2 M. unfold rest. eapply relc_bind with (Q := any); [apply rel_mute; apply Sh|intros _; apply We|]. intros _ _ _. exact (rel_equ z lt l r1 r2 M). }
  assert (K : forall r s u s', rest r s = (Ok u, s') -> s'.(ct).(calcresult) = s.(ct).(calcresult)).
  { intros r s u s' Q. unfold rest in Q. seq Q. seq Q. injection Q as _ <-. cbn [ct set_sy].
    rewrite deflabel_eq in E1. destruct (refused _ _); [elim (never_error _ _ _ _ _ E1)|]. injection E1 as _ <-. cbn [ct set_sy].
    refine (keptres_ok _ _ _ _ _ _ E0). unfold shown, when. kres. }
  seq E. pose proof (rel_parse F SF z false (otext o) _ _ _ _ Ht E0) as Hp. unfold bind. destruct (parse (otext o) s1) as [[r|[e|?|?| |]] s1'] eqn:Ep; try exact Logic.I; [|intros GF L; destruct (Hp GF L) as [X _]; discriminate X].
  pose proof (G r s1') as Gr. unfold growing, always in Gr.
  destruct (rest r s1') as [[c|[e|?|?| |]] s1''] eqn:Er; cbn [snd] in Gr; try exact Logic.I.
  - intros GF C. destruct (Hp (grows_trans _ _ _ Gr GF)) as [Ht' M]. rewrite (K _ _ _ _ Er), (parse_stored _ _ _ _ Ep) in C.
    pose proof (R _ _ M _ _ _ _ Ht' E) as Hr. rewrite Er in Hr. apply (Hr GF). intros Pn. exact (matches_val _ _ M (C Pn)).
  - intros GF L. destruct (Hp (grows_trans _ _ _ Gr GF)) as [Ht' M]. pose proof (R _ _ M _ _ _ _ Ht' E) as Hr. rewrite Er in Hr. exact (Hr GF L).
Qed.
Lemma rel_here : forall z lt n v, n <> s2l "*" -> rel z z lt any (deflabel n (set_f_noredef true lf0) TAbs v) (deflabel n (set_f_noredef true lf0) TAbs v).
Proof.
  intros z lt n v Nn s1 s2 b s2' Ht E. assert (Sg : segment (inp s2) = segment (inp s1)) by (exact (f_equal segment (eq_sym (a_inp _ _ _ _ Ht)))).
  set (f := set_f_noredef true lf0) in *. set (k := lkey (segment (inp s1)) n) in *.
  destruct (refused (tfind (lkey (segment (inp s2)) n) (sy s2)) f) eqn:R2.
  { rewrite deflabel_eq, R2 in E. elim (never_error _ _ _ _ _ E). }
  destruct (deflabel_put n f TAbs v s2 R2) as (t2 & D2 & P2). rewrite E in D2. injection D2 as -> ->. rewrite Sg in *. fold k in P2.
  destruct (refused (tfind k (sy s1)) f) eqn:R1.
  { rewrite deflabel_eq. fold k. rewrite R1. destruct (error (s2l s) s1) as [[x|[e|?|?| |]] s1'] eqn:Er; try exact Logic.I; [elim (never_error _ _ _ _ _ Er)|].
    apply error_text in Er. subst e. intros _ L. elim (refused_late _ _ _ R1 L). }
  destruct (deflabel_put n f TAbs v s1 R1) as (t1 & D1 & P1). rewrite D1. fold k in P1 |- *. intros G. split; [|exact Logic.I]. cbn [sy set_sy] in G.
  apply (put_rel z s1 s2 k _ _ _ _ _ _ _ _ _ _ _ Ht P1 P2 G); try reflexivity.
  - intros X. elim Nn. exact (lkey_star _ _ X).
  - split; reflexivity.
  - intros X. discriminate X.
Qed.
Lemma starvalue_same : forall z s1 s2, T z s1 s2 -> s1.(fl).(a_org_gv) = true -> starvalue s1 = starvalue s2.
Proof.
  intros z s1 s2 Ht O. destruct (proj1 (a_tables _ _ _ _ Ht starkey) eq_refl) as (l1 & l2 & E1 & E2 & S).
  destruct (a_up _ _ _ _ Ht O) as (l & E & U). cbn in E1, E2, E. unfold starvalue, star. cbn in *. rewrite E1, E2. rewrite E1 in E. injection E as <-.
  destruct S as (_ & S2 & _ & _ & _ & _ & S). destruct (S U) as (_ & _ & _ & _ & _ & _ & V & _). rewrite S2 in V. exact (vals_value _ _ _ _ _ _ _ V).
Qed.
Lemma rel_herelabel : forall z lt n, rel z z lt any (herelabel n) (herelabel n).
Proof.
  intros z lt n. unfold herelabel. eapply rel_bind; [apply rel_refuse; nolate| |].
  { intros _. gro; apply (pres_deflabel _ growing_steps); reflexivity. }
  cbv beta. intros _ _ [Nn _]. assert (Ns : n <> s2l "*") by (intros ->; discriminate Nn). clear Nn. apply rel_look. intros s1 s2 Ht b s2' E. pose proof (a_org _ _ _ _ Ht) as Or. pose proof (a_rel1 _ _ _ _ Ht) as R1. pose proof (a_rel2 _ _ _ _ Ht) as R2.
  cbn in Or, R1, R2. rewrite Or. rewrite R1. rewrite R2 in E.
  assert (X : rel z z lt any
    ((if a_org_gv (fl s2) then deflabel n (set_f_noredef true lf0) TAbs (starvalue s1) ;;; ret tt else err "undefinable label: no org given") ;;;
     s <- gets (fun s => s) ;; when (negb s.(fl).(a_code_on) && ((s.(inp).(macrolevel) =? 0) || s.(fl).(a_macrolist_on)) && (s.(ls).(lpos) =? 0)) (position 2 ;;; outputaddr (starvalue s)))
    ((if a_org_gv (fl s2) then deflabel n (set_f_noredef true lf0) TAbs (starvalue s2) ;;; ret tt else err "undefinable label: no org given") ;;;
     s <- gets (fun s => s) ;; when (negb s.(fl).(a_code_on) && ((s.(inp).(macrolevel) =? 0) || s.(fl).(a_macrolist_on)) && (s.(ls).(lpos) =? 0)) (position 2 ;;; outputaddr (starvalue s)))).
  2:{ exact (X s1 s2 b s2' Ht E). }
  eapply rel_bind with (Q := any); [|gro|intros _ _ _; apply rel_mute; mutes].
  destruct (a_org_gv (fl s2)) eqn:O2; [|apply rel_error]. eapply rel_bind with (Q := any); [|gro|intros _ _ _; apply rel_ret; exact Logic.I].
  rewrite (starvalue_same _ _ _ Ht Or). generalize (starvalue s2). intros v. apply rel_here, Ns.
Qed.

(** ** Bytes and strings *)
Lemma rel_flip : forall z lt, rel z z lt any flip_lohi flip_lohi.
Proof. intros. apply rel_mute; intros s; reflexivity. Qed.
Lemma rel_stocke : forall z lt t m, rel z z lt any (stocke t m) (stocke t m).
Proof.
  intros z lt t m. unfold stocke. eapply rel_bind; [apply rel_parse, SF|gro|]. intros r1 r2 M. eapply rel_bind; [apply rel_checktype, M|gro|]. intros _ _ _.
  eapply rel_bind with (Q := any); [|gro|intros _ _ _; apply rel_maybe].
  if1; [apply rel_byte|]. if1.
  { eapply rel_bind; [apply rel_flip|gro|]. intros _ _ _. eapply rel_bind; [apply rel_insert16|gro|]. intros _ _ _. apply rel_flip. }
  if1; [apply rel_insert16|]. if1; [apply rel_insert32|apply rel_ret; exact Logic.I].
Qed.
Lemma rel_dcloop : forall z n lt t m, rel z z lt any (dcloop n t m) (dcloop n t m).
Proof.
  intros z. induction n as [|n IH]; intros lt t m; cbn [dcloop]; [apply rel_stops|]. eapply rel_bind; [apply rel_filter2|gro|]. intros a b <-.
  destruct a as [[x y]|]; [|apply rel_stocke]. eapply rel_bind; [apply rel_stocke|gro|]. intros _ _ _. apply IH.
Qed.
Lemma rel_Xdc : forall z lt m o, rel z z lt any (Xdc m o) (Xdc m o).
Proof. intros. apply rel_dcloop. Qed.
Lemma rel_ascloop : forall z n lt d t, (List.length t <= n)%nat -> rel z z lt any (ascloop d t) (ascloop d t).
Proof.
  intros z. induction n as [|n IH]; intros lt d [|r t] L; cbn [ascloop]; try apply rel_stops; [cbn in L; lia|]. cbn [List.length] in L.
  if1; [destruct t; [apply rel_ret; exact Logic.I|apply rel_error]|]. if1.
  - destruct t as [|c t]; [apply rel_error|]. destruct (escape c); [|apply rel_error]. eapply rel_bind; [apply rel_byte|gro|]. intros _ _ _. apply IH. cbn in L. lia.
  - eapply rel_bind; [apply rel_byte|gro|]. intros _ _ _. apply IH. lia.
Qed.
Lemma rel_Xasc : forall z lt o, rel z z lt any (Xasc o) (Xasc o).
Proof. intros z lt [[|d t]|]; cbn [Xasc]; try apply rel_error. if1; [apply rel_error|]. eapply rel_ascloop, le_n. Qed.
Lemma rel_Xalign : forall z lt o, rel z z lt any (Xalign o) (Xalign o).
Proof.
  intros z lt o. unfold Xalign.
  assert (A : forall p : Z -> bool, rel z z lt any (x <- gets (fun s => s.(wr).(pc)) ;; when (p x) (insert8 0)) (x <- gets (fun s => s.(wr).(pc)) ;; when (p x) (insert8 0))).
  { intros p. apply rel_look. intros s1 s2 Ht b s2' E. destruct (a_org_gv (fl s1)) eqn:O1.
    - pose proof (a_pc _ _ _ _ Ht O1) as P. cbn in P. rewrite P. exact (rel_when F z lt _ _ _ (rel_byte F z lt 0 0) s1 s2 b s2' Ht E).
    - assert (O2 : a_org_gv (fl s2) = false) by (rewrite <- O1; symmetry; exact (a_org _ _ _ _ Ht)).
      assert (N : forall s, a_org_gv (fl s) = false -> insert8 0 s = err "no org given" s).
      { intros s O. unfold insert8, bind at 1. cbn [gets]. rewrite O. cbn [negb when]. unfold err. rewrite error_bind. reflexivity. }
      destruct (p (pc (wr s2))); cbn [when] in E; [rewrite (N _ O2) in E; elim (never_err _ _ _ _ _ E)|]. injection E as <- <-.
      destruct (p (pc (wr s1))); cbn [when]; [|intros _; split; [exact Ht|exact Logic.I]]. rewrite (N _ O1).
      destruct (err "no org given" s1) as [[x|[e|?|?| |]] s1'] eqn:Er; try exact Logic.I; [elim (never_err _ _ _ _ _ Er)|].
      apply error_text in Er. subst e. intros _ L. revert L. nolate. }
  eapply rel_bind with (z1 := z); [apply rel_filter0|gro|]. intros a b <-. if1; [apply A|]. eapply rel_bind with (z1 := z); [apply rel_filter0|gro|]. intros c b <-.
  if1; [apply (A (fun x => negb (Z.odd x)))|apply rel_error].
Qed.
(** ** DS *)
Lemma rel_dsloop : forall z n lt i j, rel z z lt any (dsloop n i) (dsloop n j).
Proof.
  intros z. induction n as [|n IH]; intros lt i j; cbn [dsloop]; [apply rel_ret; exact Logic.I|]. eapply rel_bind; [apply rel_byte|gro|]. intros _ _ _. apply IH.
Qed.
Lemma keptres_dsloop : forall n i, pres keptres _ (dsloop n i).
Proof.
  induction n as [|n IH]; intros i; cbn [dsloop]; [apply (pres_ret _ keptres_order)|]. apply (pres_bind _ keptres_order); [apply keptres_insert8|intros _; apply IH].
Qed.
Lemma rel_advance : forall z lt v, rel z z lt any (upd_ct (set_advance v)) (upd_ct (set_advance v)).
Proof. intros z lt v s1 s2 b s2' [] E. injection E as <- <-. cbn. intros _. split; [|exact Logic.I]. constructor; cbn in *; auto. Qed.
Definition tame {A} (m : M A) : Prop := forall s e s', m s = (Bad (Err e), s') -> ~ late e.
Lemma tame_bind : forall A B (m : M A) (k : A -> M B), tame m -> (forall a, tame (k a)) -> tame (bind m k).
Proof.
  intros A B m k Hm Hk s e s' E. unfold bind in E. destruct (m s) as [[a|[x|?|?| |]] s1] eqn:Em; try discriminate E.
  - exact (Hk _ _ _ _ E).
  - injection E as -> ->. exact (Hm _ _ _ Em).
Qed.
Lemma tame_err : forall A m, ~ late (s2l m) -> @tame A (err m).
Proof. intros A m N s e s' E. apply error_text in E. subst e. exact N. Qed.
Lemma tame_checktype : forall r ty, tame (checktype r ty).
Proof. intros r ty. unfold checktype. destruct (ltype_eqb _ _); [intros s e s' X; discriminate X|destruct (r_type r); apply tame_err; nolate]. Qed.
Lemma tame_insert8 : forall x, tame (insert8 x).
Proof.
  intros x s e s' E. destruct (a_org_gv (fl s)) eqn:O.
  - pose proof (insert8_core x s O) as C. rewrite E in C. destruct C.
  - unfold insert8, bind at 1 in E. cbn [gets] in E. rewrite O in E. cbn [negb when] in E. unfold err in E. rewrite error_bind in E.
    apply error_text in E. subst e. nolate.
Qed.
Lemma tame_dsloop : forall n i, tame (dsloop n i).
Proof.
  induction n as [|n IH]; intros i; cbn [dsloop]; [intros s e s' X; discriminate X|]. apply tame_bind; [apply tame_insert8|intros _; apply IH].
Qed.
Lemma rel_Xds : forall z lt o, relc (fun s => settled s.(ct).(calcresult)) z z lt any (Xds o) (Xds o).
Proof.
  intros z lt o. unfold Xds. eapply relc_bind; [apply rel_filter2|gro|]. intros a b <-.
  eapply relc_bind with (Q := fun x y => fst x = fst y) (z1 := z); [|gro|].
  { destruct a as [[x y]|]; [|apply rel_ret; reflexivity]. eapply rel_bind; [apply rel_parse, SF|gro|]. intros r1 r2 M.
    eapply rel_bind; [apply rel_checktype, M|gro|]. intros _ _ _. cbv zeta. eapply rel_bind; [apply rel_maybe|gro|]. intros _ _ _. apply rel_ret. reflexivity. }
  intros [t i1] [t' i2] X. cbn in X. subst t'. intros s1 s2 b s2' Ht E.
  set (rest := fun i (r : result) => checktype r TAbs ;;; let i0 := s32 (r_value r) in (if i0 <? 0 then stop (UB "DS: negative count") else dsloop (Z.to_nat i0) i) ;;; upd_ct (set_advance (s32 (r_value r)))) in *.
  change (bind (parse t) (rest i2) s2 = (Ok b, s2')) in E. change (bind (parse t) (rest i1) s1) with (bind (parse t) (rest i1) s1). fold (rest i1).
  assert (K : forall i r s u s', rest i r s = (Ok u, s') -> s'.(ct).(calcresult) = s.(ct).(calcresult)).
  { intros i r s u s' R. unfold rest in R. seq R. apply CondFacts.checktype_ok in E0. destruct E0 as [_ ->]. cbv zeta in R. seq R.
    injection R as _ <-. cbn. destruct (_ <? _); [discriminate E0|]. exact (keptres_ok _ _ _ _ _ (keptres_dsloop _ _) E0). }
  assert (G : forall i r, pres growing _ (rest i r)) by (unfold rest; gro).
  assert (R : forall r1 r2, matches r1 r2 -> settled r1 -> rel z z lt any (rest i1 r1) (rest i2 r2)).
  { intros r1 r2 M St. unfold rest. eapply rel_bind; [apply rel_checktype, M|gro|]. intros _ _ _. cbv zeta. rewrite <- (matches_val _ _ M St).
    eapply rel_bind with (Q := any); [|gro|intros _ _ _; apply rel_advance]. if1; [apply rel_stops|apply rel_dsloop]. }
  assert (N : forall r, tame (rest i1 r)).
  { intros r. unfold rest. apply tame_bind; [apply tame_checktype|intros _]. cbv zeta. apply tame_bind; [|intros _ s e s' X; discriminate X].
    destruct (_ <? _); [intros s e s' X; discriminate X|apply tame_dsloop]. }
  change (match bind (parse t) (rest i1) s1 with
  | (Ok a, s1') => grows s1'.(sy) F -> settled s1'.(ct).(calcresult) -> T z s1' s2' /\ any a b
  | (Bad (Err e), s1') => grows s1'.(sy) F -> late e -> lt = true /\ after F s1' s2'
  | _ => True
  end).
  seq E. pose proof (rel_parse F SF z false t _ _ _ _ Ht E0) as Hp. unfold bind. destruct (parse t s1) as [[r|[e|?|?| |]] s1'] eqn:Ep; try exact Logic.I; [|intros GF L; destruct (Hp GF L) as [X _]; discriminate X].
  pose proof (G i1 r s1') as Gr. unfold growing, always in Gr.
  destruct (rest i1 r s1') as [[c|[e|?|?| |]] s1''] eqn:Er; cbn [snd] in Gr; try exact Logic.I.
  - intros GF C. destruct (Hp (grows_trans _ _ _ Gr GF)) as [Ht' M]. rewrite (K _ _ _ _ _ Er), (parse_stored _ _ _ _ Ep) in C.
    pose proof (R _ _ M C _ _ _ _ Ht' E) as Hr. rewrite Er in Hr. exact (Hr GF).
  - intros _ L. elim (N _ _ _ _ Er L).
Qed.

(** ** Settings, titles and pages *)
Lemma rel_newsegment : forall z lt, rel z z lt any newsegment newsegment.
Proof.
  intros z lt s1 s2 b s2' [] E. injection E as <- <-. cbn. intros _. split; [|exact Logic.I]. constructor; cbn in *; auto. congruence.
Qed.
Lemma rel_fl : forall z lt f g, (forall s, coreof (set_fl (f s.(fl)) s) = coreof s) -> (forall s, coreof (set_fl (g s.(fl)) s) = coreof s) ->
  rel z z lt any (upd_fl f) (upd_fl g).
Proof. intros. apply rel_mute; intros s; cbn; auto. Qed.
Lemma rel_Xcode : forall z lt o, rel z z lt any (Xcode o) (Xcode o).
Proof.
  intros. unfold Xcode. eapply rel_bind; [apply rel_refuse; nolate|gro; apply (w_newsegment _ GW)|]. intros _ _ _.
  eapply rel_bind; [apply rel_newsegment|gro|]. intros _ _ _. apply rel_fl; reflexivity.
Qed.
Lemma rel_Xdummy : forall z lt o, rel z z lt any (Xdummy o) (Xdummy o).
Proof.
  intros. unfold Xdummy. eapply rel_bind; [apply rel_refuse; nolate|gro; apply (w_newsegment _ GW)|]. intros _ _ _.
  eapply rel_bind; [apply rel_newsegment|gro|]. intros _ _ _. apply rel_fl; reflexivity.
Qed.
Lemma rel_onoff : forall z lt m1 m2 o, pres mute _ m1 -> pres mute _ m2 -> pres growing _ m1 -> pres growing _ m2 -> rel z z lt any (onoff m1 m2 o) (onoff m1 m2 o).
Proof.
  intros z lt m1 m2 o H1 H2 G1 G2. unfold onoff. eapply rel_bind with (z1 := z); [apply rel_filter0|gro; assumption|]. intros a b <-. if1; [apply rel_mute; assumption|].
  eapply rel_bind with (z1 := z); [apply rel_filter0|gro; assumption|]. intros c b <-. if1; [apply rel_mute; assumption|apply rel_error].
Qed.
Lemma rel_Xlist : forall z lt o, rel z z lt any (Xlist o) (Xlist o).
Proof. intros. apply rel_onoff; [mutes|mutes|gro|gro]. Qed.
Lemma rel_Xmlist : forall z lt o, rel z z lt any (Xmlist o) (Xmlist o).
Proof. intros. apply rel_onoff; [mutes|mutes|gro|gro]. Qed.
Lemma rel_Xclist : forall z lt o, rel z z lt any (Xclist o) (Xclist o).
Proof. intros. apply rel_onoff; [mutes|mutes|gro|gro]. Qed.
Lemma rel_Xilist : forall z lt o, rel z z lt any (Xilist o) (Xilist o).
Proof. intros. apply rel_onoff; [mutes|mutes|gro|gro]. Qed.
Lemma rel_Xoutput : forall z lt o, rel z z lt any (Xoutput o) (Xoutput o).
Proof.
  intros. unfold Xoutput. eapply rel_bind; [apply rel_fl; reflexivity|gro|]. intros _ _ _.
  eapply rel_bind with (z1 := z); [apply rel_filter0|gro|]. intros a b <-. if1; [apply rel_fl; reflexivity|].
  eapply rel_bind with (z1 := z); [apply rel_filter0|gro|]. intros c b <-. if1; [apply rel_fl; reflexivity|apply rel_error].
Qed.
Lemma grow_ls : forall f, pres growing _ (upd_ls f).
Proof. intros. apply grow_same. reflexivity. Qed.
Hint Resolve grow_ls : grodb.
Lemma rel_settitle : forall z lt t, rel z z lt any (settitle t) (settitle t).
Proof.
  intros z lt t. unfold settitle. eapply rel_bind; [apply rel_any|gro|]. intros l1 l2 _.
  eapply rel_bind; [apply rel_maybe|gro|]. intros _ _ _. eapply rel_bind; [apply rel_refuse; nolate|gro|]. intros _ _ _.
  apply rel_mute; mutes.
Qed.
Lemma rel_setpage : forall z lt a b c d, rel z z lt any (setpage a b) (setpage c d).
Proof.
  intros. unfold setpage. eapply rel_bind; [apply rel_any|gro|]. intros l1 l2 _.
  eapply rel_bind; [apply rel_maybe|gro|]. intros _ _ _. eapply rel_bind; [apply rel_refuse; nolate|gro|]. intros _ _ _.
  apply rel_mute; mutes.
Qed.
Lemma rel_Xnam : forall z lt o, rel z z lt any (Xnam o) (Xnam o).
Proof. intros z lt [t|]; cbn [Xnam]; [apply rel_settitle|apply rel_error]. Qed.
Lemma grow_title : forall t, pres growing _ (settitle t).
Proof. exact (w_settitle _ GW). Qed.
Lemma grow_page : forall a b, pres growing _ (setpage a b).
Proof. exact (w_setpage _ GW). Qed.
Hint Resolve grow_title grow_page : grodb.
Lemma rel_Xpage : forall z lt o, rel z z lt any (Xpage o) (Xpage o).
Proof.
  intros z lt [t|]; cbn [Xpage]; [|apply rel_mute; mutes]. eapply rel_bind; [apply rel_filter2|gro|]. intros a b <-.
  destruct a as [[x y]|]; [|apply rel_error]. eapply rel_bind; [apply rel_parse, SF|gro|]. intros r1 r2 M.
  eapply rel_bind; [apply rel_checktype, M|gro|]. intros _ _ _. cbv zeta. eapply rel_bind; [apply rel_parse, SF|gro|]. intros r3 r4 M'.
  eapply rel_bind; [apply rel_checktype, M'|gro|]. intros _ _ _. apply rel_setpage.
Qed.
Lemma mute_skiploop : forall n, pres mute _ (skiploop n).
Proof. induction n as [|n IH]; cbn [skiploop]; mutes. exact IH. Qed.
Lemma rel_Xskip : forall z lt o, rel z z lt any (Xskip o) (Xskip o).
Proof.
  intros. unfold Xskip. eapply rel_bind; [apply rel_parse, SF|gro|]. intros r1 r2 M.
  eapply rel_bind; [apply rel_checktype, M|gro|]. intros _ _ _. cbv zeta.
  apply rel_mute; mutes; apply mute_skiploop.
Qed.
Lemma rel_Xfail : forall z lt o, rel z z lt any (Xfail o) (Xfail o).
Proof. intros z lt [[|c t]|]; cbn [Xfail]; apply rel_never; first [apply never_err|apply never_error]. Qed.

(** ** Loading the tables of a processor *)
Definition recalls (e : entry) (s s' : state) : Prop := exists t, coreof s' = coreof (set_sy t s) /\
  (forall j, j <> lkey (segment (inp s)) (s2l (fst e)) -> tfind j t = tfind j s.(sy)) /\
  tfind (lkey (segment (inp s)) (s2l (fst e))) t = recall (tfind (lkey (segment (inp s)) (s2l (fst e))) s.(sy)) (snd e).
Lemma entry_recalls : forall e s, match init_entry e s with
  | (Ok _, s') => recalls e s s'
  | (Bad (Err _), _) => False
  | _ => True
  end.
Proof.
  intros e s. unfold init_entry, searchlabel, bind. cbn [gets ret]. set (k := lkey _ _). cbv zeta.
  destruct (tfind k (sy s)) as [l|] eqn:E.
  - destruct (_ && _) eqn:Bo.
    + cbn. exists (tupd k (fun l => set_l_flags (set_f_undef false l.(l_flags)) l) s.(sy)). fold k. split; [reflexivity|]. split.
      * intros j N. apply tfind_tupd_other, N.
      * rewrite tfind_tupd_same, E. cbn [option_map recall]. rewrite Bo. reflexivity.
    + assert (W : pres mute _ (warning "user's symbol overrides new keyword")) by mutes. pose proof (W s) as C.
      destruct (warning _ s) as [[u|[x|?|?| |]] s'] eqn:Ew; try exact Logic.I; [|exact (calm_mute _ _ W _ _ _ Ew)].
      exists (sy s). fold k. split; [destruct s; exact C|]. split; [reflexivity|]. rewrite E. cbn [recall]. rewrite Bo. reflexivity.
  - cbn. exists (tins k (snd e) s.(sy)). fold k. split; [reflexivity|]. split.
    + intros j N. apply tfind_tins_other, N.
    + rewrite tfind_tins_same, E by exact E. reflexivity.
Qed.
Definition proper (e : entry) : Prop := keyword (snd e) /\ s2l (fst e) <> s2l "*".
Lemma rel_entry : forall z lt e, proper e -> rel z z lt any (init_entry e) (init_entry e).
Proof.
  intros z lt e [Ke Ne] s1 s2 b s2' Ht E. pose proof (entry_recalls e s2) as R2. rewrite E in R2.
  pose proof (entry_recalls e s1) as R1. destruct (init_entry e s1) as [[u|[x|?|?| |]] s1']; try exact Logic.I; [|destruct R1].
  destruct R1 as (t1 & C1 & O1 & D1), R2 as (t2 & C2 & O2 & D2). intros G. split; [|exact Logic.I].
  assert (Sg : segment (inp s2) = segment (inp s1)) by (exact (f_equal segment (eq_sym (a_inp _ _ _ _ Ht)))). rewrite Sg in O2, D2.
  set (k := lkey (segment (inp s1)) (s2l (fst e))) in *.
  assert (Nk : k <> starkey) by (intros X; apply Ne; exact (lkey_star _ _ X)).
  pose proof (f_equal k_sy C1) as Y. cbn in Y. rewrite Y in G. unfold LayoutRel.T. rewrite C1, C2. apply T_sy; [exact Ht| |].
  - apply (tables_at F (sy s1) (sy s2) _ _ k (a_tables _ _ _ _ Ht)); [exact O1|exact O2|]. rewrite D1, D2.
    pose proof (G k) as Gk. rewrite D1 in Gk. destruct (recall (tfind k (sy s1)) (snd e)) as [l1|] eqn:Rc.
    + destruct Gk as (lF & EF & Bk). rewrite <- Rc. eapply pair_recall; eauto. exact (a_tables _ _ _ _ Ht k).
    + destruct (tfind k (sy s1)); cbn [recall] in Rc; [destruct (_ && _)|]; discriminate Rc.
  - apply starup_at. apply O1. congruence.
Qed.
Lemma grow_entry : forall e, proper e -> pres growing _ (init_entry e).
Proof.
  intros e [(_ & _ & _ & _ & N) _]. apply (init_pres_entry growing growing_lsteps in_its_place).
  - intros s k x T G. apply (systep_grows (sy s)). constructor; assumption.
  - intros s k x T U. apply (systep_grows (sy s)). eapply ss_rekey; eassumption.
  - intros seg X. contradiction.
Qed.
Lemma grow_inner : forall l, Forall proper l -> forall n i incr, pres growing _ (init_inner n i incr l).
Proof.
  intros l Hl. induction n as [|n IH]; intros; cbn [init_inner]; [gro|]. destruct i as [|j]; [gro|]. destruct (nth_error l j) as [e|] eqn:E; [|gro].
  apply (w_bind _ GW); [|intros _; apply IH]. apply grow_entry. rewrite Forall_forall in Hl. exact (Hl _ (nth_error_In _ _ E)).
Qed.
Lemma rel_inner : forall z lt l, Forall proper l -> forall n i incr, rel z z lt any (init_inner n i incr l) (init_inner n i incr l).
Proof.
  intros z lt l Hl. induction n as [|n IH]; intros; cbn [init_inner]; [apply rel_ret; exact Logic.I|]. destruct i as [|j]; [apply rel_ret; exact Logic.I|].
  destruct (nth_error l j) as [e|] eqn:E; [|apply rel_ret; exact Logic.I]. rewrite Forall_forall in Hl.
  eapply rel_bind; [apply rel_entry, Hl, (nth_error_In _ _ E)|intros _; apply grow_inner; rewrite Forall_forall; exact Hl|]. intros _ _ _. apply IH.
Qed.
Lemma grow_outer : forall l, Forall proper l -> forall n incr, pres growing _ (init_outer n incr l).
Proof.
  intros l Hl. induction n as [|n IH]; intros; cbn [init_outer]; [gro|]. destruct (Nat.leb _ _); [gro|].
  apply (w_bind _ GW); [|intros _; apply IH]. apply grow_inner, Hl.
Qed.
Lemma rel_init : forall z lt l, Forall proper l -> rel z z lt any (init_label_list l) (init_label_list l).
Proof.
  intros z lt l Hl. unfold init_label_list. generalize 32%nat at 1 3 as n. generalize (init_incr 32 1 (List.length l)) as i. intros i n. revert i.
  induction n as [|n IH]; intros; cbn [init_outer]; [apply rel_ret; exact Logic.I|]. if1; [apply rel_ret; exact Logic.I|].
  eapply rel_bind; [apply rel_inner, Hl|intros _; apply grow_outer, Hl|]. intros _ _ _. apply IH.
Qed.
Lemma grow_init : forall l, Forall proper l -> pres growing _ (init_label_list l).
Proof. intros l Hl. apply grow_outer, Hl. Qed.
Lemma proper_tables : Forall proper (m6800 ++ m6801 ++ m6502 ++ m65c02 ++ mz80).
Proof.
  repeat (apply Forall_cons; [split; [split; [reflexivity|split; [first [left; reflexivity|right; reflexivity]|split;
    [let X := fresh in intros X; first [discriminate X|vm_compute; auto]|split; discriminate]]]|discriminate]|]). apply Forall_nil.
Qed.
Lemma proper_table : forall l, l = m6800 \/ l = m6801 \/ l = m6502 \/ l = m65c02 \/ l = mz80 -> Forall proper l.
Proof.
  intros l Ll. pose proof proper_tables as P. rewrite !Forall_app in P. destruct P as (P1 & P2 & P3 & P4 & P5).
  destruct Ll as [->|[->|[->|[->| ->]]]]; assumption.
Qed.
Ltac tab := solve [apply proper_table; tauto].
Lemma grow_cp : forall f, pres growing _ (upd_cp f).
Proof. intros. apply grow_same. reflexivity. Qed.
Lemma rel_norel : forall z lt, rel z z lt any (upd_fl (set_a_relatif false)) (upd_fl (set_a_relatif false)).
Proof. intros z lt s1 s2 b s2' [] E. injection E as <- <-. cbn. intros _. split; [|exact Logic.I]. constructor; cbn in *; auto. Qed.
Lemma rel_two : forall z lt c l1 l2, Forall proper l1 -> Forall proper l2 ->
  rel z z lt any (init_label_list l1 ;;; when c (init_label_list l2)) (init_label_list l1 ;;; when c (init_label_list l2)).
Proof.
  intros z lt c l1 l2 H1 H2. eapply rel_bind; [apply rel_init, H1|intros _; unfold when; destruct c; [apply grow_init, H2|gro]|]. intros _ _ _.
  apply rel_when, rel_init, H2.
Qed.
Lemma grow_two : forall c l1 l2, Forall proper l1 -> Forall proper l2 -> pres growing _ (init_label_list l1 ;;; when c (init_label_list l2)).
Proof.
  intros c l1 l2 H1 H2. apply (w_bind _ GW); [apply grow_init, H1|intros _; unfold when; destruct c; [apply grow_init, H2|gro]].
Qed.
Ltac flag := eapply rel_bind; [apply rel_fl; reflexivity|gro; first [apply grow_two; tab|apply grow_init; tab]|]; intros _ _ _.
Lemma rel_init6800 : forall z lt c, rel z z lt any (init6800 c) (init6800 c).
Proof.
  intros. unfold init6800. flag. flag.
  eapply rel_bind; [apply rel_norel|intros _; apply grow_two; tab|]. intros _ _ _. apply rel_two; tab.
Qed.
Lemma rel_init6502 : forall z lt c, rel z z lt any (init6502 c) (init6502 c).
Proof.
  intros. unfold init6502. eapply rel_bind with (Q := any); [|gro; apply grow_init; tab|].
  { intros s1 s2 b s2' [] E. injection E as <- <-. cbn. intros _. split; [|exact Logic.I]. constructor; cbn in *; auto. match goal with H : _ = true -> zflags _ = _ |- _ => exact H end. }
  intros _ _ _. flag. flag.
  eapply rel_bind; [apply rel_norel|intros _; apply grow_two; tab|]. intros _ _ _. apply rel_two; tab.
Qed.
Lemma rel_initz80 : forall z lt c, rel z z lt any (initz80 c) (initz80 c).
Proof.
  intros. unfold initz80. flag. flag. flag.
  eapply rel_bind; [apply rel_norel|intros _; apply grow_init; tab|]. intros _ _ _. apply rel_init; tab.
Qed.
Lemma rel_findcpu : forall z lt (k : M unit -> M unit) t l,
  (forall i, In i (map snd l) -> rel z z lt any (k i) (k i) /\ pres growing _ (k i)) ->
  rel z z lt any (bind (findcpu t l) k) (bind (findcpu t l) k).
Proof.
  intros z lt k t. induction l as [|[n i] l IH]; intros H; cbn [findcpu].
  - apply rel_never, never_bind, never_err.
  - apply rel_ext with (m1 := bind (filter0 t n) (fun b : bool => bind (if b then ret i else findcpu t l) k))
      (m2 := bind (filter0 t n) (fun b : bool => bind (if b then ret i else findcpu t l) k)); try (intros s; symmetry; apply bind_assoc).
    eapply rel_bind; [apply rel_filter0| |].
    + intros [|]; [exact (proj2 (H i (or_introl eq_refl)))|]. apply (J_findcpu _ GW). intros j Hj. apply H. right. exact Hj.
    + intros a b <-. destruct a; [exact (proj1 (H i (or_introl eq_refl)))|]. apply IH. intros j Hj. apply H. right. exact Hj.
Qed.
Lemma rel_Xcpu : forall z lt o, rel z z lt any (Xcpu o) (Xcpu o).
Proof.
  intros z lt [t|]; cbn [Xcpu]; [|apply rel_error].
  set (k := fun init : M unit => p <- gets (fun s => s.(ct).(passnumber)) ;; when (p =? 2) (upd_fl (set_a_cpu_gv true)) ;;; init).
  assert (G : forall i, pres growing _ i -> pres growing _ (k i)) by (intros i Gi; unfold k; gro; exact Gi).
  assert (R : forall i, rel z z lt any i i -> pres growing _ i -> rel z z lt any (k i) (k i)).
  { intros i Ri Gi. unfold k. eapply rel_bind; [apply rel_any|gro; exact Gi|]. intros p q _.
    eapply rel_bind with (Q := any); [apply rel_mute; mutes|intros _; exact Gi|]. intros _ _ _. exact Ri. }
  assert (H : forall i, In i (map snd cpulist) -> rel z z lt any (k i) (k i) /\ pres growing _ (k i)).
  { intros i Hi. cbn [map snd cpulist In] in Hi.
    repeat destruct Hi as [<-|Hi]; try contradiction; split; try apply R; try apply G;
      lazymatch goal with
      | |- pres growing _ (init6800 _) => apply (w_init6800 _ GW)
      | |- pres growing _ (init6502 _) => apply (w_init6502 _ GW)
      | |- pres growing _ (initz80 _) => apply (w_initz80 _ GW)
      | |- LayoutRel.rel _ _ _ _ _ (init6800 _) _ => apply rel_init6800
      | |- LayoutRel.rel _ _ _ _ _ (init6502 _) _ => apply rel_init6502
      | |- LayoutRel.rel _ _ _ _ _ (initz80 _) _ => apply rel_initz80
      end. }
  assert (Gk : pres growing _ (bind (findcpu t cpulist) k)) by (apply (J_findcpu _ GW); intros i Hi; apply H, Hi).
  eapply rel_bind; [apply rel_any|intros f; apply (w_bind _ GW); [gro|intros _; exact Gk]|]. intros f g _.
  eapply rel_bind; [apply rel_refuse; nolate|intros _; exact Gk|]. intros _ _ _. exact (rel_findcpu _ _ k t cpulist H).
Qed.

(** ** Every instruction but INCLUDE *)
Definition counted (h : handler) (l : option str) (s : state) : Prop :=
  (h = HDs \/ (h = HEqu /\ exists t, l = Some t /\ pinned t s.(inp))) -> settled s.(ct).(calcresult).
Lemma rel_exec : forall h m l o, h <> HInclude -> (h = HZBitop -> In m (map s16 [52032; 52160; 52096])) ->
  relc (counted h l) false false true any (exec h m l o) (exec h m l o).
Proof.
  intros h m l o Ni Hb.
  destruct h; try (elim Ni; reflexivity); cbn [exec];
  lazymatch goal with
  | |- relc _ _ _ _ _ (Xasc _) _ => apply rel_relc, rel_z with (z' := false); first [apply (rel_Xasc F SF)|apply (rel_Xasc F)|apply rel_Xasc]
  | |- relc _ _ _ _ _ (Xalign _) _ => apply rel_relc, rel_z with (z' := false); first [apply (rel_Xalign F SF)|apply (rel_Xalign F)|apply rel_Xalign]
  | |- relc _ _ _ _ _ (Xclist _) _ => apply rel_relc, rel_z with (z' := false); first [apply (rel_Xclist F SF)|apply (rel_Xclist F)|apply rel_Xclist]
  | |- relc _ _ _ _ _ (Xcode _) _ => apply rel_relc, rel_z with (z' := false); first [apply (rel_Xcode F SF)|apply (rel_Xcode F)|apply rel_Xcode]
  | |- relc _ _ _ _ _ (Xcpu _) _ => apply rel_relc, rel_z with (z' := false); first [apply (rel_Xcpu F SF)|apply (rel_Xcpu F)|apply rel_Xcpu]
  | |- relc _ _ _ _ _ (Xdc _ _) _ => apply rel_relc, rel_z with (z' := false); first [apply (rel_Xdc F SF)|apply (rel_Xdc F)|apply rel_Xdc]
  | |- relc _ _ _ _ _ (Xdummy _) _ => apply rel_relc, rel_z with (z' := false); first [apply (rel_Xdummy F SF)|apply (rel_Xdummy F)|apply rel_Xdummy]
  | |- relc _ _ _ _ _ (Xfail _) _ => apply rel_relc, rel_z with (z' := false); first [apply (rel_Xfail F SF)|apply (rel_Xfail F)|apply rel_Xfail]
  | |- relc _ _ _ _ _ (Xilist _) _ => apply rel_relc, rel_z with (z' := false); first [apply (rel_Xilist F SF)|apply (rel_Xilist F)|apply rel_Xilist]
  | |- relc _ _ _ _ _ (Xlist _) _ => apply rel_relc, rel_z with (z' := false); first [apply (rel_Xlist F SF)|apply (rel_Xlist F)|apply rel_Xlist]
  | |- relc _ _ _ _ _ (Xmlist _) _ => apply rel_relc, rel_z with (z' := false); first [apply (rel_Xmlist F SF)|apply (rel_Xmlist F)|apply rel_Xmlist]
  | |- relc _ _ _ _ _ (Xnam _) _ => apply rel_relc, rel_z with (z' := false); first [apply (rel_Xnam F SF)|apply (rel_Xnam F)|apply rel_Xnam]
  | |- relc _ _ _ _ _ (Xpage _) _ => apply rel_relc, rel_z with (z' := false); first [apply (rel_Xpage F SF)|apply (rel_Xpage F)|apply rel_Xpage]
  | |- relc _ _ _ _ _ (Xoutput _) _ => apply rel_relc, rel_z with (z' := false); first [apply (rel_Xoutput F SF)|apply (rel_Xoutput F)|apply rel_Xoutput]
  | |- relc _ _ _ _ _ (Xskip _) _ => apply rel_relc, rel_z with (z' := false); first [apply (rel_Xskip F SF)|apply (rel_Xskip F)|apply rel_Xskip]
  | |- relc _ _ _ _ _ (branch _ _) _ => apply rel_relc, rel_z with (z' := false); first [apply (rel_branch F SF)|apply (rel_branch F)|apply rel_branch]
  | |- relc _ _ _ _ _ (single _ _) _ => apply rel_relc, rel_z with (z' := false); first [apply (rel_single F SF)|apply (rel_single F)|apply rel_single]
  | |- relc _ _ _ _ _ (standard68 _ _) _ => apply rel_relc, rel_z with (z' := false); first [apply (rel_standard68 F SF)|apply (rel_standard68 F)|apply rel_standard68]
  | |- relc _ _ _ _ _ (standard2 _ _) _ => apply rel_relc, rel_z with (z' := false); first [apply (rel_standard2 F SF)|apply (rel_standard2 F)|apply rel_standard2]
  | |- relc _ _ _ _ _ (standard3 _ _) _ => apply rel_relc, rel_z with (z' := false); first [apply (rel_standard3 F SF)|apply (rel_standard3 F)|apply rel_standard3]
  | |- relc _ _ _ _ _ (standard65 _ _) _ => apply rel_relc, rel_z with (z' := false); first [apply (rel_standard65 F SF)|apply (rel_standard65 F)|apply rel_standard65]
  | |- relc _ _ _ _ _ (simple _ _) _ => apply rel_relc, rel_z with (z' := false); first [apply (rel_simple F SF)|apply (rel_simple F)|apply rel_simple]
  | |- relc _ _ _ _ _ (z_im _) _ => apply rel_relc, rel_z with (z' := false); first [apply (rel_z_im F SF)|apply (rel_z_im F)|apply rel_z_im]
  | |- relc _ _ _ _ _ (z_rst _) _ => apply rel_relc, rel_z with (z' := false); first [apply (rel_z_rst F SF)|apply (rel_z_rst F)|apply rel_z_rst]
  | |- relc _ _ _ _ _ (z_jr _) _ => apply rel_relc, rel_z with (z' := false); first [apply (rel_z_jr F SF)|apply (rel_z_jr F)|apply rel_z_jr]
  | |- relc _ _ _ _ _ (z_ret _) _ => apply rel_relc, rel_z with (z' := false); first [apply (rel_z_ret F SF)|apply (rel_z_ret F)|apply rel_z_ret]
  | |- relc _ _ _ _ _ (z_call _) _ => apply rel_relc, rel_z with (z' := false); first [apply (rel_z_call F SF)|apply (rel_z_call F)|apply rel_z_call]
  | |- relc _ _ _ _ _ (z_jp _) _ => apply rel_relc, rel_z with (z' := true); first [apply (rel_z_jp F SF)|apply (rel_z_jp F)|apply rel_z_jp]
  | |- relc _ _ _ _ _ (z_ex _) _ => apply rel_relc, rel_z with (z' := true); first [apply (rel_z_ex F SF)|apply (rel_z_ex F)|apply rel_z_ex]
  | |- relc _ _ _ _ _ (z_inout _ _) _ => apply rel_relc, rel_z with (z' := true); first [apply (rel_z_inout F SF)|apply (rel_z_inout F)|apply rel_z_inout]
  | |- relc _ _ _ _ _ (z_onreg8 _ _) _ => apply rel_relc, rel_z with (z' := true); first [apply (rel_z_onreg8 F SF)|apply (rel_z_onreg8 F)|apply rel_z_onreg8]
  | |- relc _ _ _ _ _ (z_logical _ _) _ => apply rel_relc, rel_z with (z' := true); first [apply (rel_z_logical F SF)|apply (rel_z_logical F)|apply rel_z_logical]
  | |- relc _ _ _ _ _ (z_stackop _ _) _ => apply rel_relc, rel_z with (z' := true); first [apply (rel_z_stackop F SF)|apply (rel_z_stackop F)|apply rel_z_stackop]
  | |- relc _ _ _ _ _ (z_arith _ _) _ => apply rel_relc, rel_z with (z' := true); first [apply (rel_z_arith F SF)|apply (rel_z_arith F)|apply rel_z_arith]
  | |- relc _ _ _ _ _ (z_incr _ _) _ => apply rel_relc, rel_z with (z' := true); first [apply (rel_z_incr F SF)|apply (rel_z_incr F)|apply rel_z_incr]
  | |- relc _ _ _ _ _ (z_ld _) _ => apply rel_relc, rel_z with (z' := true); first [apply (rel_z_ld F SF)|apply (rel_z_ld F)|apply rel_z_ld]
  | |- relc _ _ _ _ _ (stop _) _ => apply rel_relc, rel_stops
  | |- _ => idtac
  end.
  - destruct l as [n|]; [|apply rel_relc, rel_stops]. intros s1 s2 b s2' Ht E. pose proof (rel_Xequ false true n o s1 s2 b s2' Ht E) as H.
    destruct (Xequ n o s1) as [[a|[e|?|?| |]] s1']; try exact Logic.I; [|exact H]. intros G C. apply (H G). intros P. apply C. right. split; [reflexivity|]. exists n. auto.
  - intros s1 s2 b s2' Ht E. pose proof (rel_Xds false true o s1 s2 b s2' Ht E) as H.
    destruct (Xds o s1) as [[a|[e|?|?| |]] s1']; try exact Logic.I; [|exact H]. intros G C. exact (H G (C (or_introl eq_refl))).
  - apply rel_relc, rel_z with (z' := true). apply (rel_z_bitop F SF). exact (Hb eq_refl).
Qed.
End Pseudo.
