(** Two runs that read the same lines from different places.  Nothing here is part of the model. *)
From Coq Require Import String Ascii ZArith List Bool Lia.
From Verif Require Import Base State Tree Filter Output Label Operator Parse Scode Tables.
From Verif Require Import Cpu6800 Cpu6502 CpuZ80 Pseudos Macro Xref Crasm.
From Verif Require Import Walk Frame Run.
Import ListNotations.
Open Scope Z_scope.

(** ** The lines to come *)

(** An entry of the stack of sources without what is restored when it is left. *)
Definition rough (x : source) : source :=
  match x with
  | SFile a b c _ _ _ => SFile a b c false (cz 0) 0
  | SMac a b c _ _ _ => SMac a b c false (cz 0) 0
  end.
Definition place : Type := list source * str * bool.
Definition place_of (s : state) : place := (map rough s.(inp).(srcs), s.(inp).(mainrest), s.(inp).(maineof)).
Definition rest_of (p : place) : str := snd (fst p).

(** What [linegets] reads, and the place after it. *)
Inductive fetched := Stream (t : str) | Body (q : str) (args : list str) (all : str) | Null.
Fixpoint dropped (l : list source) : list source :=
  match l with SFile true _ _ _ _ _ :: l' => dropped l' | _ => l end.
Definition fetch (p : place) : fetched * place :=
  let '(l, r, e) := p in
  match dropped l with
  | [] => let '(t, r', e') := fgets 249 r in (Stream (uptonl t), ([], r', e'))
  | SFile _ rest _ a b c :: l' =>
      let '(t, rest', e') := fgets 249 rest in (Stream (uptonl t), (SFile e' rest' e' a b c :: l', r, e))
  | SMac [] _ _ _ _ _ :: _ => (Null, p)
  | SMac (q :: lines) args all a b c :: l' => (Body q args all, (SMac lines args all a b c :: l', r, e))
  end.

(** ** The rest of the state *)
Definition unlined (r : report) : report := mkRep r.(rp_pass) 0 r.(rp_text).
Definition blur (s : state) : state :=
  mkSt (hush s.(fl)) no_listing s.(wr) s.(sy)
       (mkIn [] s.(inp).(maineof) [] s.(inp).(curline) 0 (cz 0) s.(inp).(macrolevel) s.(inp).(thiscall) s.(inp).(segment) 0)
       (set_bufferpos 0 s.(ct)) s.(cp) s.(files) [] s.(emitted) (map unlined s.(reported)) s.(looked).
Lemma view_blur : forall s s', view s' = view s -> blur s' = blur s.
Proof.
  intros s s' E. assert (B : forall x, blur (view x) = blur x) by reflexivity. rewrite <- (B s), <- (B s'), E. reflexivity.
Qed.
Lemma rough_hushed : forall l, map rough (map hushed_source l) = map rough l.
Proof. intros l. rewrite map_map. apply map_ext. intros []; reflexivity. Qed.
Lemma view_place : forall s s', view s' = view s -> place_of s' = place_of s.
Proof.
  intros s s' E. assert (B : forall x, place_of (view x) = place_of x).
  { intros x. unfold place_of. cbn [view inp srcs set_srcs mainrest maineof]. rewrite rough_hushed. reflexivity. }
  rewrite <- (B s), <- (B s'), E. reflexivity.
Qed.
Lemma glance_blur : forall s, glance (blur s) = glance s.
Proof. reflexivity. Qed.

(** ** The main file is not read while a macro runs *)
Definition ismac (x : source) : Prop := match x with SMac _ _ _ _ _ _ => True | _ => False end.
Definition inmac (s : state) : Prop := Exists ismac s.(inp).(srcs).
Definition steady (s s' : state) : Prop :=
  zlen s'.(inp).(mainrest) <= zlen s.(inp).(mainrest) /\
  (inmac s -> s'.(inp).(mainrest) = s.(inp).(mainrest) /\ s'.(inp).(maineof) = s.(inp).(maineof) /\ inmac s').
Definition reading : relation := always steady.
Lemma steady_same : forall s s', s'.(inp) = s.(inp) -> steady s s'.
Proof. intros s s' E. unfold steady, inmac. rewrite E. repeat split; auto; lia. Qed.
Lemma steady_trans : forall a b c, steady a b -> steady b c -> steady a c.
Proof.
  intros a b c [H1 H2] [K1 K2]. split; [lia|]. intros M. destruct (H2 M) as (A & B & C). destruct (K2 C) as (A' & B' & C').
  split; [congruence|]. split; [congruence|exact C'].
Qed.
Lemma steady_instep : forall s v, instep s.(inp) v -> steady s (set_inp v s).
Proof.
  intros s v H. unfold steady, inmac. cbn [inp set_inp]. inversion H as [j A B C D E F G Hl E1|r e A B E1|x y l A B E1|E1]; subst v.
  - rewrite A, B, C. repeat split; auto; lia.
  - cbn [mainrest maineof srcs set_mainrest set_maineof]. split; [exact B|]. rewrite A. intros K. inversion K.
  - cbn [mainrest maineof srcs set_srcs]. split; [lia|]. rewrite A. intros K. repeat split; auto.
    inversion K; subst; [left|right; assumption]. destruct x; [contradiction|]. destruct y; [discriminate B|exact I].
  - cbn. repeat split; auto; lia.
Qed.
Lemma steady_steps : steps reading.
Proof.
  assert (S : forall s s', inp s' = inp s -> reading Fine s s') by (intros; apply steady_same; assumption).
  assert (L : lsteps reading).
  { constructor; [constructor|..]; intros; try (apply S; reflexivity).
    - exact H.
    - eapply steady_trans; [exact H|exact H0]. }
  pose proof (p_order _ L) as O.
  assert (W : forall s w, reading Fine s (set_wr w s)) by (intros; apply S; reflexivity).
  assert (F : forall s v, flstep (fl s) v -> reading Fine s (set_fl v s)) by (intros; apply S; reflexivity).
  assert (Er : forall m, pres reading unit (error m)).
  { apply error_parts; [exact L|exact F|intros; apply S; reflexivity]. }
  constructor; [constructor; [exact L|exact F|..]|..].
  - intros s v H. apply steady_instep. exact H.
  - intros s r e ol op on l E. unfold reading, always, steady, inmac. cbn [popped inp set_fl set_inp mainrest maineof srcs set_linenumber set_lineprefix set_includelevel set_srcs].
    split; [lia|]. rewrite E. intros K. inversion K; subst; [contradiction|]. auto.
  - intros. apply S. reflexivity.
  - intros s a. apply (setpc_free _ O W).
  - intros s m. apply Er.
  - intros s s' H. exact H.
  - intros. apply S. reflexivity.
  - intros. apply S. reflexivity.
  - intros. apply S. reflexivity.
  - intros. apply S. reflexivity.
  - intros. apply S. reflexivity.
  - intros s x. apply (insert8_free _ O W L); try assumption; intros; apply S; reflexivity.
  - intros s text _. unfold reading, always, steady, inmac. cbn [included inp set_inp mainrest maineof srcs set_linenumber set_includelevel set_srcs].
    split; [lia|]. intros K. repeat split. right. exact K.
  - intros s lines args all _. unfold reading, always, steady, inmac. cbn [entered inp set_inp mainrest maineof srcs set_lineprefix set_macrolevel set_srcs].
    split; [lia|]. intros K. repeat split. right. exact K.
  - intros s0 s c [H1 H2] _. unfold reading, always, steady, inmac in *.
    cbn [back inp set_inp set_fl mainrest maineof srcs set_lineprefix set_macrolevel set_linenumber set_segment set_curline set_srcs].
    split; [exact H1|]. intros K. destruct (H2 K) as (A & B & _). auto.
Qed.
Definition steady_walk : walk (pres reading) := pres_walk _ steady_steps.

(** ** Runs side by side *)
Section Join.
(** The places that give the same lines to come, until less than [bound] bytes of the main
    file of the first run are left. *)
Variable feed : place -> place -> Prop.
Variable bound : Z.
Hypothesis feed_fetch : forall p q, feed p q ->
  zlen (rest_of (snd (fetch p))) < bound \/ (fst (fetch p) = fst (fetch q) /\ feed (snd (fetch p)) (snd (fetch q))).
Hypothesis feed_eof : forall p q, feed p q -> snd p = snd q.
Hypothesis feed_push : forall x l r e l' r' e', feed (l, r, e) (l', r', e') -> feed (x :: l, r, e) (x :: l', r', e').

Definition like (s t : state) : Prop := blur s = blur t /\ feed (place_of s) (place_of t).
Definition close0 {A} (x y : res A * state) : Prop :=
  match x, y with
  | (Ok a, s), (Ok b, t) => a = b /\ like s t
  | (Bad (Err m), s), (Bad (Err m'), t) => m = m' /\ like s t
  | (Ok _, _), (Bad (Err _), _) | (Bad (Err _), _), (Ok _, _) => False
  | _, _ => True
  end.
Definition short (s : state) : Prop := zlen s.(inp).(mainrest) < bound.
Definition close {A} (x y : res A * state) : Prop := short (snd x) \/ close0 x y.
Definition both0 {A} (m m' : M A) : Prop := forall s t, like s t -> close0 (m s) (m' t).
Definition both {A} (m m' : M A) : Prop := forall s t, like s t -> close (m s) (m' t).
Definition I (A : Type) (m : M A) : Prop := both0 m m.
Definition J (A : Type) (m : M A) : Prop := both m m /\ pres reading A m.

Lemma both0_bind : forall A B (m m' : M A) (k k' : A -> M B), both0 m m' -> (forall a, both0 (k a) (k' a)) ->
  both0 (bind m k) (bind m' k').
Proof.
  intros A B m m' k k' H K s t V. specialize (H s t V). unfold bind.
  destruct (m s) as [[a|b] s1], (m' t) as [[a'|b'] t1]; cbn [close0] in H.
  - destruct H as [<- H]. apply K. exact H.
  - destruct b'; [contradiction|..]; destruct (k a s1) as [[?|[]] ?]; exact Logic.I.
  - destruct b; [contradiction|..]; exact Logic.I.
  - destruct b, b'; try exact Logic.I. exact H.
Qed.
Lemma both0_look : forall A B (f f' : state -> A) (k k' : A -> M B),
  (forall s t, like s t -> close0 (k (f s) s) (k' (f' t) t)) -> both0 (bind (gets f) k) (bind (gets f') k').
Proof. intros A B f f' k k' H s t V. unfold bind. cbn [gets]. apply H. exact V. Qed.
Lemma both0_both : forall A (m m' : M A), both0 m m' -> both m m'.
Proof. intros A m m' H s t V. right. apply H. exact V. Qed.
Lemma pres_short : forall A (m : M A) s, pres reading A m -> short s -> short (snd (m s)).
Proof. intros A m s H K. destruct (H s) as [L _]. unfold short in *. lia. Qed.
Lemma both_bind : forall A B (m m' : M A) (k k' : A -> M B), both m m' -> (forall a, both (k a) (k' a)) ->
  (forall a, pres reading B (k a)) -> both (bind m k) (bind m' k').
Proof.
  intros A B m m' k k' H K P s t V. specialize (H s t V). unfold bind, close in *.
  destruct (m s) as [[a|b] s1] eqn:E.
  - destruct H as [H|H]; [left; apply pres_short; [apply P|exact H]|].
    destruct (m' t) as [[a'|b'] t1]; cbn [close0] in H.
    + destruct H as [<- H]. apply K. exact H.
    + right. destruct b'; [contradiction|..]; destruct (k a s1) as [[?|[]] ?]; exact Logic.I.
  - destruct H as [H|H]; [left; exact H|right]. destruct (m' t) as [[a'|b'] t1]; cbn [close0] in H.
    + destruct b; [contradiction|..]; exact Logic.I.
    + destruct b, b'; try exact Logic.I. exact H.
Qed.
Lemma both_look : forall A B (f f' : state -> A) (k k' : A -> M B),
  (forall s t, like s t -> close (k (f s) s) (k' (f' t) t)) -> both (bind (gets f) k) (bind (gets f') k').
Proof. intros A B f f' k k' H s t V. unfold bind. cbn [gets]. apply H. exact V. Qed.

Lemma like_view : forall s s' t t', view s' = view s -> view t' = view t -> like s t -> like s' t'.
Proof.
  intros s s' t t' E F [H K]. split; [rewrite (view_blur _ _ E), (view_blur _ _ F); exact H|].
  rewrite (view_place _ _ E), (view_place _ _ F). exact K.
Qed.

(** *** Operations that do not read lines *)
Lemma i_ext : forall A (m m' : M A), (forall s, m s = m' s) -> I A m -> I A m'.
Proof. intros A m m' E H s t V. rewrite <- !E. apply H. exact V. Qed.
Lemma i_ret : forall A (a : A), I A (ret a).
Proof. intros A a s t V. split; [reflexivity|exact V]. Qed.
Lemma i_bind : forall A B (m : M A) (k : A -> M B), I A m -> (forall a, I B (k a)) -> I B (bind m k).
Proof. intros A B m k H K. apply both0_bind; assumption. Qed.
Lemma look_same : forall A B (f : state -> A) (k : A -> M B) s t, (forall s, k (f s) = k (f (glance s))) ->
  like s t -> k (f s) = k (f t).
Proof.
  intros A B f k s t E [V _]. rewrite (E s), (E t). rewrite <- (glance_blur s), <- (glance_blur t), V. reflexivity.
Qed.
Lemma i_look : forall A B (f : state -> A) (k : A -> M B), (forall s, k (f s) = k (f (glance s))) ->
  (forall a, I B (k a)) -> I B (bind (gets f) k).
Proof. intros A B f k E K. apply both0_look. intros s t V. rewrite (look_same _ _ f k s t E V). apply K. exact V. Qed.
Lemma i_gets : forall A (f : state -> A), (forall s, f s = f (glance s)) -> I A (gets f).
Proof.
  intros A f E s t V. split; [|exact V]. destruct V as [V _].
  rewrite (E s), (E t). rewrite <- (glance_blur s), <- (glance_blur t), V. reflexivity.
Qed.
Lemma i_stop : forall A b, I A (stop b).
Proof. intros A [] s t V; cbn; auto. Qed.
Lemma like_map : forall g, (forall s, blur (g s) = g (blur s)) -> (forall s, place_of (g s) = place_of s) ->
  forall s t, like s t -> like (g s) (g t).
Proof. intros g E F s t [V W]. split; [rewrite (E s), (E t), V; reflexivity|rewrite !F; exact W]. Qed.
Lemma i_modify : forall g, (forall s, blur (g s) = g (blur s)) -> (forall s, place_of (g s) = place_of s) -> I unit (modify g).
Proof. intros g E F s t V. split; [reflexivity|apply like_map; assumption]. Qed.
Lemma i_hidden : forall g, (forall s, blur (g s) = blur s) -> (forall s, place_of (g s) = place_of s) -> I unit (modify g).
Proof. intros g E F s t [V W]. split; [reflexivity|]. split; [rewrite !E; exact V|rewrite !F; exact W]. Qed.

Definition unseen : relation := fun d s s' => match d with Fine => view s' = view s | Failed => False | Dead => True end.
Lemma unseen_osteps : osteps unseen.
Proof.
  constructor; [constructor|..]; try (intros; exact Logic.I).
  - reflexivity.
  - intros d a b c H1 H2. destruct d; cbn in *; [congruence|exact H2|exact Logic.I].
  - intros s v _. reflexivity.
  - intros s t _. reflexivity.
  - intros s v. reflexivity.
Qed.
Lemma unseen_both : forall m m' : M unit, pres unseen unit m -> pres unseen unit m' -> both0 m m'.
Proof.
  intros m m' H H' s t V. pose proof (H s) as Hs. pose proof (H' t) as Ht.
  destruct (m s) as [[[]|b] s1], (m' t) as [[[]|b'] t1]; cbn [fst snd how close0] in *.
  - split; [reflexivity|]. exact (like_view s s1 t t1 Hs Ht V).
  - destruct b'; cbn in Ht; auto.
  - destruct b; cbn in Hs; auto.
  - destruct b, b'; cbn in Hs, Ht; auto. contradiction.
Qed.
Lemma i_unseen : forall m : M unit, pres unseen unit m -> I unit m.
Proof. intros m H. apply unseen_both; assumption. Qed.
Notation U := unseen_osteps.
Lemma i_fatal : forall A m, I A (fatal m).
Proof. intros A m s t V. exact Logic.I. Qed.
Lemma i_warning : forall m, I _ (warning m).
Proof. intros. apply i_unseen, (pres_warning _ U). Qed.
Lemma i_outputline : I _ outputline.
Proof. apply i_unseen, (pres_outputline _ U). Qed.
Lemma i_outputEOL : I _ outputEOL.
Proof. apply i_unseen, (pres_outputEOL _ U). Qed.
Lemma i_outputEOP : I _ outputEOP.
Proof. apply i_unseen, (pres_outputEOP _ U). Qed.
Lemma i_outputraw : forall t, I _ (outputraw t).
Proof. intros. apply i_unseen, (pres_outputraw _ U). Qed.
Lemma i_position : forall n, I _ (position n).
Proof. intros. apply i_unseen, (pres_position _ U). Qed.
Lemma i_outputaddr : forall a, I _ (outputaddr a).
Proof. intros. apply i_unseen, (pres_outputaddr _ U). Qed.
Lemma i_outputbyte : forall a, I _ (outputbyte a).
Proof. intros. apply i_unseen, (pres_outputbyte _ U). Qed.
Lemma i_upd_ls : forall f, I _ (upd_ls f).
Proof. intros f. apply i_hidden; reflexivity. Qed.
Lemma i_showvalue : forall (b : bool) v,
  I _ (s <- gets (fun s => s) ;;
     when (b && ((s.(inp).(macrolevel) =? 0) || s.(fl).(a_macrolist_on)) && (s.(ls).(lpos) =? 0))
          (position 2 ;;; outputaddr v)).
Proof.
  intros b v. apply i_unseen. pose proof (o_order _ U) as O. apply (pres_bind _ O); [apply (pres_gets _ O)|intros s].
  unfold when. destruct (_ && _); [|apply (pres_ret _ O)].
  apply (pres_bind _ O); [apply (pres_position _ U)|intros _; apply (pres_outputaddr _ U)].
Qed.

Ltac t1 :=
  lazymatch goal with
  | |- I _ (bind (gets _) _) => apply i_look; [ intros; reflexivity | intros ]
  | |- I _ (bind _ _) => apply i_bind; [ | intros ]
  | |- I _ (ret _) => apply i_ret
  | |- I _ (gets _) => apply i_gets; intros; reflexivity
  | |- I _ (when _ _) => unfold when
  | |- I _ (stop _) => apply i_stop
  | |- I _ (fatal _) => apply i_fatal
  | |- I _ (warning _) => apply i_warning
  | |- I _ outputline => apply i_outputline
  | |- I _ outputEOL => apply i_outputEOL
  | |- I _ outputEOP => apply i_outputEOP
  | |- I _ (outputraw _) => apply i_outputraw
  | |- I _ (position _) => apply i_position
  | |- I _ (outputaddr _) => apply i_outputaddr
  | |- I _ (outputbyte _) => apply i_outputbyte
  | |- I _ (upd_ls _) => apply i_upd_ls
  | |- I _ (upd_fl _) => unfold upd_fl
  | |- I _ (upd_wr _) => unfold upd_wr
  | |- I _ (upd_sy _) => unfold upd_sy
  | |- I _ (upd_inp _) => unfold upd_inp
  | |- I _ (upd_ct _) => unfold upd_ct
  | |- I _ (upd_cp _) => unfold upd_cp
  | |- I _ (modify _) => first [apply i_modify; intros; reflexivity | apply i_hidden; intros; reflexivity]
  | |- I _ (match ?x with _ => _ end) => destruct x
  | |- I _ (let (_, _) := ?x in _) => destruct x
  | |- forall _, _ => intros
  end.
Ltac tw := repeat first [t1 | solve [auto] | progress (cbv beta zeta)].

Lemma i_star_advance : I _ star_advance.
Proof. unfold star_advance. tw. Qed.
Lemma i_error : forall A m, I A (error m).
Proof.
  intros A m. unfold error. apply both0_look. intros s t V. cbv zeta.
  assert (F : hush (fl s) = hush (fl t)) by exact (f_equal fl (proj1 V)).
  assert (Ad : advance (ct s) = advance (ct t)) by exact (f_equal (fun x => advance (ct x)) (proj1 V)).
  assert (Ne : a_noerror (fl s) = a_noerror (fl t)) by exact (f_equal a_noerror F).
  rewrite Ne, Ad. revert s t V F Ad Ne. intros s t V F _ _.
  set (adv := advance (ct t)). set (ne := a_noerror (fl t)). clearbody adv ne.
  generalize (linenumber (inp s)) (linenumber (inp t)). intros line line'.
  generalize (fl s) (fl t) F. clear F. intros f f' F. revert s t V.
  apply both0_bind; [|intros _].
  { destruct ne; cbn [negb]; [apply i_ret|]. destruct (80 <=? _); destruct (80 <=? _).
    - apply i_stop.
    - intros s t V. unfold stop. cbn [close0]. exact Logic.I.
    - intros s t V. unfold stop. destruct ((_ ;;; _) s) as [[?|[]] ?]; exact Logic.I.
    - apply both0_bind; [change (I unit (upd_fl (set_a_list_on true))); tw|intros _].
      apply unseen_both; apply (pres_outputraw _ U). }
  apply both0_bind; [apply i_outputline|intros _].
  apply both0_bind; [change (I unit (when (negb (adv =? 0)) star_advance)); tw; apply i_star_advance|intros _].
  apply both0_bind; [|intros _].
  { intros s t V. split; [reflexivity|]. unfold upd_fl, modify. cbn [snd]. destruct V as [V W]. split; [|exact W].
    change (set_fl (hush f) (blur s) = set_fl (hush f') (blur t)). rewrite V, F. reflexivity. }
  apply both0_bind; [|intros _; apply i_stop].
  intros s t [V W]. split; [reflexivity|]. split; [|exact W]. unfold modify. cbn [snd].
  change (set_reported (mkRep (passnumber (ct (blur s))) 0 m :: reported (blur s)) (blur s) =
          set_reported (mkRep (passnumber (ct (blur t))) 0 m :: reported (blur t)) (blur t)). rewrite V. reflexivity.
Qed.
Lemma i_err : forall A m, I A (err m).
Proof. intros. apply i_error. Qed.
Hint Resolve i_error i_err i_star_advance : core.
Lemma i_flagged : forall (p : listing -> bool) m, I _ (l <- gets ls ;; when (p l) (warning m)).
Proof.
  intros p m. apply i_unseen. pose proof (o_order _ U) as O. apply (pres_bind _ O); [apply (pres_gets _ O)|intros s].
  unfold when. destruct (p s); [apply (pres_warning _ U)|apply (pres_ret _ O)].
Qed.
Lemma i_settitle : forall t, I _ (settitle t).
Proof.
  intros x. unfold settitle. eapply i_ext; [intros s; apply bind_assoc|]. apply i_bind; [apply (i_flagged titleflag)|intros _]. tw.
Qed.
Lemma i_setpage : forall a b, I _ (setpage a b).
Proof.
  intros x y. unfold setpage. eapply i_ext; [intros s; apply bind_assoc|]. apply i_bind; [apply (i_flagged pageflag)|intros _]. tw.
Qed.
Lemma i_filterc : forall s p, I _ (filterc s p).
Proof.
  intros x p. unfold filterc. apply both0_look. intros s t V. cbv zeta.
  destruct (4000 <=? bufferpos (ct s) + _); [destruct (4000 <=? bufferpos (ct t) + _); [exact Logic.I|destruct (fr_caps _); exact Logic.I]|].
  destruct (4000 <=? bufferpos (ct t) + _); [destruct (fr_caps _); exact Logic.I|].
  destruct (fr_caps _); split; try reflexivity; exact V.
Qed.
Hint Resolve i_filterc : core.
Lemma i_scwrite : forall t, I _ (scwrite t).
Proof. unfold scwrite. tw. Qed.
Hint Resolve i_scwrite : core.
Lemma i_flush : I _ flushscoderaw.
Proof. unfold flushscoderaw. tw. Qed.
Hint Resolve i_flush : core.
Lemma i_setpc : forall a, I _ (setpc a).
Proof. unfold setpc. tw. Qed.
Hint Resolve i_setpc : core.
Lemma i_insert8 : forall x, I _ (insert8 x).
Proof. unfold insert8. tw. Qed.
Lemma i_close : I _ closescodefile.
Proof. unfold closescodefile. tw. Qed.
Lemma i_zerobuffer : I _ zerobuffer.
Proof. unfold zerobuffer. tw. Qed.
Hint Resolve i_zerobuffer : core.
Lemma i_linestart : I _ linestart.
Proof. unfold linestart. tw. Qed.
Lemma i_searchlabel : forall n, I _ (searchlabel n).
Proof. unfold searchlabel. tw. Qed.
Hint Resolve i_searchlabel : core.
Lemma i_findlabel : forall n, I _ (findlabel n).
Proof. unfold findlabel, makelabel. tw. Qed.
Lemma i_cstlabel : forall t n, I _ (cstlabel t n).
Proof. pose proof i_findlabel. unfold cstlabel, putres, when. tw. Qed.
Lemma i_deflabel : forall n f y v, I _ (deflabel n f y v).
Proof. unfold deflabel, makelabel. tw. Qed.
Hint Resolve i_deflabel : core.
Lemma i_herelabel : forall n, I _ (herelabel n).
Proof.
  intros n. unfold herelabel. apply i_bind; [tw|intros _]. apply i_look; [reflexivity|intros s0]. apply i_bind; [tw|intros _].
  apply i_unseen. pose proof (o_order _ U) as O. apply (pres_bind _ O); [apply (pres_gets _ O)|intros s].
  unfold when. destruct (_ && _); [|apply (pres_ret _ O)].
  apply (pres_bind _ O); [apply (pres_position _ U)|intros _; apply (pres_outputaddr _ U)].
Qed.
Lemma i_equ : forall label (r : result),
  I _ (k <- deflabel label (equ_flags r.(r_flags)) r.(r_type) r.(r_value) ;;
       upd_sy (tupd k (fun l => set_l_ptr r.(r_ptr) (set_l_modifier r.(r_modifier) l)))).
Proof. tw. Qed.
Lemma i_init_entry : forall e, I _ (init_entry e).
Proof. unfold init_entry. tw. Qed.
Hint Resolve i_init_entry : core.
Lemma i_init_inner : forall n i k l, I _ (init_inner n i k l).
Proof. induction n as [|n IH]; intros; cbn [init_inner]; tw. Qed.
Hint Resolve i_init_inner : core.
Lemma i_init_outer : forall n i l, I _ (init_outer n i l).
Proof. induction n as [|n IH]; intros; cbn [init_outer]; tw. Qed.
Lemma i_init : forall l, I _ (init_label_list l).
Proof. intros. apply i_init_outer. Qed.
Hint Resolve i_init : core.
Lemma i_filter2 : forall s p, I _ (filter2 s p).
Proof. unfold filter2. tw. Qed.
Hint Resolve i_filter2 : core.
Lemma i_stripline : I _ stripline.
Proof. unfold stripline. tw. Qed.
Lemma i_macroargs : forall n o acc, I _ (macroargs n o acc).
Proof. induction n as [|n IH]; intros [|c o] acc; cbn [macroargs]; tw. Qed.
Hint Resolve i_macroargs : core.
Lemma i_checkdepth : I _ checkdepth.
Proof.
  unfold checkdepth. apply both0_look. intros s t V. unfold when. destruct (_ <=? _).
  - exact Logic.I.
  - destruct (_ <=? _); [unfold ret; exact Logic.I|]. apply i_ret. exact V.
Qed.
Hint Resolve i_checkdepth : core.

(** *** Reading a line *)
Definition cur_of (f : fetched) : option str :=
  match f with
  | Stream t => Some (List.filter keepchar t)
  | Body q args all => Some (fst (msubst args all 0 q))
  | Null => None
  end.
Definition put (c : str) (e : bool) (b : state) : state := set_inp (set_curline c (set_maineof e b.(inp))) b.
Lemma dropped_rough : forall l, map rough (dropped l) = dropped (map rough l).
Proof. induction l as [|[[] b c d e f|a b c d e f] l IH]; try reflexivity. exact IH. Qed.
Lemma popended_is : forall l s, srcs (inp s) = l -> exists s', popended l s = (Ok tt, s') /\ blur s' = blur s /\
  srcs (inp s') = dropped l /\ mainrest (inp s') = mainrest (inp s) /\ maineof (inp s') = maineof (inp s).
Proof.
  induction l as [|x l IH]; intros s E.
  - exists s. repeat split. exact E.
  - destruct x as [a b c d e f|a b c d e f]; [|exists s; repeat split; exact E].
    destruct a; [|exists s; repeat split; exact E]. cbn [popended dropped]. unfold bind, upd_inp, upd_fl, modify. cbv beta iota.
    match goal with |- context [popended l ?s1] => destruct (IH s1 eq_refl) as (s' & P & B & A1 & A2 & A3); exists s' end.
    rewrite P, B. repeat split; assumption.
Qed.
Definition got (s : state) (x : res unit * state) : Prop :=
  match x with
  | (Ok _, s') => exists c, cur_of (fst (fetch (place_of s))) = Some c /\
                   blur s' = put c (snd (snd (fetch (place_of s)))) (blur s) /\ place_of s' = snd (fetch (place_of s))
  | (Bad (Err _), _) => False
  | _ => True
  end.
Definition read (r : str) (s : state) (x : res (str * bool) * state) : Prop :=
  match x with
  | (Ok (r', e), s') => exists t, fgets 249 r = (t, r', e) /\
      blur s' = put (List.filter keepchar (uptonl t)) (maineof (inp s)) (blur s) /\ place_of s' = place_of s /\
      map rough (srcs (inp s')) = map rough (srcs (inp s))
  | (Bad (Err _), _) => False
  | _ => True
  end.
Lemma readline_is : forall r s, read r s (readline r s).
Proof.
  intros r s. unfold readline. destruct (fgets 249 r) as [[t r'] e] eqn:F. unfold bind.
  set (c := negb _). assert (K : pres unseen unit (when c (warning "Unprintable characters removed"))).
  { unfold when. destruct c; [apply (pres_warning _ U)|apply (pres_ret _ (o_order _ U))]. }
  specialize (K s). destruct (when c _ s) as [[[]|b] s1]; cbn [fst snd how] in K.
  - cbn. exists t. split; [exact F|]. cbn in K. pose proof (view_blur _ _ K) as B. pose proof (view_place _ _ K) as Q.
    split; [|split].
    + change (put (filter keepchar (uptonl t)) (maineof (inp (blur s1))) (blur s1) = put (filter keepchar (uptonl t)) (maineof (inp (blur s))) (blur s)).
      rewrite B. reflexivity.
    + exact Q.
    + injection Q as Q _ _. exact Q.
  - destruct b; cbn in K; try exact Logic.I. contradiction.
Qed.
Lemma linegets_is : forall s, got s (linegets s).
Proof.
  intros s. unfold linegets, bind at 1. cbn [gets]. destruct (popended_is _ s eq_refl) as (s1 & P & B & A1 & A2 & A3).
  unfold bind at 1. rewrite P. unfold bind at 1. cbn [gets].
  assert (D : dropped (map rough (srcs (inp s))) = map rough (srcs (inp s1))) by (rewrite A1; symmetry; apply dropped_rough).
  destruct (srcs (inp s1)) as [|[a rest c d e f|lines args all d e f] l] eqn:S.
  - unfold bind. pose proof (readline_is (mainrest (inp s1)) s1) as K. destruct (readline _ s1) as [[[r z]|b] s2]; [|destruct b; try exact Logic.I; contradiction].
    destruct K as (t & F & B2 & Q & R). unfold upd_inp, modify. cbn [got].
    unfold fetch, place_of. rewrite D. cbn [map]. rewrite <- A2, F. cbn [fst snd cur_of].
    eexists. split; [reflexivity|]. split.
    + change (put (curline (inp (blur s2))) z (blur s2) = put (filter keepchar (uptonl t)) z (blur s)). rewrite B2, B. reflexivity.
    + unfold place_of. cbn [inp set_inp srcs mainrest maineof set_mainrest set_maineof]. rewrite R, S. reflexivity.
  - unfold bind. pose proof (readline_is rest s1) as K. destruct (readline _ s1) as [[[r z]|b] s2]; [|destruct b; try exact Logic.I; contradiction].
    destruct K as (t & F & B2 & Q & R). unfold upd_inp, modify. cbn [got].
    unfold fetch, place_of. rewrite D. cbn [map rough]. rewrite F. cbn [fst snd cur_of].
    eexists. split; [reflexivity|]. injection Q as Q1 Q2 Q3. split.
    + change (put (curline (inp (blur s2))) (maineof (inp (blur s2))) (blur s2) = put (filter keepchar (uptonl t)) (maineof (inp s)) (blur s)). rewrite B2, B, <- A3. reflexivity.
    + unfold place_of. cbn [inp set_inp srcs mainrest maineof set_srcs map rough]. rewrite Q2, Q3, A2, A3. reflexivity.
  - destruct lines as [|q lines]; [exact Logic.I|]. unfold bind at 1, upd_inp, modify. cbv beta iota.
    set (s2 := set_inp _ s1). destruct (msubst args all 0 q) as [t long] eqn:Ms. unfold bind.
    assert (K : pres unseen unit (when long (warning "Too long line"))).
    { unfold when. destruct long; [apply (pres_warning _ U)|apply (pres_ret _ (o_order _ U))]. }
    specialize (K s2). destruct (when long _ s2) as [[[]|b] s3]; cbn [fst snd how] in K; [|destruct b; try exact Logic.I; contradiction].
    cbn in K. pose proof (view_blur _ _ K) as B2. pose proof (view_place _ _ K) as Q. cbn [got].
    assert (Fe : fetch (place_of s) = (Body q args all, (SMac lines args all false (cz 0) 0 :: map rough l, mainrest (inp s), maineof (inp s))))
      by (unfold fetch, place_of; rewrite D; reflexivity).
    rewrite Fe. cbn [fst snd cur_of]. rewrite Ms.
    eexists. split; [reflexivity|]. split.
    + change (put t (maineof (inp (blur s3))) (blur s3) = put t (maineof (inp s)) (blur s)). rewrite B2.
      change (put t (maineof (inp (blur s1))) (blur s1) = put t (maineof (inp (blur s))) (blur s)). rewrite B. reflexivity.
    + change (place_of s3 = (SMac lines args all false (cz 0) 0 :: map rough l, mainrest (inp s), maineof (inp s))). rewrite Q.
      unfold place_of, s2. cbn [inp set_inp srcs mainrest maineof set_srcs map rough]. rewrite A2, A3. reflexivity.
Qed.
Lemma both_linegets : both linegets linegets.
Proof.
  intros s t [V W]. pose proof (linegets_is s) as Hs. pose proof (linegets_is t) as Ht.
  destruct (feed_fetch _ _ W) as [L|[E F]]; destruct (linegets s) as [[[]|b] s1]; unfold close; cbn [snd].
  - left. destruct Hs as (c & _ & _ & Q). rewrite <- Q in L. exact L.
  - right. destruct b; try contradiction; destruct (linegets t) as [[?|[]] ?]; exact Logic.I.
  - right. destruct (linegets t) as [[[]|b'] t1]; [|destruct b'; try exact Logic.I; contradiction].
    destruct Hs as (c & C1 & C2 & C3). destruct Ht as (c' & C1' & C2' & C3'). split; [reflexivity|]. split.
    + rewrite E, C1' in C1. injection C1 as <-. rewrite C2, C2', V, (feed_eof _ _ F). reflexivity.
    + rewrite C3, C3'. exact F.
  - right. destruct b; try contradiction; destruct (linegets t) as [[?|[]] ?]; exact Logic.I.
Qed.

(** *** Everything *)
Lemma rd_order : order reading.
Proof. exact (p_order _ (p_lsteps _ (p_bsteps _ steady_steps))). Qed.
Notation O := rd_order.
Notation R := steady_walk.
Lemma j_of : forall A (m : M A), I A m -> pres reading A m -> J A m.
Proof. intros A m H K. split; [apply both0_both; exact H|exact K]. Qed.
Lemma rd_free : forall f, (forall s, inp (f s) = inp s) -> pres reading unit (modify f).
Proof. intros f E s. apply steady_same, E. Qed.
Lemma j_ext : forall A (m m' : M A), (forall s, m s = m' s) -> J A m -> J A m'.
Proof. intros A m m' E [H K]. split; [intros s t V; rewrite <- !E; apply H; exact V|exact (w_ext _ R _ _ _ E K)]. Qed.
Lemma j_ret : forall A (a : A), J A (ret a).
Proof. intros. apply j_of; [apply i_ret|apply (w_ret _ R)]. Qed.
Lemma j_bind : forall A B (m : M A) (k : A -> M B), J A m -> (forall a, J B (k a)) -> J B (bind m k).
Proof.
  intros A B m k [H1 H2] K. split; [apply both_bind; [exact H1|apply K|apply K]|].
  apply (pres_bind _ O); [exact H2|intros a; apply K].
Qed.
Lemma j_gets : forall A (f : state -> A), (forall s, f s = f (glance s)) -> J A (gets f).
Proof. intros A f E. apply j_of; [apply i_gets; exact E|apply (w_gets _ R); exact E]. Qed.
Lemma j_look : forall A B (f : state -> A) (k : A -> M B), (forall s, k (f s) = k (f (glance s))) ->
  (forall a, J B (k a)) -> J B (bind (gets f) k).
Proof.
  intros A B f k E K. split; [|apply (w_look _ R); [exact E|intros a; apply K]].
  apply both_look. intros s t V. rewrite (look_same _ _ f k s t E V). apply (K (f t)). exact V.
Qed.
Lemma j_err : forall A m, J A (err m).
Proof. intros. apply j_of; [apply i_err|apply (w_error _ R)]. Qed.
Lemma j_filter2 : forall s p, J _ (filter2 s p).
Proof. intros. apply j_of; [apply i_filter2|apply (J_filter2 _ R)]. Qed.
Lemma j_outputline : J _ outputline.
Proof. apply j_of; [apply i_outputline|apply (w_outputline _ R)]. Qed.
Lemma j_zerobuffer : J _ zerobuffer.
Proof. apply j_of; [apply i_zerobuffer|apply (w_zerobuffer _ R)]. Qed.
Lemma j_linegets : J _ linegets.
Proof. split; [exact both_linegets|apply (w_linegets _ R)]. Qed.
Lemma j_catch : forall A (m : M A), J A m -> J _ (catch m).
Proof.
  intros A m [H K]. split; [|apply (w_catch _ R); exact K]. intros s t V. specialize (H s t V). unfold catch.
  destruct (m s) as [[a|b] s1], (m t) as [[a'|b'] t1]; unfold close in *; cbn [snd close0] in *.
  - destruct H as [H|[<- H]]; [left; exact H|right; auto].
  - destruct H as [H|H]; [left; exact H|right]. destruct b'; [contradiction|..]; exact Logic.I.
  - destruct H as [H|H]; [left; destruct b; exact H|right]. destruct b; [contradiction|..]; exact Logic.I.
  - destruct H as [H|H]; [left; destruct b; exact H|right]. destruct b, b'; try exact Logic.I. destruct H as [_ H]. split; [reflexivity|].
    destruct H as [H1 H2]. split; [|exact H2].
    change (set_ct (set_errnumber (errnumber (ct (blur s1)) + 1) (ct (blur s1))) (blur s1) =
            set_ct (set_errnumber (errnumber (ct (blur t1)) + 1) (ct (blur t1))) (blur t1)). rewrite H1. reflexivity.
Qed.
Lemma j_macrolines : forall n li acc, J _ (macrolines n li acc).
Proof.
  induction n as [|n IH]; intros li acc; cbn [macrolines]; [apply j_of; [apply i_stop|apply (w_fuel _ R)]|].
  apply j_bind; [apply j_zerobuffer|intros _]. apply j_bind; [apply j_linegets|intros _].
  unfold mainfeof. apply j_look; [reflexivity|intros e]. destruct e; [apply j_err|].
  apply j_look; [reflexivity|intros c]. apply j_bind; [apply j_filter2|intros m]. cbv zeta.
  apply j_bind; [destruct li; [apply j_outputline|apply j_ret]|intros _].
  apply j_bind; [apply j_filter2|intros m']. destruct m' as [[x y]|]; [apply j_ret|apply IH].
Qed.
Lemma j_defmacro : forall label n li,
  J _ (k <- deflabel (firstn LABLEN label) lf0 TMacro 0 ;;
     lab <- macrolines n li [] ;;
     let '(lines, a, b) := lab : list str * str * str in
     match a, b with
     | [], [] => upd_sy (tupd k (set_l_ptr (PMac lines))) ;;; ret FNone
     | _, _ => err "illegal ENDM instruction"
     end).
Proof.
  intros label n li. split; [|apply (w_defmacro _ R)].
  assert (K : forall k, J _ (lab <- macrolines n li [] ;;
     let '(lines, a, b) := lab : list str * str * str in
     match a, b with
     | [], [] => upd_sy (tupd k (set_l_ptr (PMac lines))) ;;; ret FNone
     | _, _ => err "illegal ENDM instruction"
     end)).
  { intros k. apply j_bind; [apply j_macrolines|intros [[lines a] b]]. destruct a; [|apply j_err]. destruct b; [|apply j_err].
    apply j_bind; [|intros _; apply j_ret]. apply j_of; [unfold upd_sy; tw|apply rd_free; reflexivity]. }
  apply both_bind; [apply both0_both, i_deflabel|intros k; apply K|intros k; apply K].
Qed.
Lemma i_include : forall o, I _ (Xinclude o).
Proof.
  intros [name|]; unfold Xinclude; [|tw]. apply both0_look. intros s0 t0 V0.
  assert (E1 : files s0 = files t0) by exact (f_equal files (proj1 V0)). rewrite E1. clear E1.
  destruct (files t0 name) as [text|]; [|apply i_err; exact V0].
  generalize (a_list_on (fl s0)) (a_list_on (fl t0)) (lineprefix (inp s0)) (lineprefix (inp t0)) (linenumber (inp s0)) (linenumber (inp t0)).
  intros b b' p p' ln ln'. revert s0 t0 V0. apply both0_bind; [apply i_checkdepth|intros _].
  assert (K : forall c, pres unseen unit (when c outputline)).
  { intros c. destruct c; [apply (pres_outputline _ U)|apply (pres_ret _ (o_order _ U))]. }
  apply both0_bind; [apply unseen_both; apply K|intros _].
  apply both0_bind; [|intros _; change (I unit (f <- gets fl ;; when (negb f.(a_includelist_on)) (upd_fl (set_a_list_on false)))); tw].
  intros s t [V W]. split; [reflexivity|]. split; [exact V|]. apply feed_push. exact W.
Qed.
Definition JJ {A} (m m' : M A) : Prop := both m m' /\ pres reading A m.
Lemma jj_bind : forall A B (m m' : M A) (k k' : A -> M B), JJ m m' -> (forall a, JJ (k a) (k' a)) -> JJ (bind m k) (bind m' k').
Proof.
  intros A B m m' k k' [H1 H2] K. split; [apply both_bind; [exact H1|apply K|apply K]|].
  apply (pres_bind _ O); [exact H2|intros a; apply K].
Qed.
Lemma jj_J : forall A (m : M A), J A m -> JJ m m.
Proof. intros A m H. exact H. Qed.
Lemma jj_look : forall A B (f f' : state -> A) (k k' : A -> M B), (forall a a', JJ (k a) (k' a')) -> JJ (bind (gets f) k) (bind (gets f') k').
Proof.
  intros A B f f' k k' H. split; [apply both_look; intros s t V; apply H; exact V|].
  apply (pres_bind _ O); [apply (pres_gets _ O)|intros a; apply (H a a)].
Qed.
Lemma rd_inp : forall f, (forall i, srcs (f i) = srcs i /\ mainrest (f i) = mainrest i /\ maineof (f i) = maineof i) -> pres reading unit (upd_inp f).
Proof.
  intros f E s. destruct (E (inp s)) as (A & B & C). unfold reading, always, steady, inmac, upd_inp, modify. cbn [snd inp set_inp].
  rewrite A, B, C. repeat split; auto. lia.
Qed.
Lemma jj_same : forall A B (f : state -> A) (k k' : A -> M B), (forall s, f s = f (glance s)) -> (forall a, JJ (k a) (k' a)) ->
  JJ (bind (gets f) k) (bind (gets f) k').
Proof.
  intros A B f k k' E H. apply jj_bind; [apply j_gets; exact E|exact H].
Qed.
Lemma j_Xif : forall self li ex oper, (forall o, J _ (testtrue o)) -> (forall k l e, J _ (self k l e)) -> J _ (Xif self li ex oper).
Proof.
  intros self li ex oper H K.
  assert (Ol : forall c, J _ (when c outputline)) by (intros c; destruct c; [apply j_outputline|apply j_ret]).
  assert (Px : forall c c', JJ (upd_inp (set_lineprefix c)) (upd_inp (set_lineprefix c'))).
  { intros c c'. split; [intros s t V; right; split; [reflexivity|exact V]|]. apply rd_inp. auto. }
  assert (Pw : forall (b : bool) c, J _ (when b (upd_inp (set_lineprefix c)))) by (intros b c; destruct b; [apply Px|apply j_ret]).
  unfold Xif, iflist.
  apply j_bind; [destruct ex; [apply H|apply j_ret]|intros bv]. apply j_look; [reflexivity|intros il].
  apply j_bind; [apply Ol|intros _]. apply jj_look. intros p p'.
  apply jj_bind; [apply jj_J, Pw|intros _]. apply jj_bind; [apply jj_J, K|intros f]. apply jj_bind; [apply Px|intros _].
  destruct f; [..|apply j_err|]; try (apply j_look; [reflexivity|intros il2]; apply j_bind; [apply Ol|intros _]; apply j_ret).
  apply jj_same; [reflexivity|intros il2]. apply jj_bind; [apply Ol|intros _].
  apply jj_same; [reflexivity|intros il3]. apply jj_bind; [apply jj_J, Pw|intros _].
  apply jj_bind; [apply jj_J, K|intros f]. apply jj_bind; [apply Px|intros _].
  destruct f; try apply j_err; (apply j_look; [reflexivity|intros il4]; apply j_bind; [apply Ol|intros _]; apply j_ret).
Qed.
Lemma close_step : forall A B (m m' : M A) (k k' : A -> M B) s t, close (m s) (m' t) ->
  (forall a s1 t1, m s = (Ok a, s1) -> m' t = (Ok a, t1) -> like s1 t1 -> close (k a s1) (k' a t1)) ->
  (forall a s1, m s = (Ok a, s1) -> short s1 -> short (snd (k a s1))) ->
  close (bind m k s) (bind m' k' t).
Proof.
  intros A B m m' k k' s t H K L. unfold bind, close in *. destruct (m s) as [[a|b] s1].
  - destruct H as [H|H]; [left; exact (L a s1 eq_refl H)|]. destruct (m' t) as [[a'|b'] t1]; cbn [close0] in H.
    + destruct H as [<- H]. exact (K a s1 t1 eq_refl eq_refl H).
    + right. destruct b'; [contradiction|..]; destruct (k a s1) as [[?|[]] ?]; exact Logic.I.
  - destruct H as [H|H]; [left; exact H|right]. destruct (m' t) as [[a'|b'] t1]; cbn [close0] in H.
    + destruct b; [contradiction|..]; exact Logic.I.
    + destruct b, b'; try exact Logic.I. exact H.
Qed.
Lemma close0_step : forall A B (m m' : M A) (k k' : A -> M B) s t, close0 (m s) (m' t) ->
  (forall a s1 t1, m s = (Ok a, s1) -> m' t = (Ok a, t1) -> like s1 t1 -> close (k a s1) (k' a t1)) ->
  close (bind m k s) (bind m' k' t).
Proof.
  intros A B m m' k k' s t H K. unfold bind. destruct (m s) as [[a|b] s1].
  - destruct (m' t) as [[a'|b'] t1]; cbn [close0] in H.
    + destruct H as [<- H]. exact (K a s1 t1 eq_refl eq_refl H).
    + right. destruct b'; [contradiction|..]; destruct (k a s1) as [[?|[]] ?]; exact Logic.I.
  - right. destruct (m' t) as [[a'|b'] t1]; cbn [close0] in H.
    + destruct b; [contradiction|..]; exact Logic.I.
    + destruct b, b'; try exact Logic.I. exact H.
Qed.
(** While a macro runs the main files stay where they are, hence the stacks as they were
    before still give the same lines. *)
Lemma back_is : forall s0 t0 s t ln ln' p p', like s0 t0 -> like s t ->
  mainrest (inp s) = mainrest (inp s0) -> maineof (inp s) = maineof (inp s0) ->
  mainrest (inp t) = mainrest (inp t0) -> maineof (inp t) = maineof (inp t0) ->
  like (set_inp (set_macrolevel (macrolevel (inp s) - 1) (set_linenumber ln (set_lineprefix p
          (set_srcs (srcs (inp s0)) (set_segment (segment (inp s0)) (inp s)))))) s)
       (set_inp (set_macrolevel (macrolevel (inp t) - 1) (set_linenumber ln' (set_lineprefix p'
          (set_srcs (srcs (inp t0)) (set_segment (segment (inp t0)) (inp t)))))) t).
Proof.
  intros s0 t0 s t ln ln' p p' [V0 W0] [V W] A1 A2 B1 B2. split.
  - set (f := fun (b0 b : state) => set_inp (set_macrolevel (macrolevel (inp b) - 1) (set_segment (segment (inp b0)) (inp b))) b).
    change (f (blur s0) (blur s) = f (blur t0) (blur t)). rewrite V0, V. reflexivity.
  - unfold place_of. cbn [inp set_inp srcs mainrest maineof set_macrolevel set_linenumber set_lineprefix set_srcs set_segment].
    rewrite A1, A2, B1, B2. exact W0.
Qed.
Lemma close_look : forall A B (f f' : state -> A) (k k' : A -> M B) s t, close (k (f s) s) (k' (f' t) t) ->
  close (bind (gets f) k s) (bind (gets f') k' t).
Proof. intros A B f f' k k' s t H. exact H. Qed.
Lemma j_macrocall : forall self key ptr li oper, (forall k l e, J _ (self k l e)) -> J _ (macrocall self key ptr li oper).
Proof.
  intros self key ptr li oper H. split; [|apply (w_macrocall _ R); intros k l e; apply H].
  unfold macrocall. intros s00 t00 V00. apply close0_step.
  { revert s00 t00 V00. match goal with |- forall s t, like s t -> close0 (?m s) _ => change (I _ m) end. tw. }
  intros ? s0 t0 _ _ V0. clear s00 t00 V00. apply close_look.
  apply close0_step; [apply i_checkdepth; exact V0|]. intros ? s1 t1 E1 E2 V1.
  apply checkdepth_ok in E1, E2. destruct E1 as [-> _], E2 as [-> _].
  apply close0_step; [apply i_macroargs; exact V0|]. intros args s1 t1 E1 E2 V1'.
  apply fixed_macroargs in E1, E2. destruct E1 as [_ Is], E2 as [_ It].
  apply close_look. replace (a_macrolist_on (fl t1)) with (a_macrolist_on (fl s1)) by exact (f_equal (fun x => a_macrolist_on (fl x)) (proj1 V1')).
  set (c := _ && li). apply close0_step; [unfold when; destruct c; [apply i_outputline; exact V1'|apply i_ret; exact V1']|].
  intros ? s2 t2 E1 E2 V2.
  assert (Is2 : inp s2 = inp s0) by (destruct c; [apply fixed_outputline in E1; destruct E1; congruence|unfold when, ret in E1; congruence]).
  assert (It2 : inp t2 = inp t0) by (destruct c; [apply fixed_outputline in E2; destruct E2; congruence|unfold when, ret in E2; congruence]).
  clear V1 V1' Is It E1 E2 s1 t1 c.
  set (lines := match ptr with PMac l => l | _ => [] end).
  apply close0_step.
  { split; [reflexivity|]. split; [exact (f_equal (fun b => set_inp (set_macrolevel (macrolevel (inp b) + 1) (inp b)) b) (proj1 V2))|].
    apply feed_push. exact (proj2 V2). }
  intros ? s3 t3 E1 E2 V3. unfold upd_inp, modify in E1, E2. injection E1 as E0 E1; injection E2 as _ E2. subst s3 t3.
  apply close0_step; [revert V3; apply (fun (K : I _ newsegment) => K _ _); unfold newsegment; tw|].
  intros ? s4 t4 E1 E2 V4. unfold newsegment, upd_inp, modify in E1, E2. injection E1 as E0' E1; injection E2 as _ E2. subst s4 t4. clear V3.
  match type of V4 with like ?a ?b => set (s4 := a) in *; set (t4 := b) in * end.
  assert (Ms : inmac s4) by (left; exact Logic.I). assert (Mt : inmac t4) by (left; exact Logic.I).
  assert (S1 : mainrest (inp s4) = mainrest (inp s0)) by (rewrite <- Is2; reflexivity).
  assert (S2 : maineof (inp s4) = maineof (inp s0)) by (rewrite <- Is2; reflexivity).
  assert (T1 : mainrest (inp t4) = mainrest (inp t0)) by (rewrite <- It2; reflexivity).
  assert (T2 : maineof (inp t4) = maineof (inp t0)) by (rewrite <- It2; reflexivity).
  clearbody s4 t4. clear V2 Is2 It2.
  apply close_look. replace (a_macrolist_on (fl t4)) with (a_macrolist_on (fl s4)) by exact (f_equal (fun x => a_macrolist_on (fl x)) (proj1 V4)).
  generalize (li && a_macrolist_on (fl s4)). intros c.
  assert (Rs : forall a s5, self KMac c true s4 = (Ok a, s5) -> mainrest (inp s5) = mainrest (inp s0) /\ maineof (inp s5) = maineof (inp s0)).
  { intros a9 s5 E. pose proof (proj2 (H KMac c true) s4) as K. rewrite E in K. destruct K as [_ K]. destruct (K Ms) as (K1 & K2 & _).
    cbn [snd] in K1, K2. split; congruence. }
  assert (Rt : forall a t5, self KMac c true t4 = (Ok a, t5) -> mainrest (inp t5) = mainrest (inp t0) /\ maineof (inp t5) = maineof (inp t0)).
  { intros a9 s5 E. pose proof (proj2 (H KMac c true) t4) as K. rewrite E in K. destruct K as [_ K]. destruct (K Mt) as (K1 & K2 & _).
    cbn [snd] in K1, K2. split; congruence. }
  apply close_step; [apply H; exact V4|..].
  - intros f s5 t5 E1 E2 V5. destruct (Rs _ _ E1) as [P1 P2], (Rt _ _ E2) as [Q1 Q2].
    apply close0_step.
    { split; [reflexivity|]. apply (back_is s0 t0 s5 t5); assumption. }
    clear V5 V4. intros ? s6 t6 _ _ V6. apply close0_step; [split; [reflexivity|exact V6]|].
    intros ? s7 t7 _ _ V7. assert (Cu : curline (inp s0) = curline (inp t0)) by exact (f_equal (fun x => curline (inp x)) (proj1 V0)).
    rewrite Cu. generalize (curline (inp t0)). intros cu. revert s7 t7 V7. apply both0_both.
    match goal with |- both0 ?m _ => change (I _ m) end. tw.
  - intros f s5 E1 Sh. unfold bind at 1. unfold upd_inp at 1, modify at 1. cbv beta iota.
    match goal with |- short (snd (?m ?x)) => set (s6 := x); set (rest := m) end.
    assert (Sh6 : short s6) by exact Sh. clearbody s6. apply pres_short; [|exact Sh6]. unfold rest.
    apply (pres_bind _ O); [apply rd_free; reflexivity|intros _]. destruct f; try apply (w_error _ R);
    (apply (pres_bind _ O); [apply (pres_gets _ O)|intros ml]; unfold when; destruct (negb ml); [|apply (pres_ret _ O)];
     apply (pres_bind _ O); [apply rd_inp; auto|intros _]; destruct li; [apply (w_outputline _ R)|apply (pres_ret _ O)]).
Qed.


Ltac seq1 :=
  lazymatch goal with
  | |- I _ (bind _ _) => apply i_bind; [|intros _]
  | |- I _ (init_label_list _) => apply i_init
  | |- I _ (findlabel _) => apply i_findlabel
  | |- I _ (ret _) => apply i_ret
  | |- I _ (upd_fl _) => apply i_modify; reflexivity
  | |- I _ (upd_cp _) => apply i_modify; reflexivity
  | |- I _ (upd_ct _) => apply i_modify; reflexivity
  | |- I _ (upd_sy _) => apply i_modify; reflexivity
  | |- I _ (upd_inp _) => apply i_modify; reflexivity
  end.
Lemma i_init6800 : forall c, I _ (init6800 c).
Proof. intros c. unfold init6800, when. destruct (c =? 1); repeat seq1. Qed.
Lemma i_init6502 : forall c, I _ (init6502 c).
Proof. intros c. unfold init6502, when. destruct (c =? 2); repeat seq1. Qed.
Lemma i_initz80 : forall c, I _ (initz80 c).
Proof. intros c. unfold initz80. repeat seq1. Qed.
Lemma join_walk : walk J.
Proof.
  constructor.
  - exact j_ext.
  - exact j_ret.
  - exact j_bind.
  - exact j_gets.
  - exact j_look.
  - intros; apply j_of; [apply i_stop|apply (w_ub _ R)].
  - intros; apply j_of; [apply i_stop|apply (w_hang _ R)].
  - intros; apply j_of; [apply i_stop|apply (w_fuel _ R)].
  - intros; apply j_of; [apply i_fatal|apply (w_fatal _ R)].
  - intros; apply j_of; [apply i_error|apply (w_error _ R)].
  - intros; apply j_of; [apply i_warning|apply (w_warning _ R)].
  - exact j_catch.
  - exact j_outputline.
  - apply j_of; [apply i_outputEOL|apply (w_outputEOL _ R)].
  - apply j_of; [apply i_outputEOP|apply (w_outputEOP _ R)].
  - intros; apply j_of; [apply i_settitle|apply (w_settitle _ R)].
  - intros; apply j_of; [apply i_setpage|apply (w_setpage _ R)].
  - intros; apply j_of; [apply i_filterc|apply (w_filterc _ R)].
  - exact j_zerobuffer.
  - intros r; apply j_of; [apply i_modify; reflexivity|apply (w_calcresult _ R)].
  - intros r; apply j_of; [apply i_modify; reflexivity|apply (w_advance _ R)].
  - apply j_of; [apply i_linestart|apply (w_linestart _ R)].
  - intros x; apply j_of; [apply i_insert8|apply (w_insert8 _ R)].
  - apply j_of; [apply i_star_advance|apply (w_star_advance _ R)].
  - intros n; apply j_of; [apply i_findlabel|apply (w_findlabel _ R)].
  - intros t n; apply j_of; [apply i_cstlabel|apply (w_cstlabel _ R)].
  - intros n; apply j_of; [apply i_herelabel|apply (w_herelabel _ R)].
  - intros b v; apply j_of; [apply i_showvalue|apply (w_showvalue _ R)].
  - intros l r; apply j_of; [apply i_equ|apply (w_equ _ R)].
  - exact j_defmacro.
  - intros c; apply j_of; [apply i_init6800|apply (w_init6800 _ R)].
  - intros c; apply j_of; [apply i_init6502|apply (w_init6502 _ R)].
  - intros c; apply j_of; [apply i_initz80|apply (w_initz80 _ R)].
  - intros f; apply j_of; [apply i_modify; reflexivity|apply (w_cp _ R)].
  - apply j_of; [apply i_modify; reflexivity|apply (w_flip_lohi _ R)].
  - apply j_of; [apply i_modify; reflexivity|apply (w_cpu_gv _ R)].
  - intros b; apply j_of; [apply i_modify; reflexivity|apply (w_code_on _ R)].
  - apply j_of; [apply i_modify; reflexivity|apply (w_newsegment _ R)].
  - apply j_of; [|apply (w_list_on _ R)]. apply i_unseen. pose proof (o_order _ U) as Q. apply (pres_bind _ Q); [apply (pres_gets _ Q)|intros f].
    unfold when. destruct (negb _); [intros s; reflexivity|apply (pres_ret _ Q)].
  - apply j_of; [apply i_hidden; reflexivity|apply (w_list_off _ R)].
  - intros b; apply j_of; [apply i_modify; reflexivity|apply (w_macrolist _ R)].
  - intros b; apply j_of; [apply i_modify; reflexivity|apply (w_iflist _ R)].
  - intros b; apply j_of; [apply i_modify; reflexivity|apply (w_includelist _ R)].
  - apply j_of; [apply i_modify; reflexivity|apply (w_nooutput _ R)].
  - apply j_of; [apply i_modify; reflexivity|apply (w_hex _ R)].
  - apply j_of; [apply i_modify; reflexivity|apply (w_scode _ R)].
  - exact j_linegets.
  - apply j_of; [apply i_stripline|apply (w_stripline _ R)].
  - intros o; apply j_of; [apply i_include|apply (w_include _ R)].
  - exact j_Xif.
  - exact j_macrocall.
Qed.
Lemma join_passloop : forall n, J unit (passloop n).
Proof. apply (J_passloop _ join_walk). Qed.
Lemma join_run : forall n k li ex, J _ (run n k li ex).
Proof. apply (J_run _ join_walk). Qed.
End Join.
