(** Two runs that differ in the listing only.  Nothing here is part of the model. *)
From Coq Require Import String Ascii ZArith List Bool Lia.
From Verif Require Import Base State Tree Filter Output Label Operator Parse Scode Tables.
From Verif Require Import Cpu6800 Cpu6502 CpuZ80 Pseudos Macro Xref Crasm.
From Verif Require Import Walk Frame Run.
Import ListNotations.
Open Scope Z_scope.

(** Both end well with the same value, or with the same error, unless one of them stops the
    program; and the states agree but for the listing. *)
Definition agree {A} (x y : res A * state) : Prop :=
  match x, y with
  | (Ok a, s), (Ok b, t) => a = b /\ view s = view t
  | (Bad (Err m), s), (Bad (Err m'), t) => m = m' /\ view s = view t
  | (Ok _, _), (Bad (Err _), _) | (Bad (Err _), _), (Ok _, _) => False
  | _, _ => True
  end.
Definition twins {A} (m m' : M A) : Prop := forall s t, view s = view t -> agree (m s) (m' t).
Definition twin A (m : M A) : Prop := twins m m.

Lemma twins_bind : forall A B (m m' : M A) (k k' : A -> M B), twins m m' -> (forall a, twins (k a) (k' a)) ->
  twins (bind m k) (bind m' k').
Proof.
  intros A B m m' k k' H K s t V. specialize (H s t V). unfold bind.
  destruct (m s) as [[a|b] s1], (m' t) as [[a'|b'] t1]; cbn [agree] in H.
  - destruct H as [<- H]. apply K. exact H.
  - destruct b'; [contradiction|..]; destruct (k a s1) as [[?|[]] ?]; exact I.
  - destruct b; [contradiction|..]; exact I.
  - destruct b, b'; try exact I. exact H.
Qed.
Lemma twins_look : forall A B (f f' : state -> A) (k k' : A -> M B),
  (forall s t, view s = view t -> agree (k (f s) s) (k' (f' t) t)) -> twins (bind (gets f) k) (bind (gets f') k').
Proof. intros A B f f' k k' H s t V. unfold bind. cbn [gets]. apply H. exact V. Qed.
Lemma agree_same : forall A (x y : res A * state), x = y -> agree x y.
Proof. intros A [[a|[]] s] y <-; cbn; auto. Qed.

Section Twin.
Notation J := twin.
Lemma t_ext : forall A (m m' : M A), (forall s, m s = m' s) -> J A m -> J A m'.
Proof. intros A m m' E H s t V. rewrite <- !E. apply H. exact V. Qed.
Lemma t_ret : forall A (a : A), J A (ret a).
Proof. intros A a s t V. split; [reflexivity|exact V]. Qed.
Lemma t_bind : forall A B (m : M A) (k : A -> M B), J A m -> (forall a, J B (k a)) -> J B (bind m k).
Proof. intros A B m k H K. apply twins_bind; assumption. Qed.
Lemma t_look : forall A B (f : state -> A) (k : A -> M B), (forall s, k (f s) = k (f (view s))) ->
  (forall a, J B (k a)) -> J B (bind (gets f) k).
Proof. intros A B f k E K. apply twins_look. intros s t V. rewrite (E s), (E t), V. apply K. exact V. Qed.
Lemma t_gets : forall A (f : state -> A), (forall s, f s = f (view s)) -> J A (gets f).
Proof. intros A f E s t V. split; [rewrite (E s), (E t), V; reflexivity|exact V]. Qed.
Lemma t_look' : forall A B (f : state -> A) (k : A -> M B), (forall s, k (f s) = k (f (glance s))) ->
  (forall a, J B (k a)) -> J B (bind (gets f) k).
Proof. intros A B f k E. apply t_look. intros s. rewrite (E s), (E (view s)). reflexivity. Qed.
Lemma t_gets' : forall A (f : state -> A), (forall s, f s = f (glance s)) -> J A (gets f).
Proof. intros A f E. apply t_gets. intros s. rewrite (E s), (E (view s)). reflexivity. Qed.
Lemma t_stop : forall A b, J A (stop b).
Proof. intros A [] s t V; cbn; auto. Qed.
Lemma t_modify : forall g, (forall s, view (g s) = g (view s)) -> J unit (modify g).
Proof. intros g E s t V. split; [reflexivity|]. rewrite E, E, V. reflexivity. Qed.
Lemma t_hidden : forall g, (forall s, view (g s) = view s) -> J unit (modify g).
Proof. intros g E s t V. split; [reflexivity|]. rewrite E, E. exact V. Qed.

(** Operations that only concern the listing. *)
Definition unseen : relation := fun d s s' => match d with Fine => view s' = view s | Failed => False | Dead => True end.
Lemma unseen_osteps : osteps unseen.
Proof.
  constructor; [constructor|..]; try (intros; exact I).
  - reflexivity.
  - intros d a b c H1 H2. destruct d; cbn in *; [congruence|exact H2|exact I].
  - intros s v _. reflexivity.
  - intros s t _. reflexivity.
  - intros s v. reflexivity.
Qed.
Lemma t_unseen : forall m : M unit, pres unseen unit m -> J unit m.
Proof.
  intros m H s t V. pose proof (H s) as Hs. pose proof (H t) as Ht.
  destruct (m s) as [[[]|b] s1], (m t) as [[[]|b'] t1]; cbn [fst snd how agree] in *.
  - split; [reflexivity|]. cbn in Hs, Ht. congruence.
  - destruct b'; cbn in Ht; auto.
  - destruct b; cbn in Hs; auto.
  - destruct b, b'; cbn in Hs, Ht; auto. contradiction.
Qed.
Notation U := unseen_osteps.
Lemma t_fatal : forall A m, J A (fatal m).
Proof. intros A m s t V. exact I. Qed.
Lemma t_warning : forall m, J _ (warning m).
Proof. intros. apply t_unseen, (pres_warning _ U). Qed.
Lemma t_outputline : J _ outputline.
Proof. apply t_unseen, (pres_outputline _ U). Qed.
Lemma t_outputEOL : J _ outputEOL.
Proof. apply t_unseen, (pres_outputEOL _ U). Qed.
Lemma t_outputEOP : J _ outputEOP.
Proof. apply t_unseen, (pres_outputEOP _ U). Qed.
Lemma t_outputraw : forall t, J _ (outputraw t).
Proof. intros. apply t_unseen, (pres_outputraw _ U). Qed.
Lemma t_position : forall n, J _ (position n).
Proof. intros. apply t_unseen, (pres_position _ U). Qed.
Lemma t_outputaddr : forall a, J _ (outputaddr a).
Proof. intros. apply t_unseen, (pres_outputaddr _ U). Qed.
Lemma t_outputbyte : forall a, J _ (outputbyte a).
Proof. intros. apply t_unseen, (pres_outputbyte _ U). Qed.
Lemma t_upd_ls : forall f, J _ (upd_ls f).
Proof. intros f. apply t_hidden. reflexivity. Qed.
Lemma t_showvalue : forall (b : bool) v,
  J _ (s <- gets (fun s => s) ;;
     when (b && ((s.(inp).(macrolevel) =? 0) || s.(fl).(a_macrolist_on)) && (s.(ls).(lpos) =? 0))
          (position 2 ;;; outputaddr v)).
Proof.
  intros b v. apply t_unseen. pose proof (o_order _ U) as O. apply (pres_bind _ O); [apply (pres_gets _ O)|intros s].
  unfold when. destruct (_ && _); [|apply (pres_ret _ O)].
  apply (pres_bind _ O); [apply (pres_position _ U)|intros _; apply (pres_outputaddr _ U)].
Qed.

Ltac t1 :=
  lazymatch goal with
  | |- J _ (bind (gets _) _) => apply t_look; [ intros; reflexivity | intros ]
  | |- J _ (bind _ _) => apply t_bind; [ | intros ]
  | |- J _ (ret _) => apply t_ret
  | |- J _ (gets _) => apply t_gets; intros; reflexivity
  | |- J _ (when _ _) => unfold when
  | |- J _ (stop _) => apply t_stop
  | |- J _ (fatal _) => apply t_fatal
  | |- J _ (warning _) => apply t_warning
  | |- J _ outputline => apply t_outputline
  | |- J _ outputEOL => apply t_outputEOL
  | |- J _ outputEOP => apply t_outputEOP
  | |- J _ (outputraw _) => apply t_outputraw
  | |- J _ (position _) => apply t_position
  | |- J _ (outputaddr _) => apply t_outputaddr
  | |- J _ (outputbyte _) => apply t_outputbyte
  | |- J _ (upd_ls _) => apply t_upd_ls
  | |- J _ (upd_fl _) => unfold upd_fl
  | |- J _ (upd_wr _) => unfold upd_wr
  | |- J _ (upd_sy _) => unfold upd_sy
  | |- J _ (upd_inp _) => unfold upd_inp
  | |- J _ (upd_ct _) => unfold upd_ct
  | |- J _ (upd_cp _) => unfold upd_cp
  | |- J _ (modify _) => first [apply t_modify; intros; reflexivity | apply t_hidden; intros; reflexivity]
  | |- J _ (match ?x with _ => _ end) => destruct x
  | |- J _ (let (_, _) := ?x in _) => destruct x
  | |- forall _, _ => intros
  end.
Ltac tw := repeat first [t1 | solve [auto] | progress (cbv beta zeta)].

Lemma t_star_advance : J _ star_advance.
Proof. unfold star_advance. tw. Qed.
Lemma t_error : forall A m, J A (error m).
Proof.
  intros A m. unfold error. apply twins_look. intros s t V. cbv zeta.
  assert (F : hush (fl s) = hush (fl t)) by exact (f_equal fl V).
  assert (Ls : linenumber (inp s) = linenumber (inp t)) by exact (f_equal (fun x => linenumber (inp x)) V).
  assert (Ad : advance (ct s) = advance (ct t)) by exact (f_equal (fun x => advance (ct x)) V).
  assert (Ne : a_noerror (fl s) = a_noerror (fl t)) by exact (f_equal a_noerror F).
  rewrite Ne, Ls, Ad. revert s t V F Ls Ad Ne. intros s t V F _ _ _.
  set (line := linenumber (inp t)). set (adv := advance (ct t)). set (ne := a_noerror (fl t)). clearbody line adv ne.
  generalize (fl s) (fl t) F. clear F. intros f f' F. revert s t V.
  apply twins_bind; [|intros _]. { unfold twins. change (J unit (if negb ne then if 80 <=? zlen (padl 7 (dec line) ++ s2l " ERROR: " ++ capital m) then stop (UB "error: message buffer overflow")
     else upd_fl (set_a_list_on true) ;;; outputraw (markline (padl 7 (dec line) ++ s2l " ERROR: " ++ capital m)) else ret tt)). tw. }
  apply twins_bind; [apply t_outputline|intros _].
  apply twins_bind; [change (J unit (when (negb (adv =? 0)) star_advance)); tw; apply t_star_advance|intros _].
  apply twins_bind; [|intros _].
  { intros s t V. split; [reflexivity|]. unfold upd_fl, modify. cbn [snd].
    change (set_fl (hush f) (view s) = set_fl (hush f') (view t)). rewrite V, F. reflexivity. }
  apply twins_bind; [|intros _; apply t_stop]. change (J unit (modify (fun s => set_reported (mkRep s.(ct).(passnumber) s.(inp).(linenumber) m :: s.(reported)) s))). tw.
Qed.
Lemma t_err : forall A m, J A (err m).
Proof. intros. apply t_error. Qed.
Lemma t_catch : forall A (m : M A), J A m -> J _ (catch m).
Proof.
  intros A m H s t V. specialize (H s t V). unfold catch.
  destruct (m s) as [[a|[]] s1], (m t) as [[a'|[]] t1]; cbn [agree] in *; try exact I; try contradiction.
  - destruct H as [<- H]. auto.
  - destruct H as [_ H]. split; [reflexivity|].
    change (set_ct (set_errnumber (errnumber (ct (view s1)) + 1) (ct (view s1))) (view s1) =
            set_ct (set_errnumber (errnumber (ct (view t1)) + 1) (ct (view t1))) (view t1)). rewrite H. reflexivity.
Qed.
Hint Resolve t_error t_err t_star_advance : core.
Lemma t_flagged : forall (p : listing -> bool) m, J _ (l <- gets ls ;; when (p l) (warning m)).
Proof.
  intros p m. apply t_unseen. pose proof (o_order _ U) as O. apply (pres_bind _ O); [apply (pres_gets _ O)|intros s].
  unfold when. destruct (p s); [apply (pres_warning _ U)|apply (pres_ret _ O)].
Qed.
Lemma t_settitle : forall t, J _ (settitle t).
Proof.
  intros x. unfold settitle. eapply t_ext; [intros s; apply bind_assoc|]. apply t_bind; [apply (t_flagged titleflag)|intros _]. tw.
Qed.
Lemma t_setpage : forall a b, J _ (setpage a b).
Proof.
  intros x y. unfold setpage. eapply t_ext; [intros s; apply bind_assoc|]. apply t_bind; [apply (t_flagged pageflag)|intros _]. tw.
Qed.
Lemma t_filterc : forall s p, J _ (filterc s p).
Proof.
  intros x p. unfold filterc. apply twins_look. intros s t V. cbv zeta.
  destruct (4000 <=? bufferpos (ct s) + _); [destruct (4000 <=? bufferpos (ct t) + _); [exact I|destruct (fr_caps _); exact I]|].
  destruct (4000 <=? bufferpos (ct t) + _); [destruct (fr_caps _); exact I|].
  destruct (fr_caps _); split; try reflexivity; exact V.
Qed.
Hint Resolve t_filterc : core.
Lemma t_scwrite : forall t, J _ (scwrite t).
Proof. unfold scwrite. tw. Qed.
Hint Resolve t_scwrite : core.
Lemma t_flush : J _ flushscoderaw.
Proof. unfold flushscoderaw. tw. Qed.
Hint Resolve t_flush : core.
Lemma t_setpc : forall a, J _ (setpc a).
Proof. unfold setpc. tw. Qed.
Hint Resolve t_setpc : core.
Lemma t_insert8 : forall x, J _ (insert8 x).
Proof. unfold insert8. tw. Qed.
Lemma t_close : J _ closescodefile.
Proof. unfold closescodefile. tw. Qed.
Lemma t_zerobuffer : J _ zerobuffer.
Proof. unfold zerobuffer. tw. Qed.
Hint Resolve t_zerobuffer : core.
Lemma t_linestart : J _ linestart.
Proof. unfold linestart. tw. Qed.
Lemma t_searchlabel : forall n, J _ (searchlabel n).
Proof. unfold searchlabel. tw. Qed.
Hint Resolve t_searchlabel : core.
Lemma t_findlabel : forall n, J _ (findlabel n).
Proof. unfold findlabel, makelabel. tw. Qed.
Lemma t_cstlabel : forall t n, J _ (cstlabel t n).
Proof. pose proof t_findlabel. unfold cstlabel, putres, when. tw. Qed.
Lemma t_deflabel : forall n f y v, J _ (deflabel n f y v).
Proof. unfold deflabel, makelabel. tw. Qed.
Hint Resolve t_deflabel : core.
Lemma t_herelabel : forall n, J _ (herelabel n).
Proof.
  intros n. unfold herelabel. apply t_bind; [tw|intros _]. apply t_look; [reflexivity|intros s0]. apply t_bind; [tw|intros _].
  apply t_unseen. pose proof (o_order _ U) as O. apply (pres_bind _ O); [apply (pres_gets _ O)|intros s].
  unfold when. destruct (_ && _); [|apply (pres_ret _ O)].
  apply (pres_bind _ O); [apply (pres_position _ U)|intros _; apply (pres_outputaddr _ U)].
Qed.
Lemma t_equ : forall label (r : result),
  J _ (k <- deflabel label (equ_flags r.(r_flags)) r.(r_type) r.(r_value) ;;
       upd_sy (tupd k (fun l => set_l_ptr r.(r_ptr) (set_l_modifier r.(r_modifier) l)))).
Proof. tw. Qed.
Lemma t_init_entry : forall e, J _ (init_entry e).
Proof. unfold init_entry. tw. Qed.
Hint Resolve t_init_entry : core.
Lemma t_init_inner : forall n i k l, J _ (init_inner n i k l).
Proof. induction n as [|n IH]; intros; cbn [init_inner]; tw. Qed.
Hint Resolve t_init_inner : core.
Lemma t_init_outer : forall n i l, J _ (init_outer n i l).
Proof. induction n as [|n IH]; intros; cbn [init_outer]; tw. Qed.
Lemma t_init : forall l, J _ (init_label_list l).
Proof. intros. apply t_init_outer. Qed.
Hint Resolve t_init : core.

(** ** Reading *)
Definition both (s t : state) : Prop := view s = view t.
Lemma both_inp : forall s t, both s t ->
  exists v w, inp s = set_srcs v (inp s) /\ inp t = set_srcs w (inp s) /\ map hushed_source v = map hushed_source w.
Proof.
  intros s t V. pose proof (f_equal inp V) as E. cbn [inp view] in E.
  destruct (inp s) as [a b c d e f g h i j], (inp t) as [a' b' c' d' e' f' g' h' i' j']. unfold set_srcs in *.
  cbn [srcs mainrest maineof curline linenumber lineprefix macrolevel thiscall segment includelevel] in *.
  injection E as -> -> E -> -> -> -> -> -> ->. exists c, c'. auto.
Qed.
Lemma both_set_inp : forall s t v w i, both s t -> map hushed_source v = map hushed_source w ->
  both (set_inp (set_srcs v i) s) (set_inp (set_srcs w i) t).
Proof.
  intros s t v w i V E. unfold both in *.
  change (set_inp (set_srcs (map hushed_source v) i) (view s) = set_inp (set_srcs (map hushed_source w) i) (view t)).
  rewrite V, E. reflexivity.
Qed.
Lemma twins_popended : forall l l', map hushed_source l = map hushed_source l' -> twins (popended l) (popended l').
Proof.
  induction l as [|x l IH]; intros [|x' l'] E; try discriminate E; [exact (t_ret _ tt)|]. injection E as Ex E. specialize (IH l' E).
  destruct x as [a b c d e f|a b c d e f], x' as [a' b' c' d' e' f'|a' b' c' d' e' f']; cbn [hushed_source] in Ex; try discriminate Ex; [|exact (t_ret _ tt)].
  injection Ex as -> -> -> -> ->. cbn [popended]. destruct a'; [|exact (t_ret _ tt)].
  apply twins_bind; [|intros _; apply twins_bind; [|intros _; exact IH]].
  - intros s t V. split; [reflexivity|]. cbn. destruct (both_inp s t V) as (v & w & A & B & _).
    unfold upd_inp, modify. cbn [snd].
    replace (set_linenumber f' (set_lineprefix e' (set_includelevel (includelevel (inp t) - 1) (set_srcs l' (inp t)))))
      with (set_srcs l' (set_linenumber f' (set_lineprefix e' (set_includelevel (includelevel (inp s) - 1) (inp s))))).
    + exact (both_set_inp s t l l' (set_linenumber f' (set_lineprefix e' (set_includelevel (includelevel (inp s) - 1) (inp s)))) V E).
    + rewrite B. reflexivity.
  - intros s t V. split; [reflexivity|exact V].
Qed.
Lemma t_readline : forall r, J _ (readline r).
Proof. unfold readline. tw. Qed.
Lemma t_linegets : J _ linegets.
Proof.
  unfold linegets. apply twins_look. intros s t V.
  assert (E : map hushed_source (srcs (inp s)) = map hushed_source (srcs (inp t))) by exact (f_equal (fun x => srcs (inp x)) V).
  generalize (srcs (inp s)) (srcs (inp t)) E. clear E. intros l l' E. revert s t V. apply twins_bind; [apply twins_popended; exact E|intros _].
  clear l l' E. apply twins_look. intros s t V. destruct (both_inp s t V) as (v & w & A & B & E). rewrite A, B. cbn [srcs set_srcs].
  generalize (inp s). clear A B. intros i. revert s t V.
  destruct v as [|x v], w as [|x' w]; try discriminate E.
  - cbn [mainrest set_srcs]. change (J unit (re <- readline (mainrest i) ;; let (rest, e) := re : str * bool in upd_inp (fun i => set_mainrest rest (set_maineof e i)))).
    apply t_bind; [apply t_readline|intros [r e]]. tw.
  - injection E as Ex E. destruct x as [a b c d e f|a b c d e f], x' as [a' b' c' d' e' f'|a' b' c' d' e' f']; cbn [hushed_source] in Ex; try discriminate Ex.
    + injection Ex as -> -> -> -> ->. apply twins_bind; [apply t_readline|intros [r z]]. intros s t V. split; [reflexivity|].
      destruct (both_inp s t V) as (v' & w' & A' & B' & _). unfold upd_inp, modify. cbn [snd]. rewrite B'.
      apply (both_set_inp s t (SFile z r z d e' f' :: v) (SFile z r z d' e' f' :: w) (inp s) V). cbn [map hushed_source]. rewrite E. reflexivity.
    + injection Ex as -> -> -> -> ->. destruct a' as [|x0 a']; [apply t_stop|]. apply twins_bind.
      * intros s t V. split; [reflexivity|]. destruct (both_inp s t V) as (v' & w' & A' & B' & _). unfold upd_inp, modify. cbn [snd]. rewrite B'.
        apply (both_set_inp s t (SMac a' b' c' d e' f' :: v) (SMac a' b' c' d' e' f' :: w) (inp s) V). cbn [map hushed_source]. rewrite E. reflexivity.
      * intros _. change (J unit (let (t, long) := msubst b' c' 0 x0 in when long (warning "Too long line") ;;; upd_inp (set_curline t))). tw.
Qed.
Hint Resolve t_linegets : core.
Lemma t_filter2 : forall s p, J _ (filter2 s p).
Proof. unfold filter2. tw. Qed.
Hint Resolve t_filter2 : core.
Lemma t_macrolines : forall n li acc, J _ (macrolines n li acc).
Proof. induction n as [|n IH]; intros; cbn [macrolines]; unfold mainfeof; tw. Qed.
Hint Resolve t_macrolines : core.
Lemma t_defmacro : forall label n li,
  J _ (k <- deflabel (firstn LABLEN label) lf0 TMacro 0 ;;
     lab <- macrolines n li [] ;;
     let '(lines, a, b) := lab : list str * str * str in
     match a, b with
     | [], [] => upd_sy (tupd k (set_l_ptr (PMac lines))) ;;; ret FNone
     | _, _ => err "illegal ENDM instruction"
     end).
Proof. tw. Qed.
Lemma t_stripline : J _ stripline.
Proof. unfold stripline. tw. Qed.
Lemma t_checkdepth : J _ checkdepth.
Proof.
  unfold checkdepth. apply twins_look. intros s t V.
  assert (E : map hushed_source (srcs (inp s)) = map hushed_source (srcs (inp t))) by exact (f_equal (fun x => srcs (inp x)) V).
  assert (L : zlen (srcs (inp s)) = zlen (srcs (inp t))) by (unfold zlen; rewrite <- (map_length hushed_source), E, map_length; reflexivity).
  rewrite L. revert s t V E L. intros s t V _ _. unfold when. destruct (_ <=? _); [exact I|apply t_ret; exact V].
Qed.
Hint Resolve t_checkdepth : core.
Lemma t_macroargs : forall n o acc, J _ (macroargs n o acc).
Proof. induction n as [|n IH]; intros [|c o] acc; cbn [macroargs]; tw. Qed.
Hint Resolve t_macroargs : core.
Lemma t_include : forall o, J _ (Xinclude o).
Proof.
  intros [name|]; unfold Xinclude; [|tw]. apply twins_look. intros s0 t0 V0.
  assert (E1 : files s0 = files t0) by exact (f_equal files V0). rewrite E1. clear E1.
  destruct (files t0 name) as [text|]; [|apply t_err; exact V0].
  assert (E2 : lineprefix (inp s0) = lineprefix (inp t0)) by exact (f_equal (fun x => lineprefix (inp x)) V0).
  assert (E3 : linenumber (inp s0) = linenumber (inp t0)) by exact (f_equal (fun x => linenumber (inp x)) V0).
  rewrite E2, E3. generalize (lineprefix (inp t0)) (linenumber (inp t0)) (a_list_on (fl s0)) (a_list_on (fl t0)). clear E2 E3.
  intros p ln b b'. revert s0 t0 V0. apply twins_bind; [apply t_checkdepth|intros _].
  apply twins_bind; [|intros _].
  { intros s t V. assert (K : forall c, pres unseen unit (when c outputline)).
    { intros c. destruct c; [apply (pres_outputline _ U)|apply (pres_ret _ (o_order _ U))]. }
    pose proof (K b s) as Hs. pose proof (K b' t) as Ht. destruct (when b outputline s) as [[[]|y] s1], (when b' outputline t) as [[[]|y'] t1]; cbn [fst snd how agree] in *.
    - split; [reflexivity|]. cbn in Hs, Ht. congruence.
    - destruct y'; cbn in Ht; auto.
    - destruct y; cbn in Hs; auto.
    - destruct y, y'; cbn in Hs, Ht; auto. contradiction. }
  apply twins_bind; [|intros _; change (J unit (f <- gets fl ;; when (negb f.(a_includelist_on)) (upd_fl (set_a_list_on false)))); tw].
  intros s t V. split; [reflexivity|]. destruct (both_inp s t V) as (v & w & A & B & E). unfold upd_inp, modify. cbn [snd]. rewrite A, B.
  cbn [srcs set_srcs].
  exact (both_set_inp s t (SFile false text false b p ln :: v) (SFile false text false b' p ln :: w)
    (set_linenumber 0 (set_includelevel (includelevel (inp s) + 1) (inp s))) V ltac:(cbn [map hushed_source]; rewrite E; reflexivity)).
Qed.
Lemma t_Xif : forall self li ex oper, (forall o, J _ (testtrue o)) -> (forall k l e, J _ (self k l e)) -> J _ (Xif self li ex oper).
Proof. intros self li ex oper H K. unfold Xif, iflist. tw. Qed.
Lemma t_macrocall : forall self key ptr li oper, (forall k l e, J _ (self k l e)) -> J _ (macrocall self key ptr li oper).
Proof.
  intros self key ptr li oper H. unfold macrocall. apply t_bind; [tw|intros _]. apply twins_look. intros s0 t0 V0.
  destruct (both_inp s0 t0 V0) as (v0 & w0 & A0 & B0 & E0). rewrite A0, B0. generalize (inp s0). clear A0 B0. intros i.
  cbn [lineprefix linenumber curline segment srcs set_srcs].
  generalize (a_list_on (fl s0)) (a_list_on (fl t0)). intros b b'. revert s0 t0 V0.
  apply twins_bind; [apply t_checkdepth|intros _]. apply twins_bind; [apply t_macroargs|intros args].
  apply twins_look. intros s t V. assert (E : a_macrolist_on (fl s) = a_macrolist_on (fl t)) by exact (f_equal (fun x => a_macrolist_on (fl x)) V).
  rewrite E. generalize (a_macrolist_on (fl t)). clear E. intros ml. revert s t V.
  apply twins_bind; [change (J unit (when (ml && li) outputline)); tw|intros _]. clear ml.
  apply twins_bind; [|intros _].
  { intros s t V. split; [reflexivity|]. destruct (both_inp s t V) as (v & w & A & B & E). unfold upd_inp, modify. cbn [snd]. rewrite A, B.
    cbn [srcs set_srcs].
    set (x := SMac _ _ _ b _ _). set (x' := SMac _ _ _ b' _ _).
    exact (both_set_inp s t (x :: v) (x' :: w) (set_lineprefix (cz 77) (set_macrolevel (macrolevel (inp s) + 1) (inp s))) V
      ltac:(cbn [map hushed_source]; rewrite E; reflexivity)). }
  apply twins_bind; [change (J unit newsegment); unfold newsegment; tw|intros _].
  apply twins_look. intros s t V. assert (E : a_macrolist_on (fl s) = a_macrolist_on (fl t)) by exact (f_equal (fun x => a_macrolist_on (fl x)) V).
  rewrite E. generalize (a_macrolist_on (fl t)). clear E. intros ml. revert s t V.
  apply twins_bind; [apply H|intros f]. apply twins_bind; [|intros _].
  { intros s t V. split; [reflexivity|]. destruct (both_inp s t V) as (v & w & A & B & E). unfold upd_inp, modify. cbn [snd]. rewrite A, B.
    exact (both_set_inp s t v0 w0 (set_macrolevel (macrolevel (inp s) - 1) (set_linenumber (linenumber i) (set_lineprefix (lineprefix i) (set_segment (segment i) (inp s))))) V E0). }
  apply twins_bind; [intros s t V; split; [reflexivity|exact V]|intros _].
  match goal with |- twins ?m _ => change (J unit m) end. tw.
Qed.
End Twin.

Ltac seq1 :=
  lazymatch goal with
  | |- twin _ (bind _ _) => apply t_bind; [|intros _]
  | |- twins (bind _ _) (bind _ _) => apply t_bind; [|intros _]
  | |- twin _ (init_label_list _) => apply t_init
  | |- twin _ (findlabel _) => apply t_findlabel
  | |- twin _ (ret _) => apply t_ret
  | |- twin _ (upd_fl _) => apply t_modify; reflexivity
  | |- twin _ (upd_cp _) => apply t_modify; reflexivity
  | |- twin _ (upd_ct _) => apply t_modify; reflexivity
  | |- twin _ (upd_sy _) => apply t_modify; reflexivity
  | |- twin _ (upd_inp _) => apply t_modify; reflexivity
  end.
Notation U := unseen_osteps.
Lemma twin_walk : walk twin.
Proof.
  constructor.
  - exact t_ext.
  - exact t_ret.
  - exact t_bind.
  - exact t_gets'.
  - exact t_look'.
  - intros; apply t_stop.
  - intros; apply t_stop.
  - intros; apply t_stop.
  - exact t_fatal.
  - exact t_error.
  - exact t_warning.
  - exact t_catch.
  - exact t_outputline.
  - exact t_outputEOL.
  - exact t_outputEOP.
  - exact t_settitle.
  - exact t_setpage.
  - exact t_filterc.
  - exact t_zerobuffer.
  - intros r. apply t_modify. reflexivity.
  - intros r. apply t_modify. reflexivity.
  - exact t_linestart.
  - exact t_insert8.
  - exact t_star_advance.
  - exact t_findlabel.
  - exact t_cstlabel.
  - exact t_herelabel.
  - exact t_showvalue.
  - exact t_equ.
  - exact t_defmacro.
  - intros c. unfold init6800, when. destruct (c =? 1); repeat seq1.
  - intros c. unfold init6502, when. destruct (c =? 2); repeat seq1.
  - intros c. unfold initz80. repeat seq1.
  - intros f. apply t_modify. reflexivity.
  - apply t_modify. reflexivity.
  - apply t_modify. reflexivity.
  - intros b. apply t_modify. reflexivity.
  - apply t_modify. reflexivity.
  - apply t_unseen. pose proof (o_order _ U) as O. apply (pres_bind _ O); [apply (pres_gets _ O)|intros f].
    unfold when. destruct (negb _); [intros s; reflexivity|apply (pres_ret _ O)].
  - apply t_hidden. reflexivity.
  - intros b. apply t_modify. reflexivity.
  - intros b. apply t_modify. reflexivity.
  - intros b. apply t_modify. reflexivity.
  - apply t_modify. reflexivity.
  - apply t_modify. reflexivity.
  - apply t_modify. reflexivity.
  - exact t_linegets.
  - exact t_stripline.
  - exact t_include.
  - exact t_Xif.
  - exact t_macrocall.
Qed.

Lemma t_passloop : forall n, twin unit (passloop n).
Proof. apply (J_passloop _ twin_walk). Qed.
Lemma t_passstart : forall k, twin unit (passstart k).
Proof.
  intros k. unfold passstart.
  apply t_bind; [apply t_modify; reflexivity|intros _].
  apply t_bind; [apply t_modify; reflexivity|intros _].
  apply twins_look. intros s t V.
  cut (twins (when (negb (a_nolist (fl s))) (upd_fl (set_a_list_on true))) (when (negb (a_nolist (fl t))) (upd_fl (set_a_list_on true)))).
  - intros K. apply (twins_bind _ _ _ _ _ _ K); [intros _|exact V].
    repeat seq1.
  - intros s1 t1 V1. unfold when. destruct (negb _), (negb _); (split; [reflexivity|]); exact V1.
Qed.
Lemma twins_between : forall o o', ogiven (o_scode o) = ogiven (o_scode o') -> twins (between o) (between o').
Proof.
  intros o o' E. unfold between.
  apply twins_bind; [change (twin unit (upd_fl (set_a_noerror false))); seq1|intros _].
  apply twins_bind; [rewrite E; unfold when; destruct (ogiven (o_scode o')); [change (twin unit (upd_fl (set_a_nocode false))); seq1|apply t_ret]|intros _].
  apply twins_bind; [intros s t V; unfold when; destruct (o_list o), (o_list o'); (split; [reflexivity|]); exact V|intros _].
  apply twins_bind; [intros s t V; unfold when; destruct (o_warn o), (o_warn o'); (split; [reflexivity|]); exact V|intros _].
  change (twin unit undeflabels). unfold undeflabels. seq1.
Qed.
Lemma t_results : twin unit results.
Proof. apply t_unseen, (pres_results _ U). Qed.
Lemma t_finish : twin unit finish.
Proof.
  unfold finish. apply t_look; [reflexivity|intros w].
  apply t_bind; [destruct (scode w); [apply t_close|apply t_ret]|intros _].
  apply t_bind; [apply t_hidden; reflexivity|intros _; apply t_results].
Qed.
Theorem twins_assemble : forall n o o', ogiven (o_scode o) = ogiven (o_scode o') -> twins (assemble n o) (assemble n o').
Proof.
  intros n o o' E. unfold assemble, pass.
  apply twins_bind; [apply t_init|intros _].
  apply twins_bind; [apply twins_bind; [apply t_passstart|intros _; apply t_passloop]|intros _].
  apply twins_bind; [apply twins_between; exact E|intros _].
  apply twins_bind; [apply twins_bind; [apply t_passstart|intros _; apply t_passloop]|intros _; apply t_finish].
Qed.
