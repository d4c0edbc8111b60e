(** Lines that are read but not executed (C29). *)
From Coq Require Import String Ascii ZArith List Bool Lia.
From Verif Require Import Base State Tree Filter Output Label Operator Parse Scode Tables.
From Verif Require Import Cpu6800 Cpu6502 CpuZ80 Pseudos Macro Xref Crasm Walk TreeFacts LineFacts.
From Verif Require Import Frame Eval SpecSkip.
Import ListNotations.
Open Scope Z_scope.

(** Any relation respected by reading lines and reporting errors is respected by
    skipped lines. *)
Section Skip.
Variable P : relation.
Variable B : qsteps P.
Let L : lsteps P := q_lsteps P B.
Let O : order P := p_order P L.

Ltac ins := apply (quiet_inp P B); intros;
  [apply is_line; (reflexivity || apply Z.le_max_r)|reflexivity|reflexivity]; fail.
Ltac q1 :=
  lazymatch goal with
  | |- pres P _ (bind _ _) => apply (pres_bind P O); [ | intros ]
  | |- pres P _ (ret _) => apply (pres_ret P O)
  | |- pres P _ (gets _) => apply (pres_gets P O)
  | |- pres P _ (when _ _) => unfold when
  | |- pres P _ (stop (UB _)) => apply (pres_ub P O)
  | |- pres P _ (stop Hang) => apply (pres_hang P O)
  | |- pres P _ (stop NoFuel) => apply (pres_fuel P O)
  | |- pres P _ (upd_inp _) => ins
  | |- pres P _ (fatal _) => apply (pres_fatal P L)
  | |- pres P _ (error _) => apply (pres_error P B)
  | |- pres P _ (err _) => unfold err; apply (pres_error P B)
  | |- pres P _ outputline => apply (pres_outputline P L)
  | |- pres P _ star_advance => apply (pres_star_advance P L)
  | |- pres P _ (match ?x with _ => _ end) => destruct x
  | |- pres P _ (let (_, _) := ?x in _) => destruct x
  | |- forall _, _ => intros
  end.
Ltac q := repeat first [q1 | solve [auto with presdb] | progress (cbv beta zeta)].

Lemma skip_stripline : pres P _ stripline.
Proof.
  intros s. change (from P s stripline s). unfold stripline.
  eapply (from_step P); [reflexivity|].
  apply (from_bind P); [apply (pres_filter2 P B)|]. intros m s1 E1.
  pose proof (pres_ok P O _ _ _ _ _ _ (p_refl P O s) (pres_filter2 P B _ _) E1) as H1.
  apply fixed_filter2 in E1. destruct E1 as [_ I1].
  destruct m as [[t x]|]; [apply (from_pres P O); [exact H1|q]|].
  assert (H2 : P Fine s (set_inp (set_curline (trimblanks (curline (inp s))) s1.(inp)) s1)).
  { apply (p_trans P O) with s1; [exact H1|]. apply (q_inp P B); try reflexivity.
    apply is_line; try reflexivity.
    cbn [curline set_curline]. rewrite <- I1. pose proof (trimblanks_len (curline (inp s1))). lia. }
  apply (from_step P) with tt (set_inp (set_curline (trimblanks (curline (inp s))) s1.(inp)) s1);
    [reflexivity|]. apply (from_pres P O); [exact H2|q].
Qed.

Lemma skip_Xelse : forall o, pres P _ (Xelse o).
Proof. unfold Xelse. q. Qed.
Lemma skip_Xendc : forall o, pres P _ (Xendc o).
Proof. unfold Xendc. q. Qed.
Lemma skip_leave : forall f li ex, pres P _ (leave f li ex).
Proof. unfold leave. q. Qed.
Hint Resolve skip_leave : presdb.
Lemma skip_Xexitm : forall li ex o, pres P _ (Xexitm li ex o).
Proof. unfold Xexitm. q. Qed.
Lemma skip_Xendm : forall li ex o, pres P _ (Xendm li ex o).
Proof. unfold Xendm. q. Qed.
Lemma skip_findmnemo : forall m, pres P _ (findmnemo m).
Proof. unfold findmnemo, searchlabel. q; apply (pres_filter2 P B). Qed.
Lemma skip_Xmacro : forall n li l o, pres P _ (Xmacro n li false l o).
Proof.
  intros n li l o. unfold Xmacro.
  apply (pres_bind P O); [q|intros _]. apply (pres_bind P O); [q|intros m].
  apply (pres_bind P O); [q|intros _]. apply (pres_bind P O); [q|intros _].
  apply (pres_ext P) with (m := lab <- macrolines n li [] ;;
         let '(lines, a, b) := lab : list str * str * str in
         match a, b with
         | [], [] => ret FNone
         | _, _ => err "illegal ENDM instruction"
         end).
  - intros s. unfold bind, ret.
    destruct (macrolines n li [] s) as [[[[lines a] b]|b] s2]; [|reflexivity].
    destruct a, b; reflexivity.
  - q. apply (pres_macrolines P B).
Qed.
Hint Resolve skip_Xelse skip_Xendc skip_Xexitm skip_Xendm skip_Xmacro skip_findmnemo : presdb.
Lemma skip_splitmnemo : forall s, pres P _ (splitmnemo s).
Proof. unfold splitmnemo. q; apply (pres_filter2 P B). Qed.
Hint Resolve skip_splitmnemo : presdb.
Lemma skip_splitrest : forall s, pres P _ (splitrest s).
Proof. unfold splitrest. q. Qed.
Hint Resolve skip_splitrest : presdb.
Lemma skip_splitline : forall s, pres P _ (splitline s).
Proof. unfold splitline. q; apply (pres_filter2 P B). Qed.

Section Self.
Variable self : kind -> bool -> bool -> M flag.
Hypothesis Hself : forall k li, pres P _ (self k li false).

Lemma skip_Xif : forall li o, pres P _ (Xif self li false o).
Proof.
  intros li o. unfold Xif, iflist. cbn [andb]. q.
Qed.
Lemma skip_execblock : forall n h li l o, pres P _ (execblock self n h li false l o).
Proof. intros n h li l o. destruct h; cbn [execblock]; q. apply skip_Xif. Qed.
Lemma skip_dispatch : forall n li k l lab o, pres P _ (dispatch self n li false k l lab o).
Proof.
  intros n li k l lab o. unfold dispatch. q; try apply skip_execblock.
Qed.
Lemma skip_asmline : forall n li, pres P _ (asmline self n li false).
Proof.
  intros n li. unfold asmline. q; first [apply (pres_linestart P B) | apply skip_stripline
    | apply skip_splitline | apply skip_dispatch | idtac].
Qed.
Lemma skip_ifround : forall li, pres P _ (ifround self li false).
Proof.
  intros li. unfold ifround, mainfeof. q; first [apply (pres_linegets P B) | apply (pres_catch P B); apply Hself | idtac].
Qed.
Lemma skip_macround : forall li, pres P _ (macround self li false).
Proof.
  intros li. unfold macround, mainfeof. q; first [apply (pres_linegets P B) | apply (pres_catch P B); apply Hself | idtac].
Qed.
End Self.

Theorem skip_run : forall n k li, pres P _ (run n k li false).
Proof.
  induction n as [|n IH]; intros k li; cbn [run]; [apply (pres_fuel P O)|].
  destruct k; [apply skip_asmline|apply skip_ifround|apply skip_macround]; exact IH.
Qed.
End Skip.

Lemma untouched_refl : forall s, untouched s s.
Proof. intros s. constructor; try reflexivity. - split; reflexivity. - destruct (fl s); reflexivity. Qed.
Lemma untouched_trans : forall a b c, untouched a b -> untouched b c -> untouched a c.
Proof.
  intros a b c [A1 A2 A3 [A4 A5] A6 A7 A8] [B1 B2 B3 [B4 B5] B6 B7 B8].
  constructor; try congruence.
  - split; congruence.
  - rewrite B6 at 1. rewrite A6. destruct (fl a). reflexivity.
Qed.

(** No effect, as long as no byte of the line is pending. *)
Definition idle : relation := fun _ s s' =>
  s.(ct).(advance) = 0 -> untouched s s' /\ s'.(ct).(advance) = 0.

Lemma star_idle : forall s, s.(ct).(advance) = 0 ->
  tupd starkey (set_l_value (starvalue s + s.(ct).(advance))) s.(sy) = s.(sy).
Proof.
  intros s E. rewrite E, Z.add_0_r. unfold starvalue, star.
  assert (G : forall t v, match tfind starkey t with Some l => l.(l_value) = v | None => True end ->
     tupd starkey (set_l_value v) t = t).
  { clear s E. induction t as [|l IHl k v r IHr]; intros x H; [reflexivity|]. cbn [tupd tfind] in *.
    destruct (strcmp starkey k).
    - destruct v; cbn in *. subst x. reflexivity.
    - rewrite IHl by exact H. reflexivity.
    - rewrite IHr by exact H. reflexivity. }
  apply G. destruct (tfind starkey (sy s)); [reflexivity|exact I].
Qed.

Lemma idle_same : forall d s s', s'.(sy) = s.(sy) -> s'.(emitted) = s.(emitted) ->
  s'.(cp) = s.(cp) -> s'.(inp).(segment) = s.(inp).(segment) ->
  s'.(inp).(thiscall) = s.(inp).(thiscall) ->
  s'.(fl) = set_a_list_on s'.(fl).(a_list_on) (set_a_org_gv s'.(fl).(a_org_gv) s.(fl)) ->
  s'.(ct).(passnumber) = s.(ct).(passnumber) -> s'.(files) = s.(files) ->
  (s.(ct).(advance) = 0 -> s'.(ct).(advance) = 0) -> idle d s s'.
Proof. intros. intros A. split; [constructor; auto|auto]. Qed.

Lemma setpc_keeps : forall a s, let s' := snd (setpc a s) in
  s'.(sy) = s.(sy) /\ s'.(emitted) = s.(emitted) /\ s'.(cp) = s.(cp) /\ s'.(inp) = s.(inp) /\
  s'.(fl) = s.(fl) /\ s'.(ct) = s.(ct) /\ s'.(files) = s.(files).
Proof.
  intros a s. unfold setpc, flushscoderaw, scwrite, bind, gets, upd_wr, modify, ret, stop.
  destruct (u64 a =? pc (wr s)); [repeat split|].
  destruct (raw (wr s)); [repeat split|].
  destruct (a_code_hex (fl s)); [destruct (negb _)|]; cbn [wr set_wr set_rawextended scode];
    destruct (scode (wr s)); cbn [wr set_wr set_scode set_rawextended scode]; repeat split.
Qed.

Lemma lsteps_idle : lsteps idle.
Proof.
  constructor; [constructor|..].
  - intros s A. split; [apply untouched_refl|exact A].
  - intros a b H A. apply H. exact A.
  - intros d a b c H1 H2 A. destruct (H1 A) as [U1 A1]. destruct (H2 A1) as [U2 A2].
    split; [exact (untouched_trans _ _ _ U1 U2)|exact A2].
  - intros. apply idle_same; try reflexivity; auto; destruct s as [[]]; reflexivity.
  - intros. apply idle_same; try reflexivity; auto; destruct s as [[]]; reflexivity.
  - intros. apply idle_same; try reflexivity; auto; destruct s as [[]]; reflexivity.
  - intros. apply idle_same; try reflexivity; auto; destruct s as [[]]; reflexivity.
  - intros s H A. rewrite star_idle by exact A.
    assert (E : set_sy (sy s) s = s) by (destruct s; reflexivity). rewrite E.
    split; [apply untouched_refl|exact A].
Qed.

Lemma qsteps_idle : qsteps idle.
Proof.
  constructor; [apply lsteps_idle|..].
  - intros s b. apply idle_same; try reflexivity; auto; destruct s as [[]]; reflexivity.
  - intros s v _ H1 H2. apply idle_same; try reflexivity; auto; destruct s as [[]]; reflexivity.
  - intros s r e ol op on l _. apply idle_same; try reflexivity; auto; destruct s as [[]]; reflexivity.
  - intros s. apply idle_same; try reflexivity; auto; destruct s as [[]]; reflexivity.
  - intros s a. destruct (setpc_keeps a s) as (E1 & E2 & E3 & E4 & E5 & E6 & E7).
    apply idle_same; try assumption; try (rewrite E4; reflexivity); try (rewrite E6; auto; reflexivity).
    rewrite E5. destruct (fl s); reflexivity.
  - intros s m. apply (error_parts0 idle lsteps_idle).
    + intros. apply idle_same; try reflexivity; auto; destruct s0 as [[]]; reflexivity.
    + intros. apply idle_same; try reflexivity; auto; destruct s0 as [[]]; reflexivity.
  - intros s s' H A. destruct (H A) as [U A']. split; [|exact A'].
    refine (untouched_trans _ _ _ U _). constructor; try reflexivity.
    + split; reflexivity.
    + destruct s' as [[]]; reflexivity.
Qed.

Lemma skip_block : forall n k li s r s', s.(ct).(advance) = 0 -> run n k li false s = (r, s') ->
  untouched s s'.
Proof.
  intros n k li s r s' A E. pose proof (skip_run idle qsteps_idle n k li s A) as H.
  rewrite E in H. exact (proj1 H).
Qed.

Lemma skip_line : forall n li s r s', run n KLine li false s = (r, s') -> untouched s s'.
Proof.
  intros [|n] li s r s' E; cbn [run] in E; [injection E as <- <-; apply untouched_refl|].
  set (s0 := set_ct (set_advance 0 s.(ct)) s).
  assert (E0 : run (S n) KLine li false s0 = (r, s')) by (rewrite <- E; reflexivity).
  pose proof (skip_block _ _ _ _ _ _ (eq_refl : advance (ct s0) = 0) E0) as U.
  refine (untouched_trans _ _ _ _ U). constructor; try reflexivity.
  - split; reflexivity.
  - destruct s as [[]]; reflexivity.
Qed.

(** [advance] stays zero while nothing is emitted. *)
Definition held : relation := fun _ s s' => s.(ct).(advance) = 0 -> s'.(ct).(advance) = 0.

Lemma lsteps_held : lsteps held.
Proof.
  constructor; [constructor|..]; unfold held; intros; cbn; auto.
Qed.
Lemma qsteps_held : qsteps held.
Proof.
  constructor; [apply lsteps_held|..]; unfold held; try (intros; cbn; auto; fail).
  - intros s a. destruct (setpc_keeps a s) as (_ & _ & _ & _ & _ & E & _). rewrite E. auto.
  - intros s m. apply (error_parts0 held lsteps_held); unfold held; intros; cbn; auto.
Qed.
Lemma esteps_held : esteps held.
Proof.
  constructor; [apply lsteps_osteps; apply lsteps_held|..]; unfold held; try (intros; cbn; auto; fail).
  intros m. apply (pres_error held qsteps_held).
Qed.
Definition QH : qsteps held := qsteps_held.
Definition LH : lsteps held := lsteps_held.
Definition OH : order held := p_order held lsteps_held.

Lemma held_use : forall A (m : M A) s r s', pres held A m -> m s = (r, s') ->
  s.(ct).(advance) = 0 -> s'.(ct).(advance) = 0.
Proof. intros A m s r s' H E A0. specialize (H s). rewrite E in H. exact (H A0). Qed.

Ltac hq1 :=
  lazymatch goal with
  | |- pres held _ (bind _ _) => apply (pres_bind held OH); [ | intros ]
  | |- pres held _ (ret _) => apply (pres_ret held OH)
  | |- pres held _ (gets _) => apply (pres_gets held OH)
  | |- pres held _ (when _ _) => unfold when
  | |- pres held _ (error _) => apply (pres_error held QH)
  | |- pres held _ (err _) => unfold err; apply (pres_error held QH)
  | |- pres held _ outputline => apply (pres_outputline held LH)
  | |- pres held _ (position _) => apply (pres_position held LH)
  | |- pres held _ (outputaddr _) => apply (pres_outputaddr held LH)
  | |- pres held _ (filter2 _ _) => apply (pres_filter2 held QH)
  | |- pres held _ (parse _) => apply (pe_parse held esteps_held)
  | |- pres held _ (match ?x with _ => _ end) => destruct x
  end.
Ltac hq := repeat first [hq1 | solve [auto] | progress (cbv beta zeta)].

Lemma held_herelabel : forall n, pres held _ (herelabel n).
Proof.
  intros n. unfold herelabel.
  assert (D : forall n f t v, pres held _ (deflabel n f t v)).
  { intros n0 f t v s. rewrite deflabel_eq. destruct (refused _ _); [apply (pres_error held QH)|].
    intros A. exact A. }
  hq.
Qed.

Lemma held_findcompar : forall t l, pres held _ (findcompar t l).
Proof. induction l as [|[f a] l IH]; cbn [findcompar]; hq. Qed.

Lemma held_testtrue : forall o, pres held _ (testtrue o).
Proof. intros o. unfold testtrue. hq; apply held_findcompar. Qed.

Lemma seq_inv : forall A B (m : M A) (k : A -> M B) s b s', bind m k s = (Ok b, s') ->
  exists a s1, m s = (Ok a, s1) /\ k a s1 = (Ok b, s').
Proof.
  intros A B m k s b s' E. unfold bind in E. destruct (m s) as [[a|x] s1]; [|discriminate E].
  exists a, s1. auto.
Qed.
Ltac step E x s1 E1 := apply seq_inv in E; destruct E as (x & s1 & E1 & E).
Ltac keep E E1 H := pose proof (held_use _ _ _ _ _ H E1) as E.

Lemma when_held : forall b (m : M unit), pres held unit m -> pres held unit (when b m).
Proof. intros [] m H; [exact H|apply (pres_ret held OH)]. Qed.

(** A line that ends a block has emitted nothing. *)
Section Ended.
Variable self : kind -> bool -> bool -> M flag.
Hypothesis Hself : forall k li ex s f s', self k li ex s = (Ok f, s') -> f <> FNone ->
  s'.(ct).(advance) = 0.

Lemma ended_Xif : forall li ex o s f s', Xif self li ex o s = (Ok f, s') -> f <> FNone ->
  s'.(ct).(advance) = 0.
Proof.
  intros li ex o s f s' E N. unfold Xif, iflist in E.
  step E bv s1 E1. step E il s2 E2. step E u3 s3 E3. step E op s4 E4. step E u5 s5 E5.
  step E f1 s6 E6. step E u7 s7 E7. clear E1 E2 E3 E4 E5.
  assert (U : forall g (x y : state) u, upd_inp g x = (Ok u, y) -> ct y = ct x)
    by (intros g x y u [= _ <-]; reflexivity).
  apply U in E7.
  assert (W : forall b x u y, when b outputline x = (Ok u, y) -> ct x = ct s6 -> f1 <> FNone ->
     advance (ct y) = 0).
  { intros b x u y Ew Ex N1. eapply held_use; [apply (when_held b); apply (pres_outputline held LH)|exact Ew|].
    rewrite Ex. exact (Hself _ _ _ _ _ _ E6 N1). }
  destruct f1; try (exfalso; exact (error_never _ _ _ _ _ E));
    step E il2 w8 E8; injection E8 as <- <-; step E u9 w9 E9.
  - injection E as <- <-. congruence.
  - injection E as <- <-. congruence.
  - step E il3 w10 E10. injection E10 as <- <-. step E u11 w11 E11. step E f2 w12 E12.
    step E u13 w13 E13. apply U in E13.
    destruct f2; try (exfalso; exact (error_never _ _ _ _ _ E));
      step E il4 w14 E14; injection E14 as <- <-; step E u15 w15 E15;
      injection E as <- <-; try congruence.
    eapply held_use; [apply when_held; apply (pres_outputline held LH)|exact E15|].
    rewrite E13. apply (Hself _ _ _ _ _ _ E12). discriminate.
  - injection E as <- <-. exact (W _ _ _ _ E9 E7 ltac:(discriminate)).
Qed.

Lemma ended_dispatch : forall n li ex k l lab o s f s', s.(ct).(advance) = 0 ->
  dispatch self n li ex k l lab o s = (Ok f, s') -> f <> FNone -> s'.(ct).(advance) = 0.
Proof.
  intros n li ex k l lab o s f s' A E N. unfold dispatch in E. cbv zeta in E.
  step E u1 s1 E1. step E u2 s2 E2.
  assert (A1 : advance (ct s1) = 0).
  { eapply held_use; [|exact E1|exact A]. apply when_held. apply (pres_error held QH). }
  assert (A2 : advance (ct s2) = 0).
  { eapply held_use; [|exact E2|exact A1]. destruct (f_deflabel (l_flags l)).
    - apply when_held. apply (pres_error held QH).
    - destruct lab; [apply when_held; apply held_herelabel|apply (pres_ret held OH)]. }
  destruct (f_defcond (l_flags l) || f_defmacro (l_flags l)).
  - destruct (l_ptr l); try discriminate E.
    destruct h; cbn [execblock] in E; try discriminate E;
      try (exact (ended_Xif _ _ _ _ _ _ E N));
      try (eapply held_use; [|exact E|exact A2];
           first [apply (skip_Xelse held QH)|apply (skip_Xendc held QH)|apply (skip_Xendm held QH)
                 |apply (skip_Xexitm held QH)]).
    destruct lab; [|discriminate E]. exfalso. unfold Xmacro in E.
    step E v1 t1 F1. step E v2 t2 F2. step E v3 t3 F3. step E v4 t4 F4. step E v5 t5 F5.
    step E v6 t6 F6. destruct v6 as [[lines a] b].
    destruct a, b; try (exact (error_never _ _ _ _ _ E)). step E v7 t7 F7.
    injection E as <- <-. congruence.
  - destruct (l_type l); try discriminate E.
    + step E v1 t1 F1. step E v2 t2 F2. step E v3 t3 F3. injection E as <- <-. congruence.
    + step E v1 t1 F1. step E v2 t2 F2. injection E as <- <-. congruence.
Qed.
End Ended.

Theorem ended_run : forall n k li ex s f s', run n k li ex s = (Ok f, s') -> f <> FNone ->
  s'.(ct).(advance) = 0.
Proof.
  induction n as [|n IH]; intros k li ex s f s' E N; cbn [run] in E; [discriminate E|].
  destruct k.
  - unfold asmline in E. step E u1 s1 E1. step E c s2 E2. injection E2 as <- <-.
    step E t s3 E3.
    assert (A1 : advance (ct s1) = 0).
    { change (linestart s) with (linestart (set_ct (set_advance 0 (ct s)) s)) in E1.
      eapply held_use; [|exact E1|reflexivity]. apply (pres_linestart held QH). }
    assert (A3 : advance (ct s3) = 0).
    { eapply held_use; [|exact E3|exact A1]. apply (skip_stripline held QH). }
    destruct t as [|c t]; [step E u4 s4 E4; injection E as <- <-; congruence|].
    step E q s4 E4.
    assert (A4 : advance (ct s4) = 0).
    { eapply held_use; [|exact E4|exact A3]. apply (skip_splitline held QH). }
    destruct (q_mnemo q) as [[key l]|]; [exact (ended_dispatch _ IH _ _ _ _ _ _ _ _ _ _ A4 E N)|].
    destruct (_ && _ && _); [|exfalso; exact (error_never _ _ _ _ _ E)].
    step E u5 s5 E5. step E u6 s6 E6. injection E as <- <-. congruence.
  - unfold ifround in E. step E u1 s1 E1. step E e s2 E2. destruct e; [exfalso; exact (error_never _ _ _ _ _ E)|].
    step E g s3 E3. unfold catch in E3.
    destruct (run n KLine li ex s2) as [[f3|[]] t3] eqn:R; try discriminate E3;
      injection E3 as <- <-; [|exact (IH _ _ _ _ _ _ E N)].
    destruct f3; try exact (IH _ _ _ _ _ _ E N); try (injection E as <- <-; exact (IH _ _ _ _ _ _ R N)).
    destruct ex; [injection E as <- <-; exact (IH _ _ _ _ _ _ R N)|exact (IH _ _ _ _ _ _ E N)].
  - unfold macround in E. step E u1 s1 E1.
    step E g s3 E3. unfold catch in E3.
    destruct (run n KLine li ex s1) as [[f3|[]] t3] eqn:R; try discriminate E3;
      injection E3 as <- <-; [|exact (IH _ _ _ _ _ _ E N)].
    destruct f3; try exact (IH _ _ _ _ _ _ E N); injection E as <- <-; exact (IH _ _ _ _ _ _ R N).
Qed.

Lemma block_flag : forall n li ex s f s', run n KIf li ex s = (Ok f, s') -> f <> FNone.
Proof.
  induction n as [|n IH]; intros li ex s f s' E; cbn [run] in E; [discriminate E|].
  unfold ifround in E. step E u1 s1 E1. step E e s2 E2.
  destruct e; [exfalso; exact (error_never _ _ _ _ _ E)|]. step E g s3 E3.
  destruct g as [[]|]; try exact (IH _ _ _ _ _ E); try (injection E as <- <-; discriminate).
  destruct ex; [injection E as <- <-; discriminate|exact (IH _ _ _ _ _ E)].
Qed.

Lemma bind_split : forall A B (m : M A) (k : A -> M B) s r s', bind m k s = (r, s') ->
  (exists b, m s = (Bad b, s')) \/ (exists a s1, m s = (Ok a, s1) /\ k a s1 = (r, s')).
Proof.
  intros A B m k s r s' E. unfold bind in E. destruct (m s) as [[a|b] s1].
  - right. exists a, s1. auto.
  - left. injection E as <- <-. exists b. reflexivity.
Qed.
Ltac cut E a s1 E1 := apply bind_split in E; destruct E as [[a E]|(a & s1 & E1 & E)].

Lemma idle_use : forall A (m : M A) s r s', pres idle A m -> m s = (r, s') ->
  s.(ct).(advance) = 0 -> untouched s s' /\ s'.(ct).(advance) = 0.
Proof. intros A m s r s' H E A0. specialize (H s). rewrite E in H. exact (H A0). Qed.

Definition LI : lsteps idle := lsteps_idle.
Definition QI : qsteps idle := qsteps_idle.
Definition OI : order idle := p_order idle lsteps_idle.
Ltac iq1 :=
  lazymatch goal with
  | |- pres idle _ (bind _ _) => apply (pres_bind idle OI); [ | intros ]
  | |- pres idle _ (ret _) => apply (pres_ret idle OI)
  | |- pres idle _ (gets _) => apply (pres_gets idle OI)
  | |- pres idle _ (when _ _) => unfold when
  | |- pres idle _ (err _) => unfold err; apply (pres_error idle QI)
  | |- pres idle _ outputline => apply (pres_outputline idle LI)
  | |- pres idle _ (upd_inp _) => apply (quiet_inp idle QI); intros;
      [apply is_line; (reflexivity || apply Z.le_max_r)|reflexivity|reflexivity]
  | |- pres idle _ (run _ _ _ false) => apply (skip_run idle QI)
  | |- pres idle _ (match ?x with _ => _ end) => destruct x
  end.
Ltac iq := repeat first [iq1 | progress (cbv beta zeta)].

Lemma standing_trans : forall a b c, standing a b -> standing b c -> standing a c.
Proof.
  intros a b c (U1 & E1 & E2 & E3) (U2 & F1 & F2 & F3).
  split; [exact (untouched_trans _ _ _ U1 U2)|]. repeat split; congruence.
Qed.
Lemma standing_list : forall b s u s', s.(ct).(advance) = 0 -> when b outputline s = (Ok u, s') ->
  standing s s' /\ s'.(ct).(advance) = 0.
Proof.
  intros b s u s' A E. assert (D : pres idle _ (when b outputline)) by iq.
  destruct (idle_use _ _ _ _ _ D E A) as [U A']. split; [|exact A']. split; [exact U|].
  assert (I : inp s' = inp s).
  { destruct b; [exact (proj2 (fixed_outputline _ _ _ E))|injection E as _ <-; reflexivity]. }
  rewrite I. auto.
Qed.
Lemma standing_prefix : forall b c s u s', s.(ct).(advance) = 0 ->
  when b (upd_inp (set_lineprefix c)) s = (Ok u, s') -> standing s s' /\ s'.(ct).(advance) = 0.
Proof.
  intros b c s u s' A E. assert (D : pres idle _ (when b (upd_inp (set_lineprefix c)))) by iq.
  destruct (idle_use _ _ _ _ _ D E A) as [U A']. split; [|exact A']. split; [exact U|].
  destruct b; injection E as _ <-; cbn; auto.
Qed.

(** IF with a true condition: the second block leaves the state alone. *)
Theorem if_true : forall n li oper s s1 r s', s.(ct).(advance) = 0 ->
  testtrue oper s = (Ok true, s1) -> Xif (run n) li true oper s = (r, s') ->
  (untouched s1 s' /\ exists b, r = Bad b) \/
  exists s2 li1 f s3, standing s1 s2 /\ run n KIf li1 true s2 = (f, s3) /\ untouched s3 s'.
Proof.
  intros n li oper s s1 r s' A T E. unfold Xif in E. unfold bind at 1 in E. rewrite T in E.
  assert (A1 : s1.(ct).(advance) = 0) by exact (held_use _ _ _ _ _ (held_testtrue oper) T A).
  clear T A s. unfold iflist in E. cbn [andb negb] in E.
  cut E il s2 E2; [discriminate E|]. injection E2 as <- <-.
  set (il := a_iflist_on (fl s1)) in E.
  assert (D1 : pres idle _ (when (il && li) outputline)) by iq.
  unfold bind at 1 in E. destruct (when (il && li) outputline s1) as [[u|b] s3] eqn:E3.
  2: { injection E as <- <-. left. split; [exact (proj1 (idle_use _ _ _ _ _ D1 E3 A1))|eauto]. }
  destruct (standing_list _ _ _ _ A1 E3) as [U3 A3].
  cut E op s4 E4; [discriminate E|]. injection E4 as <- <-. set (op := lineprefix (inp s3)) in E.
  cut E u5 s5 E5; [discriminate E|]. injection E5 as _ <-.
  right. exists s3, (li && (true || il)). revert E. generalize (li && (true || il)). intros li1 E.
  cut E f s6 E6; [exists (Bad f), s'; split; [exact U3|]; split; [exact E|apply untouched_refl]|].
  exists (Ok f), s6. split; [exact U3|]. split; [exact E6|].
  pose proof (ended_run _ _ _ _ _ _ _ E6 (block_flag _ _ _ _ _ _ E6)) as A6. clear E6.
  match type of E with ?m s6 = _ => assert (D : pres idle _ m) by iq end.
  exact (proj1 (idle_use _ _ _ _ _ D E A6)).
Qed.

(** IF with a false condition: the first block leaves the state alone, the second is
    executed. *)
Theorem if_false : forall n li oper s s1 r s', s.(ct).(advance) = 0 ->
  testtrue oper s = (Ok false, s1) -> Xif (run n) li true oper s = (r, s') ->
  (untouched s1 s' /\ exists b, r = Bad b) \/
  exists s2 li1 f s3, standing s1 s2 /\ run n KIf li1 false s2 = (f, s3) /\ untouched s2 s3 /\
    match f with
    | Ok FElse => (untouched s3 s' /\ exists b, r = Bad b) \/
        exists s4 li2 g s5, standing s3 s4 /\ run n KIf li2 true s4 = (g, s5) /\ untouched s5 s'
    | _ => untouched s3 s'
    end.
Proof.
  intros n li oper s s1 r s' A T E. unfold Xif in E. unfold bind at 1 in E. rewrite T in E.
  assert (A1 : s1.(ct).(advance) = 0) by exact (held_use _ _ _ _ _ (held_testtrue oper) T A).
  clear T A s. unfold iflist in E. cbn [andb negb] in E.
  cut E il s2 E2; [discriminate E|]. injection E2 as <- <-.
  set (il := a_iflist_on (fl s1)) in E.
  assert (D1 : pres idle _ (when (il && li) outputline)) by iq.
  unfold bind at 1 in E. destruct (when (il && li) outputline s1) as [[u|b] s3] eqn:E3.
  2: { injection E as <- <-. left. split; [exact (proj1 (idle_use _ _ _ _ _ D1 E3 A1))|eauto]. }
  destruct (standing_list _ _ _ _ A1 E3) as [U3 A3].
  cut E op s4 E4; [discriminate E|]. injection E4 as <- <-. set (op := lineprefix (inp s3)) in E.
  cut E u5 s5 E5; [discriminate E|].
  destruct (standing_prefix true _ _ _ _ A3 E5) as [U5 A5].
  pose proof (standing_trans _ _ _ U3 U5) as U. clear U3 U5.
  right. exists s5, (li && (false || il)).
  revert E. generalize (li && (false || il)). intros li1 E.
  cut E f s6 E6.
  { exists (Bad f), s'. split; [exact U|]. split; [exact E|].
    split; [exact (skip_block _ _ _ _ _ _ A5 E)|apply untouched_refl]. }
  assert (DB : pres idle _ (run n KIf li1 false)) by iq.
  destruct (idle_use _ _ _ _ _ DB E6 A5) as [U6 A6].
  exists (Ok f), s6. split; [exact U|]. split; [exact E6|]. split; [exact U6|].
  cut E u7 s7 E7; [discriminate E|]. destruct (standing_prefix true _ _ _ _ A6 E7) as [U7 A7].
  destruct f;
    try (match type of E with ?m s7 = _ => assert (D : pres idle _ m) by iq end;
         exact (untouched_trans _ _ _ (proj1 U7) (proj1 (idle_use _ _ _ _ _ D E A7)))).
  cut E il2 w8 E8; [discriminate E|]. injection E8 as <- <-.
  assert (D4 : pres idle _ (when (a_iflist_on (fl s7) && li) outputline)) by iq.
  unfold bind at 1 in E.
  destruct (when (a_iflist_on (fl s7) && li) outputline s7) as [[u9|b] w9] eqn:E9.
  2: { injection E as <- <-. left. split; [|eauto].
       exact (untouched_trans _ _ _ (proj1 U7) (proj1 (idle_use _ _ _ _ _ D4 E9 A7))). }
  destruct (standing_list _ _ _ _ A7 E9) as [U9 A9].
  cut E il3 w10 E10; [discriminate E|]. injection E10 as <- <-.
  cut E u11 w11 E11; [discriminate E|]. injection E11 as _ <-.
  right. exists w9, (li && (true || a_iflist_on (fl w9))).
  revert E. generalize (li && (true || a_iflist_on (fl w9))). intros li2 E.
  cut E f w12 E12.
  { exists (Bad f), s'. split; [exact (standing_trans _ _ _ U7 U9)|].
    split; [exact E|apply untouched_refl]. }
  exists (Ok f), w12. split; [exact (standing_trans _ _ _ U7 U9)|]. split; [exact E12|].
  pose proof (ended_run _ _ _ _ _ _ _ E12 (block_flag _ _ _ _ _ _ E12)) as A12. clear E12.
  match type of E with ?m w12 = _ => assert (D : pres idle _ m) by iq end.
  exact (proj1 (idle_use _ _ _ _ _ D E A12)).
Qed.

Theorem if_nested : forall n li oper s r s', s.(ct).(advance) = 0 ->
  Xif (run n) li false oper s = (r, s') -> untouched s s'.
Proof.
  intros n li oper s r s' A E.
  exact (proj1 (idle_use _ _ _ _ _ (skip_Xif idle QI (run n) (fun k l => skip_run idle QI n k l) li oper) E A)).
Qed.
