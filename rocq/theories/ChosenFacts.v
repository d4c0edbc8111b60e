(** The lines of an executed block (property C68). *)
From Coq Require Import String Ascii ZArith List Bool Lia.
From Verif Require Import Base State Tree Filter Output Label Parse Scode Pseudos Macro Crasm Walk Frame Eval.
From Verif Require Import SpecStar SpecSkip SpecJoin SkipFacts.
From Verif Require PlaceEnd JoinFacts CallFacts BlockFacts.
Import ListNotations.
Open Scope Z_scope.

Ltac step E x s1 E1 := apply seq_inv in E; destruct E as (x & s1 & E1 & E).

(** The loop of a pass does with the lines what the loop of IF does. *)
Theorem like_others : forall n s f s', run n KIf true true s = (Ok f, s') ->
  exists m t a, rounds n s (S m) t /\ linegets t = (Ok tt, a) /\ run m KLine true true a = (Ok f, s') /\ f <> FNone.
Proof.
  induction n as [|n IH]; intros s f s' E; [discriminate E|]. cbn [run] in E. unfold ifround in E.
  step E u a E1. destruct u. step E e b E2. unfold mainfeof in E2. cbn [gets] in E2. injection E2 as <- <-.
  destruct (maineof (inp a)) eqn:T; [apply error_never in E; contradiction|].
  step E g b E3. unfold catch in E3.
  assert (P : forall r b', run n KLine true true a = (r, b') -> passline n s = match r with Ok FNone => (Ok tt, b') | Ok _ => err "ELSE, ENDC, ENDM, EXITM illegal here" b' | Bad x => (Bad x, b') end).
  { intros r b' R. unfold passline, bind at 1. rewrite E1. unfold bind. rewrite R. destruct r as [[]|]; reflexivity. }
  destruct (run n KLine true true a) as [[h|[]] c] eqn:R; try discriminate E3; injection E3 as <- <-.
  - specialize (P _ _ eq_refl).
    assert (T' : maineof (inp c) = false).
    { pose proof (proj1 (PlaceEnd.Z_run n) true true a T) as Z. rewrite R in Z. exact Z. }
    assert (D : h = FNone \/ (h <> FNone /\ f = h /\ s' = c)).
    { destruct h; [left; reflexivity|..]; right; (split; [discriminate|]); injection E as <- <-; auto. }
    destruct D as [->|(N & -> & ->)].
    + destruct (IH _ _ _ E) as (m & t & a' & Rn & G & K & N). exists m, t, a'. split; [|auto].
      apply (rounds_more n s (Some tt) c); [unfold catch; rewrite P; reflexivity|right; exact T'|exact Rn].
    + exists n, s, a. split; [apply rounds_none|]. auto.
  - destruct (IH _ _ _ E) as (m' & t & a' & Rn & G & K & N). exists m', t, a'. split; [|auto].
    eapply rounds_more; [unfold catch; rewrite (P _ _ eq_refl); reflexivity|left; reflexivity|exact Rn].
Qed.

Lemma skip_flag : forall n li s f s', run n KIf li false s = (Ok f, s') -> f <> FNone /\ f <> FExitm.
Proof.
  induction n as [|n IH]; intros li s f s' E; cbn [run] in E; [discriminate E|].
  unfold ifround in E. step E u1 s1 E1. step E e s2 E2.
  destruct e; [exfalso; exact (error_never _ _ _ _ _ E)|]. step E g s3 E3.
  destruct g as [[]|]; try exact (IH _ _ _ _ E); injection E as <- <-; split; discriminate.
Qed.

Theorem true_block : forall n o s s1 g s', s.(ct).(advance) = 0 -> testtrue o s = (Ok true, s1) -> Xif (run n) true true o s = (Ok g, s') ->
  exists s2 m t a f s3, standing s1 s2 /\ rounds n s2 (S m) t /\ linegets t = (Ok tt, a) /\ run m KLine true true a = (Ok f, s3) /\
    ((f = FEndc /\ g = FNone /\ standing s3 s') \/ (f = FExitm /\ g = FExitm /\ standing s3 s') \/
     (f = FElse /\ g = FNone /\ exists s4 li s5, standing s3 s4 /\ s4.(ct).(advance) = 0 /\ run n KIf li false s4 = (Ok FEndc, s5) /\ standing s5 s')).
Proof.
  intros n o s s1 g s' A T E. unfold Xif, iflist in E. unfold bind at 1 in E. rewrite T in E. cbn [andb negb] in E.
  assert (A1 : s1.(ct).(advance) = 0) by exact (held_use _ _ _ _ _ (held_testtrue o) T A).
  step E il w1 E1. injection E1 as <- <-. step E u2 w2 E2. destruct (standing_list _ _ _ _ A1 E2) as [S2 A2].
  step E op w3 E3. injection E3 as <- <-. step E u3 w3 E3. cbn [when] in E3. injection E3 as <- <-.
  step E f s3 E4. cbn [orb andb] in E4.
  destruct (like_others _ _ _ _ E4) as (m & t & a & R & G & K & N).
  pose proof (ended_run _ _ _ _ _ _ _ E4 N) as A3.
  exists w2, m, t, a, f, s3. split; [exact S2|]. split; [exact R|]. split; [exact G|]. split; [exact K|].
  step E u5 w5 E5. destruct (standing_prefix true _ _ _ _ A3 E5) as [S5 A5].
  destruct f; try congruence; try (exfalso; exact (error_never _ _ _ _ _ E)); step E il2 w6 E6; injection E6 as <- <-; step E y6 w6 E6;
    destruct (standing_list _ _ _ _ A5 E6) as [S6 A6]; pose proof (standing_trans _ _ _ S5 S6) as S3.
  - injection E as <- <-. left. auto.
  - right. right. split; [reflexivity|].
    step E il3 w7 E7. injection E7 as <- <-. step E y7 w7 E7. destruct (standing_prefix true _ _ _ _ A6 E7) as [S7 A7].
    step E f2 x9 E9. cbn [orb andb] in E9. destruct (idle_use _ _ _ _ _ (skip_run _ QI _ _ _) E9 A7) as [_ A9].
    destruct (skip_flag _ _ _ _ _ E9) as [N1 N2]. step E y10 x10 E10. destruct (standing_prefix true _ _ _ _ A9 E10) as [S10 A10].
    destruct f2; try congruence; try (exfalso; exact (error_never _ _ _ _ _ E)).
    step E il4 x11 E11. injection E11 as <- <-. step E y11 x11 E11. destruct (standing_list _ _ _ _ A10 E11) as [S11 A11]. injection E as <- <-.
    split; [reflexivity|]. eexists w7, _, x9. split; [exact (standing_trans _ _ _ S3 S7)|]. split; [exact A7|]. split; [exact E9|exact (standing_trans _ _ _ S10 S11)].
  - injection E as <- <-. right. left. auto.
Qed.

Theorem false_block : forall n o s s1 g s', s.(ct).(advance) = 0 -> testtrue o s = (Ok false, s1) -> Xif (run n) true true o s = (Ok g, s') ->
  exists s2 li f s3, standing s1 s2 /\ s2.(ct).(advance) = 0 /\ run n KIf li false s2 = (Ok f, s3) /\
    ((f = FEndc /\ g = FNone /\ standing s3 s') \/
     (f = FElse /\ exists s4 m t a f' s5, standing s3 s4 /\ rounds n s4 (S m) t /\ linegets t = (Ok tt, a) /\ run m KLine true true a = (Ok f', s5) /\
        (f' = FEndc /\ g = FNone \/ f' = FExitm /\ g = FExitm) /\ standing s5 s')).
Proof.
  intros n o s s1 g s' A T E. unfold Xif, iflist in E. unfold bind at 1 in E. rewrite T in E. cbn [andb negb] in E.
  assert (A1 : s1.(ct).(advance) = 0) by exact (held_use _ _ _ _ _ (held_testtrue o) T A).
  step E il w1 E1. injection E1 as <- <-. step E u2 w2 E2. destruct (standing_list _ _ _ _ A1 E2) as [S2 A2].
  step E op w3 E3. injection E3 as <- <-. step E u3 w3 E3. destruct (standing_prefix true _ _ _ _ A2 E3) as [S3 A3].
  step E f s3 E4. cbn [orb andb] in E4. destruct (idle_use _ _ _ _ _ (skip_run _ QI _ _ _) E4 A3) as [_ A4].
  destruct (skip_flag _ _ _ _ _ E4) as [N1 N2].
  eexists w3, _, f, s3. split; [exact (standing_trans _ _ _ S2 S3)|]. split; [exact A3|]. split; [exact E4|].
  step E u5 w5 E5. destruct (standing_prefix true _ _ _ _ A4 E5) as [S5 A5].
  destruct f; try congruence; try (exfalso; exact (error_never _ _ _ _ _ E)); step E il2 w6 E6; injection E6 as <- <-; step E y6 w6 E6;
    destruct (standing_list _ _ _ _ A5 E6) as [S6 A6]; pose proof (standing_trans _ _ _ S5 S6) as S7.
  - injection E as <- <-. left. auto.
  - right. split; [reflexivity|].
    step E il3 w7 E7. injection E7 as <- <-. step E y7 w7 E7. cbn [when] in E7. injection E7 as <- <-.
    step E f2 x9 E9. cbn [orb andb] in E9. destruct (like_others _ _ _ _ E9) as (m & t & a & R & G & K & N).
    pose proof (ended_run _ _ _ _ _ _ _ E9 N) as A9. step E y10 x10 E10. destruct (standing_prefix true _ _ _ _ A9 E10) as [S10 A10].
    exists w6, m, t, a, f2, x9. split; [exact S7|]. split; [exact R|]. split; [exact G|]. split; [exact K|].
    destruct f2; try congruence; try (exfalso; exact (error_never _ _ _ _ _ E)); step E il4 x11 E11; injection E11 as <- <-; step E y11 x11 E11;
      destruct (standing_list _ _ _ _ A10 E11) as [S11 A11]; injection E as <- <-; (split; [auto|exact (standing_trans _ _ _ S10 S11)]).
Qed.

(** A line that ends a block. *)
Theorem closing : forall m li ex a f s', run m KLine li ex a = (Ok f, s') -> f = FEndc \/ f = FElse ->
  exists q k l, taken_apart a q /\ q.(q_mnemo) = Some (k, l) /\ q.(q_oper) = None /\
    l.(l_ptr) = PFun (if match f with FEndc => true | _ => false end then HEndc else HElse).
Proof.
  intros [|m] li ex a f s' E F; [discriminate E|]. cbn [run] in E. unfold asmline in E.
  step E u1 s1 E1. destruct u1. step E c s2 E2. cbn [gets] in E2. injection E2 as <- <-. step E t s2 E2.
  destruct t as [|x t]; [step E u4 s4 E4; injection E as <- <-; destruct F; discriminate|].
  step E q s3 E3. assert (TA : taken_apart a q) by (exists s1, (x :: t), s2, s3; split; [exact E1|]; split; [exact E2|]; split; [discriminate|exact E3]).
  destruct (q_mnemo q) as [[k l]|] eqn:Q.
  2: { destruct (_ && _ && _); [|apply error_never in E; contradiction]. step E u4 s4 E4. step E u5 s5 E5. injection E as <- <-. destruct F; discriminate. }
  exists q, k, l. split; [exact TA|]. split; [exact Q|]. unfold dispatch in E. cbv zeta in E. step E u4 s4 E4. step E u5 s5 E5.
  destruct (f_defcond (l_flags l) || f_defmacro (l_flags l)).
  2: { destruct (l_type l); try discriminate E; step E u6 s6 E6; step E u7 s7 E7; try (step E y9 s9 E9); injection E as <- <-; destruct F; discriminate. }
  destruct (l_ptr l) as [|h|ml]; try discriminate E. destruct h; cbn [execblock] in E; try discriminate E.
  - unfold Xelse in E. step E u6 s6 E6. destruct (q_oper q); [cbn [Cpu6800.ogiven when] in E6; unfold err in E6; apply error_never in E6; contradiction|]. injection E as <- <-. auto.
  - unfold Xendc in E. step E u6 s6 E6. destruct (q_oper q); [cbn [Cpu6800.ogiven when] in E6; unfold err in E6; apply error_never in E6; contradiction|]. injection E as <- <-. auto.
  - exfalso. unfold Xendm in E. step E u6 s6 E6. unfold leave in E. step E v s7 E7. step E w z8 E8. injection E as <- <-. destruct F as [F|F]; revert F; match goal with |- (if ?b then _ else _) = _ -> _ => destruct b end; discriminate.
  - exfalso. unfold Xexitm in E. step E u6 s6 E6. unfold leave in E. step E v s7 E7. step E w z8 E8. injection E as <- <-. destruct F as [F|F]; revert F; match goal with |- (if ?b then _ else _) = _ -> _ => destruct b end; discriminate.
  - exfalso. unfold Xif in E. step E v1 t1 F1. step E v2 t2 F2. step E v3 t3 F3. step E v4 t4 F4. step E v5 t5 F5. step E v6 t6 F6. step E v7 t7 F7.
    destruct v6; try (exact (error_never _ _ _ _ _ E)); step E v8 t8 F8; step E v9 t9 F9.
    + injection E as <- <-. destruct F; discriminate.
    + injection E as <- <-. destruct F; discriminate.
    + step E v10 t10 F10. step E v11 t11 F11. step E v12 t12 F12. step E v13 t13 F13. destruct v12; try (exact (error_never _ _ _ _ _ E));
        step E v14 t14 F14; step E v15 t15 F15; injection E as <- <-; destruct F; discriminate.
    + injection E as <- <-. destruct F; discriminate.
  - exfalso. destruct (q_label q); [|discriminate E]. unfold Xmacro in E. step E v1 t1 F1. step E v2 t2 F2. step E v3 t3 F3. step E v4 t4 F4. step E v5 t5 F5.
    step E v6 t6 F6. destruct v6 as [[ls y] z]. destruct y; [destruct z|]; try (exact (error_never _ _ _ _ _ E)).
    step E v7 t7 F7. injection E as <- <-. destruct F; discriminate.
Qed.
