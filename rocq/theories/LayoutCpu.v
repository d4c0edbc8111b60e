(** Two passes over the same lines: the instructions of the processors.  Nothing here is part of the model. *)
From Coq Require Import String Ascii ZArith List Bool Lia ZifyBool.
From Verif Require Import Base State Tree Filter Output Label Operator Parse Scode Tables.
From Verif Require Import Cpu6800 Cpu6502 CpuZ80 Pseudos Macro Xref Crasm.
From Verif Require Import TreeFacts Walk Frame Run SymFacts LayoutFacts SpecLayout LayoutRel LayoutOps.
Import ListNotations.
Open Scope Z_scope.

Section Cpu.
Variable F : final.
Variable SF : forward_numbers F.
Notation rel := (rel F).

Lemma rel_when : forall z lt (c : bool) m1 m2, rel z z lt any m1 m2 -> rel z z lt any (when c m1) (when c m2).
Proof. intros z lt [] m1 m2 H; cbn [when]; [exact H|]. apply rel_ret. exact Logic.I. Qed.
Lemma rel_byte : forall z lt x y, rel z z lt any (insert8 x) (insert8 y).
Proof. intros. apply rel_insert8. Qed.
Lemma rel_bytes2 : forall z lt x1 y1 x2 y2, rel z z lt any (insert8 x1 ;;; insert8 y1) (insert8 x2 ;;; insert8 y2).
Proof. intros. eapply rel_bind; [apply rel_byte|gro|]. intros _ _ _. apply rel_byte. Qed.
Lemma rel_insert16 : forall z lt x y, rel z z lt any (insert16 x) (insert16 y).
Proof.
  intros. unfold insert16. eapply rel_bind; [apply rel_any|gro|]. intros f1 f2 _. if1; if2; apply rel_bytes2.
Qed.
Lemma rel_insert32 : forall z lt x y, rel z z lt any (insert32 x) (insert32 y).
Proof.
  intros. unfold insert32. eapply rel_bind; [apply rel_any|gro|]. intros f1 f2 _.
  if1; if2; (eapply rel_bind; [apply rel_insert16|gro|]; intros _ _ _; apply rel_insert16).
Qed.
Ltac step H := eapply rel_bind; [apply H|gro|]; cbv beta zeta.
Ltac abs M E := let V := fresh in pose proof M as (_ & _ & V & _); rewrite E in V.

Lemma rel_branch : forall z c o, rel z z true any (branch c o) (branch c o).
Proof.
  intros z c o. unfold branch. eapply rel_bind; [apply rel_parse, SF|gro|]. intros r1 r2 M. eapply rel_bind; [apply rel_checktype, M|gro|]. intros _ _ _.
  eapply rel_bind; [apply rel_any|gro|]. intros p1 p2 _. cbv zeta. step rel_byte. intros _ _ _. step rel_byte. intros _ _ _.
  apply rel_late. left. reflexivity.
Qed.
Lemma rel_single : forall z lt c o, rel z z lt any (single c o) (single c o).
Proof.
  intros z lt c o. unfold single. step rel_byte. intros _ _ _. eapply rel_weaken; [apply rel_refuse; nolate|]. intros. exact Logic.I.
Qed.

(** ** 6800 *)
Definition modes (a b : Z * Z) : Prop := fst a = fst b.
Lemma rel_findmode_loop : forall z lt t l, rel z z lt modes (findmode_loop t l) (findmode_loop t l).
Proof.
  intros z lt t l. revert lt. induction l as [|[f add] l IH]; intros lt; cbn [findmode_loop]; [apply rel_error|].
  step rel_filterc. intros a b <-. destruct a as [[caps n]|]; [|apply IH]. eapply rel_bind; [apply rel_parse, SF|gro|]. intros r1 r2 M.
  eapply rel_bind; [apply rel_checktype, M|gro|]. cbv beta. intros _ _ E. abs M E. destruct M as (_ & Ef & _). rewrite <- Ef.
  destruct (f_forward (r_flags r1)) eqn:Fw; cbn [negb].
  - rewrite andb_false_r. cbn [andb]. apply rel_ret. reflexivity.
  - rewrite <- (H eq_refl). destruct (_ && _); apply rel_ret; reflexivity.
Qed.
Lemma rel_findmode : forall z lt o, rel z z lt modes (findmode o) (findmode o).
Proof. intros z lt [t|]; cbn [findmode]; [apply rel_findmode_loop|apply rel_error]. Qed.
Lemma rel_codemode : forall z lt c a v w, rel z z lt any (codemode c a v) (codemode c a w).
Proof.
  intros z lt c a v w. unfold codemode. step rel_byte. intros _ _ _. destruct (_ && _); [apply rel_insert16|]. destruct (a =? 48); [apply rel_insert16|].
  step rel_byte. intros _ _ _. destruct (a =? 32).
  - if2; [apply rel_error|]. if1; [apply rel_err; nolate|]. apply rel_ret. exact Logic.I.
  - apply rel_mute; mutes.
Qed.
Lemma rel_standard68 : forall z lt c o, rel z z lt any (standard68 c o) (standard68 c o).
Proof. intros z lt c o. unfold standard68. step rel_findmode. intros [a v] [b w] M. unfold modes in M. cbn in M. subst b. apply rel_codemode. Qed.
Lemma rel_standard2 : forall z lt c o, rel z z lt any (standard2 c o) (standard2 c o).
Proof.
  intros z lt c o. unfold standard2. step rel_findmode. intros [a v] [b w] M. unfold modes in M. cbn in M. subst b. cbn [fst snd]. step rel_codemode. intros _ _ _.
  eapply rel_weaken; [apply rel_refuse; nolate|]. intros. exact Logic.I.
Qed.
Lemma rel_standard3 : forall z lt c o, rel z z lt any (standard3 c o) (standard3 c o).
Proof.
  intros z lt c o. unfold standard3. step rel_findmode. intros [a v] [b w] M. unfold modes in M. cbn in M. subst b. cbn [fst snd]. step rel_codemode. intros _ _ _.
  eapply rel_weaken; [apply rel_refuse; nolate|]. intros. exact Logic.I.
Qed.

(** ** 6502 *)
Lemma rel_findmode65 : forall z lt t l, rel z z lt eq (findmode65 t l) (findmode65 t l).
Proof.
  intros z lt t l. revert lt. induction l as [|[f add] l IH]; intros lt; cbn [findmode65]; [apply rel_error|].
  step rel_filterc. intros a b <-. destruct a as [[[|] n]|]; [apply rel_ret|apply rel_ret|apply IH]; reflexivity.
Qed.
Lemma rel_standard65 : forall z lt c o, rel z z lt any (standard65 c o) (standard65 c o).
Proof.
  intros z lt c o. unfold standard65. eapply rel_bind with (Q := eq); [|intros [a t]; gro|].
  { destruct o; [apply rel_findmode65|apply rel_ret; reflexivity]. }
  intros [mode t] b <-. eapply rel_bind; [apply rel_refuse; nolate|gro|]. intros _ _ _.
  eapply rel_bind with (Q := modes); [|intros [m v]; gro|].
  { if1; [|apply rel_ret; reflexivity]. eapply rel_bind; [apply rel_parse, SF|gro|]. intros r1 r2 M.
    assert (E : r_type r1 = TRegs -> r_modifier r1 = r_modifier r2 /\ r_value r1 = r_value r2 /\ r_type r2 = TRegs).
    { intros E. abs M E. destruct H as (A & B & _). destruct M as (M & _). rewrite E in M. auto. }
    eapply rel_bind with (Q := fun a b => a = b /\ (f_forward (r_flags r1) = false -> r_value r1 = r_value r2)); [|gro|].
    { destruct M as (M & M2 & M3 & _). rewrite <- M. destruct (ltype_eqb (r_type r1) TRegs) eqn:B.
      - assert (Ty : r_type r1 = TRegs) by (destruct (r_type r1); try discriminate B; reflexivity).
        destruct (E Ty) as (E1 & E2 & E3). rewrite <- E1. if1; [apply rel_ret; auto|].
        eapply rel_bind; [apply rel_checktype; congruence|gro|]. cbv beta. intros _ _ X. apply rel_ret; auto.
      - rewrite andb_false_r. cbn [andb]. eapply rel_bind; [apply rel_checktype; congruence|gro|]. cbv beta. intros _ _ X. rewrite X in M3. apply rel_ret. auto. }
    intros m1 m2 [<- V]. destruct M as (_ & Ef & _). cbv zeta. rewrite <- Ef. destruct (f_forward (r_flags r1)).
    - rewrite !orb_true_r. if1; [apply rel_ret; reflexivity|].
      eapply rel_bind; [apply rel_maybe|gro|]. intros _ _ _. apply rel_ret. reflexivity.
    - rewrite <- (V eq_refl). if1; [|apply rel_ret; reflexivity]. if1; [apply rel_ret; reflexivity|].
      eapply rel_bind; [apply rel_maybe|gro|]. intros _ _ _. apply rel_ret. reflexivity. }
  intros [m v] [m2 w] M. unfold modes in M. cbn in M. subst m2. cbv zeta. eapply rel_bind; [apply rel_refuse; nolate|gro|]. intros _ _ _.
  step rel_byte. intros _ _ _. eapply rel_bind with (Q := any); [|gro|].
  { if1; [|apply rel_ret; exact Logic.I]. if1; [apply rel_insert16|apply rel_byte]. }
  intros _ _ _. eapply rel_bind; [apply rel_any|gro|]. intros c1 c2 _. eapply rel_bind; [apply rel_refuse; nolate|gro|]. intros _ _ _.
  eapply rel_weaken; [apply rel_refuse; nolate|]. intros. exact Logic.I.
Qed.

(** ** Z80 *)
Definition sameflags (a b : cpustate) : Prop := zflags a = zflags b.
Lemma rel_cp : forall z lt f g, (forall a b, (z = true -> sameflags a b) -> sameflags (f a) (g b)) -> rel z true lt any (upd_cp f) (upd_cp g).
Proof.
  intros z lt f g H s1 s2 x s2' [] E. injection E as <- <-. cbn. intros _. split; [|exact Logic.I].
  constructor; cbn in *; try assumption. intros _. apply H. assumption.
Qed.
Lemma rel_getcp : forall lt, rel true true lt sameflags (gets cp) (gets cp).
Proof. intros lt s1 s2 x s2' Ht E. injection E as <- <-. cbn. intros _. split; [exact Ht|]. apply (a_z _ _ _ _ Ht eq_refl). Qed.
Ltac same := let H := fresh in unfold sameflags, zflags in *; intros ? ? H; try specialize (H eq_refl); cbn in *; congruence.
Lemma rel_clrall : forall z lt, rel z true lt any clrall clrall.
Proof. intros. apply rel_cp. reflexivity. Qed.
Lemma rel_getindexed : forall lt t l, rel true true lt eq (getindexed t l) (getindexed t l).
Proof.
  intros lt t l. revert lt. induction l as [|[f i] l IH]; intros lt; cbn [getindexed]; [apply rel_ret; reflexivity|].
  step rel_filterc. intros a b <-. destruct a as [[caps n]|]; [|apply IH].
  eapply rel_bind; [apply rel_cp; same|gro|]. intros _ _ _. eapply rel_bind with (Q := any); [|gro|].
  { if1; [|apply rel_ret; exact Logic.I]. eapply rel_bind; [apply rel_parse, SF|gro|]. intros r1 r2 M. eapply rel_bind; [apply rel_checktype, M|gro|]. intros _ _ _.
    apply rel_cp. same. }
  intros _ _ _. eapply rel_bind; [apply rel_getcp|gro|]. intros c1 c2 _. eapply rel_bind; [apply rel_refuse; nolate|gro|]. intros _ _ _.
  eapply rel_bind; [apply rel_cp; same|gro|]. intros _ _ _. eapply rel_bind; [apply rel_cp; same|gro|]. intros _ _ _. apply rel_ret. reflexivity.
Qed.
Lemma rel_getreg : forall lt t, rel true true lt eq (getreg t) (getreg t).
Proof.
  intros lt t. unfold getreg. step rel_getindexed. intros a b <-. if1; [apply rel_ret; reflexivity|].
  step rel_filter0. intros a1 b <-. if1.
  { eapply rel_bind; [apply rel_getcp|gro|]. intros c1 c2 _. eapply rel_bind; [apply rel_refuse; nolate|gro|]. intros _ _ _.
    eapply rel_bind; [apply rel_cp; same|gro|]. intros _ _ _. apply rel_ret. reflexivity. }
  step rel_filter0. intros a2 b <-. if1; [apply rel_ret; reflexivity|]. step rel_filter0. intros a3 b <-. if1; [apply rel_ret; reflexivity|].
  step rel_filter1. intros a4 b <-. destruct a4 as [o|].
  - eapply rel_bind; [apply rel_parse, SF|gro|]. intros r1 r2 M. eapply rel_bind; [apply rel_checktype, M|gro|]. intros _ _ _.
    eapply rel_bind; [apply rel_getcp|gro|]. intros c1 c2 _. eapply rel_bind; [apply rel_refuse; nolate|gro|]. intros _ _ _.
    eapply rel_bind; [apply rel_cp; same|gro|]. intros _ _ _. eapply rel_bind; [apply rel_cp; same|gro|]. intros _ _ _. apply rel_ret. reflexivity.
  - eapply rel_bind; [apply rel_parse, SF|gro|]. intros r1 r2 M. pose proof M as (E & _). rewrite <- E. if1.
    + eapply rel_bind; [apply rel_getcp|gro|]. intros c1 c2 _. eapply rel_bind; [apply rel_refuse; nolate|gro|]. intros _ _ _.
      eapply rel_bind; [apply rel_cp; same|gro|]. intros _ _ _. eapply rel_bind; [apply rel_cp; same|gro|]. intros _ _ _. apply rel_ret. reflexivity.
    + eapply rel_bind; [apply rel_checktype, M|gro|]. cbv beta. intros _ _ X. abs M X. destruct H as (V & Md & _). rewrite <- Md, <- V. cbv zeta.
      eapply rel_bind with (Q := any); [|gro|].
      { if1; [apply rel_stops|]. eapply rel_weaken; [apply rel_refuse; nolate|]. intros. exact Logic.I. }
      intros _ _ _. if1; [|apply rel_ret; reflexivity]. eapply rel_bind; [apply rel_getcp|gro|]. intros c1 c2 _. eapply rel_bind; [apply rel_refuse; nolate|gro|]. intros _ _ _.
      eapply rel_bind; [apply rel_cp; same|gro|]. intros _ _ _. apply rel_ret. reflexivity.
Qed.
Lemma rel_docode : forall lt c d, hashigh c = hashigh d -> rel true true lt any (docode c) (docode d).
Proof.
  intros lt c d Hh. unfold docode. eapply rel_bind; [apply rel_getcp|gro|]. intros c1 c2 E. unfold sameflags, zflags in E.
  injection E as E1 E2 E3 E4. rewrite <- E1, <- E2, <- E3, <- E4, <- Hh.
  eapply rel_bind; [apply rel_when, rel_byte|gro|]. intros _ _ _. eapply rel_bind with (Q := any); [|gro|].
  { if1; apply rel_byte. }
  intros _ _ _. eapply rel_bind with (Q := any); [|gro|].
  { if1; [|apply rel_ret; exact Logic.I]. step rel_byte. intros _ _ _. apply rel_maybe. }
  intros _ _ _. eapply rel_bind; [apply rel_when, rel_byte|gro|]. intros _ _ _. if1; [step rel_byte; intros _ _ _; apply rel_maybe|].
  if1; [apply rel_insert16|apply rel_ret; exact Logic.I].
Qed.
Lemma rel_simple : forall z lt c o, rel z z lt any (simple c o) (simple c o).
Proof.
  intros z lt c o. unfold simple. eapply rel_bind; [apply rel_when, rel_byte|gro|]. intros _ _ _. step rel_byte. intros _ _ _.
  eapply rel_weaken; [apply rel_refuse; nolate|]. intros. exact Logic.I.
Qed.
Lemma insert16_grows : forall x, pres growing _ (insert16 x).
Proof. gro. Qed.
Lemma rel_z_im : forall z o, rel z z true any (z_im o) (z_im o).
Proof.
  intros z o. unfold z_im. eapply rel_bind; [apply rel_parse, SF|gro|]. intros r1 r2 M. eapply rel_bind; [apply rel_checktype, M|gro|]. intros _ _ _.
  assert (Bad2 : forall (m : State.M unit) x, rel z z true any m (insert16 x ;;; @err unit "Bad interruption mode")).
  { intros m x. apply rel_never. intros s b s' E. apply EmitFacts.seq_ok in E. destruct E as (u & s1 & _ & E). exact (never_err _ _ _ _ _ E). }
  assert (Late : forall x, rel z z true any (insert16 0 ;;; @err unit "Bad interruption mode") (insert16 x)).
  { intros x. apply rel_ext with (m1 := insert16 0 ;;; when true (err "Bad interruption mode")) (m2 := insert16 x ;;; when false (err "Bad interruption mode")).
    - reflexivity.
    - intros s. unfold bind. destruct (insert16 x s) as [[[]|] s']; reflexivity.
    - step rel_insert16. intros _ _ _. apply rel_late. right. right. reflexivity. }
  destruct (r_value r1 =? 0); [|destruct (r_value r1 =? 1); [|destruct (r_value r1 =? 2)]];
    (destruct (r_value r2 =? 0); [|destruct (r_value r2 =? 1); [|destruct (r_value r2 =? 2)]]);
    first [apply Bad2|apply Late|apply rel_insert16].
Qed.
Lemma rel_z_rst : forall z o, rel z z true any (z_rst o) (z_rst o).
Proof.
  intros z o. unfold z_rst. eapply rel_bind; [apply rel_parse, SF|gro|]. intros r1 r2 M. eapply rel_bind; [apply rel_checktype, M|gro|]. intros _ _ _. cbv zeta.
  step rel_byte. intros _ _ _. apply rel_late. right. left. reflexivity.
Qed.
Lemma rel_findcond : forall z lt t i l, rel z z lt eq (findcond t i l) (findcond t i l).
Proof.
  intros z lt t i l. revert lt i. induction l as [|c l IH]; intros lt i; cbn [findcond]; [apply rel_ret; reflexivity|].
  step rel_filter0. intros a b <-. if1; [apply rel_ret; reflexivity|apply IH].
Qed.
Lemma rel_searchcond : forall z lt n t, rel z z lt eq (searchcond n t) (searchcond n t).
Proof.
  intros z lt n t. unfold searchcond. step rel_filter2. intros a b <-. destruct a as [[c r]|]; [|apply rel_ret; reflexivity].
  step rel_findcond. intros a b <-. destruct a; [apply rel_ret; reflexivity|apply rel_error].
Qed.
Lemma rel_z_jr : forall z o, rel z z true any (z_jr o) (z_jr o).
Proof. intros z o. unfold z_jr. step rel_searchcond. intros a b <-. apply rel_branch. Qed.
Lemma rel_z_ret : forall z lt o, rel z z lt any (z_ret o) (z_ret o).
Proof.
  intros z lt o. unfold z_ret. destruct (otext o) as [|x t]; [apply rel_byte|]. step rel_findcond. intros a b <-. destruct a; [apply rel_byte|apply rel_error].
Qed.
Lemma rel_condjump : forall z lt a p t, rel z z lt any (condjump a p t) (condjump a p t).
Proof.
  intros z lt a p t. unfold condjump. step rel_searchcond. intros c b <-. eapply rel_bind; [apply rel_parse, SF|gro|]. intros r1 r2 M.
  eapply rel_bind; [apply rel_checktype, M|gro|]. intros _ _ _. eapply rel_bind with (Q := any); [|gro|].
  { if1; apply rel_byte. }
  intros _ _ _. apply rel_insert16.
Qed.
Lemma rel_z_call : forall z lt o, rel z z lt any (z_call o) (z_call o).
Proof. intros. apply rel_condjump. Qed.
Lemma rel_z_jp : forall z lt o, rel z true lt any (z_jp o) (z_jp o).
Proof.
  intros z lt o. unfold z_jp. step rel_clrall. intros _ _ _. step rel_filter1. intros a b <-. destruct a as [t|]; [|apply rel_condjump].
  step rel_getreg. intros g b <-. if1; [apply rel_docode; reflexivity|apply rel_error].
Qed.
Lemma rel_z_ex_af : forall lt t, rel true true lt any (z_ex_af t) (z_ex_af t).
Proof.
  intros lt t. unfold z_ex_af. step rel_filter1. intros a b <-. eapply rel_bind with (Q := eq); [|gro|].
  { destruct a; [apply rel_ret; reflexivity|apply rel_filter1]. }
  intros m b <-. destruct m as [[|c x]|]; [apply rel_docode; reflexivity| |apply rel_error]. if1; [apply rel_docode; reflexivity|apply rel_error].
Qed.
Lemma rel_z_ex : forall z lt o, rel z true lt any (z_ex o) (z_ex o).
Proof.
  intros z lt o. unfold z_ex. cbv zeta. step rel_clrall. intros _ _ _. step rel_filter0. intros a b <-. eapply rel_bind with (Q := eq) (z1 := true); [|gro|].
  { if1; [apply rel_ret; reflexivity|apply rel_filter0]. }
  intros c b <-. if1; [apply rel_docode; reflexivity|]. step rel_filter1. intros d b <-. eapply rel_bind with (Q := eq); [|gro|].
  { destruct d; [apply rel_ret; reflexivity|apply rel_filter1]. }
  intros m b <-. destruct m as [t|]; [|apply rel_z_ex_af]. step rel_getreg. intros g b <-. if1; [apply rel_docode; reflexivity|apply rel_z_ex_af].
Qed.
Lemma rel_z_inout : forall z lt c o, rel z true lt any (z_inout c o) (z_inout c o).
Proof.
  intros z lt c o. unfold z_inout. cbv zeta. step rel_clrall. intros _ _ _. eapply rel_bind with (Q := eq); [|gro|].
  { if1; [apply rel_filter2|]. step rel_filter2. intros a b <-. apply rel_ret. reflexivity. }
  intros m b <-. destruct m as [[p q]|]; [|apply rel_error]. step rel_getreg. intros g b <-. if1.
  - step rel_getreg. intros h b <-. eapply rel_bind; [apply rel_refuse; nolate|gro|]. intros _ _ _.
    eapply rel_bind; [apply rel_cp; same|gro|]. intros _ _ _. apply rel_docode. reflexivity.
  - if1; [|apply rel_error]. step rel_getreg. intros h b <-. eapply rel_bind; [apply rel_refuse; nolate|gro|]. intros _ _ _. apply rel_docode. reflexivity.
Qed.
Lemma bitcode : forall c r n, In c (map s16 [52032; 52160; 52096]) -> 0 <= r < 8 -> 0 <= n <= 7 -> hashigh (c + r + n * 8) = true.
Proof.
  intros c r n Hc Hr Hn. unfold hashigh.
  assert (X : forall r n, In r [0;1;2;3;4;5;6;7] -> In n [0;1;2;3;4;5;6;7] -> negb (Z.land (c + r + n * 8) 65280 =? 0) = true).
  { clear - Hc. intros r n Hr Hn. cbn in Hc. destruct Hc as [<-|[<-|[<-|[]]]];
      (cbn in Hr; repeat (destruct Hr as [<-|Hr]; [|]); try contradiction Hr; cbn in Hn; repeat (destruct Hn as [<-|Hn]; [vm_compute; reflexivity|]); contradiction Hn). }
  apply X; cbn; lia.
Qed.
Lemma rel_z_bitop : forall z lt c o, In c (map s16 [52032; 52160; 52096]) -> rel z true lt any (z_bitop c o) (z_bitop c o).
Proof.
  intros z lt c o Hc. unfold z_bitop. step rel_clrall. intros _ _ _. step rel_filter2. intros a b <-. destruct a as [[p q]|]; [|apply rel_error].
  eapply rel_bind; [apply rel_parse, SF|gro|]. intros r1 r2 M. eapply rel_bind; [apply rel_checktype, M|gro|]. intros _ _ _. cbv zeta.
  eapply rel_bind; [apply rel_refuse; nolate|gro|]. cbv beta. intros _ _ [N1 N2]. step rel_getreg. intros g b <-.
  eapply rel_bind; [apply rel_refuse; nolate|gro|]. cbv beta. intros _ _ [G _]. apply rel_docode. unfold isreg8 in G.
  rewrite !bitcode; try assumption; try lia.
Qed.
Lemma rel_z_onreg8 : forall z lt c o, rel z true lt any (z_onreg8 c o) (z_onreg8 c o).
Proof.
  intros z lt c o. unfold z_onreg8. step rel_clrall. intros _ _ _. step rel_getreg. intros g b <-. eapply rel_bind; [apply rel_refuse; nolate|gro|]. intros _ _ _.
  apply rel_docode. reflexivity.
Qed.
Lemma rel_z_logical : forall z lt c o, rel z true lt any (z_logical c o) (z_logical c o).
Proof.
  intros z lt c o. unfold z_logical. step rel_clrall. intros _ _ _. step rel_filter2. intros a b <-. eapply rel_bind with (Q := eq); [|gro|].
  { destruct a as [[p q]|]; [|apply rel_ret; reflexivity]. step rel_getreg. intros g b <-. eapply rel_bind; [apply rel_refuse; nolate|gro|]. intros _ _ _.
    step rel_warning. intros _ _ _. apply rel_ret. reflexivity. }
  intros t b <-. step rel_getreg. intros g b <-. eapply rel_bind with (Q := eq); [|gro|].
  { if1; [|apply rel_ret; reflexivity]. eapply rel_bind; [apply rel_cp; same|gro|]. intros _ _ _. apply rel_ret. reflexivity. }
  intros h b <-. apply rel_docode. reflexivity.
Qed.
Lemma rel_z_stackop : forall z lt c o, rel z true lt any (z_stackop c o) (z_stackop c o).
Proof.
  intros z lt c o. unfold z_stackop. step rel_clrall. intros _ _ _. step rel_getreg. intros g b <-. cbv zeta. eapply rel_bind; [apply rel_refuse; nolate|gro|]. intros _ _ _.
  apply rel_docode. reflexivity.
Qed.
Lemma rel_z_arith : forall z lt c o, rel z true lt any (z_arith c o) (z_arith c o).
Proof.
  intros z lt c o. unfold z_arith. step rel_clrall. intros _ _ _. step rel_filter2. intros a b <-. destruct a as [[p q]|]; [|apply rel_error].
  step rel_getreg. intros g b <-. if1; [apply rel_z_logical|]. if1; [|apply rel_error].
  eapply rel_bind; [apply rel_getcp|gro|]. intros c1 c2 _. eapply rel_bind; [apply rel_refuse; nolate|gro|]. intros _ _ _. cbv zeta.
  step rel_getreg. intros h b <-. eapply rel_bind; [apply rel_refuse; nolate|gro|]. intros _ _ _. apply rel_docode. reflexivity.
Qed.
Lemma rel_z_incr : forall z lt c o, rel z true lt any (z_incr c o) (z_incr c o).
Proof.
  intros z lt c o. unfold z_incr. step rel_clrall. intros _ _ _. step rel_getreg. intros g b <-. if1; [apply rel_docode; reflexivity|].
  if1; [apply rel_docode; reflexivity|apply rel_error].
Qed.
Lemma rel_z_ld : forall z lt o, rel z true lt any (z_ld o) (z_ld o).
Proof.
  intros z lt o. unfold z_ld. step rel_filter2. intros a b <-. destruct a as [[p q]|]; [|apply rel_error]. step rel_clrall. intros _ _ _.
  step rel_getreg. intros g b <-. step rel_getreg. intros h b <-. destruct (ld_code g h) as [[c a8]|]; [|apply rel_error].
  eapply rel_bind with (Q := any) (z1 := true); [|gro|].
  { destruct a8; cbn [when]; [apply rel_cp; same|apply rel_ret; exact Logic.I]. }
  intros _ _ _. apply rel_docode. reflexivity.
Qed.
End Cpu.
