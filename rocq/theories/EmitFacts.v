(** Lemmas on the emission of bytes. *)
From Coq Require Import String Ascii ZArith List Bool Lia ZifyBool ZifyNat.
From Verif Require Import Base BaseFacts State Tree Filter Output Label Operator Parse Scode.
From Verif Require Import Walk TreeFacts Frame Run Eval SpecEmit.
Import ListNotations.
Open Scope Z_scope.
Ltac Zify.zify_post_hook ::= Z.div_mod_to_equations.

(** ** Lists of bytes *)
Lemma placed_app : forall k c bs a bs', placed k c a (bs ++ bs') =
  placed k c a bs ++ placed k c (a + Z.of_nat (List.length bs)) bs'.
Proof.
  intros k c. induction bs as [|b bs IH]; intros a bs'; cbn [app placed List.length].
  - rewrite Z.add_0_r. reflexivity.
  - rewrite IH. do 3 f_equal. lia.
Qed.
Lemma placed_mod : forall k c bs a a', a mod 2 ^ 64 = a' mod 2 ^ 64 -> placed k c a bs = placed k c a' bs.
Proof.
  intros k c. induction bs as [|b bs IH]; intros a a' E; [reflexivity|]. cbn [placed]. rewrite E. f_equal.
  apply IH. rewrite <- (Z.add_mod_idemp_l a), <- (Z.add_mod_idemp_l a') by lia. rewrite E. reflexivity.
Qed.

Notation pcok := pc_range.

Lemma emits_nil : forall s, pcok s -> emits [] s s.
Proof.
  intros s R. unfold emits, pc_range in *. cbn [placed rev app List.length]. rewrite Z.mod_small by lia. repeat split; lia.
Qed.

Lemma emits_app : forall a b s s1 s2, emits a s s1 -> same s s1 -> emits b s1 s2 -> emits (a ++ b) s s2.
Proof.
  intros a b s s1 s2 (A1 & A2 & A3) (F & _ & _ & _ & _ & Pn & _) (B1 & B2 & B3). unfold emits.
  rewrite app_length, Nat2Z.inj_add. repeat split.
  - rewrite B1, A1, F, Pn, A2. rewrite placed_app, rev_app_distr, <- app_assoc. do 2 f_equal.
    apply placed_mod. rewrite Z.mod_mod by lia. reflexivity.
  - rewrite B2, A2. rewrite Z.add_mod_idemp_l by lia. f_equal. lia.
  - lia.
Qed.

Lemma emits_still : forall bs s s1 s2 s3, same s s1 -> still s s1 -> emits bs s1 s2 -> still s2 s3 ->
  emits bs s s3.
Proof.
  intros bs s s1 s2 s3 (F & _ & _ & _ & _ & Pn & _) (W & A & E) (B1 & B2 & B3) (W' & A' & E'). unfold emits.
  rewrite W', A', E', B1, B2, B3, F, Pn, W, A, E. repeat split.
Qed.

Lemma emits_pc : forall bs s s', emits bs s s' -> pcok s'.
Proof. intros bs s s' (_ & E & _). unfold pc_range. rewrite E. apply Z.mod_pos_bound. lia. Qed.

(** ** One byte *)
Definition held : relation := fun _ s s' =>
  s'.(emitted) = s.(emitted) /\ s'.(wr).(pc) = s.(wr).(pc) /\ s'.(ct).(advance) = s.(ct).(advance).
Lemma held_osteps : osteps held.
Proof.
  constructor; [constructor|..]; unfold held; intros; try (repeat split; reflexivity); intuition congruence.
Qed.
Lemma held_order : order held.
Proof. apply held_osteps. Qed.
Lemma held_scwrite : forall t, pres held _ (scwrite t).
Proof.
  intros t. unfold scwrite. apply (pres_bind _ held_order); [apply (pres_gets _ held_order)|intros w].
  destruct (scode w); [intros s; repeat split|apply (pres_ub _ held_order)].
Qed.
Lemma held_flush : pres held _ flushscoderaw.
Proof.
  unfold flushscoderaw.
  repeat first
    [ match goal with |- pres _ _ (bind _ _) => apply (pres_bind _ held_order); [|intros] end
    | apply (pres_gets _ held_order) | apply (pres_ret _ held_order) | apply held_scwrite
    | match goal with |- pres _ _ (match ?x with _ => _ end) => destruct x end
    | intros ?s; repeat split ].
Qed.

Theorem insert8_emits : forall x s u s', pcok s -> insert8 x s = (Ok u, s') -> emits [x mod 256] s s' /\ same s s'.
Proof.
  intros x s u s' R E. split; [|exact (insert8_keeps _ _ _ _ E)].
  unfold insert8 in E. unfold bind at 1 in E. cbn [gets] in E.
  destruct (a_org_gv (fl s)); cbn [negb when] in E.
  2:{ unfold err in E. rewrite error_bind in E. elim (error_never _ _ _ _ _ E). }
  unfold bind at 1 in E. cbn [ret] in E. unfold bind at 1 in E. unfold modify in E.
  set (s1 := set_emitted _ s) in E.
  assert (Bd : forall A C (m : M A) (k : A -> M C) s1 c s3, bind m k s1 = (Ok c, s3) ->
     pres held A m -> exists a s2, k a s2 = (Ok c, s3) /\ held Fine s1 s2).
  { intros A C m k sa c sc H Hm. specialize (Hm sa). unfold bind in H. destruct (m sa) as [[a|b] sb]; [|discriminate].
    exists a, sb. split; [exact H|]. exact Hm. }
  apply Bd in E.
  2:{ destruct (negb _); [|apply (pres_ret _ held_order)]. destruct (scode _); [apply (pres_ret _ held_order)|].
      apply (pres_bind _ held_order); intros; intros ?s; repeat split. }
  destruct E as (u1 & s2 & E & (H1 & H2 & H3)).
  apply Bd in E.
  2:{ destruct (a_code_on (fl s)); [|apply (pres_ret _ held_order)].
      apply (pres_bind _ held_order); [apply (pres_gets _ held_order)|intros w].
      apply (pres_bind _ held_order).
      - destruct (scode w); [|apply (pres_ret _ held_order)]. apply (pres_bind _ held_order); [|intros _ ?s; repeat split].
        unfold when. destruct (16 <=? _); [apply held_flush|apply (pres_ret _ held_order)].
      - intros _. apply (pres_bind _ held_order); [intros ?s; repeat split|intros _].
        apply (pres_outputbyte _ held_osteps). }
  destruct E as (u2 & s3 & E & (H4 & H5 & H6)).
  unfold bind, upd_ct, upd_wr, modify in E. injection E as _ <-.
  unfold emits. cbn [emitted ct wr set_ct set_wr pc set_pc advance set_advance passnumber placed rev app List.length].
  rewrite H4, H1, H5, H2, H6, H3. subst s1. cbn [emitted set_emitted wr ct]. change (Z.of_nat 1) with 1.
  unfold pc_range in R. rewrite (Z.mod_small (pc (wr s))) by lia. unfold u8, u64. repeat split.
Qed.

Lemma flags_emits : forall bs s f s', f.(a_code_on) = s.(fl).(a_code_on) -> emits bs (set_fl f s) s' -> emits bs s s'.
Proof. intros bs s f s' E H. unfold emits in *. cbn [fl set_fl ct wr emitted] in H. rewrite E in H. exact H. Qed.

(** ** Words *)
Definition good (bs : list Z) (s s' : state) : Prop := emits bs s s' /\ same s s'.

Lemma good_app : forall a b s s1 s2, good a s s1 -> good b s1 s2 -> good (a ++ b) s s2.
Proof.
  intros a b s s1 s2 [A A'] [B B']. split; [eapply emits_app; eassumption|]. eapply same_trans; eassumption.
Qed.

Lemma seq_ok : forall A B (m : M A) (k : A -> M B) s b s', bind m k s = (Ok b, s') ->
  exists a s1, m s = (Ok a, s1) /\ k a s1 = (Ok b, s').
Proof.
  intros A B m k s b s' H. unfold bind in H. destruct (m s) as [[a|x] s1]; [|discriminate].
  exists a, s1. split; [reflexivity|exact H].
Qed.

Lemma two_bytes : forall x y s u s', pcok s -> (insert8 x ;;; insert8 y) s = (Ok u, s') ->
  good [x mod 256; y mod 256] s s'.
Proof.
  intros x y s u s' R E. apply seq_ok in E. destruct E as (v & s1 & E1 & E2).
  pose proof (insert8_emits _ _ _ _ R E1) as G1.
  pose proof (insert8_emits _ _ _ _ (emits_pc _ _ _ (proj1 G1)) E2) as G2.
  exact (good_app _ _ _ _ _ G1 G2).
Qed.

Lemma same_fl : forall s s', same s s' -> s'.(fl) = s.(fl).
Proof. intros s s' H. apply H. Qed.

Lemma insert16_good : forall x s u s', pcok s -> insert16 x s = (Ok u, s') ->
  good (word 2 s.(fl).(a_lohi) x) s s'.
Proof.
  intros x s u s' R E. unfold insert16 in E. unfold bind at 1 in E. cbn [gets] in E. cbv zeta in E.
  unfold word. destruct (a_lohi (fl s)); apply two_bytes in E; try exact R; cbn [little rev app]; unfold u16 in E;
    rewrite Z.shiftr_div_pow2 in E by lia; change (2 ^ 8) with 256 in E; change (2 ^ 16) with 65536 in E.
  - replace (x mod 256) with ((x mod 65536) mod 256) by lia.
    replace ((x / 256) mod 256) with (((x mod 65536) / 256) mod 256) by lia. exact E.
  - replace (x mod 256) with ((x mod 65536) mod 256) by lia.
    replace ((x / 256) mod 256) with (((x mod 65536) / 256) mod 256) by lia. exact E.
Qed.

Lemma insert32_good : forall x s u s', pcok s -> insert32 x s = (Ok u, s') ->
  good (word 4 s.(fl).(a_lohi) x) s s'.
Proof.
  intros x s u s' R E. unfold insert32 in E. unfold bind at 1 in E. cbn [gets] in E. cbv zeta in E.
  assert (K : forall p q s u s', pcok s -> (insert16 p ;;; insert16 q) s = (Ok u, s') ->
     good (word 2 s.(fl).(a_lohi) p ++ word 2 s.(fl).(a_lohi) q) s s').
  { clear. intros p q s u s' R E. apply seq_ok in E. destruct E as (v & s1 & E1 & E2).
    pose proof (insert16_good _ _ _ _ R E1) as G1.
    pose proof (insert16_good _ _ _ _ (emits_pc _ _ _ (proj1 G1)) E2) as G2.
    rewrite (same_fl _ _ (proj2 G1)) in G2. exact (good_app _ _ _ _ _ G1 G2). }
  assert (B0 : forall y, (y mod 4294967296) mod 256 = y mod 256) by (intros; lia).
  assert (B1 : ((x mod 4294967296) / 256) mod 256 = (x / 256) mod 256) by lia.
  assert (B2 : ((x mod 4294967296) / 65536) mod 256 = (x / 256 / 256) mod 256) by lia.
  assert (B3 : ((x mod 4294967296) / 65536 / 256) mod 256 = (x / 256 / 256 / 256) mod 256) by lia.
  destruct (a_lohi (fl s)) eqn:F; apply K in E; try exact R; rewrite F in E; unfold word in *; cbn [little rev app] in *;
    unfold u32 in E; rewrite Z.shiftr_div_pow2 in E by lia; change (2 ^ 16) with 65536 in E; change (2 ^ 32) with 4294967296 in E;
    rewrite B0, B1, B2, B3 in E; exact E.
Qed.
