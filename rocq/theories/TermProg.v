(** The whole program ends (C34, C36).  Nothing here is part of the model. *)
From Coq Require Import String Ascii ZArith List Bool Lia.
From Verif Require Import Base State Tree Filter Output Label Operator Parse Scode Tables.
From Verif Require Import Cpu6800 Cpu6502 CpuZ80 Pseudos Macro Xref Crasm.
From Verif Require Import EndFacts ParseEnd SpecEnd LineEnd TermFacts TermRun.
Import ListNotations.
Open Scope Z_scope.

Lemma settled_ext : forall A (F G : nat -> M A) s, (forall n, F n s = G n s) -> settled F s -> settled G s.
Proof. intros A F G s E (n & r & s' & H & P). exists n, r, s'. split; [|exact P]. intros m Le. rewrite <- E. auto. Qed.

Lemma passstart_end : forall k s, Inv s -> match passstart k s with (Ok _, s') => Inv s' | _ => False end.
Proof.
  intros k s I. rewrite Run.passstart_eq. exact I.
Qed.
Lemma pass_settled : forall k s, Inv s -> settled (fun n => pass n k) s.
Proof.
  intros k s I. unfold pass. apply settled_bind.
  - apply settled_const. pose proof (passstart_end k s I) as H. destruct (passstart k s) as [[a|b] s']; [exact H|destruct H].
  - intros _ s1 I1. apply passloop_settled. exact I1.
Qed.

(** ** The summary *)
Lemma hexdigits_short : forall k n z acc, 0 <= z < 16 ^ Z.of_nat k -> (k > 0)%nat ->
  zlen (hex_digits n z acc) <= Z.of_nat k + zlen acc.
Proof.
  induction k as [|k IH]; intros n z acc B K; [lia|].
  destruct n as [|n]; cbn [hex_digits]; [lia|]. destruct (z <? 16) eqn:E.
  - unfold zlen. cbn [List.length]. lia.
  - destruct k as [|k]; [cbn in B; lia|].
    eapply Z.le_trans; [apply IH; [|lia]|].
    + replace (Z.of_nat (S (S k))) with (Z.succ (Z.of_nat (S k))) in B by lia. rewrite Z.pow_succ_r in B by lia.
      split; [apply Z.div_pos; lia|apply Z.div_lt_upper_bound; lia].
    + unfold zlen. cbn [List.length]. lia.
Qed.
Lemma dec_short : forall k z, 0 <= z < 10 ^ Z.of_nat k -> (k > 0)%nat -> zlen (dec z) <= Z.of_nat k.
Proof.
  intros k z B K. unfold dec. destruct (z <? 0) eqn:E; [lia|].
  pose proof (digits_short k (S (Z.to_nat (Z.log2 z))) z [] B K) as H. unfold zlen in *. cbn [List.length] in H. lia.
Qed.
Lemma padl_len : forall n t, zlen (padl n t) = Z.max (Z.of_nat n) (zlen t).
Proof. intros n t. unfold padl, zlen. rewrite app_length, repeat_length. lia. Qed.
Lemma zlen_app : forall (a b : str), zlen (a ++ b) = zlen a + zlen b.
Proof. intros a b. unfold zlen. rewrite app_length. lia. Qed.

Lemma l_output : forall t, L _ (output t).
Proof. exact (ends_output _ lbL lbF lbX). Qed.
Lemma l_resline : forall t, zlen t < 40 -> L _ (resline t).
Proof.
  intros t B. unfold resline. destruct (40 <=? zlen t) eqn:E; [lia|]. apply ends_bind; [apply l_output|intros; apply l_outputEOL].
Qed.
Definition sum_bad (b : bad) (s : state) : Prop := line_bad b s \/ b = UB "result: buffer overflow".
Lemma s_resline : forall t, ends sum_bad _ (resline t).
Proof.
  intros t. unfold resline. destruct (40 <=? zlen t) eqn:E; [apply ends_stop; right; reflexivity|].
  apply (ends_mono line_bad); [left; assumption|]. apply ends_bind; [apply l_output|intros; apply l_outputEOL].
Qed.
Definition summary (s : state) : M unit :=
  (if s.(ls).(plen) - s.(ls).(ppos) <? 10
   then outputEOP ;;; outputEOL ;;; outputEOL else ret tt) ;;;
  outputEOL ;;;
  resline (s2l "ERRORS:    " ++ padl 4 (dec s.(ct).(errnumber))) ;;;
  resline (s2l "WARNINGS:  " ++ padl 4 (dec s.(ct).(warnnumber))) ;;;
  outputEOL ;;;
  if s.(ct).(errnumber) =? 0 then
    output (s2l "Successful assembly...") ;;;
    outputEOL ;;;
    resline (s2l " Last address " ++ padl 8 (hexlc (u64 (s.(wr).(pc) - 1)))
             ++ s2l " (" ++ dec (s64 (s.(wr).(pc) - 1)) ++ s2l ")") ;;;
    resline (s2l " Code length  " ++ padl 8 (hexlc s.(wr).(codelen))
             ++ s2l " (" ++ dec (s64 s.(wr).(codelen)) ++ s2l ")")
  else
    output (s2l "No code generated...") ;;;
    outputEOL.
Lemma results_eq : forall s, results s = summary s s.
Proof. reflexivity. Qed.

Lemma address_short : forall v, 0 <= v <= 2 ^ 32 ->
  zlen (padl 8 (hexlc v)) <= 9 /\ zlen (dec (s64 v)) <= 10.
Proof.
  intros v B. split.
  - rewrite padl_len. unfold hexlc. pose proof (hexdigits_short 9 (S (Z.to_nat (Z.log2 v))) v [] ltac:(cbn; lia) ltac:(lia)) as H.
    unfold zlen in *. cbn [List.length] in H. lia.
  - replace (s64 v) with v; [apply (dec_short 10); [cbn; lia|lia]|].
    unfold s64. rewrite Z.mod_small; lia.
Qed.
Lemma summary_small : forall s, small s -> L _ (summary s).
Proof.
  intros s (P & C & E & W). unfold summary.
  assert (R1 : forall v, 0 <= v < 10 ^ 20 -> zlen (padl 4 (dec v)) <= 20).
  { intros v B. rewrite padl_len. pose proof (dec_short 20 v B ltac:(lia)). lia. }
  assert (A : zlen (padl 8 (hexlc (u64 (pc (wr s) - 1)))) + zlen (dec (s64 (pc (wr s) - 1))) <= 20).
  { assert (K : pc (wr s) = 0 \/ 1 <= pc (wr s)) by lia. destruct K as [K|K].
    - rewrite K. vm_compute. discriminate.
    - destruct (address_short (pc (wr s) - 1) ltac:(lia)) as [A1 A2].
      replace (u64 (pc (wr s) - 1)) with (pc (wr s) - 1) by (unfold u64; rewrite Z.mod_small; lia). lia. }
  apply ends_bind; [destruct (_ <? 10); l; first [apply l_outputEOP|apply l_outputEOL]|intros _].
  apply ends_bind; [apply l_outputEOL|intros _].
  apply ends_bind; [apply l_resline; rewrite zlen_app; specialize (R1 _ E); change (zlen (s2l "ERRORS:    ")) with 11; lia|intros _].
  apply ends_bind; [apply l_resline; rewrite zlen_app; specialize (R1 _ W); change (zlen (s2l "WARNINGS:  ")) with 11; lia|intros _].
  apply ends_bind; [apply l_outputEOL|intros _].
  destruct (errnumber (ct s) =? 0).
  - apply ends_bind; [apply l_output|intros _]. apply ends_bind; [apply l_outputEOL|intros _]. apply ends_bind; [|intros _].
    + apply l_resline. rewrite !zlen_app. change (zlen (s2l " Last address ")) with 14. change (zlen (s2l " (")) with 2.
      change (zlen (s2l ")")) with 1. lia.
    + apply l_resline. rewrite !zlen_app. change (zlen (s2l " Code length  ")) with 14. change (zlen (s2l " (")) with 2.
      change (zlen (s2l ")")) with 1. destruct (address_short _ C). lia.
  - apply ends_bind; [apply l_output|intros _; apply l_outputEOL].
Qed.
Lemma summary_any : forall s, ends sum_bad _ (summary s).
Proof.
  intros s. unfold summary.
  assert (M : forall A (m : M A), L A m -> ends sum_bad A m) by (intros A m; apply ends_mono; left; assumption).
  apply ends_bind; [apply M; destruct (_ <? 10); l; first [apply l_outputEOP|apply l_outputEOL]|intros _].
  apply ends_bind; [apply M, l_outputEOL|intros _].
  apply ends_bind; [apply s_resline|intros _]. apply ends_bind; [apply s_resline|intros _].
  apply ends_bind; [apply M, l_outputEOL|intros _].
  destruct (errnumber (ct s) =? 0).
  - apply ends_bind; [apply M, l_output|intros _]. apply ends_bind; [apply M, l_outputEOL|intros _].
    apply ends_bind; [apply s_resline|intros _; apply s_resline].
  - apply ends_bind; [apply M, l_output|intros _; apply M, l_outputEOL].
Qed.

(** Listing changes none of the figures. *)
Definition figures : Frame.relation := fun _ s s' => s'.(wr) = s.(wr) /\
  s'.(ct).(errnumber) = s.(ct).(errnumber) /\ s'.(ct).(warnnumber) = s.(ct).(warnnumber).
Lemma figures_steps : Frame.lsteps figures.
Proof.
  constructor; [constructor|..]; unfold figures; intros; auto.
  destruct H as (A1 & A2 & A3), H0 as (B1 & B2 & B3). repeat split; congruence.
Qed.
Lemma results_end : forall s, wide s ->
  match results s with (Ok _, s') => wide s' | (Bad b, s') => assembly_ends (@Bad unit b) s' end.
Proof.
  intros s W. pose proof (Frame.pres_results figures (Frame.lsteps_osteps _ figures_steps) s) as F. rewrite results_eq in *.
  assert (D : small s \/ ~ small s) by (unfold small; lia). destruct D as [D|D].
  - pose proof (summary_small s D s W) as H. destruct (summary s s) as [[a|b] s']; [apply H|]. left. apply line_run. apply H.
  - pose proof (summary_any s s W) as H. destruct (summary s s) as [[a|b] s']; [apply H|]. destruct H as [_ [H|H]].
    + left. exact (line_run _ _ H).
    + right. split; [exact H|]. cbn [snd] in F. destruct F as (F1 & F2 & F3). unfold small in *. rewrite F1, F2, F3. exact D.
Qed.
Lemma finish_end : forall s, wide s ->
  match finish s with (Ok _, s') => wide s' | (Bad b, s') => assembly_ends (@Bad unit b) s' end.
Proof.
  intros s W. unfold finish. unfold bind at 1. cbn [gets].
  assert (C : L _ (match scode (wr s) with Some _ => closescodefile | None => ret tt end)).
  { destruct (scode (wr s)); [|apply ends_ret]. unfold closescodefile. l; first [apply l_flushscoderaw|apply l_scwrite]. }
  unfold bind at 1. specialize (C s W). destruct (match scode (wr s) with Some _ => closescodefile | None => ret tt end s) as [[u|b] s1].
  - unfold bind. cbn [upd_fl modify]. apply (results_end (set_fl _ s1)). exact (proj1 C).
  - left. apply line_run. apply C.
Qed.

Lemma l_printlabel : forall n v, L _ (printlabel n v).
Proof.
  intros n v. unfold printlabel. l;
    first [apply l_output|apply l_position|apply l_outputEOL|exact (ends_outputcar _ lbL lbF lbX _)|exact (ends_outputaddr _ lbL lbF lbX _)].
Qed.
Lemma l_xref2 : forall t, L _ (xref2 t).
Proof.
  induction t as [|a IHa k v b IHb]; cbn [xref2]; [apply ends_ret|].
  apply ends_bind; [exact IHa|intros _]. apply ends_bind; [apply l_printlabel|intros _; exact IHb].
Qed.
Theorem symbols_end : forall o s r s', wide s -> symbols o s = (r, s') -> assembly_ends r s'.
Proof.
  intros o s r s' W E.
  assert (S : L _ (symbols o)).
  { unfold symbols. l. unfold xref. l; first [apply l_outputEOP|apply l_xref2]. }
  specialize (S s W). rewrite E in S. destruct r as [a|b]; [exact I|]. left. apply line_run. apply S.
Qed.

(** ** The program *)
Lemma start_inv : forall fs text, Inv (init_state fs text).
Proof. intros fs text. split; [unfold wide; cbn; lia|cbn; lia]. Qed.
Theorem assembly : forall o s, Inv s -> exists n r s',
  (forall m, (n <= m)%nat -> assemble m o s = (r, s')) /\ assembly_ends r s' /\ (r = Ok tt -> wide s').
Proof.
  intros o s0 I0.
  assert (S : settled (fun n => init_label_list pseudos ;;; pass n 1 ;;; between o ;;; pass n 2) s0).
  { apply (settled_bind _ _ (fun _ => init_label_list pseudos)); [apply (settled_local line_bad); [exact line_run|apply l_init|exact I0]|].
    intros _ s1 I1. apply settled_bind; [apply pass_settled; exact I1|]. intros _ s2 I2.
    apply (settled_bind _ _ (fun _ => between o)).
    - apply settled_const. rewrite Run.between_eq. exact I2.
    - intros _ s3 I3. apply pass_settled. exact I3. }
  assert (E : forall m, assemble m o s0 = bind (init_label_list pseudos ;;; pass m 1 ;;; between o ;;; pass m 2) (fun _ => finish) s0).
  { intros m. unfold assemble. unfold bind.
    destruct (init_label_list pseudos s0) as [[u|b] s1]; [|reflexivity].
    destruct (pass m 1 s1) as [[u1|b] s2]; [|reflexivity]. destruct (between o s2) as [[u2|b] s3]; reflexivity. }
  destruct S as (n & r & s1 & H & P). destruct r as [u|b].
  - pose proof (finish_end s1 (proj1 P)) as F. destruct (finish s1) as [r s2] eqn:X. exists n, r, s2. split.
    + intros m Le. rewrite E. unfold bind at 1. rewrite (H m Le). exact X.
    + destruct r as [v|b]; [split; [exact I|intros _; exact F]|split; [exact F|discriminate]].
  - exists n, (Bad b), s1. split; [|split; [left; exact P|discriminate]]. intros m Le. rewrite E. unfold bind at 1. rewrite (H m Le). reflexivity.
Qed.

Theorem program_ends : forall fs args, exists n,
  (forall m, (n <= m)%nat -> program m fs args = program n fs args) /\ program n fs args <> Crash NoFuel.
Proof.
  intros fs args. unfold program. destruct (arguments args opt0) as [o|m]; [|exists 0%nat; split; [reflexivity|discriminate]].
  destruct (o_input o) as [name|]; [|exists 0%nat; split; [reflexivity|discriminate]].
  destruct (fs name) as [text|]; [|exists 0%nat; split; [reflexivity|discriminate]].
  destruct (assembly o (init_state fs text) (start_inv fs text)) as (n & r & s' & H & P & W). exists n.
  assert (Q : forall m, (n <= m)%nat -> observe m o (init_state fs text) =
    match r with Ok _ =>
      match symbols o s' with
      | (Ok _, s2) => Seen (pieces s2.(ls).(stdout)) 0 (leftover o s')
      | (Bad (Exit _), s2) => Seen (pieces s2.(ls).(stdout)) 10 (leftover o s')
      | (Bad b, _) => Crash b
      end
  | Bad (Exit _) => Seen (pieces s'.(ls).(stdout)) 10 (objtext s'.(wr))
  | Bad b => Crash b end).
  { intros m Le. unfold observe. rewrite (H m Le). destruct r as [u|[e|e|w| |]]; reflexivity. }
  split; [intros m Le; rewrite (Q m Le), (Q n (le_n n)); reflexivity|]. rewrite (Q n (le_n n)).
  destruct r as [[]|b].
  - destruct (symbols o s') as [[u|b] s2] eqn:X; [discriminate|]. apply symbols_end in X; [|apply W; reflexivity].
    destruct b; try discriminate. destruct X as [[]|[X _]]; discriminate X.
  - destruct b; try discriminate. destruct P as [[]|[P _]]; discriminate P.
Qed.
Theorem run_settles : forall fs text o,
  exists n r s', (forall m, (n <= m)%nat -> assemble m o (init_state fs text) = (r, s')) /\
    assembly_ends r s' /\
    forall r2 s2, r = Ok tt -> symbols o s' = (r2, s2) -> assembly_ends r2 s2.
Proof.
  intros fs text o. destruct (assembly o _ (start_inv fs text)) as (n & r & s' & H & P & W).
  exists n, r, s'. split; [exact H|]. split; [exact P|]. intros r2 s2 R. apply symbols_end. exact (W R).
Qed.
