(** How computations end (C34, C36, C48): a bound on the outcomes of the basic
    operations. *)
From Coq Require Import String Ascii ZArith List Bool Lia ZifyBool ZifyNat.
From Verif Require Import Base BaseFacts State Tree Filter Output Label Operator Parse.
From Verif Require Import Macro Walk TreeFacts Frame.
Import ListNotations.
Open Scope Z_scope.

(** The page formats that PAGE can select. *)
Definition wide (s : state) : Prop :=
  39 <= s.(ls).(llen) <= 1000 /\ 0 <= s.(ls).(ppos) /\ 0 <= s.(ls).(plen).

(** The source is where it was. *)
Definition kept (s s' : state) : Prop :=
  s'.(inp).(srcs) = s.(inp).(srcs) /\ s'.(inp).(mainrest) = s.(inp).(mainrest) /\
  s'.(inp).(maineof) = s.(inp).(maineof) /\ s'.(inp).(curline) = s.(inp).(curline) /\
  s'.(inp).(linenumber) = s.(inp).(linenumber).
Lemma kept_refl : forall s, kept s s.
Proof. intros s. unfold kept. auto. Qed.
Lemma kept_trans : forall a b c, kept a b -> kept b c -> kept a c.
Proof. unfold kept. intros a b c (A1 & A2 & A3 & A4 & A5) (B1 & B2 & B3 & B4 & B5). repeat split; congruence. Qed.
Lemma kept_inp : forall s s', s'.(inp) = s.(inp) -> kept s s'.
Proof. intros s s' E. unfold kept. rewrite E. auto. Qed.

Definition after (s s' : state) : Prop := wide s' /\ kept s s'.
Lemma after_refl : forall s, wide s -> after s s.
Proof. intros s W. split; [exact W|apply kept_refl]. Qed.
Lemma after_inp : forall s s', wide s' -> s'.(inp) = s.(inp) -> after s s'.
Proof. intros s s' W E. split; [exact W|exact (kept_inp _ _ E)]. Qed.
Lemma after_trans : forall a b c, after a b -> after b c -> after a c.
Proof. intros a b c [_ H] [W K]. split; [exact W|exact (kept_trans _ _ _ H K)]. Qed.

(** The width of a line number. *)
Lemma digits_short : forall k n z acc, 0 <= z < 10 ^ Z.of_nat k -> (k > 0)%nat ->
  zlen (dec_digits n z acc) <= Z.of_nat k + zlen acc.
Proof.
  induction k as [|k IH]; intros n z acc B K; [lia|].
  destruct n as [|n]; cbn [dec_digits]; [lia|]. destruct (z <? 10) eqn:E.
  - unfold zlen. cbn [List.length]. lia.
  - destruct k as [|k]; [cbn in B; lia|].
    eapply Z.le_trans; [apply IH; [|lia]|].
    + replace (Z.of_nat (S (S k))) with (Z.succ (Z.of_nat (S k))) in B by lia. rewrite Z.pow_succ_r in B by lia.
      split; [apply Z.div_pos; lia|apply Z.div_lt_upper_bound; lia].
    + unfold zlen. cbn [List.length]. lia.
Qed.
Lemma padded : forall n, 0 <= n < 10000000 -> zlen (padl 7 (dec n)) = 7.
Proof.
  intros n B. unfold dec. destruct (n <? 0) eqn:E; [lia|]. unfold padl, zlen. rewrite app_length, repeat_length.
  pose proof (digits_short 7 (S (Z.to_nat (Z.log2 n))) n [] ltac:(cbn; lia) ltac:(lia)) as H. unfold zlen in H.
  cbn [List.length] in H. lia.
Qed.

Section Ends.
Variable Q : bad -> state -> Prop.
Definition ends A (m : M A) : Prop := forall s, wide s ->
  match m s with (Ok _, s') => after s s' | (Bad b, s') => after s s' /\ Q b s' end.

Lemma ends_ret : forall A (a : A), ends A (ret a).
Proof. intros A a s H. split; [exact H|apply kept_refl]. Qed.
Lemma ends_gets : forall A (f : state -> A), ends A (gets f).
Proof. intros A f s H. split; [exact H|apply kept_refl]. Qed.
Lemma ends_bind' : forall A B (m : M A) (k : A -> M B), ends A m ->
  (forall s a s', m s = (Ok a, s') -> ends B (k a)) -> ends B (bind m k).
Proof.
  intros A B m k H K s W. unfold bind. specialize (H s W). destruct (m s) as [[a|b] s1] eqn:E; [|exact H].
  specialize (K s a s1 E s1 (proj1 H)). destruct (k a s1) as [[c|b] s2].
  - exact (after_trans _ _ _ H K).
  - split; [exact (after_trans _ _ _ H (proj1 K))|exact (proj2 K)].
Qed.
Lemma ends_bind : forall A B (m : M A) (k : A -> M B), ends A m -> (forall a, ends B (k a)) -> ends B (bind m k).
Proof. intros A B m k H K. apply ends_bind'; auto. Qed.
Lemma ends_ext : forall A (m m' : M A), (forall s, m s = m' s) -> ends A m -> ends A m'.
Proof. intros A m m' E H s. rewrite <- E. apply H. Qed.
Lemma ends_stop : forall A b, (forall s, Q b s) -> ends A (stop b).
Proof. intros A b H s W. split; [split; [exact W|apply kept_refl]|apply H]. Qed.
Lemma ends_modify : forall f, (forall s, wide s -> wide (f s)) -> (forall s, kept s (f s)) -> ends unit (modify f).
Proof. intros f H K s W. split; [exact (H s W)|apply K]. Qed.
Lemma ends_catch : forall A (m : M A), ends A m -> ends _ (catch m).
Proof.
  intros A m H s W. unfold catch. specialize (H s W). destruct (m s) as [[a|[]] s']; try exact H.
  destruct H as [[W' K] _]. split; [exact W'|exact K].
Qed.

Hypothesis QL : forall s, s.(ls).(llen) = 1000 -> Q (UB "linebuffer overflow") s.
Hypothesis QF : forall s, Q (UB "filter: buffer overflow") s.
Hypothesis QX : forall m s, Q (Exit m) s.

Ltac um := apply ends_modify;
  [let s0 := fresh in let W0 := fresh in intros s0 W0; first [exact W0|clear - W0; unfold wide in *; cbn [ls set_ls llen ppos plen set_llen set_ppos set_plen set_pagenumber set_lpos set_lastoffset set_linebuffer set_stdout set_mypc set_title set_titleflag set_pageflag set_sheets set_composed]; lia]
  |intro; unfold kept; repeat split; reflexivity].
Ltac u1 :=
  lazymatch goal with
  | |- ends _ (bind _ _) => apply ends_bind; [ | intros ]
  | |- ends _ (ret _) => apply ends_ret
  | |- ends _ (gets _) => apply ends_gets
  | |- ends _ (when _ _) => unfold when
  | |- ends _ (upd_ls _) => um
  | |- ends _ (upd_fl _) => um
  | |- ends _ (upd_ct _) => um
  | |- ends _ (upd_sy _) => um
  | |- ends _ (upd_inp _) => um
  | |- ends _ (upd_wr _) => um
  | |- ends _ (upd_cp _) => um
  | |- ends _ (modify _) => um
  | |- ends _ (match ?x with _ => _ end) => destruct x
  | |- ends _ (let (_, _) := ?x in _) => destruct x
  end.
Ltac u := repeat first [u1 | progress (cbv beta zeta)].

Lemma ends_print : forall t, ends _ (print t).
Proof. intros. unfold print. u. Qed.
Lemma ends_fatal : forall A m, ends A (fatal m).
Proof. intros. unfold fatal. u; [apply ends_print|]. apply ends_stop. intros s. apply QX. Qed.
Lemma ends_outputraw : forall t, ends _ (outputraw t).
Proof. intros. unfold outputraw. u; apply ends_print. Qed.

(** Writing within the line. *)
Lemma lbwrite_end : forall i c s, wide s -> i <= s.(ls).(llen) ->
  match lbwrite i c s with
  | (Ok _, s') => after s s' /\ s'.(ls).(llen) = s.(ls).(llen) /\ s'.(ls).(lpos) = s.(ls).(lpos)
  | (Bad b, s') => after s s' /\ Q b s' end.
Proof.
  intros i c s W L. unfold lbwrite. destruct (1000 <=? i) eqn:E; cbn.
  - split; [apply after_refl; exact W|]. apply QL. unfold wide in W. lia.
  - split; [|auto]. apply after_inp; [exact W|reflexivity].
Qed.

Lemma ends_outputEOL : ends _ outputEOL.
Proof.
  unfold outputEOL. u; [apply ends_outputraw|]. intros s W.
  pose proof (lbwrite_end 0 (cz 0) s W) as H. destruct (lbwrite 0 (cz 0) s) as [[v|b] s'].
  - apply H. unfold wide in W. lia.
  - apply H. unfold wide in W. lia.
Qed.

(** One blank moves the position by one. *)
Lemma outspace_end : forall s, wide s ->
  match outspace s with
  | (Ok _, s') => after s s' /\ s'.(ls).(llen) = s.(ls).(llen) /\ s'.(ls).(lpos) = s.(ls).(lpos) + 1
  | (Bad b, s') => after s s' /\ Q b s' end.
Proof.
  intros s W. unfold outspace, bind at 1. cbn [gets]. destruct (lpos (ls s) <? llen (ls s)) eqn:E.
  - unfold bind. pose proof (lbwrite_end (lpos (ls s)) (cz 32) s W ltac:(lia)) as H.
    destruct (lbwrite (lpos (ls s)) (cz 32) s) as [[v|b] s1]; [|exact H]. destruct H as (W1 & L1 & P1).
    cbn [upd_ls modify]. set (s2 := set_ls _ s1). pose proof (lbwrite_end (lpos (ls s) + 1) (cz 0) s2 (proj1 W1)) as H.
    assert (W2 : after s s2) by exact W1.
    assert (L2 : llen (ls s2) = llen (ls s1)) by reflexivity. assert (P2 : lpos (ls s2) = lpos (ls s) + 1) by reflexivity.
    destruct (lbwrite (lpos (ls s) + 1) (cz 0) s2) as [[w|b] s3]; [|destruct H as [H1 H2]; [lia|]; split; [exact (after_trans _ _ _ W2 H1)|exact H2]].
    destruct H as (W3 & L3 & P3); [lia|]. split; [exact (after_trans _ _ _ W2 W3)|]. split; congruence.
  - cbn. split; [|auto]. apply after_inp; [exact W|reflexivity].
Qed.
Lemma ends_outspace : ends _ outspace.
Proof. intros s W. pose proof (outspace_end s W) as H. destruct (outspace s) as [[v|b] s']; apply H. Qed.

Lemma outspaces_end : forall n s, wide s ->
  match outspaces n s with
  | (Ok _, s') => after s s' /\ s'.(ls).(llen) = s.(ls).(llen) /\ s'.(ls).(lpos) = s.(ls).(lpos) + Z.of_nat n
  | (Bad b, s') => after s s' /\ Q b s' end.
Proof.
  induction n as [|n IH]; intros s W; cbn [outspaces].
  - cbn [ret]. split; [apply after_refl; exact W|]. split; [reflexivity|lia].
  - unfold bind. pose proof (outspace_end s W) as H. destruct (outspace s) as [[v|b] s1]; [|exact H].
    destruct H as (W1 & L1 & P1). specialize (IH s1 (proj1 W1)). destruct (outspaces n s1) as [[w|b] s2].
    2:{ destruct IH as [I1 I2]. split; [exact (after_trans _ _ _ W1 I1)|exact I2]. }
    destruct IH as (W2 & L2 & P2). split; [exact (after_trans _ _ _ W1 W2)|]. split; [congruence|lia].
Qed.

(** A position within the line stays within the line. *)
Lemma position_end : forall n s, wide s ->
  match position n s with
  | (Ok _, s') => after s s' /\ s'.(ls).(llen) = s.(ls).(llen) /\
      (s.(ls).(lpos) < s.(ls).(llen) -> s'.(ls).(lpos) < s'.(ls).(llen))
  | (Bad b, s') => after s s' /\ Q b s' end.
Proof.
  intros n s W. unfold position, bind. cbn [gets]. destruct (llen (ls s) <=? n) eqn:E.
  - pose proof (ends_fatal unit "line length must be greater" s W) as H.
    destruct (fatal _ s) as [[v|b] s'] eqn:F; [|exact H].
    unfold fatal, bind, print, upd_ls, modify, stop in F. discriminate F.
  - pose proof (outspaces_end (Z.to_nat (n - lpos (ls s))) s W) as H.
    destruct (outspaces _ s) as [[v|b] s']; [|exact H]. destruct H as (W' & L & P).
    split; [exact W'|]. split; [exact L|]. intros. lia.
Qed.
Lemma ends_position : forall n, ends _ (position n).
Proof. intros n s W. pose proof (position_end n s W) as H. destruct (position n s) as [[v|b] s']; apply H. Qed.

Lemma ends_outtab : forall n, ends _ (outtab n).
Proof. induction n as [|n IH]; cbn [outtab]; u; try apply ends_outspace. exact IH. Qed.

Lemma filterc_end : forall t p s,
  match filterc t p s with
  | (Ok _, s') => s'.(ls) = s.(ls) /\ s'.(inp) = s.(inp)
  | (Bad b, s') => (s'.(ls) = s.(ls) /\ s'.(inp) = s.(inp)) /\ Q b s' end.
Proof.
  intros t p s. unfold filterc, bind. cbn [gets]. destruct (4000 <=? _).
  - split; [split; reflexivity|]. apply QF.
  - destruct (fr_caps _); split; reflexivity.
Qed.
Lemma ends_filterc : forall t p, ends _ (filterc t p).
Proof.
  intros t p s W. pose proof (filterc_end t p s) as H. destruct (filterc t p s) as [[v|b] s'].
  - destruct H as [H H']. apply after_inp; [|exact H']. unfold wide. rewrite H. exact W.
  - destruct H as [[H H'] HQ]. split; [|exact HQ]. apply after_inp; [|exact H']. unfold wide. rewrite H. exact W.
Qed.

(** Keeping the position within the line. *)
Definition inside (m : M unit) : Prop := forall s, wide s -> s.(ls).(lpos) < s.(ls).(llen) ->
  match m s with
  | (Ok _, s') => after s s' /\ s'.(ls).(lpos) < s'.(ls).(llen)
  | (Bad b, s') => after s s' /\ Q b s' end.
Lemma inside_position : forall n, inside (position n).
Proof.
  intros n s W P. pose proof (position_end n s W) as H. destruct (position n s) as [[v|b] s']; [|exact H].
  destruct H as (W' & _ & H). auto.
Qed.
Lemma filter_after : forall t p s, wide s ->
  match filterc t p s with
  | (Ok _, s') => after s s' /\ s'.(ls) = s.(ls)
  | (Bad b, s') => after s s' /\ Q b s' end.
Proof.
  intros t p s W. pose proof (ends_filterc t p s W) as A. pose proof (filterc_end t p s) as H.
  destruct (filterc t p s) as [[v|b] s']; [|exact A]. split; [exact A|apply H].
Qed.
Lemma after_ok : forall s s1 (r : res unit * state) P, after s s1 ->
  match r with (Ok _, s') => after s1 s' /\ P s' | (Bad b, s') => after s1 s' /\ Q b s' end ->
  match r with (Ok _, s') => after s s' /\ P s' | (Bad b, s') => after s s' /\ Q b s' end.
Proof. intros s s1 [[v|b] s'] P A [H H']; (split; [exact (after_trans _ _ _ A H)|exact H']). Qed.
Lemma after_end : forall s s1 (r : res unit * state), after s s1 ->
  match r with (Ok _, s') => after s1 s' | (Bad b, s') => after s1 s' /\ Q b s' end ->
  match r with (Ok _, s') => after s s' | (Bad b, s') => after s s' /\ Q b s' end.
Proof.
  intros s s1 [[v|b] s'] A H; [exact (after_trans _ _ _ A H)|].
  destruct H as [H H']. split; [exact (after_trans _ _ _ A H)|exact H'].
Qed.
Lemma inside_outpats : forall l t, inside (outpats l t).
Proof.
  induction l as [|p l IH]; intros t s W P; cbn [outpats].
  { cbn. split; [apply after_refl; exact W|exact P]. }
  unfold bind. pose proof (filter_after t (s2l p) s W) as H.
  destruct (filterc t (s2l p) s) as [[[[x n]|]|b] s']; [| |exact H]; destruct H as [A E].
  - apply (after_ok s s' _ _ A). apply (inside_position n s' (proj1 A)). rewrite E. exact P.
  - apply (after_ok s s' _ _ A). apply (IH t s' (proj1 A)). rewrite E. exact P.
Qed.

Lemma wrapline_end : forall c s, wide s ->
  match wrapline c s with
  | (Ok _, s') => after s s' /\ s'.(ls).(lpos) < s'.(ls).(llen)
  | (Bad b, s') => after s s' /\ Q b s' end.
Proof.
  intros c s W. unfold wrapline, bind at 1. pose proof (ends_outputEOL s W) as H.
  assert (Z0 : forall v s1, outputEOL s = (Ok v, s1) -> lpos (ls s1) = 0).
  { intros v s1 E. unfold outputEOL, bind in E. cbn [gets] in E. destruct (outputraw _ s) as [[a|b] s2]; [|discriminate E].
    unfold upd_ls, modify, lbwrite in E. cbn [Z.leb Z.compare] in E. injection E as _ <-. reflexivity. }
  destruct (outputEOL s) as [[v|b] s1]; [|exact H]. specialize (Z0 v s1 eq_refl). apply (after_ok s s1 _ _ H).
  apply proj1 in H. clear s W. rename s1 into s.
  unfold bind at 1. cbn [gets]. set (text := cstr _). clearbody text. unfold bind at 1.
  pose proof (filter_after text (s2l "?;_?") s H) as F. destruct (filterc text (s2l "?;_?") s) as [[r|b] s1]; [|exact F].
  destruct F as [A F]. apply (after_ok s s1 _ _ A). apply proj1 in A. rename A into W1.
  unfold bind at 1. cbn [gets]. unfold bind at 1.
  assert (P1 : lpos (ls s1) < llen (ls s1)) by (unfold wide in W1; rewrite F in *; lia).
  match goal with |- match match ?m s1 with _ => _ end with _ => _ end => set (mid := m) end.
  assert (K : inside mid).
  { unfold mid. destruct r as [[x n]|]; [apply inside_position|].
    destruct (zc c =? 59); [apply inside_position|]. destruct (_ <=? _); [apply inside_position|apply inside_outpats]. }
  clearbody mid. specialize (K s1 W1 P1). destruct (mid s1) as [[v2|b] s2]; [|exact K].
  unfold bind. cbn [gets upd_ls modify]. exact K.
Qed.

Lemma ends_outputcar : forall c, ends _ (outputcar c).
Proof.
  intros c. unfold outputcar. destruct (negb (isspace c)).
  2:{ u; [apply ends_outspace|apply ends_outtab]. }
  intros s W. unfold bind at 1. cbn [gets]. unfold bind at 1.
  assert (K : match when (llen (ls s) <=? lpos (ls s)) (wrapline c) s with
    | (Ok _, s') => after s s' /\ s'.(ls).(lpos) < s'.(ls).(llen) | (Bad b, s') => after s s' /\ Q b s' end).
  { unfold when. destruct (_ <=? _) eqn:E; [apply wrapline_end; exact W|]. cbn. split; [apply after_refl; exact W|lia]. }
  destruct (when _ _ s) as [[v|b] s1]; [|exact K]. destruct K as [A1 P1]. apply (after_end s s1 _ A1).
  apply proj1 in A1. rename A1 into W1. unfold bind at 1. cbn [gets].
  unfold bind at 1. destruct (isprint c || negb (isascii c)).
  - unfold bind at 1. pose proof (lbwrite_end (lpos (ls s1)) c s1 W1 ltac:(lia)) as H.
    destruct (lbwrite (lpos (ls s1)) c s1) as [[w|b] s2]; [|exact H]. destruct H as (A2 & L2 & P2).
    unfold bind. cbn [upd_ls modify gets]. set (s3 := set_ls _ s2). assert (A3 : after s1 s3) by exact A2.
    apply (after_end s1 s3 _ A3). apply proj1 in A3. rename A3 into W2.
    assert (L3 : llen (ls s3) = llen (ls s2)) by reflexivity. assert (P3 : lpos (ls s3) = lpos (ls s1) + 1) by reflexivity.
    pose proof (lbwrite_end (lpos (ls s3)) (cz 0) s3 W2 ltac:(lia)) as H.
    destruct (lbwrite (lpos (ls s3)) (cz 0) s3) as [[x|b] s4]; apply H.
  - unfold bind. cbn [ret gets]. pose proof (lbwrite_end (lpos (ls s1)) (cz 0) s1 W1 ltac:(lia)) as H.
    destruct (lbwrite (lpos (ls s1)) (cz 0) s1) as [[x|b] s4]; apply H.
Qed.
Lemma ends_output : forall t, ends _ (output t).
Proof. induction t as [|c t IH]; cbn [output]; u; [apply ends_outputcar|exact IH]. Qed.
Lemma ends_outputline : ends _ outputline.
Proof. unfold outputline. u; first [apply ends_position|apply ends_output|apply ends_outputEOL]. Qed.
Lemma ends_outputaddr : forall a, ends _ (outputaddr a).
Proof. intros. unfold outputaddr. u; apply ends_output. Qed.
Lemma ends_outputbyte : forall b, ends _ (outputbyte b).
Proof. intros. unfold outputbyte. u; first [apply ends_output|apply ends_outputEOL|apply ends_outputaddr]. Qed.
Lemma ends_warning : forall m, ends _ (warning m).
Proof. intros. unfold warning. u; apply ends_outputraw. Qed.
Hypothesis QE : forall m s, Q (Err m) s.
Hypothesis QM : forall s, ~ 0 <= s.(inp).(linenumber) < 10000000 -> Q (UB "error: message buffer overflow") s.
Hypothesis QS : forall s, Q (UB "star: signed overflow") s.
Lemma ends_star_advance : ends _ star_advance.
Proof. unfold star_advance. u. apply ends_stop. exact QS. Qed.
Lemma ends_zerobuffer : ends _ zerobuffer.
Proof. unfold zerobuffer. u. Qed.

Lemma ends_error : forall A m, zlen m <= 64 -> ends A (error m).
Proof.
  intros A m L s W. unfold error. unfold bind at 1. cbn [gets]. cbv zeta. revert s W.
  enough (G : forall s, ends A (
    (if negb (a_noerror (fl s))
     then if 80 <=? zlen (padl 7 (dec (linenumber (inp s))) ++ s2l " ERROR: " ++ capital m)
      then stop (UB "error: message buffer overflow")
      else upd_fl (set_a_list_on true) ;;;
           outputraw (markline (padl 7 (dec (linenumber (inp s))) ++ s2l " ERROR: " ++ capital m))
     else ret tt) ;;;
    outputline ;;; when (negb (advance (ct s) =? 0)) star_advance ;;; upd_fl (fun _ => fl s) ;;;
    modify (fun s0 => set_reported (mkRep (passnumber (ct s0)) (linenumber (inp s0)) m :: reported s0) s0) ;;;
    stop (Err m)) \/ ~ 0 <= linenumber (inp s) < 10000000).
  { intros s W. destruct (G s) as [K|K]; [exact (K s W)|].
    destruct (negb (a_noerror (fl s))).
    - destruct (80 <=? _).
      + unfold bind, stop. split; [apply after_refl; exact W|]. apply QM. exact K.
      + match goal with |- match ?m s with _ => _ end => assert (E : ends A m) end; [|exact (E s W)].
        u; first [apply ends_outputraw|apply ends_outputline|apply ends_star_advance|apply ends_stop; auto].
    - match goal with |- match ?m s with _ => _ end => assert (E : ends A m) end; [|exact (E s W)].
      u; first [apply ends_outputraw|apply ends_outputline|apply ends_star_advance|apply ends_stop; auto]. }
  intros s. assert (D : 0 <= linenumber (inp s) < 10000000 \/ ~ 0 <= linenumber (inp s) < 10000000) by lia.
  destruct D as [D|D]; [left|right; exact D].
  assert (N : 80 <=? zlen (padl 7 (dec (linenumber (inp s))) ++ s2l " ERROR: " ++ capital m) = false).
  { pose proof (padded _ D) as P. unfold zlen in *. rewrite !app_length.
    replace (List.length (capital m)) with (List.length m) by (destruct m; reflexivity).
    change (List.length (s2l " ERROR: ")) with 8%nat. lia. }
  rewrite N. u; first [apply ends_outputraw|apply ends_outputline|apply ends_star_advance|apply ends_stop; auto].
Qed.
Lemma ends_error_any : (forall s, Q (UB "error: message buffer overflow") s) -> forall A m, ends A (error m).
Proof.
  intros QA A m. unfold error. u;
    first [apply ends_outputraw|apply ends_outputline|apply ends_star_advance|apply ends_stop; auto].
Qed.
Lemma ends_err : forall A m, zlen (s2l m) <=? 64 = true -> ends A (err m).
Proof. intros A m L. apply ends_error. lia. Qed.

End Ends.
