(** Counters and reports over whole runs. *)
From Coq Require Import String Ascii ZArith List Bool Lia ZifyBool ZifyNat.
From Verif Require Import Base BaseFacts State Tree Filter Output Label Scode Tables Cpu6800 Pseudos Macro Xref Crasm.
From Verif Require Import Walk TreeFacts LineFacts Frame Run SpecReports.
Import ListNotations.
Open Scope Z_scope.

(** Most stores do not concern the invariants below. *)
Ltac triv := solve [intros; let J := fresh in intro J; first [exact J | auto; fail]].

(** ** Number of errors *)
Definition cnt (k j : Z) (s : state) : Prop :=
  s.(ct).(passnumber) = k /\ Forall (fun r => rp_pass r <= k) s.(reported) /\
  s.(ct).(errnumber) + j = zlen (List.filter (fun r => rp_pass r =? k) s.(reported)).
Definition counted (s : state) : Prop := exists k, cnt k 0 s.
Definition counting (k : Z) : relation := holds (cnt k 0) (cnt k 1) counted.

Lemma counting_lsteps : forall k, lsteps (counting k).
Proof.
  intros k. constructor; [apply holds_order; intros s H; exists k; exact H|..]; try triv.
  intros s m H. exact (ex_intro _ k H).
Qed.

Lemma counting_error : forall k m, pres (counting k) unit (error m).
Proof.
  intros k. apply error_parts; [apply counting_lsteps|triv|].
  intros s m (H1 & H2 & H3). unfold cnt. cbn [ct reported set_reported].
  split; [exact H1|]. split.
  - constructor; [cbn; lia|exact H2].
  - cbn [List.filter rp_pass]. rewrite H1, Z.eqb_refl, zlen_cons. lia.
Qed.

Lemma counting_steps : forall k, steps (counting k).
Proof.
  intros k. pose proof (counting_lsteps k) as L. pose proof (p_order _ L) as O.
  assert (W : forall s w, counting k Fine s (set_wr w s)) by triv.
  constructor; [constructor; [exact L|..]|..]; try triv.
  - intros s a. apply (setpc_free _ O W).
  - intros s m. apply counting_error.
  - intros s s' H J. destruct (H J) as (H1 & H2 & H3). repeat split; cbn; auto. lia.
  - intros s x. apply (insert8_free _ O W L); try triv. apply counting_error.
Qed.

Lemma finish_counting : forall k, pres (counting k) _ finish.
Proof. intros k. apply finish_free; [apply counting_lsteps|triv|triv]. Qed.

Lemma cnt_start : forall k k' s, k < k' -> cnt k 0 s -> cnt k' 0 (started k' s).
Proof.
  intros k k' s Hk (H1 & H2 & H3). unfold started. rewrite passstart_eq.
  unfold cnt. cbn [snd ct reported set_ct set_sy set_inp set_fl passnumber errnumber
    set_passnumber set_errnumber set_warnnumber].
  split; [reflexivity|]. split.
  - eapply Forall_impl; [|exact H2]. intros r. cbn. lia.
  - assert (E : List.filter (fun r => rp_pass r =? k') (reported s) = []).
    { clear H3. induction H2 as [|r l Hr Hl IH]; [reflexivity|]. cbn [List.filter].
      destruct (Z.eqb_spec (rp_pass r) k'); [lia|exact IH]. }
    rewrite E. reflexivity.
Qed.

Lemma filter_rev : forall A (f : A -> bool) l, List.filter f (rev l) = rev (List.filter f l).
Proof.
  induction l as [|x l IH]; [reflexivity|]. cbn [rev List.filter]. rewrite filter_app, IH.
  cbn [List.filter]. destruct (f x); cbn [rev]; [reflexivity|apply app_nil_r].
Qed.

Theorem run_errors : forall n o fs text s, assemble n o (init_state fs text) = (Ok tt, s) ->
  s.(ct).(errnumber) = zlen (second_reports s.(reported)).
Proof.
  intros n o fs text s E.
  pose proof (run_holds (cnt 0 0) (cnt 0 1) (cnt 1 0) (cnt 1 1) (cnt 2 0) (cnt 2 1) (cnt 2 0) counted) as R.
  specialize (R (counting_steps 0) (counting_steps 1) (counting_steps 2)).
  specialize (R (fun s => cnt_start 0 1 s ltac:(lia)) o).
  assert (R2 : forall s, cnt 1 0 s -> cnt 2 0 (turned o s)).
  { intros s1 H. apply (cnt_start 1); [lia|]. rewrite between_eq. exact H. }
  assert (R3 : forall s, cnt 2 0 s ->
     match finish s with (Ok _, s') => cnt 2 0 s' | (Bad _, s') => counted s' end).
  { intros s1 H. pose proof (finish_counting 2 s1 H) as K. pose proof (finish_unfailing s1) as N.
    destruct (finish s1) as [[u|b] s2]; [exact K|]. destruct b; try exact K.
    contradiction N. reflexivity. }
  specialize (R R2 R3 n (init_state fs text)). rewrite E in R.
  destruct R as (_ & _ & R).
  - repeat split. constructor.
  - unfold second_reports, zlen in *. rewrite filter_rev, rev_length. lia.
Qed.

(** ** The first pass prints nothing *)
Definition silent (s : state) : Prop :=
  s.(fl).(a_nolist) = true /\ s.(fl).(a_noerror) = true /\ s.(fl).(a_list_on) = false /\
  Forall (fun x => snd (fst (fst (saved x))) = false) s.(inp).(srcs) /\ s.(ls).(stdout) = [].
Definition silenced (s : state) : Prop :=
  s.(ls).(stdout) = [] \/ exists t, fatal_line t /\ s.(ls).(stdout) = [t].
Definition quieting : relation := holds silent silent silenced.

Lemma silent_fl : forall s v, flstep s.(fl) v -> silent s -> silent (set_fl v s).
Proof.
  intros s v ((K1 & K2 & K3 & K4 & K5 & K6) & F) (S1 & S2 & S3 & S4 & S5).
  unfold silent. cbn [fl set_fl inp ls]. repeat split; try congruence; auto.
  destruct F as [F|[F|[F|F]]]; congruence.
Qed.

Lemma quieting_lsteps : lsteps quieting.
Proof.
  constructor; [apply holds_order; intros s H; left; apply H|..]; unfold quieting, holds, silent.
  - intros s v E H. cbn. rewrite E. exact H.
  - intros s t E (_ & _ & H & _). congruence.
  - intros s m H. right. eexists. split; [exists m; reflexivity|]. cbn.
    destruct H as (_ & _ & _ & _ & ->). reflexivity.
  - intros s v H. exact H.
  - intros s E H. exact H.
Qed.

Lemma quieting_error : forall m, pres quieting unit (error m).
Proof.
  apply error_parts; [apply quieting_lsteps| |].
  - intros s v F H. apply silent_fl; assumption.
  - intros s m H. exact H.
Qed.

Lemma quieting_steps : steps quieting.
Proof.
  pose proof quieting_lsteps as L. pose proof (p_order _ L) as O.
  assert (W : forall s w, quieting Fine s (set_wr w s)) by (intros s w H; exact H).
  constructor; [constructor; [exact L|..]|..].
  - intros s v F H. apply silent_fl; assumption.
  - intros s v I (S1 & S2 & S3 & S4 & S5). repeat split; auto. cbn [inp set_inp].
    destruct I as [j _ _ Es|r e|x y l Ex Ey|].
    + rewrite Es. exact S4.
    + exact S4.
    + cbn [srcs set_srcs]. rewrite Ex in S4. inversion S4; subst. constructor; [|assumption].
      rewrite Ey. assumption.
    + exact S4.
  - intros s r e ol op on l E (S1 & S2 & S3 & S4 & S5). rewrite E in S4. inversion S4; subst.
    cbn in H1. subst ol. repeat split; auto.
  - intros s H; exact H.
  - intros s a. apply (setpc_free _ O W).
  - intros s m. apply quieting_error.
  - intros s s' H J. exact (H J).
  - intros s v H; exact H.
  - intros s v H; exact H.
  - intros s v H; exact H.
  - intros s t _ H; exact H.
  - intros s k l _ _ H; exact H.
  - intros s x. apply (insert8_free _ O W L); try (intros s' v' H; exact H). apply quieting_error.
  - intros s text _ (S1 & S2 & S3 & S4 & S5). repeat split; auto. cbn. constructor; [exact S3|exact S4].
  - intros s li ar al _ (S1 & S2 & S3 & S4 & S5). repeat split; auto. cbn. constructor; [exact S3|exact S4].
  - intros s0 s c H _ J. destruct (H J) as (S1 & S2 & S3 & S4 & S5).
    destruct J as (J1 & J2 & J3 & J4 & J5). repeat split; auto.
Qed.

Theorem first_silent : forall n fs text r s,
  (init_label_list pseudos ;;; pass n 1) (init_state fs text) = (r, s) ->
  s.(ls).(stdout) = [] \/ (exists t, fatal_line t /\ s.(ls).(stdout) = [t]) /\ r <> Ok tt.
Proof.
  intros n fs text r s E. rewrite <- first_eq in E.
  pose proof (first_holds silent silent silent silent silenced quieting_steps quieting_steps) as R.
  assert (R1 : forall s, silent s -> silent (started 1 s)).
  { intros s1 (S1 & S2 & S3 & S4 & S5). unfold started. rewrite passstart_eq. unfold silent.
    cbn [snd fl inp ls set_ct set_sy set_inp set_fl]. rewrite S1. repeat split; auto. }
  specialize (R R1 n (init_state fs text)). rewrite E in R.
  assert (I : silent (init_state fs text)) by (repeat split; constructor).
  specialize (R I). destruct r as [u|b].
  - left. apply R.
  - destruct R as [R|R]; [left; exact R|]. right. split; [exact R|discriminate].
Qed.

(** ** Every error of the second pass has its line *)
Definition seconds (l : list report) : list report := List.filter (fun r => rp_pass r =? 2) l.
Definition toldst (s : state) : Prop :=
  s.(ct).(passnumber) = 2 /\ s.(fl).(a_noerror) = false /\
  announced (seconds s.(reported)) s.(ls).(stdout).
Definition told (s : state) : Prop := announced (seconds s.(reported)) s.(ls).(stdout).
Definition telling : relation := holds toldst toldst told.

(** Text is only added to the output. *)
Definition adding : relation := fun d s s' =>
  exists l, s'.(ls).(stdout) = l ++ s.(ls).(stdout) /\ s'.(reported) = s.(reported) /\
    s'.(ct).(passnumber) = s.(ct).(passnumber) /\ s'.(fl).(a_noerror) = s.(fl).(a_noerror) /\
    s'.(inp).(linenumber) = s.(inp).(linenumber).

Lemma adding_lsteps : lsteps adding.
Proof.
  constructor; [constructor|..]; unfold adding.
  - intros s. exists []. repeat split.
  - intros a b H. exact H.
  - intros d a b c (l1 & A1 & A2 & A3 & A4 & A5) (l2 & B1 & B2 & B3 & B4 & B5). exists (l2 ++ l1).
    rewrite B1, A1, app_assoc. repeat split; congruence.
  - intros s v E. exists []. cbn. rewrite E. repeat split.
  - intros s t _. eexists [_]. repeat split.
  - intros s m. eexists [_]. repeat split.
  - intros s v. exists []. repeat split.
  - intros s _. exists []. repeat split.
Qed.

Lemma announced_add : forall l rs l', announced rs l' -> announced rs (l ++ l').
Proof. induction l as [|x l IH]; intros rs l' H; [exact H|]. cbn. constructor. auto. Qed.

Lemma told_add : forall d s s', adding d s s' -> toldst s -> toldst s'.
Proof.
  intros d s s' (l & A1 & A2 & A3 & A4 & A5) (T1 & T2 & T3). unfold toldst.
  rewrite A1, A2, A3, A4. repeat split; auto. apply announced_add. exact T3.
Qed.

Lemma telling_lsteps : lsteps telling.
Proof.
  assert (K : forall s, toldst s -> told s) by (intros s H; apply H).
  constructor; [apply holds_order; exact K|..].
  - intros s v E H. apply (told_add Fine s); [apply (p_ls _ adding_lsteps); exact E|exact H].
  - intros s t E H. apply (told_add Fine s); [apply (p_print _ adding_lsteps); exact E|exact H].
  - intros s m H. apply K. apply (told_add Dead s); [apply (p_fatal _ adding_lsteps)|exact H].
  - intros s v H. exact H.
  - intros s _ H. exact H.
Qed.

(** outputraw prints its line. *)
Lemma outputraw_prints : forall t s u s', s.(fl).(a_list_on) = true ->
  outputraw t s = (Ok u, s') ->
  exists a b, s'.(ls).(stdout) = a ++ (t ++ [nl]) :: b ++ s.(ls).(stdout).
Proof.
  intros t s u s' L. unfold outputraw, bind, gets, print, upd_ls, modify, ret. rewrite L.
  destruct (ppos (ls s) =? 0); cbn [fst snd ls set_ls];
    (destruct (_ && _); intros [= _ <-]; cbn [ls set_ls stdout set_stdout set_ppos set_pagenumber]).
  - eexists [_], [_]. reflexivity.
  - eexists [], [_]. reflexivity.
  - eexists [_], []. reflexivity.
  - eexists [], []. reflexivity.
Qed.

Definition nonblank (c : ascii) : Prop := zc c <> 32.

Lemma dec_digits_nonblank : forall n z acc, Forall nonblank acc ->
  Forall nonblank (dec_digits n z acc).
Proof.
  induction n as [|n IH]; intros z acc H; [exact H|]. cbn [dec_digits]. cbv zeta.
  assert (K : Forall nonblank (cz (48 + z mod 10) :: acc)).
  { constructor; [|exact H]. unfold nonblank. pose proof (Z.mod_pos_bound z 10 ltac:(lia)).
    rewrite zc_cz_small; lia. }
  destruct (z <? 10); auto.
Qed.

Lemma dec_digits_grow : forall n z acc, (List.length acc <= List.length (dec_digits n z acc))%nat.
Proof.
  induction n as [|n IH]; intros z acc; cbn [dec_digits]; [lia|]. cbv zeta.
  destruct (z <? 10); cbn [List.length]; [lia|].
  specialize (IH (z / 10) (cz (48 + z mod 10) :: acc)). cbn [List.length] in IH. lia.
Qed.

Lemma dec_nonblank : forall z, Forall nonblank (dec z) /\ (1 <= List.length (dec z))%nat.
Proof.
  intros z. unfold dec.
  assert (K : forall n y acc, (1 <= List.length (dec_digits (S n) y acc))%nat).
  { intros n y acc. cbn [dec_digits]. cbv zeta. destruct (y <? 10); [cbn; lia|].
    pose proof (dec_digits_grow n (y / 10) (cz (48 + y mod 10) :: acc)) as G. cbn [List.length] in G. lia. }
  destruct (z <? 0).
  - split; [constructor; [unfold nonblank; rewrite zc_cz_small; lia|apply dec_digits_nonblank; constructor]|].
    cbn [List.length]. lia.
  - split; [apply dec_digits_nonblank; constructor|apply K].
Qed.

Definition mark (c : ascii) : Prop := c = ">"%char \/ c = " "%char.

Lemma markline_spec : forall k d rest, Forall nonblank d ->
  (2 <= List.length d \/ 1 <= k /\ 1 <= List.length d)%nat ->
  exists p, Forall mark p /\ markline (repeat (cz 32) k ++ d ++ rest) = p ++ d ++ rest.
Proof.
  assert (E : forall c s, nonblank c -> markline (cz 32 :: c :: s) = cz 32 :: c :: s).
  { intros c s H. cbn [markline]. destruct (Z.eqb_spec (zc c) 32); [contradiction|reflexivity]. }
  induction k as [|[|k] IH]; intros d rest Hd Hl.
  - exists []. split; [constructor|]. cbn [repeat app].
    destruct d as [|a [|b d]]; cbn [List.length] in Hl; try lia. cbn [app markline].
    inversion Hd as [|? ? _ Hd']; subst. inversion Hd'; subst.
    destruct (Z.eqb_spec (zc b) 32); [contradiction|reflexivity].
  - exists [cz 32]. split; [repeat constructor; right; reflexivity|].
    cbn [repeat app]. destruct d as [|a d]; cbn [List.length] in Hl; [lia|].
    cbn [app]. inversion Hd; subst. apply E. assumption.
  - destruct (IH d rest Hd) as (p & Hp & Ep); [lia|].
    exists (cz 62 :: p). split; [constructor; [left; reflexivity|exact Hp]|].
    cbn [repeat app] in *. cbn [markline] in *.
    assert (Z1 : (zc (cz 32) =? 32) = true) by reflexivity. rewrite Z1.
    rewrite <- Ep. reflexivity.
Qed.

Lemma error_line : forall k line m,
  announces (mkRep k line m)
    (markline (padl 7 (dec line) ++ s2l " ERROR: " ++ capital m) ++ [nl]).
Proof.
  intros k line m. unfold padl. rewrite <- app_assoc.
  destruct (dec_nonblank line) as [Hn Hl].
  destruct (markline_spec (7 - List.length (dec line)) (dec line) (s2l " ERROR: " ++ capital m) Hn)
    as (p & Hp & Ep).
  { lia. }
  exists p. split; [exact Hp|]. rewrite Ep. cbn [rp_line rp_text].
  rewrite <- !app_assoc. reflexivity.
Qed.

(** The line has been printed, the log entry is still to come. *)
Definition owing (m : str) (s : state) : Prop :=
  s.(ct).(passnumber) = 2 /\ s.(fl).(a_noerror) = false /\
  announced (mkRep 2 s.(inp).(linenumber) m :: seconds s.(reported)) s.(ls).(stdout).

Lemma owing_add : forall m d s s', adding d s s' -> owing m s -> owing m s'.
Proof.
  intros m d s s' (l & A1 & A2 & A3 & A4 & A5) (T1 & T2 & T3). unfold owing.
  rewrite A1, A2, A3, A4, A5. repeat split; auto. apply announced_add. exact T3.
Qed.

Lemma announced_tail : forall r rs l, announced (r :: rs) l -> announced rs l.
Proof.
  intros r rs l H. remember (r :: rs) as x eqn:E. revert r rs E.
  induction H as [l|x y l H IH|r' x y l Hr H IH]; intros r rs E.
  - discriminate.
  - apply an_skip. apply (IH r). exact E.
  - injection E as -> ->. apply an_skip. exact H.
Qed.

Lemma owing_told : forall m s, owing m s -> told s.
Proof. intros m s (_ & _ & T). apply announced_tail in T. exact T. Qed.

Lemma telling_tail : forall m f0 a0 s1, owing m s1 -> f0.(a_noerror) = false ->
  let x := (outputline ;;; when (negb (a0 =? 0)) star_advance ;;; upd_fl (fun _ => f0) ;;;
      modify (fun s => set_reported (mkRep s.(ct).(passnumber) s.(inp).(linenumber) m :: s.(reported)) s) ;;;
      @stop unit (Err m)) s1 in
  match how (fst x) with Dead => told (snd x) | _ => toldst (snd x) end.
Proof.
  intros m f0 a0 s1 W Hf. cbv zeta. unfold bind, upd_fl. unfold modify.
  pose proof (pres_outputline _ adding_lsteps s1) as A.
  pose proof (pres_outputline _ lsteps_unfailing s1) as N.
  destruct (outputline s1) as [[u|b] s2]; cbn [fst snd] in A, N;
    apply (owing_add m _ _ _ A) in W.
  2:{ destruct b; [contradiction N; reflexivity|apply (owing_told m); exact W..]. }
  clear A N s1.
  assert (A : forall Q, lsteps Q -> pres Q _ (when (negb (a0 =? 0)) star_advance)).
  { intros Q L. unfold when. destruct (negb _); [apply (pres_star_advance Q L)|].
    apply (pres_ret Q (p_order _ L)). }
  pose proof (A _ lsteps_unfailing s2) as N. specialize (A _ adding_lsteps s2).
  destruct (when _ _ s2) as [[u'|b] s3]; cbn [fst snd] in A, N;
    apply (owing_add m _ _ _ A) in W.
  2:{ destruct b; [contradiction N; reflexivity|apply (owing_told m); exact W..]. }
  clear A N s2. cbn [fst snd how stop]. destruct W as (W1 & W2 & W3).
  unfold toldst. cbn [ct fl ls reported set_reported set_fl inp]. rewrite W1.
  repeat split; auto.
Qed.

Lemma telling_error : forall m, pres telling unit (error m).
Proof.
  intros m s T. destruct T as (T1 & T2 & T3).
  set (r := padl 7 (dec (linenumber (inp s))) ++ s2l " ERROR: " ++ capital m).
  set (s0 := set_fl (set_a_list_on true (fl s)) s).
  assert (E : error m s = if 80 <=? zlen r then (Bad (UB "error: message buffer overflow"), s) else
     (outputraw (markline r) ;;; outputline ;;;
      when (negb (advance (ct s) =? 0)) star_advance ;;; upd_fl (fun _ => fl s) ;;;
      modify (fun s => set_reported (mkRep s.(ct).(passnumber) s.(inp).(linenumber) m :: s.(reported)) s) ;;;
      @stop unit (Err m)) s0).
  { unfold error. set (tl := outputline ;;; _). unfold bind, gets. rewrite T2. cbn [negb].
    fold r. destruct (80 <=? zlen r); reflexivity. }
  rewrite E. clear E. destruct (80 <=? zlen r); [exact T3|].
  pose proof (fun s1 W => telling_tail m (fl s) (advance (ct s)) s1 W T2) as K. cbv zeta in K.
  set (tl := outputline ;;; _) in *. clearbody tl. unfold bind.
  pose proof (pres_outputraw _ adding_lsteps (markline r) s0) as A1.
  pose proof (outputraw_prints (markline r) s0) as P1.
  assert (T0 : toldst s0) by (repeat split; assumption).
  destruct (outputraw (markline r) s0) as [[u|b] s1] eqn:E1.
  2:{ apply (told_add _ _ _ A1) in T0. pose proof (pres_outputraw _ lsteps_unfailing (markline r) s0) as N.
      rewrite E1 in N. destruct b; [contradiction N; reflexivity|apply T0..]. }
  destruct (P1 u s1 eq_refl eq_refl) as (la & lb & P2). clear P1.
  destruct A1 as (l1 & A1 & A2 & A3 & A4 & A5). cbn [snd] in A2, A3, A4, A5.
  assert (W : owing m s1).
  { unfold owing. rewrite A2, A3, A4, A5, P2. cbn [reported ct fl inp s0 set_fl set_a_list_on a_noerror].
    repeat split; auto. apply announced_add. apply an_take.
    - apply error_line.
    - apply announced_add. exact T3. }
  specialize (K s1 W). destruct (tl s1) as [[v|[]] s2]; exact K.
Qed.

Lemma telling_steps : steps telling.
Proof.
  pose proof telling_lsteps as L. pose proof (p_order _ L) as O.
  assert (W : forall s w, telling Fine s (set_wr w s)) by triv.
  constructor; [constructor; [exact L|..]|..]; try triv.
  - intros s v ((K1 & K2 & K3 & K4 & K5) & _) (T1 & T2 & T3). repeat split; auto. cbn. congruence.
  - intros s a. apply (setpc_free _ O W).
  - intros s m. apply telling_error.
  - intros s x. apply (insert8_free _ O W L); try triv. apply telling_error.
Qed.

Lemma announced_snoc_skip : forall rs l x, announced rs l -> announced rs (l ++ [x]).
Proof.
  intros rs l x H. induction H; cbn [app]; [apply an_nil|apply an_skip; assumption|].
  apply an_take; assumption.
Qed.
Lemma announced_snoc : forall r x rs l, announces r x -> announced rs l ->
  announced (rs ++ [r]) (l ++ [x]).
Proof.
  intros r x rs l Hr H. induction H; cbn [app].
  - induction l as [|y l IH]; cbn [app]; [apply an_take; [exact Hr|apply an_nil]|apply an_skip; exact IH].
  - apply an_skip. assumption.
  - apply an_take; assumption.
Qed.
Lemma announced_rev : forall rs l, announced rs l -> announced (rev rs) (rev l).
Proof.
  intros rs l H. induction H; cbn [rev].
  - apply an_nil.
  - apply announced_snoc_skip. assumption.
  - apply announced_snoc; assumption.
Qed.

Definition early (s : state) : Prop := seconds s.(reported) = [] /\ s.(ct).(passnumber) < 2.
Definition earlier : relation := holds early early told.

Lemma earlier_steps : steps earlier.
Proof.
  assert (K : forall s, early s -> told s).
  { intros s [H _]. unfold told. rewrite H. constructor. }
  assert (L : lsteps earlier).
  { constructor; [apply holds_order; exact K|..]; try triv. }
  pose proof (p_order _ L) as O.
  assert (W : forall s w, earlier Fine s (set_wr w s)) by triv.
  assert (E : forall m, pres earlier unit (error m)).
  { apply error_parts; [exact L|triv|]. intros s m [H1 H2]. split; [|exact H2].
    unfold seconds in *. cbn [reported set_reported List.filter rp_pass].
    destruct (Z.eqb_spec (passnumber (ct s)) 2); [lia|exact H1]. }
  constructor; [constructor; [exact L|..]|..]; try triv.
  - intros s a. apply (setpc_free _ O W).
  - intros s m. apply E.
  - intros s x. apply (insert8_free _ O W L); try triv. exact E.
Qed.

Theorem run_told : forall n o fs text r s, assemble n o (init_state fs text) = (r, s) ->
  announced (second_reports s.(reported)) (rev s.(ls).(stdout)).
Proof.
  intros n o fs text r s E.
  assert (T : told s).
  { pose proof (run_holds early early early early toldst toldst told told
       earlier_steps earlier_steps telling_steps) as R.
    assert (R1 : forall s, early s -> early (started 1 s)).
    { intros s1 [H1 H2]. unfold started. rewrite passstart_eq. split; [exact H1|reflexivity]. }
    assert (R2 : forall s, early s -> toldst (turned o s)).
    { intros s1 [H1 H2]. unfold turned, started. rewrite between_eq. cbn [snd]. rewrite passstart_eq.
      split; [reflexivity|]. split.
      - cbn [snd fl set_ct set_sy set_inp set_fl].
        destruct (a_nolist _), (ogiven (o_scode o)), (o_list o), (o_warn o); reflexivity.
      - cbn [snd reported ls set_ct set_sy set_inp set_fl]. rewrite H1. constructor. }
    assert (R3 : forall s, toldst s ->
       match finish s with (Ok _, s') => told s' | (Bad _, s') => told s' end).
    { intros s1 H.
      assert (F : pres telling _ finish).
      { apply finish_free; [apply telling_lsteps|triv|triv]. }
      specialize (F s1 H). destruct (finish s1) as [[u|[]] s2]; cbn [fst snd how] in F; try exact F;
        apply F. }
    specialize (R R1 o R2 R3 n (init_state fs text)). rewrite E in R.
    assert (I : early (init_state fs text)) by (split; reflexivity).
    specialize (R I). destruct r; exact R. }
  unfold second_reports. rewrite filter_rev. apply announced_rev. exact T.
Qed.

(** ** Warnings are never counted *)
Definition nowarn (s : state) : Prop := s.(ct).(warnnumber) = 0.

Lemma nowarn_steps : steps (holds nowarn nowarn nowarn).
Proof.
  assert (L : lsteps (holds nowarn nowarn nowarn)).
  { constructor; [apply holds_order; auto|..]; triv. }
  pose proof (p_order _ L) as O.
  assert (W : forall s w, holds nowarn nowarn nowarn Fine s (set_wr w s)) by triv.
  assert (E : forall m, pres (holds nowarn nowarn nowarn) unit (error m)).
  { apply error_parts; [exact L|triv|triv]. }
  constructor; [constructor; [exact L|..]|..]; try triv.
  - intros s a. apply (setpc_free _ O W).
  - intros s m. apply E.
  - intros s x. apply (insert8_free _ O W L); try triv. exact E.
Qed.

Theorem run_warnings : forall n o fs text r s, assemble n o (init_state fs text) = (r, s) ->
  s.(ct).(warnnumber) = 0.
Proof.
  intros n o fs text r s E.
  pose proof (run_holds nowarn nowarn nowarn nowarn nowarn nowarn nowarn nowarn
       nowarn_steps nowarn_steps nowarn_steps) as R.
  assert (R1 : forall k s, nowarn (started k s)).
  { intros k s1. unfold started. rewrite passstart_eq. reflexivity. }
  assert (R3 : forall s, nowarn s ->
       match finish s with (Ok _, s') => nowarn s' | (Bad _, s') => nowarn s' end).
  { intros s1 H.
    assert (F : pres (holds nowarn nowarn nowarn) _ finish).
    { apply finish_free; [apply (p_lsteps _ (p_bsteps _ nowarn_steps))|triv|triv]. }
    specialize (F s1 H). destruct (finish s1) as [[u|[]] s2]; cbn [fst snd how] in F; exact F. }
  specialize (R (fun s _ => R1 1 s) o (fun s _ => R1 2 _) R3 n (init_state fs text) eq_refl). rewrite E in R.
  destruct r; exact R.
Qed.

(** ** Code length *)
Definition coded (l : list emission) : Z := zlen (List.filter em_code l).
Definition lenok (s : state) : Prop := s.(wr).(codelen) = coded s.(emitted) mod 2 ^ 64.
Definition anything (s : state) : Prop := True.
Definition measuring : relation := holds lenok lenok anything.

Lemma measuring_lsteps : lsteps measuring.
Proof. constructor; [apply holds_order; exact (fun _ _ => I)|..]; try triv. intros s m _. exact I. Qed.

Definition samelen (d : ending) (s s' : state) : Prop :=
  s'.(wr).(codelen) = s.(wr).(codelen) /\ s'.(emitted) = s.(emitted).
Lemma samelen_order : order samelen.
Proof. constructor; unfold samelen; intros; intuition congruence. Qed.

Lemma samelen_flush : pres samelen _ flushscoderaw.
Proof.
  assert (Wr : forall t, pres samelen _ (scwrite t)).
  { intros t. unfold scwrite. apply (pres_bind _ samelen_order); [apply (pres_gets _ samelen_order)|intros w].
    destruct (scode w); [intros s; split; reflexivity|apply (pres_ub _ samelen_order)]. }
  unfold flushscoderaw.
  repeat first
    [ match goal with |- pres _ _ (bind _ _) => apply (pres_bind _ samelen_order); [|intros] end
    | apply (pres_gets _ samelen_order) | apply (pres_ret _ samelen_order) | apply Wr
    | match goal with |- pres _ _ (match ?x with _ => _ end) => destruct x end
    | intros ?s; split; reflexivity ].
Qed.

Lemma lenok_same : forall d s s', samelen d s s' -> lenok s -> lenok s'.
Proof. intros d s s' [H1 H2] H. unfold lenok. rewrite H1, H2. exact H. Qed.

Lemma measuring_insert8 : forall x, pres measuring _ (insert8 x).
Proof.
  intros x s H. pose proof (p_order _ measuring_lsteps) as O.
  destruct (a_org_gv (fl s)) eqn:Horg.
  2:{ assert (E : insert8 x s = err "no org given" s).
      { unfold insert8. unfold bind at 1. cbn [gets]. rewrite Horg. cbn [negb when].
        unfold err. apply error_bind. }
      rewrite E. refine (error_parts measuring measuring_lsteps _ _ unit (s2l "no org given") s H); triv. }
  set (s1 := set_emitted
      (mkEm s.(ct).(passnumber) s.(wr).(pc) (u8 x) s.(fl).(a_code_on) :: s.(emitted)) s).
  set (opn := (if negb s.(fl).(a_nocode) then
     match s.(wr).(scode) with
     | None => upd_wr (set_scode (Some [])) ;;; upd_wr (set_rawextended 0)
     | Some _ => ret tt
     end else ret tt) : M unit).
  set (fin := upd_ct (fun c => set_advance (c.(advance) + 1) c) ;;;
    upd_wr (fun w => set_pc (u64 (w.(pc) + 1)) w)).
  assert (E : insert8 x s = (opn ;;;
   (if s.(fl).(a_code_on) then
     w <- gets wr ;;
     (match w.(scode) with
      | None => ret tt
      | Some _ =>
          when (16 <=? zlen w.(raw)) flushscoderaw ;;;
          upd_wr (fun w => set_raw (w.(raw) ++ [u8 x]) w)
      end) ;;;
     upd_wr (fun w => set_codelen (u64 (w.(codelen) + 1)) w) ;;;
     outputbyte (u8 x)
    else ret tt) ;;; fin) s1).
  { unfold insert8. unfold bind at 1. cbn [gets]. rewrite Horg. cbn [negb when]. reflexivity. }
  rewrite E. clear E.
  (* the code length owes one byte when the section is CODE *)
  pose (owe := fun s' => s'.(wr).(codelen) = coded s.(emitted) mod 2 ^ 64 /\
                         s'.(emitted) = s1.(emitted)).
  assert (Same : forall A (m : M A), pres samelen A m -> forall s', owe s' -> 
     match m s' with (Ok _, s'') => owe s'' | (Bad b, _) => True end).
  { intros A m Hm s' [O1 O2]. specialize (Hm s'). destruct (m s') as [[a|b] s'']; [|exact I].
    destruct Hm as [M1 M2]. cbn [snd] in *. split; congruence. }
  assert (W1 : owe s1) by (split; [exact H|reflexivity]).
  assert (Fin : forall s', lenok s' -> match how (fst (fin s')) with Dead => anything (snd (fin s')) | _ => lenok (snd (fin s')) end).
  { intros s' L'. exact L'. }
  assert (Opn : pres samelen _ opn).
  { unfold opn. destruct (negb _); [destruct (scode (wr s))|]; try apply (pres_ret _ samelen_order);
      intros s'; split; reflexivity. }
  clearbody fin.
  assert (Bd : forall A C (m : M A) (k : A -> M C) (Q : res C * state -> Prop) s', 
     match m s' with (Ok a, s'') => Q (k a s'') | (Bad b, s'') => Q (Bad b, s'') end -> Q (bind m k s')).
  { intros A C m k Q s' HQ. unfold bind. destruct (m s') as [[a|b] s'']; exact HQ. }
  pose (Q := fun x : res unit * state => match how (fst x) with Fine => lenok (snd x) | Failed => lenok (snd x) | Dead => anything (snd x) end).
  match goal with |- match how (fst ?z) with _ => _ end => change (Q z) end.
  assert (Fb : forall A b (s' : state) (m : M A), pres unfailing A m -> forall s0, m s0 = (Bad b, s') -> Q (Bad b, s')).
  { intros A b s' m U s0 Em. specialize (U s0). rewrite Em in U. unfold Q. 
    destruct b; [contradiction U; reflexivity|exact I..]. }
  assert (Wun : forall s w, unfailing Fine s (set_wr w s)) by (intros; discriminate).
  assert (Uo : order unfailing) by apply (p_order _ lsteps_unfailing).
  apply Bd. pose proof (Same _ _ Opn s1 W1) as S1. destruct (opn s1) as [[u|b] s2] eqn:E2.
  2:{ refine (Fb _ _ _ opn _ _ E2). unfold opn.
      destruct (negb _); [destruct (scode (wr s))|]; intros s'; discriminate. }
  destruct (a_code_on (fl s)) eqn:Ec.
  - apply Bd. set (push := fun w => match w.(scode) with
      | None => ret tt
      | Some _ =>
          when (16 <=? zlen w.(raw)) flushscoderaw ;;;
          upd_wr (fun w => set_raw (w.(raw) ++ [u8 x]) w)
      end).
    assert (Pp : forall w, pres samelen _ (push w)).
    { intros w. unfold push. destruct (scode w); [|apply (pres_ret _ samelen_order)].
      apply (pres_bind _ samelen_order); [|intros _; intros s'; split; reflexivity].
      unfold when. destruct (16 <=? _); [apply samelen_flush|apply (pres_ret _ samelen_order)]. }
    assert (Up : forall w, pres unfailing _ (push w)).
    { intros w. unfold push. destruct (scode w); [|apply (pres_ret _ Uo)].
      apply (pres_bind _ Uo); [|intros _; intros s'; discriminate].
      unfold when. destruct (16 <=? _); [apply (flush_free _ Uo Wun)|apply (pres_ret _ Uo)]. }
    change (match (push (wr s2) ;;; upd_wr (fun w => set_codelen (u64 (w.(codelen) + 1)) w) ;;;
       outputbyte (u8 x)) s2 with (Ok a, s'') => Q (fin s'') | (Bad b, s'') => Q (Bad b, s'') end).
    pose (Q' := fun x : res unit * state => match x with (Ok a, s'') => Q (fin s'') | (Bad b, s'') => Q (Bad b, s'') end).
    match goal with |- match ?z with _ => _ end => change (Q' z) end.
    apply Bd. pose proof (Same _ _ (Pp (wr s2)) s2 S1) as S2.
    destruct (push (wr s2) s2) as [[u'|b] s3] eqn:E3.
    2:{ exact (Fb _ _ _ _ (Up (wr s2)) _ E3). }
    apply Bd. unfold upd_wr. unfold modify. set (s4 := set_wr _ s3).
    assert (L4 : lenok s4).
    { destruct S2 as [O1 O2]. unfold lenok, s4. cbn [wr set_wr codelen set_codelen emitted].
      rewrite O1, O2. unfold s1, coded, u64. cbn [emitted set_emitted List.filter em_code].
      cbn iota. rewrite zlen_cons. rewrite Z.add_mod_idemp_l by lia. f_equal. lia. }
    clearbody s4. unfold Q'.
    pose proof (pres_outputbyte _ measuring_lsteps (u8 x) s4 L4) as L5.
    pose proof (pres_outputbyte _ lsteps_unfailing (u8 x)) as U5.
    destruct (outputbyte (u8 x) s4) as [[u5|b] s5] eqn:E5; [apply Fin; exact L5|].
    exact (Fb _ _ _ _ U5 _ E5).
  - apply Bd. cbn [ret]. apply Fin. destruct S1 as [O1 O2]. unfold lenok.
    rewrite O1, O2. unfold s1, coded. cbn [emitted set_emitted List.filter em_code]. reflexivity.
Qed.

Lemma measuring_steps : steps measuring.
Proof.
  pose proof measuring_lsteps as L. pose proof (p_order _ L) as O.
  constructor; [constructor; [exact L|..]|..]; try triv.
  - intros s a H. pose proof (setpc_eq a s) as E. rewrite E. clear E.
    destruct (_ =? _); [exact H|]. unfold bind.
    pose proof (samelen_flush s) as F.
    assert (U : pres unfailing _ flushscoderaw).
    { apply flush_free; [apply (p_order _ lsteps_unfailing)|intros; discriminate]. }
    specialize (U s). destruct (flushscoderaw s) as [[u|b] s1]; cbn [fst snd how] in *.
    + apply (lenok_same _ _ _ F) in H. exact H.
    + destruct b; [contradiction U; reflexivity|exact I..].
  - intros s m. apply (error_parts measuring L); triv.
  - intros s x. apply measuring_insert8.
Qed.

Theorem run_codelen : forall n o fs text u s, assemble n o (init_state fs text) = (Ok u, s) ->
  s.(wr).(codelen) = coded s.(emitted) mod 2 ^ 64.
Proof.
  intros n o fs text u s E.
  pose proof (run_holds lenok lenok lenok lenok lenok lenok lenok anything
       measuring_steps measuring_steps measuring_steps) as R.
  assert (R1 : forall k s, lenok s -> lenok (started k s)).
  { intros k s1 H. unfold started. rewrite passstart_eq. exact H. }
  assert (R2 : forall s, lenok s -> lenok (turned o s)).
  { intros s1 H. unfold turned. apply R1. rewrite between_eq. exact H. }
  assert (R3 : forall s, lenok s ->
       match finish s with (Ok _, s') => lenok s' | (Bad _, s') => anything s' end).
  { intros s1 H. unfold finish. unfold bind at 1. cbn [gets].
    assert (C : pres samelen _ closescodefile).
    { unfold closescodefile.
      repeat first
       [ match goal with |- pres _ _ (bind _ _) => apply (pres_bind _ samelen_order); [|intros] end
       | apply (pres_gets _ samelen_order) | apply (pres_ret _ samelen_order) | apply samelen_flush
       | match goal with |- pres _ _ (match ?x with _ => _ end) => destruct x end
       | match goal with |- pres _ _ (scwrite _) => unfold scwrite end
       | apply (pres_ub _ samelen_order)
       | intros ?s; split; reflexivity ]. }
    assert (T : pres measuring _ (upd_fl (set_a_list_on true) ;;; results)).
    { apply (pres_bind _ (p_order _ measuring_lsteps)); [intros s2 H2; exact H2|intros _].
      apply (pres_results _ measuring_lsteps). }
    set (c := match scode (wr s1) with Some _ => closescodefile | None => ret tt end).
    assert (C' : pres samelen _ c).
    { unfold c. destruct (scode (wr s1)); [exact C|apply (pres_ret _ samelen_order)]. }
    clearbody c. set (tl := upd_fl _ ;;; results) in *. clearbody tl. unfold bind.
    specialize (C' s1). destruct (c s1) as [[v|b] s2]; [|exact I]. cbn [fst snd] in C'.
    apply (lenok_same _ _ _ C') in H. specialize (T s2 H).
    destruct (tl s2) as [[w|b] s3]; [exact T|exact I]. }
  specialize (R (R1 1) o R2 R3 n (init_state fs text) eq_refl). rewrite E in R. exact R.
Qed.

(** ** Nesting and line length *)
Definition bounded (s : state) : Prop :=
  zlen s.(inp).(srcs) < MAXSOURCEDEEP /\ zlen s.(inp).(curline) <= 249.
Definition bounding : relation := holds bounded bounded bounded.

Lemma bounding_steps : steps bounding.
Proof.
  assert (L : lsteps bounding).
  { constructor; [apply holds_order; auto|..]; triv. }
  pose proof (p_order _ L) as O.
  assert (W : forall s w, bounding Fine s (set_wr w s)) by triv.
  assert (E : forall m, pres bounding unit (error m)).
  { apply error_parts; [exact L|triv|triv]. }
  constructor; [constructor; [exact L|..]|..]; try triv.
  - intros s v K [H1 H2]. destruct K as [j K1 K2 K3 K4 K5 K6 K7 K8|r e|x y l K1 K2|];
      unfold bounded; cbn [inp set_inp srcs curline set_srcs set_mainrest set_maineof set_segment set_thiscall];
      try (split; assumption).
    + rewrite K3. split; [exact H1|lia].
    + rewrite K1 in H1. rewrite zlen_cons in *. split; assumption.
  - intros s r e ol op on l K [H1 H2]. unfold bounded, popped.
    cbn [inp set_inp set_fl srcs curline set_srcs set_linenumber set_lineprefix set_includelevel].
    rewrite K, zlen_cons in H1. split; [lia|exact H2].
  - intros s a. apply (setpc_free _ O W).
  - intros s m. apply E.
  - intros s x. apply (insert8_free _ O W L); try triv. exact E.
  - intros s t K [H1 H2]. unfold bounded, included.
    cbn [inp set_inp srcs curline set_srcs set_linenumber set_includelevel]. rewrite zlen_cons.
    split; [lia|exact H2].
  - intros s a b c K [H1 H2]. unfold bounded, entered.
    cbn [inp set_inp srcs curline set_srcs set_lineprefix set_macrolevel]. rewrite zlen_cons.
    split; [lia|exact H2].
  - intros s0 s c K C H. destruct (K H) as [H3 H4]. destruct H as [H1 H2]. unfold bounded, back.
    cbn [inp set_inp set_fl srcs curline set_srcs set_curline set_linenumber set_lineprefix set_macrolevel set_segment].
    split; [exact H1|]. destruct C as [-> | ->]; assumption.
Qed.

Theorem run_bounded : forall n o fs text r s, assemble n o (init_state fs text) = (r, s) ->
  zlen s.(inp).(srcs) < 10 /\ zlen s.(inp).(curline) <= 249.
Proof.
  intros n o fs text r s E.
  pose proof (run_holds bounded bounded bounded bounded bounded bounded bounded bounded
       bounding_steps bounding_steps bounding_steps) as R.
  assert (R1 : forall k s, bounded s -> bounded (started k s)).
  { intros k s1 H. unfold started. rewrite passstart_eq. exact H. }
  assert (R2 : forall s, bounded s -> bounded (turned o s)).
  { intros s1 H. unfold turned. apply R1. rewrite between_eq. exact H. }
  assert (R3 : forall s, bounded s ->
       match finish s with (Ok _, s') => bounded s' | (Bad _, s') => bounded s' end).
  { intros s1 H.
    assert (F : pres bounding _ finish).
    { apply finish_free; [apply (p_lsteps _ (p_bsteps _ bounding_steps))|triv|triv]. }
    specialize (F s1 H). destruct (finish s1) as [[u|[]] s2]; cbn [fst snd how] in F; exact F. }
  assert (I : bounded (init_state fs text)) by (split; [reflexivity|discriminate]).
  specialize (R (R1 1) o R2 R3 n (init_state fs text) I). rewrite E in R. destruct r; exact R.
Qed.

(** A call or an INCLUDE at the last level stops the program. *)
Lemma checkdepth_full : forall s, 9 <= zlen s.(inp).(srcs) ->
  checkdepth s = fatal "too many nested INCLUDEs and MACROs" s.
Proof.
  intros s H. unfold checkdepth. unfold bind at 1. cbn [gets]. unfold when.
  replace (MAXSOURCEDEEP <=? zlen (srcs (inp s)) + 1) with true; [reflexivity|].
  unfold MAXSOURCEDEEP. lia.
Qed.

Lemma fatal_bind : forall A B m (k : A -> M B) s, bind (fatal m) k s = fatal m s.
Proof. reflexivity. Qed.

Theorem include_full : forall name s, 9 <= zlen s.(inp).(srcs) ->
  forall t, s.(files) name = Some t ->
  Xinclude (Some name) s = fatal "too many nested INCLUDEs and MACROs" s.
Proof.
  intros name s H t F. unfold Xinclude.
  set (e := err _). clearbody e. unfold bind. cbn [gets]. rewrite F. rewrite checkdepth_full by exact H. reflexivity.
Qed.

Theorem macrocall_full : forall self key ptr li oper s, 9 <= zlen s.(inp).(srcs) ->
  exists s', macrocall self key ptr li oper s = fatal "too many nested INCLUDEs and MACROs" s' /\
    s'.(inp) = s.(inp) /\ s'.(ls) = s.(ls).
Proof.
  intros self key ptr li oper s H. unfold macrocall.
  set (s' := set_sy (tupd key (fun l => set_l_flags (set_f_used true l.(l_flags)) l) s.(sy)) s).
  exists s'. split; [|split; reflexivity].
  unfold bind at 1, upd_sy. unfold modify. fold s'. unfold bind at 1. cbn [gets].
  unfold bind at 1. rewrite checkdepth_full by exact H. reflexivity.
Qed.

Theorem include_fatal : forall name s t, List.length s.(inp).(srcs) = 9%nat ->
  s.(files) name = Some t ->
  exists s', Xinclude (Some name) s = (Bad (Exit (s2l "too many nested INCLUDEs and MACROs")), s') /\
    s'.(ls).(stdout) = (s2l "FATAL ERROR: too many nested INCLUDEs and MACROs" ++ [nl]) :: s.(ls).(stdout).
Proof.
  intros name s t H F. eexists. rewrite (include_full name s) with (t := t); [|unfold zlen; lia|exact F].
  split; reflexivity.
Qed.

Theorem macro_fatal : forall self key ptr li oper s, List.length s.(inp).(srcs) = 9%nat ->
  exists s', macrocall self key ptr li oper s =
      (Bad (Exit (s2l "too many nested INCLUDEs and MACROs")), s') /\
    s'.(ls).(stdout) = (s2l "FATAL ERROR: too many nested INCLUDEs and MACROs" ++ [nl]) :: s.(ls).(stdout).
Proof.
  intros self key ptr li oper s H.
  destruct (macrocall_full self key ptr li oper s) as (s' & E & _ & L); [unfold zlen; lia|].
  eexists. rewrite E. split; [reflexivity|]. rewrite <- L. reflexivity.
Qed.

Theorem run_depth : forall n o fs text r s, assemble n o (init_state fs text) = (r, s) ->
  (List.length s.(inp).(srcs) <= 9)%nat.
Proof. intros n o fs text r s E. apply run_bounded in E. unfold zlen in E. lia. Qed.

Theorem run_line : forall n o fs text r s, assemble n o (init_state fs text) = (r, s) ->
  (List.length s.(inp).(curline) <= 249)%nat.
Proof. intros n o fs text r s E. apply run_bounded in E. unfold zlen in E. lia. Qed.

Theorem expansion_length : forall args allargs t,
  (List.length (fst (msubst args allargs 0 t)) <= 241)%nat.
Proof.
  intros args allargs t. pose proof (msubst_len args allargs t 0 ltac:(lia)) as H. unfold zlen in H. lia.
Qed.
