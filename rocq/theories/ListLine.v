(** The listing of a whole line.  Nothing here is part of the model. *)
From Coq Require Import String Ascii ZArith List Bool Lia ZifyBool ZifyNat.
From Verif Require Import Base State Tree Filter Output Label Operator Parse Scode Tables.
From Verif Require Import Cpu6800 Cpu6502 CpuZ80 Pseudos Macro Xref Crasm.
From Verif Require Import BaseFacts Walk TreeFacts Frame Run Eval CpuFacts SpecTable TableFacts SpecListing StoreWalk ListRun SpecStar.
From Verif Require SpecPage StarFacts SpecSplit SpecEmit LineRun.
Import ListNotations.
Open Scope Z_scope.

Lemma expanded_app : forall a b p, expanded p (a ++ b) = expanded p a ++ expanded (p + List.length (expanded p a)) b.
Proof.
  induction a as [|c a IH]; intros b p; cbn [app expanded List.length]; [rewrite Nat.add_0_r; reflexivity|].
  destruct (Ascii.eqb c tab).
  - rewrite IH, app_length, repeat_length, app_assoc. do 2 f_equal. lia.
  - rewrite IH. cbn [app List.length]. do 3 f_equal. lia.
Qed.
Lemma lastcol_len : forall a bs, (List.length (lastcol a bs) <= 21)%nat.
Proof.
  intros a bs. unfold lastcol, columns. destruct (_ <=? 7)%nat eqn:E; [|destruct (_ <=? 14)%nat eqn:F]; cbn [last]; rewrite row_len.
  - destruct bs; [lia|]. lia.
  - pose proof (skipn_length 7 bs). destruct (skipn 7 bs); lia.
  - pose proof (firstn_le_length 7 (skipn 14 bs)). destruct (firstn 7 (skipn 14 bs)); lia.
Qed.
Lemma columns_split : forall a bs, columns a bs = donecols a bs ++ [lastcol a bs].
Proof.
  intros a bs. unfold donecols, lastcol. apply app_removelast_last. unfold columns. destruct (_ <=? 7)%nat; [discriminate|]. destruct (_ <=? 14)%nat; discriminate.
Qed.

(** The state has changed in none of the parts the listing needs. *)
Definition held (s s' : state) : Prop :=
  s'.(ls) = s.(ls) /\ s'.(emitted) = s.(emitted) /\ set_a_org_gv false s'.(fl) = set_a_org_gv false s.(fl) /\
  s'.(inp).(linenumber) = s.(inp).(linenumber) /\ s'.(inp).(lineprefix) = s.(inp).(lineprefix).

Lemma linestart_held : forall s u s', has_origin s -> linestart s = (Ok u, s') ->
  held s s' /\ s'.(inp) = s.(inp) /\ s'.(ct).(advance) = 0 /\ s'.(wr).(pc) = starvalue s mod 2 ^ 64.
Proof.
  intros s u s' (l & H & U) E. unfold linestart, bind, upd_ct, modify in E. cbn [gets] in E.
  set (s1 := set_ct _ s) in E. change (starundef s1) with (starundef s) in E. change (starvalue s1) with (starvalue s) in E.
  assert (N : starundef s = false) by (unfold starundef, star; rewrite H; exact U). rewrite N in E.
  unfold upd_fl, modify, setpc, bind, zerobuffer in E. cbn [gets] in E. set (s2 := set_fl _ s1) in E.
  change (pc (wr s2)) with (pc (wr s)) in E. destruct (u64 (starvalue s) =? pc (wr s)) eqn:Q.
  - apply Z.eqb_eq in Q. unfold ret, upd_ct, upd_ls, modify in E. apply (f_equal snd) in E. cbn [snd] in E. subst s'.
    split; [repeat split|]. split; [reflexivity|]. split; [reflexivity|]. cbn [wr set_ct]. change (pc (wr s2)) with (pc (wr s)). rewrite <- Q. reflexivity.
  - pose proof (aside_flush s2) as K. destruct (flushscoderaw s2) as [[x|x] s3]; [|discriminate E]. cbn [fst snd how asideR] in K.
    destruct K as (A1 & A2 & A3 & A4 & A5 & A6). unfold ret, upd_ct, upd_wr, modify in E. apply (f_equal snd) in E. cbn [snd] in E. subst s'.
    unfold held. cbn [ls emitted fl inp ct wr set_ct set_wr pc set_pc set_rawstart set_raw advance set_bufferpos]. rewrite A1, A2, A3, A4, A6. repeat split.
Qed.

Lemma trim_tail : forall c, exists w, c = trimblanks c ++ w /\ Forall SpecSplit.blank w.
Proof.
  intros c. unfold trimblanks. assert (K : forall x, exists w, x = w ++ skipblanks x /\ Forall SpecSplit.blank w).
  { induction x as [|y x IH]; [exists []; split; [reflexivity|constructor]|]. cbn [skipblanks]. destruct (isblank y) eqn:B.
    - destruct IH as (w & E & F). exists (y :: w). split; [cbn [app]; congruence|]. constructor; [|exact F]. unfold isblank in B. unfold SpecSplit.blank.
      destruct (zc y =? 32) eqn:S; [left|right]; apply zc_inj; [change (zc " ") with 32|change (zc (ascii_of_nat 9)) with 9]; lia.
    - exists []. split; [reflexivity|constructor]. }
  destruct (K (rev c)) as (w & E & F). exists (rev w). split; [|apply Forall_rev; exact F].
  rewrite <- rev_app_distr, <- E, rev_involutive. reflexivity.
Qed.

Lemma stripline_held : forall s t s', stripline s = (Ok t, s') -> held s s' /\ s'.(fl) = s.(fl) /\ s'.(ct).(advance) = s.(ct).(advance) /\ s'.(wr) = s.(wr) /\
  exists w, curline (inp s) = curline (inp s') ++ w /\ Forall SpecSplit.blank w.
Proof.
  intros s t s' E. unfold stripline in E. unfold bind at 1 in E. cbn [gets] in E. step E m s1 E1.
  assert (K : held s s1 /\ s1.(fl) = s.(fl) /\ s1.(ct).(advance) = s.(ct).(advance) /\ s1.(wr) = s.(wr) /\ s1.(inp) = s.(inp)).
  { unfold filter2, filterc, bind in E1. cbn [gets] in E1. cbv zeta in E1. destruct (4000 <=? _); [discriminate E1|]. 
    destruct (fr_caps _) as [l|]; unfold upd_ct, modify, ret in E1.
    - destruct l as [|x1 [|x2 [|x3 l]]]; try discriminate E1; apply (f_equal snd) in E1; cbn [snd] in E1; subst s1; repeat split.
    - apply (f_equal snd) in E1; cbn [snd] in E1; subst s1. repeat split. }
  destruct K as (K1 & K2 & K3 & K4 & K5). destruct m as [[a b]|].
  - unfold ret in E. assert (s' = s1) by congruence. subst s'. repeat (split; [assumption|]). exists []. rewrite app_nil_r, K5. split; [reflexivity|constructor].
  - unfold bind, upd_inp, modify, ret in E. apply (f_equal snd) in E. cbn [snd] in E. subst s'.
    destruct K1 as (H1 & H2 & H3 & H4 & H5). split; [repeat split; assumption|]. repeat (split; [assumption|]). cbn [inp set_inp curline set_curline]. apply trim_tail.
Qed.
Lemma held_D : forall s, listed_plainly s -> fresh_line s -> forall s', held s s' -> s'.(ct).(advance) = 0 ->
  s'.(wr).(pc) = starvalue s mod 2 ^ 64 -> D (starvalue s) [] s'.
Proof.
  intros s (L1 & L2 & L3 & L4 & L5 & _) (F1 & F2) s' (H1 & _ & H3 & _) A P.
  assert (X : a_list_on (fl s') = a_list_on (fl s) /\ a_code_on (fl s') = a_code_on (fl s) /\ a_addr16 (fl s') = a_addr16 (fl s) /\ a_addr24 (fl s') = a_addr24 (fl s)).
  { pose proof (f_equal a_list_on H3) as X1. pose proof (f_equal a_code_on H3) as X2. pose proof (f_equal a_addr16 H3) as X3. pose proof (f_equal a_addr24 H3) as X4. auto. }
  destruct X as (X1 & X2 & X3 & X4). unfold D, buf. rewrite X1, X2, X3, X4, H1. cbn [List.length]. change (Z.of_nat 0) with 0. rewrite Z.add_0_r.
  repeat (split; [assumption|]). split; [|intros Y; lia]. change (lastcol (starvalue s) []) with (@nil ascii). split; [exact F1|]. split; [|exact L1].
  destruct (linebuffer (ls s)) as [|c l]; [reflexivity|]. cbn [cstr]. rewrite F2. reflexivity.
Qed.

Theorem line_listed : forall self n s f s', has_origin s -> SpecEmit.pc_range s -> listed_plainly s -> fresh_line s ->
  (forall q, taken_apart s q -> storing q) -> asmline self n true true s = (Ok f, s') ->
  exists es text w msgs lines t,
    s'.(emitted) = rev es ++ s.(emitted) /\ consecutive (starvalue s) es /\
    s.(inp).(curline) = text ++ w /\ Forall SpecSplit.blank w /\
    mixed (lines_for (starvalue s) (map em_byte es) s.(inp).(linenumber) text) msgs lines /\ Forall SpecPage.is_message msgs /\
    pieces s'.(ls).(stdout) = pieces s.(ls).(stdout) ++ t /\ listing s lines t /\ fresh_line s'.
Proof.
  intros self n s f s' O P Lp Fr Q E.
  assert (SF : star_follows s s').
  { apply (StarFacts.line_follows self n true true s (Ok f) s'); [destruct O as (l & O & _); exists l; exact O|exact P| |exact E|discriminate].
    intros q T. specialize (Q q T). unfold storing in Q. unfold of_its_own, sets_star. split.
    - destruct (q_mnemo q) as [[k l]|]; [|exact Logic.I]. destruct Q as (Q1 & Q2 & Q3 & _). split; [rewrite Q1; discriminate|auto].
    - intros (k & l & X & Y & _). rewrite X in Q. destruct Q as (_ & _ & _ & h & Q1 & Q2). rewrite Y in Q1. injection Q1 as <-. discriminate Q2. }
  destruct SF as (es & Em & Co & _).
  unfold asmline in E. step E u s1 E1. destruct u. destruct (linestart_held _ _ _ O E1) as (H1 & I1 & A1 & P1).
  unfold bind at 1 in E. cbn [gets] in E. step E t0 s2 E2. destruct (stripline_held _ _ _ E2) as (H2 & F2 & A2 & W2 & w & C2 & B2).
  assert (H : held s s2) by (unfold held in *; intuition congruence).
  pose proof (held_D s Lp Fr s2 H ltac:(congruence) ltac:(congruence)) as Ds. rewrite I1 in C2.
  assert (Ln : linenumber (inp s2) = linenumber (inp s) /\ lineprefix (inp s2) = lineprefix (inp s)) by (unfold held in H; tauto). destruct Ln as [Ln1 Ln2].
  assert (Em2 : emitted s2 = emitted s) by apply H.
  assert (Ls2 : ls s2 = ls s) by apply H.
  assert (Out : forall s3 s9 u, V Fine s2 s3 -> forall s4, s4.(ls) = s3.(ls) -> s4.(fl) = s3.(fl) -> s4.(inp) = s3.(inp) -> s4.(emitted) = s3.(emitted) ->
    outputline s4 = (Ok u, s9) -> s9 = s' -> exists text w msgs lines t, curline (inp s) = text ++ w /\ Forall SpecSplit.blank w /\
    mixed (lines_for (starvalue s) (map em_byte es) s.(inp).(linenumber) text) msgs lines /\ Forall SpecPage.is_message msgs /\
    pieces s'.(ls).(stdout) = pieces s.(ls).(stdout) ++ t /\ listing s lines t /\ fresh_line s').
  { intros s3 s9 u Vs s4 X1 X2 X3 X4 Eo ->. destruct (Vs _ _ Ds) as (Iv & es' & rows & Ev & Dv & Rv & Sv). cbn [app] in Dv, Rv.
    destruct Dv as (D1 & D2 & D3 & D4 & D5 & D6 & D7 & D8). change (donecols (starvalue s) []) with (@nil str) in Rv. cbn [app] in Rv.
    destruct Lp as (_ & _ & _ & _ & _ & Lp6 & Lp7 & Lp8 & Lp9).
    assert (Gl : llen (ls s3) = llen (ls s)) by (destruct Sv as [[G _] _]; congruence).
    assert (Xc : curline (inp s4) = curline (inp s2)) by congruence.
    destruct (outputline_run (lastcol (starvalue s) (map em_byte es')) s4 u s') as [G B].
    - unfold buf in *. rewrite X1, X2. exact D7.
    - apply lastcol_len.
    - congruence.
    - rewrite X3, Iv, Ln1. exact Lp6.
    - rewrite X3, Iv, Ln2. exact Lp7.
    - rewrite Xc. rewrite C2 in Lp8. apply Forall_app in Lp8. apply Lp8.
    - rewrite Xc, X1, Gl. rewrite C2, expanded_app, app_length in Lp9. lia.
    - exact Eo.
    - rewrite X3, Iv, Ln1 in G. rewrite <- X3, Xc in G || rewrite <- Iv, <- X3, Xc in G.
      assert (Ee : es' = es).
      { pose proof (pres_outputline _ StarFacts.idling_osteps s4) as Id. rewrite Eo in Id. cbn [fst snd how StarFacts.idling] in Id. destruct Id as (_ & _ & _ & Ie & _).
        assert (Y : rev es' ++ emitted s = rev es ++ emitted s) by (rewrite <- Em2 at 1; rewrite <- Ev, <- Em; congruence).
        apply app_inv_tail in Y. apply (f_equal (@rev _)) in Y. rewrite !rev_involutive in Y. exact Y. }
      subst es'. pose proof (shows_app _ _ _ _ _ Sv (shows_ls _ _ _ s3 s' (shows_grown _ _ _ G) ltac:(congruence) eq_refl)) as [_ (msgs & lines & t & M1 & M2 & M3 & M4)].
      exists (curline (inp s2)), w, msgs, lines, t. split; [exact C2|]. split; [exact B2|]. split; [|split; [exact M2|]].
      + unfold lines_for. fold (donecols (starvalue s) (map em_byte es)). fold (lastcol (starvalue s) (map em_byte es)). rewrite Rv. exact M1.
      + rewrite <- Ls2. split; [exact M3|]. split; [apply (listing_geometry s s2); [unfold geometry; rewrite Ls2; auto|exact M4]|].
        destruct B as (B3 & B4 & _). split; [exact B3|]. destruct (linebuffer (ls s')) as [|c l]; [exact Logic.I|]. cbn [cstr] in B4.
        destruct (zc c =? 0) eqn:Z0; [apply Z.eqb_eq; exact Z0|discriminate B4]. }
  assert (Goal : exists text w msgs lines t, curline (inp s) = text ++ w /\ Forall SpecSplit.blank w /\
    mixed (lines_for (starvalue s) (map em_byte es) s.(inp).(linenumber) text) msgs lines /\ Forall SpecPage.is_message msgs /\
    pieces s'.(ls).(stdout) = pieces s.(ls).(stdout) ++ t /\ listing s lines t /\ fresh_line s').
  2:{ destruct Goal as (x1 & x2 & x3 & x4 & x5 & x6). exists es, x1, x2, x3, x4, x5. auto. }
  destruct t0 as [|c0 t0].
  { step E u s3 E3. cbn [when] in E3. assert (s3 = s') by (unfold ret in E; congruence). apply (Out s2 s3 u (p_refl _ V_order s2) s2); auto. }
  step E q s3 E3. assert (Tq : taken_apart s q) by (exists s1, (c0 :: t0), s2, s3; repeat split; auto; discriminate). specialize (Q q Tq).
  pose proof (V_splitline (c0 :: t0) s2) as V3. rewrite E3 in V3. cbn [fst snd how] in V3. unfold storing in Q.
  destruct (q_mnemo q) as [[key l]|].
  - destruct Q as (Q1 & Q2 & Q3 & h & Q4 & Q5). unfold dispatch in E. cbv zeta in E. rewrite Q2, Q3, Q1, Q4 in E. cbn [orb] in E.
    step E u4 s4 E4. apply when_err in E4. destruct E4 as [_ ->]. step E u5 s5 E5.
    assert (V5 : V Fine s2 s5).
    { destruct (f_deflabel (l_flags l)).
      - apply when_err in E5. destruct E5 as [_ ->]. exact V3.
      - destruct (q_label q) as [x|]; [|unfold ret in E5; assert (s5 = s3) by congruence; subst; exact V3].
        cbn [when] in E5. pose proof (V_herelabel x s3) as V5. rewrite E5 in V5. exact (p_trans _ V_order _ _ _ _ V3 V5). }
    step E u6 s6 E6. assert (A5 : advance (ct s5) = 0).
    { destruct (LineRun.near_ok _ _ _ _ _ (LineRun.near_splitline _) E3) as [_ A3]. assert (A4 : advance (ct s3) = 0) by congruence.
      destruct (f_deflabel (l_flags l)); [apply when_err in E5; destruct E5 as [_ ->]; exact A4|].
      destruct (q_label q) as [x|]; [|unfold ret in E5; assert (s5 = s3) by congruence; subst; exact A4].
      cbn [when] in E5. destruct (LineRun.herelabel_ok _ _ _ _ E5) as (_ & sd & Ed & _ & Ad & Rd). rewrite Ad.
      rewrite deflabel_eq, Rd in Ed. apply (f_equal snd) in Ed. cbn [snd] in Ed. subst sd. exact A4. }
    pose proof (V_exec h (l_modifier l) (q_label q) (q_oper q) s5 Q5 A5) as V6. rewrite E6 in V6. cbn [fst snd how] in V6.
    step E u7 s7 E7. step E u8x s8x E8. cbn [when] in E8. assert (s8x = s') by (unfold ret in E; congruence).
    unfold star_advance in E7. unfold bind at 1 in E7. cbn [gets] in E7. cbv zeta in E7. destruct (in_s64 _); [|discriminate E7].
    unfold upd_sy, modify in E7. apply (f_equal snd) in E7. cbn [snd] in E7.
    apply (Out s6 s8x u8x (p_trans _ V_order _ _ _ _ V5 V6) s7); subst; auto.
  - destruct (_ && _ && _); [|elim (error_never _ _ _ _ _ E)]. step E u4 s4 E4. cbn [when] in E4.
    pose proof (V_herelabel (q_text q) s3) as V4. rewrite E4 in V4. cbn [fst snd how] in V4. step E u5 s5 E5. cbn [when] in E5.
    assert (s5 = s') by (unfold ret in E; congruence).
    apply (Out s4 s5 u5 (p_trans _ V_order _ _ _ _ V3 V4) s4); auto.
Qed.
