(** Macro definitions and macro calls. *)
From Coq Require Import String Ascii ZArith List Bool Lia ZifyBool ZifyNat.
From Verif Require Import Base State Tree Filter Output Label Operator Parse Scode Macro Cpu6800 Crasm.
From Verif Require Import BaseFacts FilterFacts SplitFacts FormFacts SpecForms SpecMacro TreeFacts Frame InputFacts CpuFacts Z80Inst.
From Verif Require Walk JoinFacts CallFacts SpecSplit SpecInput AcceptZFacts.
Import ListNotations.
Open Scope Z_scope.

(** ** The two patterns *)
Lemma filter2_eq : forall t pat s r s', filter2 t pat s = (Ok r, s') ->
  listed s s' /\ r = match fr_caps (filter_pure t (s2l pat)) with Some (a :: b :: _) => Some (a, b) | _ => None end.
Proof.
  intros t pat s r s' E. unfold filter2 in E. step E m s1 E1. injection E as <- <-.
  unfold filterc, bind in E1. cbn [gets] in E1. destruct (4000 <=? _); [discriminate E1|].
  destruct (fr_caps (filter_pure t (s2l pat))) as [l|].
  - unfold upd_ct, modify, ret in E1. injection E1 as <- <-. split.
    + unfold listed. destruct s as [? ? ? ? ? [] ? ? ? ? ?]. repeat split.
    + destruct l as [|a [|b l]]; reflexivity.
  - unfold ret in E1. injection E1 as <- <-. split; [apply listed_refl|reflexivity].
Qed.

(** The wildcard stops at the first place where the signs follow. *)
Lemma wild_first : forall (k : quote -> str -> fres) seg rem, forallb sign seg = true -> (1 <= signs seg)%nat -> forall starts q cap,
  match fr_caps (wildloop k seg false rem starts q cap) with
  | Some l => exists a y r l', starts = a ++ y ++ r /\ qzero (fold_left qstep a q) = true /\ spells seg y /\
      l = (rev cap ++ a) :: l' /\ fr_caps (k (fold_left qstep a q) r) = Some l' /\
      forall a2 y2 r2, starts = a2 ++ y2 ++ r2 -> qzero (fold_left qstep a2 q) = true -> spells seg y2 -> (List.length a <= List.length a2)%nat
  | None => (forall q r, fr_caps (k q r) <> None) -> forall a y r, starts = a ++ y ++ r -> qzero (fold_left qstep a q) = true -> ~ spells seg y
  end.
Proof.
  intros k seg rem S Sg. induction starts as [|c starts IH]; intros q cap; cbn [wildloop].
  - destruct (mlit (qzero q) false seg []) as [r| |] eqn:M; cbn [fr_caps].
    + pose proof (mlit_quiet2 _ _ _ _ _ Sg M) as Q. rewrite Q in M. destruct (mlit_sound _ _ _ _ S M) as (x & E & X & _).
      destruct (fr_caps (k q r)) as [l'|] eqn:K.
      * exists [], x, r, l'. rewrite (app_nil_r (rev cap)). repeat split; try assumption. intros. cbn. lia.
      * intros T. elim (T q r K).
    + intros _ a y r E _ X. apply eq_sym, app_eq_nil in E. destruct E as [-> E]. apply app_eq_nil in E. destruct E as [-> ->]. apply spells_letters in X; [|exact S]. cbn in X. lia.
    + intros _ a y r E _ X. apply eq_sym, app_eq_nil in E. destruct E as [-> E]. apply app_eq_nil in E. destruct E as [-> ->]. apply spells_letters in X; [|exact S]. cbn in X. lia.
  - destruct (mlit (qzero q) false seg (c :: starts)) as [r| |] eqn:M; cbn [fr_caps].
    + pose proof (mlit_quiet2 _ _ _ _ _ Sg M) as Q. rewrite Q in M. destruct (mlit_sound _ _ _ _ S M) as (x & E & X & _).
      destruct (fr_caps (k q r)) as [l'|] eqn:K.
      * exists [], x, r, l'. rewrite (app_nil_r (rev cap)). repeat split; try assumption. intros. cbn. lia.
      * intros T. elim (T q r K).
    + intros _ a y r E _ X. assert (L : (letters (c :: starts) < signs seg)%nat) by (destruct (qzero q); [apply AcceptZFacts.mlit_end2|apply AcceptZFacts.mlit_end3]; exact M).
      apply spells_letters in X; [|exact S]. rewrite E, !letters_app in L. lia.
    + assert (Z : forall a y r, c :: starts = a ++ y ++ r -> qzero (fold_left qstep a q) = true -> spells seg y -> a <> []).
      { intros a y r E Q X ->. cbn [fold_left] in Q. rewrite Q in M. rewrite E in M. cbn [app] in M. destruct (mlit_prefix _ _ r S X) as (r' & M' & _). rewrite M' in M. discriminate M. }
      specialize (IH (qstep q c) (c :: cap)). destruct (fr_caps _) as [l|].
      * destruct IH as (a & y & r & l' & -> & Q & X & -> & K & F). exists (c :: a), y, r, l'. cbn [rev fold_left]. rewrite <- app_assoc.
        repeat split; try assumption. intros a2 y2 r2 E Q2 X2. destruct a2 as [|c2 a2]; [elim (Z _ _ _ E Q2 X2); reflexivity|].
        injection E as <- E. cbn [fold_left] in Q2. pose proof (F a2 y2 r2 E Q2 X2). cbn. lia.
      * intros T a y r E Q X. destruct a as [|c2 a]; [elim (Z _ _ _ E Q X); reflexivity|]. injection E as <- E. exact (IH T a y r E Q X).
Qed.

Lemma last_total : forall q r, fr_caps (fwild [[]] q r) <> None.
Proof. intros q r. cbn [fwild fr_caps]. discriminate. Qed.

Lemma comment_pat : forall t,
  uncommented t (match match fr_caps (filter_pure t (s2l "?_;?")) with Some (a :: b :: _) => Some (a, b) | _ => None end with
                 | Some (a, _) => a | None => t end).
Proof.
  intros t. change (fr_caps (filter_pure t (s2l "?_;?"))) with (fr_caps (wildloop (fwild [[]]) (s2l "_;") false (zlen t) t q0 [])).
  pose proof (wild_first (fwild [[]]) (s2l "_;") (zlen t) eq_refl ltac:(vm_compute; auto) t q0 []) as W.
  destruct (fr_caps _) as [l|].
  - destruct W as (a & y & r & l' & E & Q & X & -> & K & F). cbn [fwild fr_caps] in K. injection K as <-. cbn [rev app].
    left. exists r. apply quiet_outside in Q. split; [exists y; auto|].
    intros a' b' (y' & E' & X' & Q'). apply quiet_outside in Q'. exact (F _ _ _ E' Q' X').
  - right. split; [reflexivity|]. intros a b (y & E & X & Q). apply quiet_outside in Q. exact (W last_total _ _ _ E Q X).
Qed.

Lemma outside_blanks : forall w a, Forall SpecSplit.blank w -> SpecSplit.outside (w ++ a) <-> SpecSplit.outside a.
Proof.
  intros w a F. induction F as [|c w B F IH]; [reflexivity|]. rewrite <- IH. unfold SpecSplit.outside. cbn [app fold_left].
  destruct B as [-> | ->]; reflexivity.
Qed.

Lemma endm_pat : forall t,
  match match fr_caps (filter_pure t (s2l "_?_ENDM_?")) with Some (a :: b :: _) => Some (a, b) | _ => None end with
  | Some (a, b) => endm_in t a b
  | None => forall a b, ~ endm_in t a b
  end.
Proof.
  intros t. change (fr_caps (filter_pure t (s2l "_?_ENDM_?"))) with
    (fr_caps (wildloop (fwild [[]]) (s2l "_ENDM_") false (zlen (skipblanks t)) (skipblanks t) q0 [])).
  pose proof (wild_first (fwild [[]]) (s2l "_ENDM_") (zlen (skipblanks t)) eq_refl ltac:(vm_compute; auto) (skipblanks t) q0 []) as W.
  destruct (skipblanks_split t) as (w & Et & Bw & _).
  destruct (fr_caps _) as [l|].
  - destruct W as (a & y & r & l' & E & Q & X & -> & K & F). cbn [fwild fr_caps] in K. injection K as <-. cbn [rev app].
    apply quiet_outside in Q. exists w, y. rewrite <- E. auto.
  - intros a b (w1 & y & E & B1 & X & Q).
    destruct (skipblanks_split a) as (w2 & Ea & B2 & Ta).
    assert (S : skipblanks t = skipblanks (a ++ y ++ b)) by (rewrite E, skipblanks_app by exact B1; reflexivity).
    destruct (skipblanks a) as [|c a1] eqn:Sa.
    + rewrite app_nil_r in Ea. subst w2. rewrite skipblanks_app in S by exact B2.
      apply (spells_skip (s2l "_ENDM_") _ eq_refl) in X.
      assert (Sy : skipblanks (y ++ b) = skipblanks y ++ b).
      { destruct (skipblanks_split y) as (wy & Ey & By & Ty). rewrite Ey at 1. rewrite <- app_assoc, skipblanks_app by exact By.
        apply skipblanks_tight. destruct (skipblanks y) as [|c z]; [|exact Ty]. apply spells_letters in X; [discriminate X|reflexivity]. }
      rewrite Sy in S. exact (W last_total [] (skipblanks y) b S eq_refl X).
    + rewrite Ea in S. rewrite <- app_assoc, skipblanks_app in S by exact B2. rewrite (skipblanks_tight ((c :: a1) ++ y ++ b)) in S by exact Ta.
      rewrite Ea in Q. apply outside_blanks in Q; [|exact B2]. apply quiet_outside in Q. exact (W last_total (c :: a1) y b S Q X).
Qed.

Lemma spells_keyword : forall kw y, ~ List.In "_"%char kw -> spells ("_"%char :: kw ++ ["_"%char]) y -> map SpecSplit.upper kw = kw -> SpecSplit.keyword kw y.
Proof.
  intros kw y N X U. inversion X as [|p w t W Y|c p d t F]; subst; [|elim F; reflexivity].
  assert (P : forall kw t, ~ List.In "_"%char kw -> spells (kw ++ ["_"%char]) t -> exists e w2, t = e ++ w2 /\ Forall SpecSplit.blank w2 /\ map SpecSplit.upper e = map SpecSplit.upper kw).
  { clear. induction kw as [|c kw IH]; intros t N X; cbn [app] in X.
    - inversion X as [|p w u W Y|c p d u F]; subst; [|elim F; reflexivity]. inversion Y; subst. exists [], w. rewrite app_nil_r. auto.
    - inversion X as [|p w u W Y|c' p d u F G Y]; subst; [elim N; left; reflexivity|].
      destruct (IH u) as (e & w2 & -> & B & M); [intros K; apply N; right; exact K|exact Y|]. exists (d :: e), w2. cbn [app map]. rewrite G, M. auto. }
  destruct (P kw t N Y) as (e & w2 & -> & B & M). exists w, e, w2. rewrite M. auto.
Qed.

Lemma endm_alone : forall t, endm_in t [] [] -> SpecSplit.keyword (s2l "ENDM") t.
Proof.
  intros t (w & y & -> & B & X & _). cbn [app]. rewrite app_nil_r.
  destruct (spells_keyword (s2l "ENDM") y) as (w1 & e & w2 & -> & B1 & B2 & M); [vm_compute; intuition discriminate|exact X|reflexivity|].
  exists (w ++ w1), e, w2. rewrite <- app_assoc. repeat split; auto. apply Forall_app. auto.
Qed.

Lemma another_word : ~ SpecSplit.keyword (s2l "ENDM") (s2l "endmark nop").
Proof.
  intros (w1 & e & w2 & E & B1 & B2 & M).
  destruct w1 as [|c w1]; [|injection E as <- E; inversion B1 as [|? ? [B|B] _]; subst; discriminate B].
  cbn [app] in E. apply (f_equal (@List.length ascii)) in M as L. rewrite map_length in L.
  destruct e as [|c1 [|c2 [|c3 [|c4 [|c5 e]]]]]; try discriminate L.
  injection E as _ _ _ _ <-. inversion B2 as [|? ? [B|B] _]; subst; discriminate B.
Qed.

(** ** The lines of a definition *)
(** Everything but the listing and the input. *)
Definition aside (s s' : state) : Prop :=
  s'.(fl) = s.(fl) /\ s'.(wr) = s.(wr) /\ s'.(sy) = s.(sy) /\
  s'.(ct) = set_bufferpos s'.(ct).(bufferpos) s.(ct) /\ s'.(cp) = s.(cp) /\ s'.(files) = s.(files) /\
  s'.(maintext) = s.(maintext) /\ s'.(emitted) = s.(emitted) /\ s'.(reported) = s.(reported).
Lemma aside_listed : forall s s', listed s s' -> aside s s' /\ s'.(inp) = s.(inp).
Proof. unfold listed, aside. intuition. Qed.
Lemma aside_refl : forall s, aside s s.
Proof. intros s. apply aside_listed, listed_refl. Qed.
Lemma aside_trans : forall a b c, aside a b -> aside b c -> aside a c.
Proof.
  unfold aside. intros a b c (A1 & A2 & A3 & A5 & A6 & A7 & A8 & A9 & A0) (B1 & B2 & B3 & B5 & B6 & B7 & B8 & B9 & B0).
  repeat split; try congruence. rewrite B5. cbn [set_bufferpos bufferpos]. rewrite A5. reflexivity.
Qed.
Lemma aside_inp : forall s i, aside s (set_inp i s).
Proof. intros s i. unfold aside. destruct s as [? ? ? ? ? [] ? ? ? ? ?]. repeat split. Qed.

Lemma macrolines_ok : forall n li acc s ls a b s', s.(inp).(srcs) = [] -> ~ List.In SpecInput.nul s.(inp).(mainrest) ->
  macrolines n li acc s = (Ok (ls, a, b), s') ->
  exists ps rest init last, lines_of s.(inp).(mainrest) ps rest (init ++ [last]) /\ ls = rev acc ++ init ++ [last] /\
    Forall (fun l => forall a b, ~ endm_in l a b) init /\ endm_in last a b /\ aside s s' /\
    exists c, s'.(inp) = set_mainrest rest (set_maineof false (set_linenumber (s.(inp).(linenumber) + Z.of_nat (List.length ps)) (set_curline c s.(inp)))).
Proof.
  induction n as [|n IH]; intros li acc s ls a b s' S N E; [discriminate E|]. cbn [macrolines] in E.
  step E u0 s0 E0. unfold zerobuffer, upd_ct, modify in E0. injection E0 as <- <-.
  set (s0 := set_ct _ s) in *.
  assert (A0 : aside s s0) by (unfold aside, s0; destruct s as [? ? ? ? ? [] ? ? ? ? ?]; repeat split).
  assert (I0 : s0.(inp) = s.(inp)) by reflexivity.
  destruct (linegets_main s0) as (p & rest & e & s1 & [P Q] & L & R); [rewrite I0; exact S|rewrite I0; exact N|].
  unfold bind at 1 in E. rewrite R in E. set (s2 := set_inp _ s1) in *.
  assert (A2 : aside s s2).
  { apply (aside_trans _ _ _ A0). apply (aside_trans _ s1); [apply aside_listed; exact L|apply aside_inp]. }
  step E e' s3 E3. unfold mainfeof in E3. cbn [gets] in E3. injection E3 as <- <-.
  change (maineof (inp s2)) with e in E. destruct e; [apply Eval.error_never in E; contradiction|].
  step E c s3 E3. cbn [gets] in E3. injection E3 as <- <-. change (curline (inp s2)) with (SpecInput.visible p) in E.
  step E m s3 E3. apply filter2_eq in E3. destruct E3 as [L3 ->].
  pose proof (comment_pat (SpecInput.visible p)) as U.
  set (l := match match fr_caps (filter_pure (SpecInput.visible p) (s2l "?_;?")) with Some (a :: b :: _) => Some (a, b) | _ => None end with
                 | Some (a, _) => a | None => SpecInput.visible p end) in *.
  change (uncommented (SpecInput.visible p) l) in U. clearbody l. cbv zeta in E. step E u4 s4 E4.
  assert (L4 : listed s3 s4).
  { destruct li; cbn [when] in E4; [|injection E4 as <- <-; apply listed_refl].
    pose proof (pres_outputline _ listed_osteps s3) as K. rewrite E4 in K. exact K. }
  step E m s5 E5. apply filter2_eq in E5. destruct E5 as [L5 ->].
  pose proof (endm_pat l) as M.
  pose proof (listed_trans _ _ _ L3 (listed_trans _ _ _ L4 L5)) as L6. apply aside_listed in L6. destruct L6 as [A6 I6].
  pose proof (aside_trans _ _ _ A2 A6) as A.
  assert (W : SpecInput.whole p \/ SpecInput.part p) by exact Q. rewrite I0 in P.
  assert (I5 : s5.(inp) = set_mainrest rest (set_maineof false (set_linenumber (s.(inp).(linenumber) + 1) (set_curline (SpecInput.visible p) s.(inp))))).
  { rewrite I6. reflexivity. }
  destruct (match fr_caps (filter_pure l (s2l "_?_ENDM_?")) with Some (a :: b :: _) => Some (a, b) | _ => None end) as [[a1 b1]|].
  - injection E as <- <- <- <-. exists [p], rest, [], l. cbn [app rev]. repeat split; try assumption.
    + rewrite P. cbn. rewrite app_nil_r. reflexivity.
    + constructor; [exact W|constructor].
    + constructor; [exact U|constructor].
    + constructor.
    + apply A. + apply A. + apply A. + apply A. + apply A. + apply A. + apply A. + apply A. + apply A.
    + exists (SpecInput.visible p). exact I5.
  - apply IH in E.
    + destruct E as (ps & r & init & last & (C1 & C2 & C3) & -> & B1 & B2 & A7 & c & I7).
      rewrite I5 in C1. cbn [mainrest set_mainrest] in C1. exists (p :: ps), r, (l :: init), last. split; [|split; [|split; [|split; [|split]]]].
      * split; [rewrite P, C1; cbn; rewrite app_assoc; reflexivity|]. split; constructor; assumption.
      * cbn [rev]. rewrite <- app_assoc. reflexivity.
      * constructor; assumption.
      * exact B2.
      * exact (aside_trans _ _ _ A A7).
      * exists c. rewrite I7, I5. cbn [List.length]. rewrite Nat2Z.inj_succ.
        replace (linenumber (inp s) + Z.succ (Z.of_nat (List.length ps))) with (linenumber (inp s) + 1 + Z.of_nat (List.length ps)) by lia. reflexivity.
    + rewrite I5. exact S.
    + rewrite I5. cbn [mainrest set_mainrest]. intros K. apply N. rewrite P. apply in_or_app. right. exact K.
Qed.

Theorem macro_defined : forall n li label oper s f s', s.(inp).(srcs) = [] -> ~ List.In SpecInput.nul s.(inp).(mainrest) ->
  Xmacro n li true label oper s = (Ok f, s') ->
  let k := lkey s.(inp).(segment) (firstn LABLEN label) in
  f = FNone /\
  exists ps rest ls c l, lines_of s.(inp).(mainrest) ps rest ls /\ body ls /\
    s'.(inp) = set_mainrest rest (set_maineof false (set_linenumber (s.(inp).(linenumber) + Z.of_nat (List.length ps)) (set_curline c s.(inp)))) /\
    tfind k s'.(sy) = Some l /\ l.(l_type) = TMacro /\ l.(l_ptr) = PMac ls /\ l.(l_flags).(f_undef) = false /\
    (forall k', k' <> k -> tfind k' s'.(sy) = tfind k' s.(sy)) /\
    s'.(fl) = s.(fl) /\ s'.(wr) = s.(wr) /\ s'.(emitted) = s.(emitted) /\ s'.(reported) = s.(reported) /\ s'.(cp) = s.(cp).
Proof.
  intros n li label oper s f s' S N E. unfold Xmacro in E. generalize dependent (firstn LABLEN label). clear label. intros label E.
  step E u0 s0 E0. destruct (ogiven oper); [cbn [when] in E0; unfold err in E0; apply Eval.error_never in E0; contradiction|]. cbn [when] in E0. injection E0 as <- <-.
  step E m s0 E0. cbn [gets] in E0. injection E0 as <- <-.
  step E u0 s0 E0. destruct (negb _); [cbn [when] in E0; unfold err in E0; apply Eval.error_never in E0; contradiction|]. cbn [when] in E0. injection E0 as <- <-.
  step E u1 s1 E1.
  assert (L1 : listed s s1).
  { destruct li; cbn [when] in E1; [|injection E1 as <- <-; apply listed_refl].
    pose proof (pres_outputline _ listed_osteps s) as K. rewrite E1 in K. exact K. }
  apply aside_listed in L1. destruct L1 as [A1 I1].
  step E k s2 E2. step E2 k' s2' E2'. injection E2 as <- <-. rewrite deflabel_eq in E2'. rewrite I1 in E2'.
  destruct A1 as (Af & Aw & As & Ac & Ap & Afs & Am & Ae & Ar). rewrite As in E2'.
  destruct (refused _ _); [apply Eval.error_never in E2'; contradiction|]. injection E2' as <- <-.
  set (k := lkey (segment (inp s)) label) in *.
  set (t2 := tupd k _ _) in *.
  step E x s3 E3. destruct x as [[ls a] b]. apply macrolines_ok in E3; [|cbn [inp set_sy]; rewrite I1; exact S|cbn [inp set_sy]; rewrite I1; exact N].
  destruct E3 as (ps & rest & init & last & Li & El & B1 & B2 & (Bf & Bw & Bs & Bc & Bp & Bfs & Bm & Be & Br) & c & Ic).
  cbn [rev app inp set_sy] in *. rewrite I1 in Li, Ic.
  destruct a; [|apply Eval.error_never in E; contradiction]. destruct b; [|apply Eval.error_never in E; contradiction].
  step E u4 s4 E4. unfold upd_sy, modify in E4. injection E4 as <- <-. injection E as <- <-. cbv zeta. split; [reflexivity|].
  cbn [sy set_sy inp fl wr emitted reported cp] in *.
  assert (G : exists l2, tfind k t2 = Some l2 /\ l2.(l_type) = TMacro /\ l2.(l_flags).(f_undef) = false).
  { unfold t2. destruct (tfind k (sy s)) as [l0|] eqn:F.
    - eexists. rewrite tfind_tupd_same, F. cbn [option_map]. split; [reflexivity|]. split; reflexivity.
    - eexists. rewrite tfind_tupd_same, tfind_tins_same by exact F. cbn [option_map]. split; [reflexivity|]. split; reflexivity. }
  destruct G as (l2 & G1 & G2 & G3).
  exists ps, rest, ls, c, (set_l_ptr (PMac ls) l2). subst ls. split; [exact Li|]. split.
  { exists init, last. split; [reflexivity|]. split; [apply endm_alone; exact B2|exact B1]. }
  split; [exact Ic|]. rewrite Bs, tfind_tupd_same, G1. cbn [option_map].
  split; [reflexivity|]. split; [exact G2|]. split; [reflexivity|]. split; [exact G3|]. split.
  { intros k' D. rewrite tfind_tupd_other by exact D. unfold t2. rewrite tfind_tupd_other by exact D.
    destruct (tfind k (sy s)); [reflexivity|]. apply tfind_tins_other. exact D. }
  repeat split; congruence.
Qed.

(** ** Macro calls *)
Theorem call_returns : forall n key ptr li o s u s',
  macrocall (run n) key ptr li o s = (Ok u, s') ->
  s'.(inp).(srcs) = s.(inp).(srcs) /\ s'.(inp).(mainrest) = s.(inp).(mainrest) /\ s'.(inp).(maineof) = s.(inp).(maineof) /\
  s'.(inp).(linenumber) = s.(inp).(linenumber) /\ s'.(inp).(lineprefix) = s.(inp).(lineprefix) /\
  s'.(inp).(segment) = s.(inp).(segment) /\ s'.(fl).(a_list_on) = s.(fl).(a_list_on).
Proof.
  intros n key ptr li o s u s' E. unfold macrocall in E.
  step E x0 s1 E0. unfold upd_sy, modify in E0. injection E0 as <- <-.
  step E x1 s2 E1. cbn [gets] in E1. injection E1 as <- <-.
  step E x2 s2 E2. apply CallFacts.fixed_checkdepth in E2. subst s2.
  step E args s3 E3. apply fixed_macroargs in E3. destruct E3 as [F3 I3]. cbn [inp set_sy] in I3.
  step E ml s4 E4. cbn [gets] in E4. injection E4 as <- <-.
  step E x5 s5 E5.
  assert (I5 : s5.(inp) = s.(inp)).
  { unfold when in E5. destruct (_ && li); [apply fixed_outputline in E5; destruct E5; congruence|injection E5 as <- <-; exact I3]. }
  step E x6 s6 E6. unfold upd_inp, modify in E6. injection E6 as <- <-.
  step E x7 s7 E7. unfold Pseudos.newsegment, upd_inp, modify in E7. injection E7 as <- <-.
  step E x8 t8 E8. cbn [gets] in E8. injection E8 as <- <-.
  step E f t9 E9. match type of E9 with run _ KMac ?b true ?r8 = _ => set (t := r8) in *; pose proof (Walk.J_run _ JoinFacts.steady_walk n KMac b true t) as K end.
  rewrite E9 in K. cbn [snd] in K. destruct K as [_ K]. destruct K as (K1 & K2 & _); [left; exact Logic.I|].
  assert (M1 : t.(inp).(mainrest) = s.(inp).(mainrest)) by (rewrite <- I5; reflexivity).
  assert (M2 : t.(inp).(maineof) = s.(inp).(maineof)) by (rewrite <- I5; reflexivity).
  clearbody t. step E x9 s10 E10. unfold upd_inp, modify in E10. injection E10 as <- <-.
  step E x11 s11 E11. unfold upd_fl, modify in E11. injection E11 as <- <-.
  match type of E with _ ?a = _ => set (v := a) in *; assert (G : v.(inp).(srcs) = s.(inp).(srcs) /\ v.(inp).(mainrest) = s.(inp).(mainrest) /\ v.(inp).(maineof) = s.(inp).(maineof) /\
    v.(inp).(linenumber) = s.(inp).(linenumber) /\ v.(inp).(lineprefix) = s.(inp).(lineprefix) /\
    v.(inp).(segment) = s.(inp).(segment) /\ v.(fl).(a_list_on) = s.(fl).(a_list_on)) end.
  { unfold v. cbn. repeat split; congruence. }
  clearbody v.
  assert (X : forall b, (when (negb b) (upd_inp (set_curline (curline (inp s))) ;;; when li outputline)) v = (Ok u, s') ->
    s'.(inp).(srcs) = v.(inp).(srcs) /\ s'.(inp).(mainrest) = v.(inp).(mainrest) /\ s'.(inp).(maineof) = v.(inp).(maineof) /\
    s'.(inp).(linenumber) = v.(inp).(linenumber) /\ s'.(inp).(lineprefix) = v.(inp).(lineprefix) /\
    s'.(inp).(segment) = v.(inp).(segment) /\ s'.(fl).(a_list_on) = v.(fl).(a_list_on)).
  { intros b Y. destruct b; cbn [negb when] in Y; [injection Y as <- <-; repeat split|].
    step Y y1 w1 Y1. unfold upd_inp, modify in Y1. injection Y1 as <- <-. destruct li; cbn [when] in Y; [|injection Y as <- <-; repeat split].
    pose proof (pres_outputline _ listed_osteps (set_inp (set_curline (curline (inp s)) (inp v)) v)) as L. rewrite Y in L.
    destruct L as (L1 & _ & _ & L2 & _). cbn [snd] in *. rewrite L1, L2. repeat split. }
  destruct f; try (apply Eval.error_never in E; contradiction);
    step E b s12 E12; cbn [gets] in E12; injection E12 as <- <-; apply X in E; intuition congruence.
Qed.
