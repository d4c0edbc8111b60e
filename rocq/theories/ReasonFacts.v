(** Why a directive is refused. *)
From Coq Require Import String Ascii ZArith List Bool Lia ZifyBool ZifyNat.
From Verif Require Import Base State Tree Filter Output Label Operator Parse Scode Tables Cpu6800 Cpu6502 CpuZ80 Pseudos Macro Crasm BaseFacts FilterFacts Frame Eval
  SpecEmit EmitFacts PseudoFacts Run SpecForms FormFacts SpecCpu CpuFacts SpecLine SpecNumbers SpecSheet SpecAccept AcceptFacts SpecChoice SpecReason.
From Verif Require SplitFacts SpecSplit ChoiceFacts Z80Facts LineRun ListRun SpecExpr ExprEval.
Import ListNotations.
Open Scope Z_scope.

Lemma parse_unusable : forall s s1 t e s', same s s1 -> parse t s1 = (Bad (Err e), s') -> unusable s t.
Proof. intros s s1 t e s' S E. exact (un_error s t s1 s' e S E). Qed.
Lemma type_unusable : forall s s1 t r s2 e s', same s s1 -> parse t s1 = (Ok r, s2) -> checktype r TAbs s2 = (Bad (Err e), s') -> unusable s t.
Proof. intros s s1 t r s2 e s' S E C. exact (un_type s t s1 s2 r S E (checktype_bad _ _ _ _ _ C)). Qed.
Lemma calm_filter2 : forall t p s, calm (filter2 t p) s.
Proof. intros t p s. unfold filter2. calmly. Qed.
Lemma calm_filter0 : forall t p s, calm (filter0 t p) s.
Proof. intros t p s. unfold filter0. calmly. Qed.
Lemma calm_when : forall b m s, calm m s -> calm (when b m) s.
Proof. intros [] m s H; [exact H|apply calm_ret]. Qed.
Lemma insert16_org : forall x s u s', insert16 x s = (Ok u, s') -> s.(fl).(a_org_gv) = true -> s'.(fl).(a_org_gv) = true.
Proof.
  intros x s u s' E O. unfold insert16 in E. unfold bind at 1 in E. cbn [gets] in E.
  destruct (a_lohi (fl s)); step E u1 s1 E1; eapply insert8_org; eauto; eapply insert8_org; eauto.
Qed.
Lemma calm_insert32 : forall x s, s.(fl).(a_org_gv) = true -> calm (insert32 x) s.
Proof.
  intros x s O. unfold insert32. cbv zeta. apply calm_bind; [apply calm_gets|]. intros a s1 E. injection E as <- <-.
  destruct (a_lohi (fl s)); (apply calm_bind; [apply calm_insert16; exact O|]; intros u s1 E; apply calm_insert16; eapply insert16_org; eassumption).
Qed.

(** ** Data *)
Lemma stocke_bad : forall t m s e s', s.(fl).(a_org_gv) = true -> stocke t m s = (Bad (Err e), s') -> unusable s t.
Proof.
  intros t m s e s' O E. unfold stocke in E. fails E r s1 E1; [exact (parse_unusable _ _ _ _ _ (same_refl s) E)|].
  destruct (parse_keeps _ _ _ _ E1) as [P1 _]. pose proof (same_org _ _ P1 O) as O1.
  fails E u s2 E2; [exact (type_unusable _ _ _ _ _ _ _ (same_refl s) E1 E)|]. apply checktype_ok in E2. destruct E2 as [_ ->]. exfalso.
  fails E v s3 E3; [|exact (calm_when _ _ _ (calm_warning _ _) _ _ E)]. revert e s' E. change (calm (if m =? 1 then insert8 (r_value r)
   else if m =? 2 then flip_lohi ;;; insert16 (r_value r) ;;; flip_lohi
   else if m =? 3 then insert16 (r_value r)
   else if m =? 4 then insert32 (r_value r)
   else ret tt) s1).
  destruct (m =? 1); [apply calm_insert8; exact O1|]. destruct (m =? 2).
  { apply calm_bind; [apply calm_modify|]. intros a s2 E. unfold flip_lohi, upd_fl, modify in E. apply (f_equal snd) in E. cbn [snd] in E. subst s2.
    apply calm_any; [apply calm_insert16; exact O1|]. intros _ s2. apply calm_modify. }
  destruct (m =? 3); [apply calm_insert16; exact O1|]. destruct (m =? 4); [apply calm_insert32; exact O1|apply calm_ret].
Qed.

Lemma dcloop_bad : forall n t m s e s', pcok s -> s.(fl).(a_org_gv) = true -> dcloop n t m s = (Bad (Err e), s') ->
  exists a, item t a /\ unusable s a.
Proof.
  induction n as [|n IH]; intros t m s e s' R O E; [discriminate E|]. cbn [dcloop] in E.
  fails E c s1 E1; [elim (calm_filter2 _ _ _ _ _ E)|]. pose proof (comma_sep _ _ _ _ E1) as C. destruct (filter2_ok' _ _ _ _ _ E1) as [F1 F2].
  pose proof (still_pc _ _ F2 R) as R1. pose proof (same_org _ _ F1 O) as O1. destruct c as [[a b]|].
  - fails E u s2 E2.
    + exists a. split; [exact (it_first _ _ _ C)|]. apply (unusable_same _ _ _ F1). exact (stocke_bad _ _ _ _ _ O1 E).
    + apply stocke_good in E2; [|exact R1]. destruct E2 as (r & _ & G). pose proof (same_trans _ _ _ F1 (proj2 G)) as S2.
      destruct (IH _ _ _ _ _ (emits_pc _ _ _ (proj1 G)) (same_org _ _ S2 O) E) as (x & I & U).
      exists x. split; [exact (it_later _ _ _ _ C I)|exact (unusable_same _ _ _ S2 U)].
  - exists t. split; [exact (it_only _ C)|]. apply (unusable_same _ _ _ F1). exact (stocke_bad _ _ _ _ _ O1 E).
Qed.

Lemma dsloop_calm : forall n x s, s.(fl).(a_org_gv) = true -> calm (dsloop n x) s.
Proof.
  induction n as [|n IH]; intros x s O; cbn [dsloop]; [apply calm_ret|]. apply calm_bind; [apply calm_insert8; exact O|].
  intros u s1 E. apply IH. eapply insert8_org; eassumption.
Qed.
Lemma Xds_bad : forall lb o s e s', s.(fl).(a_org_gv) = true -> Xds o s = (Bad (Err e), s') -> reason s lb o HDs.
Proof.
  intros lb o s e s' O E. unfold Xds in E. change (otext o) with (given o) in E.
  fails E c s1 E1; [elim (calm_filter2 _ _ _ _ _ E)|]. pose proof (comma_sep _ _ _ _ E1) as C. destruct (filter2_ok' _ _ _ _ _ E1) as [F1 F2].
  fails E ti s2 E2.
  { destruct c as [[a b]|]; [|discriminate E]. apply (re_space_of s lb o a b C). right. fails E r s2 E2; [exact (parse_unusable _ _ _ _ _ F1 E)|].
    fails E u s3 E3; [exact (type_unusable _ _ _ _ _ _ _ F1 E2 E)|]. exfalso. cbv zeta in E.
    fails E v s4 E4; [exact (calm_when _ _ _ (calm_warning _ _) _ _ E)|discriminate E]. }
  destruct ti as [t init].
  assert (K : same s s2 /\ match c with Some (a, b) => t = a | None => t = given o end).
  { destruct c as [[a b]|].
    - step E2 r' s3 E3. destruct (parse_keeps _ _ _ _ E3) as [P1 P2]. step E2 u1 s4 E4. apply checktype_ok in E4. destruct E4 as [Ty ->].
      cbv zeta in E2. step E2 u2 s5 E5. apply when_warning in E5. destruct E5 as [W1 W2]. injection E2 as <- _ <-.
      split; [|reflexivity]. eapply same_trans; [exact F1|]. eapply same_trans; eassumption.
    - injection E2 as <- _ <-. split; [exact F1|reflexivity]. }
  destruct K as [S2 K]. clear E2.
  assert (U : unusable s t -> reason s lb o HDs).
  { intros U. destruct c as [[a b]|]; subst t; [apply (re_space_of s lb o a b C); left; exact U|exact (re_space s lb o C U)]. }
  fails E r s3 E3; [exact (U (parse_unusable _ _ _ _ _ S2 E))|]. destruct (parse_keeps _ _ _ _ E3) as [P1 P2].
  fails E u s4 E4; [exact (U (type_unusable _ _ _ _ _ _ _ S2 E3 E))|]. apply checktype_ok in E4. destruct E4 as [_ ->]. exfalso. cbv zeta in E.
  fails E v s4 E4; [|discriminate E]. destruct (_ <? 0); [discriminate E|]. eapply dsloop_calm; [|exact E].
  exact (same_org _ _ (same_trans _ _ _ S2 P1) O).
Qed.

(** ** Strings *)
Lemma meaning_escape : forall c v, meaning (Esc c) = Some v -> escape c = Some v.
Proof. intros c v H. destruct c as [[] [] [] [] [] [] [] []]; cbn in H; try discriminate H; rewrite <- H; reflexivity. Qed.
Lemma ascloop_calm : forall q l vs s, q <> "\"%char -> Forall (within q) l -> map char_code l = map Some vs -> s.(fl).(a_org_gv) = true ->
  calm (ascloop q (flat l ++ [q])) s.
Proof.
  intros q. induction l as [|p l IH]; intros vs s B W M O; destruct vs as [|v vs]; try discriminate M.
  - cbn [flat flat_map app ascloop]. rewrite Z.eqb_refl. apply calm_ret.
  - inversion W as [|? ? W1 W2]; subst. cbn [map] in M. injection M as M1 M2. destruct p as [c|c]; cbn [flat flat_map app ascloop].
    + destruct W1 as [A1 A2]. replace (zc c =? zc q) with false by (symmetry; apply Z.eqb_neq; intros X; apply zc_inj in X; contradiction).
      replace (zc c =? 92) with false by (symmetry; apply Z.eqb_neq; change 92 with (zc "\"); intros X; apply zc_inj in X; contradiction).
      apply calm_bind; [apply calm_insert8; exact O|]. intros u s1 E. apply (IH vs); try assumption. eapply insert8_org; eassumption.
    + replace (zc "\" =? zc q) with false by (symmetry; apply Z.eqb_neq; intros X; apply zc_inj in X; congruence).
      change (zc "\" =? 92) with true. cbv iota. cbn [char_code] in M1. rewrite (meaning_escape _ _ M1).
      apply calm_bind; [apply calm_insert8; exact O|]. intros u s1 E. apply (IH vs); try assumption. eapply insert8_org; eassumption.
Qed.
Lemma Xasc_bad : forall lb o s e s', s.(fl).(a_org_gv) = true -> Xasc o s = (Bad (Err e), s') -> reason s lb o HAsc.
Proof.
  intros lb o s e s' O E. apply re_string. intros t -> (q & l & vs & Q & -> & W & M). unfold quoted, Xasc in E.
  replace (negb (zc q =? 39) && negb (zc q =? 34)) with false in E by (destruct Q; subst q; reflexivity).
  eapply (ascloop_calm q l vs); [destruct Q; subst q; discriminate|exact W|exact M|exact O|exact E].
Qed.

(** ** Keywords *)
Lemma word_bad : forall k1 p1 k2 p2 A (m1 m2 m3 : M A) o s e s',
  s2l p1 = "_"%char :: s2l k1 ++ ["_"%char] -> forallb SplitFacts.kwchar (s2l k1) = true -> s2l k1 <> [] ->
  s2l p2 = "_"%char :: s2l k2 ++ ["_"%char] -> forallb SplitFacts.kwchar (s2l k2) = true -> s2l k2 <> [] ->
  calm m1 s -> calm m2 s ->
  (b <- filter0 (otext o) p1 ;; if b : bool then m1 else b <- filter0 (otext o) p2 ;; if b : bool then m2 else m3) s = (Bad (Err e), s') ->
  ~ says k1 o /\ ~ says k2 o.
Proof.
  intros k1 p1 k2 p2 A m1 m2 m3 o s e s' A1 A2 A3 B1 B2 B3 C1 C2 E.
  fails E b s1 E1; [elim (calm_filter0 _ _ _ _ _ E)|]. destruct (SplitFacts.filter0_kw _ _ _ _ _ _ A1 A2 A3 E1) as [-> K1].
  destruct b; [elim (C1 _ _ E)|]. fails E b s2 E2; [elim (calm_filter0 _ _ _ _ _ E)|].
  destruct (SplitFacts.filter0_kw _ _ _ _ _ _ B1 B2 B3 E2) as [-> K2]. destruct b; [elim (C2 _ _ E)|].
  split; intros X; [apply K1 in X|apply K2 in X]; discriminate X.
Qed.
Lemma onoff_bad : forall on off o s e s', calm on s -> calm off s -> onoff on off o s = (Bad (Err e), s') -> ~ says "ON" o /\ ~ says "OFF" o.
Proof. intros on off o s e s' A B E. eapply (word_bad "ON" "_ON_" "OFF" "_OFF_"); [..|exact E]; try reflexivity; try discriminate; assumption. Qed.

(** ** The processor *)
Lemma init_calm : forall p i, List.In (p, i) ChoiceFacts.choices -> forall s, calm i s.
Proof.
  intros p i I s. unfold ChoiceFacts.choices in I. cbn [List.In] in I.
  assert (L : forall l s0, calm (init_label_list l) s0) by (intros l s0; apply calm_pres; apply init_unfailing).
  repeat match goal with H : _ \/ _ |- _ => destruct H as [H|H] end; try contradiction; injection I as <- <-;
    lazymatch goal with
    | |- calm (init6800 _) _ => unfold init6800
    | |- calm (init6502 _) _ => unfold init6502
    | |- calm (initz80 _) _ => unfold initz80
    end; repeat lazymatch goal with
    | |- calm (bind _ _) _ => apply calm_any; [|intros]
    | |- calm (upd_fl _) _ => apply calm_modify
    | |- calm (upd_cp _) _ => apply calm_modify
    | |- calm (when _ _) _ => apply calm_when
    | |- calm (init_label_list _) _ => apply L
    end.
Qed.
Lemma findcpu_bad : forall t l s e s', findcpu t (map (fun x => (called (fst x), snd x)) l) s = (Bad (Err e), s') ->
  forall p i, List.In (p, i) l -> ~ spells (t_ (called p)) t.
Proof.
  intros t. induction l as [|[q j] l IH]; intros s e s' E p i I; [destruct I|]. cbn [map findcpu fst snd] in E.
  fails E b s1 E1; [elim (calm_filter0 _ _ _ _ _ E)|].
  assert (Fo : form_of (s2l (called q)) = Some (Fixed (t_ (called q)))) by (destruct q; reflexivity).
  apply (Z80Facts.filter0_form _ _ _ _ _ _ Fo) in E1. destruct b; [discriminate E|]. destruct I as [I|I]; [|exact (IH _ _ _ E _ _ I)].
  injection I as <- <-. intros S. apply (E1 []). apply fit_fixed. exact S.
Qed.
Lemma Xcpu_bad : forall lb o s e s', Xcpu o s = (Bad (Err e), s') -> reason s lb o HCpu.
Proof.
  intros lb o s e s' E. destruct o as [t|]; [|apply re_cpu; discriminate]. unfold Xcpu in E. unfold bind at 1 in E. cbn [gets] in E.
  destruct (a_cpu_gv (fl s)) eqn:V; [exact (re_cpu_twice _ _ _ V)|]. unfold bind at 1 in E. cbn [when ret] in E.
  rewrite ChoiceFacts.choices_list in E. fails E i s1 E1.
  - apply re_cpu. intros t' p [= <-]. pose proof (findcpu_bad _ _ _ _ _ E) as N.
    destruct p; eapply N; unfold ChoiceFacts.choices; cbn [List.In]; eauto 10.
  - exfalso. destruct (ChoiceFacts.findcpu_in _ _ _ _ _ E1) as [[p I] _]. unfold bind at 1 in E. cbn [gets] in E.
    fails E u s2 E2; [|exact (init_calm _ _ I _ _ _ E)]. exact (calm_when _ _ _ (calm_modify _ _) _ _ E).
Qed.

(** ** The others *)
Lemma err_when : forall b m s e s', when b (err m) s = (Bad (Err e), s') -> b = true.
Proof. exact when_bad. Qed.
Lemma Xpage_bad : forall lb o s e s', Xpage o s = (Bad (Err e), s') -> reason s lb o HPage.
Proof.
  intros lb o s e s' E. destruct o as [t|].
  2:{ exfalso. unfold Xpage in E. revert e s' E. change (calm outputEOP s). apply calm_pres. apply (pres_outputEOP _ lsteps_unfailing). }
  unfold Xpage in E. fails E c s1 E1; [elim (calm_filter2 _ _ _ _ _ E)|]. pose proof (comma_sep _ _ _ _ E1) as C. destruct (filter2_ok' _ _ _ _ _ E1) as [F1 F2].
  destruct c as [[a b]|]; [|exact (re_page_uncut s lb _ t eq_refl C)].
  fails E r s2 E2; [apply (re_page s lb _ t a b eq_refl C); left; exact (parse_unusable _ _ _ _ _ F1 E)|]. destruct (parse_keeps _ _ _ _ E2) as [P1 P2].
  fails E u s3 E3; [apply (re_page s lb _ t a b eq_refl C); left; exact (type_unusable _ _ _ _ _ _ _ F1 E2 E)|].
  apply checktype_ok in E3. destruct E3 as [T1 ->]. cbv zeta in E. pose proof (same_trans _ _ _ F1 P1) as S2.
  fails E r' s3 E3; [apply (re_page s lb _ t a b eq_refl C); right; exact (parse_unusable _ _ _ _ _ S2 E)|].
  fails E u2 s4 E4; [apply (re_page s lb _ t a b eq_refl C); right; exact (type_unusable _ _ _ _ _ _ _ S2 E3 E)|].
  apply checktype_ok in E4. destruct E4 as [T2 ->].
  apply (re_page_size s lb _ t a b r r' eq_refl C); [exists s1, s2; auto|exists s2, s3; auto|]. unfold setpage in E. unfold bind at 1 in E. cbn [gets] in E.
  fails E v s4 E4; [elim (calm_when _ _ _ (calm_warning _ _) _ _ E)|]. fails E v2 s5 E5.
  - apply when_bad in E. change (trunc32 (r_value r)) with (s32 (r_value r)). change (trunc32 (r_value r')) with (s32 (r_value r')).
    unfold page_lines, page_columns. intros [X Y]. lia.
  - exfalso. unfold bind, upd_ls, modify in E. cbn [gets] in E. destruct (_ =? 2); discriminate E.
Qed.
Lemma Xnam_bad : forall lb o s e s', Xnam o s = (Bad (Err e), s') -> reason s lb o HNam.
Proof.
  intros lb o s e s' E. apply re_nam. intros t ->. unfold Xnam, settitle in E. unfold bind at 1 in E. cbn [gets] in E.
  fails E v s4 E4; [elim (calm_when _ _ _ (calm_warning _ _) _ _ E)|]. fails E v2 s5 E5; [apply when_bad in E; lia|].
  exfalso. unfold bind, upd_ls, modify in E. cbn [gets] in E. destruct (_ =? 2); discriminate E.
Qed.
Lemma skiploop_calm : forall n s, calm (skiploop n) s.
Proof.
  induction n as [|n IH]; intros s; cbn [skiploop]; [apply calm_ret|]. apply calm_any; [|intros _ s1; apply IH].
  apply calm_pres. apply (pres_outputEOL _ lsteps_unfailing).
Qed.
Lemma Xskip_bad : forall lb o s e s', Xskip o s = (Bad (Err e), s') -> reason s lb o HSkip.
Proof.
  intros lb o s e s' E. apply re_skip. unfold Xskip in E. change (otext o) with (given o) in E.
  fails E r s1 E1; [exact (parse_unusable _ _ _ _ _ (same_refl s) E)|]. fails E u s2 E2; [exact (type_unusable _ _ _ _ _ _ _ (same_refl s) E1 E)|].
  exfalso. cbv zeta in E. destruct (_ || _); [exact (calm_warning _ _ _ _ E)|exact (skiploop_calm _ _ _ _ E)].
Qed.
Lemma fatal_calm : forall A m s, calm (@fatal A m) s.
Proof. intros A m s e s' E. unfold fatal, bind, print in E. discriminate E. Qed.
Lemma Xinclude_bad : forall lb o s e s', Xinclude o s = (Bad (Err e), s') -> reason s lb o HInclude.
Proof.
  intros lb o s e s' E. apply re_include. intros t ->. unfold Xinclude in E. unfold bind at 1 in E. cbn [gets] in E.
  destruct (files s t) as [x|] eqn:F; [|reflexivity]. exfalso. revert e s' E. match goal with |- forall e s', ?m s = _ -> False => change (calm m s) end.
  unfold checkdepth. repeat lazymatch goal with
  | |- calm (bind _ _) _ => apply calm_any; [|intros]
  | |- calm (gets _) _ => apply calm_gets
  | |- calm (when _ _) _ => apply calm_when
  | |- calm (fatal _) _ => apply fatal_calm
  | |- calm outputline _ => apply calm_pres; apply (pres_outputline _ lsteps_unfailing)
  | |- calm (upd_inp _) _ => apply calm_modify
  | |- calm (upd_fl _) _ => apply calm_modify
  end.
Qed.
Lemma Xequ_bad : forall n o s e s', Xequ n o s = (Bad (Err e), s') -> reason s (Some n) o HEqu.
Proof.
  intros n o s e s' E. unfold Xequ in E. change (otext o) with (given o) in E.
  fails E r s1 E1; [exact (re_equ s _ o s s' e (same_refl s) E)|]. cbv zeta in E. destruct (parse_keeps _ _ _ _ E1) as [P1 _].
  unfold bind at 1 in E. cbn [gets] in E. fails E u s2 E2.
  { exfalso. revert e s' E. match goal with |- forall e s', ?m s1 = _ -> False => change (calm m s1) end. apply calm_when.
    apply calm_any; [apply calm_pres; apply (pres_position _ lsteps_unfailing)|intros _ s2; apply calm_pres; apply (pres_outputaddr _ lsteps_unfailing)]. }
  assert (Y : sy s2 = sy s1 /\ inp s2 = inp s1).
  { destruct (_ && _ && _); cbn [when] in E2; [|unfold ret in E2; assert (s2 = s1) by congruence; subst s2; auto].
    step E2 v s3 E3. destruct (LineRun.near_ok _ _ _ _ _ (pres_position _ LineRun.nearR_osteps _) E3) as [(A & _) _].
    destruct (LineRun.near_ok _ _ _ _ _ (pres_outputaddr _ LineRun.nearR_osteps _) E2) as [(B & _) _]. split; [congruence|].
    pose proof (pres_position _ ListRun.sameinp_osteps 2 s1) as Q1. rewrite E3 in Q1. cbn in Q1.
    match type of E2 with outputaddr ?x _ = _ => pose proof (pres_outputaddr _ ListRun.sameinp_osteps x s3) as Q2 end. rewrite E2 in Q2. cbn in Q2. congruence. }
  destruct Y as [Y1 Y2]. fails E k s3 E3; [|discriminate E]. unfold deflabel, searchlabel in E. unfold bind at 1 2 in E. cbn [gets ret] in E.
  assert (Sg : segment (inp s2) = segment (inp s)) by (rewrite Y2; destruct P1 as (_ & -> & _); reflexivity). rewrite Sg, Y1 in E.
  fails E v s3 E3; [|discriminate E]. destruct (tfind (lkey (segment (inp s)) n) (sy s1)) as [l|] eqn:T; [|discriminate E].
  destruct (negb (f_undef (l_flags l)) && (f_noredef (l_flags l) || f_noredef (r_flags (set_r_flags (equ_flags (r_flags r)) r)))) eqn:Q; [|discriminate E].
  apply andb_true_iff in Q. destruct Q as [Q1 Q2]. change (f_noredef (r_flags (set_r_flags (equ_flags (r_flags r)) r))) with false in Q2.
  rewrite orb_false_r in Q2. apply negb_true_iff in Q1. exact (re_equ_twice s _ o n r s1 l eq_refl E1 T Q1 Q2).
Qed.

Theorem refused : forall h m lb o s e s', pcok s -> s.(fl).(a_org_gv) = true -> a_directive h = true -> exec h m lb o s = (Bad (Err e), s') -> reason s lb o h.
Proof.
  intros h m lb o s e s' R O D E.
  assert (C : forall f s0, calm (upd_fl f) s0) by (intros; apply calm_modify).
  assert (N : nonempty o = true -> ~ says_nothing o) by (intros X [Y|Y]; rewrite Y in X; discriminate X).
  destruct h; try discriminate D; cbn [exec] in E.
  - destruct lb as [n|]; [exact (Xequ_bad _ _ _ _ _ E)|discriminate E].
  - exact (Xasc_bad _ _ _ _ _ O E).
  - unfold Xalign in E. eapply word_bad in E; [destruct E as [A B]; exact (re_align _ _ _ A B)|reflexivity|reflexivity|discriminate|reflexivity|reflexivity|discriminate|..];
      (apply calm_bind; [apply calm_gets|]; intros p s1 G; injection G as <- <-; apply calm_when; apply calm_insert8; exact O).
  - apply onoff_bad in E; try apply C. apply re_onoff; try apply E. cbn; auto.
  - unfold Xcode in E. fails E u s1 E1; [apply when_bad in E; apply re_section; auto|]. exfalso.
    fails E v s2 E2; [discriminate E|exact (C _ _ _ _ E)].
  - exact (Xcpu_bad _ _ _ _ _ E).
  - unfold Xdc in E. destruct (dcloop_bad _ _ _ _ _ _ R O E) as (t & A & B). exact (re_data _ _ _ t A B).
  - unfold Xdummy in E. fails E u s1 E1; [apply when_bad in E; apply re_section; auto|]. exfalso.
    fails E v s2 E2; [discriminate E|exact (C _ _ _ _ E)].
  - exact (Xds_bad _ _ _ _ _ O E).
  - apply onoff_bad in E; try apply C. apply re_onoff; try apply E. cbn; auto.
  - exact (Xinclude_bad _ _ _ _ _ E).
  - apply onoff_bad in E; [apply re_onoff; try apply E; cbn; auto| |apply C]. apply calm_any; [apply calm_gets|intros f s1; apply calm_when; apply C].
  - apply onoff_bad in E; try apply C. apply re_onoff; try apply E. cbn; auto.
  - exact (Xnam_bad _ _ _ _ _ E).
  - exact (Xpage_bad _ _ _ _ _ E).
  - unfold Xoutput in E. fails E u s1 E1; [elim (C _ _ _ _ E)|].
    eapply word_bad in E; [destruct E as [A B]; exact (re_output _ _ _ A B)|reflexivity|reflexivity|discriminate|reflexivity|reflexivity|discriminate|apply C|apply C].
  - exact (Xskip_bad _ _ _ _ _ E).
Qed.

(** ** Expressions are usable *)
Lemma worth_more : forall k (P Q : SpecExpr.text -> Z -> Prop), (forall t v, P t v -> Q t v) -> forall e v, SpecExpr.worth k P e v -> SpecExpr.worth k Q e v.
Proof. intros k P Q H e v W. induction W; econstructor; eauto. Qed.
Theorem usable_expr : forall s e v, SpecExpr.worth 63 (ExprEval.known s) e v -> SpecExpr.ranked e -> ~ unusable s (SpecExpr.show e).
Proof.
  intros s e v W R U.
  assert (K : forall s1, same s s1 -> ExprEval.gives (parse (SpecExpr.show e)) s1 (ExprEval.value s1 v)).
  { intros s1 S. apply ExprEval.parse_value; [exact (worth_more _ _ _ (fun t w => ExprEval.known_same _ _ t w S) _ _ W)|exact R]. }
  unfold ExprEval.gives, ExprEval.value in K.
  destruct U as [s1 s2 m A B|s1 s2 r A B C]; pose proof (K _ A) as G; rewrite B in G.
  - destruct G as [(x & G)|(x & y & G & _)]; discriminate G.
  - destruct G as [(x & G)|(x & y & G & Ty & _)]; [discriminate G|]. injection G as -> ->. contradiction.
Qed.
