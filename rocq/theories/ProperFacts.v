(** Accepted directives. *)
From Coq Require Import String Ascii ZArith List Bool Lia ZifyBool ZifyNat.
From Verif Require Import Base State Tree Filter Output Label Operator Parse Scode Tables Cpu6800 Cpu6502 CpuZ80 Pseudos Macro Crasm BaseFacts FilterFacts Frame Eval
  SpecEmit SpecStar EmitFacts PseudoFacts Run SpecForms FormFacts SpecCpu CpuFacts SpecLine SpecNumbers SpecSheet SpecAccept AcceptFacts SpecChoice SpecReason SpecProper.
From Verif Require SplitFacts SpecSplit ChoiceFacts Z80Facts LineRun ListRun SwitchFacts SheetFacts StarFacts.
Import ListNotations.
Open Scope Z_scope.

Lemma findcpu_spells : forall t l s i s', findcpu t (map (fun x => (called (fst x), snd x)) l) s = (Ok i, s') ->
  exists p, spells (t_ (called p)) t.
Proof.
  intros t. induction l as [|[q j] l IH]; intros s i s' E; cbn [map findcpu fst snd] in E.
  { elim (Eval.error_never _ _ _ _ _ E). }
  step E b s1 E1. assert (Fo : FormFacts.form_of (s2l (called q)) = Some (Fixed (t_ (called q)))) by (destruct q; reflexivity).
  apply (Z80Facts.filter0_form _ _ _ _ _ _ Fo) in E1. destruct b; [|exact (IH _ _ _ E)].
  destruct E1 as [a Fi]. inversion Fi; subst. exists q. assumption.
Qed.

Lemma Xequ_proper : forall n o s u s', Xequ n o s = (Ok u, s') -> proper s (Some n) o HEqu.
Proof.
  intros n o s u s' E. unfold Xequ in E. change (otext o) with (given o) in E.
  step E r s1 E1. cbv zeta in E. destruct (parse_keeps _ _ _ _ E1) as [P1 _].
  unfold bind at 1 in E. cbn [gets] in E. step E v s2 E2.
  assert (Y : sy s2 = sy s1 /\ inp s2 = inp s1).
  { destruct (_ && _ && _); cbn [when] in E2; [|unfold ret in E2; assert (s2 = s1) by congruence; subst s2; auto].
    step E2 w s3 E3. destruct (LineRun.near_ok _ _ _ _ _ (pres_position _ LineRun.nearR_osteps _) E3) as [(A & _) _].
    destruct (LineRun.near_ok _ _ _ _ _ (pres_outputaddr _ LineRun.nearR_osteps _) E2) as [(B & _) _]. split; [congruence|].
    pose proof (pres_position _ ListRun.sameinp_osteps 2 s1) as Q1. rewrite E3 in Q1. cbn in Q1.
    match type of E2 with outputaddr ?x _ = _ => pose proof (pres_outputaddr _ ListRun.sameinp_osteps x s3) as Q2 end. rewrite E2 in Q2. cbn in Q2. congruence. }
  destruct Y as [Y1 Y2]. step E k s3 E3. rewrite deflabel_eq in E3.
  assert (Sg : segment (inp s2) = segment (inp s)) by (rewrite Y2; destruct P1 as (_ & -> & _); reflexivity). rewrite Sg, Y1 in E3.
  apply (pr_equ s (Some n) o n r s1 eq_refl E1). intros l T U. rewrite T in E3.
  destruct (f_noredef (l_flags l)) eqn:N; [|reflexivity]. exfalso. unfold Frame.refused in E3. rewrite U, N in E3. cbn [negb andb orb] in E3.
  destruct (l_type l); elim (error_never _ _ _ _ _ E3).
Qed.

Lemma switch_proper : forall h o s s', switched h o s s' -> forall z lb, proper z lb o h.
Proof.
  intros h o s s' W z lb. destruct W; solve [apply pr_onoff; [cbn [In]; tauto|tauto]|apply pr_output; tauto|apply pr_section; tauto].
Qed.

Theorem accepted : forall h m lb o s u s', pcok s -> a_directive h = true -> exec h m lb o s = (Ok u, s') -> proper s lb o h.
Proof.
  intros h m lb o s u s' R D E. destruct (is_switch h) eqn:W; [exact (switch_proper _ _ _ _ (SwitchFacts.switch_ok _ _ _ _ _ _ _ W E) s lb)|].
  destruct h; try discriminate D; try discriminate W; cbn [exec] in E; clear D W.
  - destruct lb as [n|]; [exact (Xequ_proper _ _ _ _ _ E)|discriminate E].
  - destruct o as [t|]; [|elim (error_never _ _ _ _ _ E)].
    destruct (Xasc_good _ _ _ _ R E) as (q & l & vs & A & B & C & F & _). apply (pr_string s lb (Some t) t eq_refl). exists q, l, vs. auto.
  - assert (X : Xalign (Some (given o)) s = (Ok u, s')) by (destruct o; exact E).
    destruct (Xalign_good _ _ _ _ R X) as (b & K & _). apply pr_align. unfold says. fold (given o). destruct b; auto.
  - destruct o as [t|].
    + destruct (ChoiceFacts.Xcpu_open _ _ _ _ E) as (G & i & s1 & s2 & F & _). rewrite ChoiceFacts.choices_list in F.
      destruct (findcpu_spells _ _ _ _ _ F) as [p S]. exact (pr_cpu s lb (Some t) t p G eq_refl S).
    + elim (error_never _ _ _ _ _ E).
  - assert (X : Xdc m (Some (given o)) s = (Ok u, s')) by (destruct o; exact E).
    destruct (Xdc_good _ _ _ _ _ R X) as (ts & rs & A & B & _). exact (pr_data s lb o ts rs A B).
  - assert (X : Xds (Some (given o)) s = (Ok u, s')) by (destruct o; exact E).
    destruct (Xds_good _ _ _ _ R X) as (n & v & N & (r & -> & [(a & b & r' & A & B & C & _)|(A & B & _)]) & _).
    + apply (pr_space_of s lb o a b r r' A B C). lia.
    + apply (pr_space s lb o r A B). lia.
  - destruct o as [t|]; [|elim (error_never _ _ _ _ _ E)]. unfold Xinclude in E. unfold bind at 1 in E. cbn [gets] in E.
    destruct (files s t) as [x|] eqn:F; [exact (pr_include s lb (Some t) t x eq_refl F)|elim (error_never _ _ _ _ _ E)].
  - destruct (SheetFacts.nam_sets _ _ _ _ E) as (t & -> & A & _). exact (pr_nam s lb (Some t) t eq_refl A).
  - destruct o as [t|]; [|apply pr_page; reflexivity].
    destruct (SheetFacts.page_sets _ _ _ _ E) as (a & b & r & r' & A & B & C & P & Q & G & H). rewrite P in G. rewrite Q in H.
    exact (pr_page_size s lb (Some t) t a b r r' eq_refl A B C G H).
  - unfold Xskip in E. change (otext o) with (given o) in E. step E r s1 E1. step E v s2 E2. apply checktype_ok in E2. destruct E2 as [Ty _].
    apply (pr_skip s lb o r). exists s, s1. split; [apply same_refl|]. split; [exact E1|exact Ty].
Qed.

(** ** The line of a directive *)
Lemma held_pc : forall A (m : M A) s a s', pres StarFacts.calm A m -> has_star s -> pcok s -> m s = (Ok a, s') -> has_star s' /\ pcok s'.
Proof.
  intros A m s a s' K H P E. specialize (K s). rewrite E in K. cbn [fst snd how] in K. destruct K as [K _].
  destruct (K H P) as (es & _ & _ & X & Y & _). auto.
Qed.

Theorem accepted_line : forall self n li s f s' q key l h, asmline self n li true s = (Ok f, s') -> has_star s -> pcok s -> taken_apart s q ->
  q.(q_mnemo) = Some (key, l) -> of_its_own q -> l.(l_ptr) = PFun h -> a_directive h = true ->
  l.(l_flags).(f_deflabel) = true \/ q.(q_label) = None ->
  exists s1, near s s1 /\ proper s1 q.(q_label) q.(q_oper) h.
Proof.
  intros self n li s f s' q key l h E H P T Q O Ph D Lb. unfold asmline in E. step E u s1 E1. destruct u.
  destruct (LineRun.near_linestart _ _ _ E1) as [N1 _]. destruct (StarFacts.linestart_ok _ _ _ H P E1) as (Y1 & _ & _ & P1 & _).
  assert (H1 : has_star s1) by (unfold has_star; rewrite Y1; exact H).
  unfold bind at 1 in E. cbn [gets] in E. step E t s2 E2. destruct (held_pc _ _ _ _ _ StarFacts.calm_stripline H1 P1 E2) as [H2 P2].
  destruct (LineRun.near_ok _ _ _ _ _ LineRun.near_stripline E2) as [N2 _]. destruct t as [|c t]; [elim (LineRun.taken_text _ _ _ _ T E1 E2)|].
  step E q' s3 E3. assert (q' = q) by exact (LineRun.taken_split _ _ _ _ _ _ _ T E1 E2 E3). subst q'.
  destruct (held_pc _ _ _ _ _ (StarFacts.calm_splitline _) H2 P2 E3) as [H3 P3].
  destruct (LineRun.near_ok _ _ _ _ _ (LineRun.near_splitline _) E3) as [N3 _]. rewrite Q in E. unfold of_its_own in O. rewrite Q in O. destruct O as (O1 & O2 & O3).
  unfold dispatch in E. cbv zeta in E. rewrite O2, O3 in E. cbn [orb] in E. step E u s4 E4.
  apply when_err in E4. destruct E4 as [_ ->]. step E v s5 E5. destruct v.
  assert (s5 = s3).
  { destruct (f_deflabel _).
    - apply when_err in E5. destruct E5 as [_ ->]. reflexivity.
    - destruct Lb as [Lb|Lb]; [discriminate Lb|]. rewrite Lb in E5. injection E5 as <-. reflexivity. }
  subst s5. assert (F : forall m s0 s9, fatal m s0 <> (Ok f, s9)) by (intros m s0 s9 X; unfold fatal, bind, print in X; cbn [gets] in X; discriminate X).
  destruct (l_type l) eqn:Ty; try (elim (F _ _ _ E)); [|elim O1; reflexivity].
  step E w0 s6 E6. rewrite Ph in E6. exists s3.
  split; [exact (LineRun.near_trans _ _ _ (LineRun.near_trans _ _ _ N1 N2) N3)|]. exact (accepted _ _ _ _ _ _ _ P3 D E6).
Qed.
