(** Assignments, labels and the other symbols. *)
From Coq Require Import String Ascii ZArith List Bool Lia ZifyBool ZifyNat.
From Verif Require Import Base State Tree Filter Output Label Parse Scode Pseudos Cpu6800 Crasm.
From Verif Require Import BaseFacts TreeFacts Frame Eval CpuFacts SpecEmit SpecStar SpecLine EmitFacts StarFacts PseudoFacts LineRun.
From Verif Require SplitFacts LineText SpecSplit SymFacts SpecSymbols Walk Local.
Import ListNotations.
Open Scope Z_scope.

Lemma option_unused : forall (o : option label) l, option_map unused o = Some (unused l) -> exists l', o = Some l' /\ unused l' = unused l.
Proof. intros [l'|] l E; [|discriminate E]. cbn [option_map] in E. exists l'. split; [reflexivity|congruence]. Qed.
Lemma unused_value : forall l l', unused l' = unused l -> l_value l' = l_value l.
Proof. intros l l' E. exact (f_equal l_value E). Qed.
Lemma set_value_same : forall l, set_l_value (l_value l) l = l.
Proof. intros []. reflexivity. Qed.

Lemma others_keeps : forall k t t', keeps t t' -> others k t t'.
Proof. intros k t t' K j l _ F. exact (K j l F). Qed.
Lemma others_trans : forall k a b c, others k a b -> others k b c -> others k a c.
Proof.
  intros k a b c X Y j l N F. destruct (option_unused _ _ (X j l N F)) as (l' & F' & E). rewrite (Y j l' N F'). congruence.
Qed.
Lemma starvalue_keeps : forall s s', keeps s.(sy) s'.(sy) -> forall l, tfind starkey s.(sy) = Some l -> starvalue s' = starvalue s.
Proof.
  intros s s' K l F. unfold starvalue, star. rewrite F. destruct (option_unused _ _ (K _ _ F)) as (l' & -> & E). exact (unused_value _ _ E).
Qed.

(** The end of a line that did not advance. *)
Lemma advance0 : forall s u s', s.(ct).(advance) = 0 -> star_advance s = (Ok u, s') ->
  (forall k, tfind k s'.(sy) = tfind k s.(sy)) /\ s'.(emitted) = s.(emitted).
Proof.
  intros s u s' A E. unfold star_advance, bind in E. cbn [gets] in E. rewrite A, Z.add_0_r in E. destruct (in_s64 _); [|discriminate E].
  unfold upd_sy, modify in E. injection E as _ <-. cbn [sy set_sy emitted]. split; [|reflexivity]. intros k.
  destruct (str_dec k starkey) as [->|N]; [|apply tfind_tupd_other; exact N]. rewrite tfind_tupd_same.
  unfold starvalue, star. destruct (tfind starkey (sy s)) as [l|]; [|reflexivity]. cbn [option_map]. rewrite set_value_same. reflexivity.
Qed.

(** ** Assignments *)
Lemma Xequ_ok : forall a b s u s', Xequ a b s = (Ok u, s') ->
  exists r s2, parse (otext b) s = (Ok r, s2) /\ assigned (lkey s.(inp).(segment) a) r s s' /\ s'.(ct).(advance) = s.(ct).(advance).
Proof.
  intros a b s u s' E. unfold Xequ in E. step E rr s1 E1. destruct (parse_keeps _ _ _ _ E1) as [K T]. exists rr, s1. split; [exact E1|].
  cbv zeta in E. unfold bind at 1 in E. cbn [gets] in E. step E v s2 E2.
  assert (N2 : near s1 s2 /\ s2.(ct).(advance) = s1.(ct).(advance)).
  { match type of E2 with ?m s1 = _ => assert (P : pres nearR _ m) by n end. exact (near_ok _ _ _ _ _ P E2). }
  destruct N2 as [N2 A2]. step E k s3 E3. rewrite deflabel_eq in E3. destruct (refused _ _) eqn:R; [elim (error_never _ _ _ _ _ E3)|].
  destruct K as (K1 & K2 & K3 & K4 & K5 & K6 & K7). destruct T as (T1 & T2 & T3).
  destruct N2 as (N21 & N22 & N23 & N24 & N25 & N26 & N27 & N28 & N29).
  assert (Sg : segment (inp s2) = segment (inp s)) by (change (segment (inp s2)) with (segment (set_curline [] (inp s2))); rewrite N27, K2; reflexivity).
  rewrite Sg in *. set (key := lkey (segment (inp s)) a) in *.
  assert (k = key) by congruence. subst k. apply (f_equal snd) in E3. cbn [snd] in E3. subst s3. unfold upd_sy, modify in E. apply (f_equal snd) in E. cbn [snd] in E. subst s'.
  cbn [sy set_sy emitted ct].
  set (t0 := match tfind key (sy s2) with Some _ => sy s2 | None => _ end).
  assert (F : exists l0, tfind key t0 = Some l0).
  { unfold t0. destruct (tfind key (sy s2)) as [l|] eqn:F; [exists l; exact F|]. eexists. apply tfind_tins_same. exact F. }
  destruct F as [l0 F]. assert (O : forall j, j <> key -> tfind j t0 = tfind j (sy s2)).
  { intros j N. unfold t0. destruct (tfind key (sy s2)); [reflexivity|]. apply tfind_tins_other. exact N. }
  split; [|congruence]. unfold assigned, stands_for. cbn [sy set_sy emitted]. split; [|split].
  - rewrite !tfind_tupd_same, F. cbn [option_map]. eexists. split; [reflexivity|].
    cbn. repeat split.
  - intros j l N Fj. cbn [sy set_sy]. rewrite !tfind_tupd_other by exact N. rewrite O by exact N. rewrite N21. exact (K7 _ _ Fj).
  - congruence.
Qed.

Lemma near_segment : forall s s', near s s' -> s'.(inp).(segment) = s.(inp).(segment).
Proof.
  intros s s' (_ & _ & _ & _ & _ & _ & H & _). change (segment (inp s')) with (segment (set_curline [] (inp s'))). rewrite H. reflexivity.
Qed.

Theorem equ_line : forall self n li s f s' q key l a, asmline self n li true s = (Ok f, s') -> taken_apart s q ->
  q.(q_mnemo) = Some (key, l) -> of_its_own q -> l.(l_ptr) = PFun HEqu -> l.(l_flags).(f_deflabel) = true -> q.(q_label) = Some a ->
  exists r s1 s2, near s s1 /\ parse (otext q.(q_oper)) s1 = (Ok r, s2) /\ assigned (lkey s.(inp).(segment) a) r s s'.
Proof.
  intros self n li s f s' q key l a E T Q O P D L. destruct (line_instr _ _ _ _ _ _ _ _ _ E T Q O) as (h & s1 & s2 & s3 & s4 & N1 & A1 & Lb & P' & X & S & N4).
  rewrite P in P'. injection P' as <-. unfold labelled in Lb. rewrite D in Lb. destruct Lb as [-> _]. rewrite L in X. cbn [exec] in X.
  destruct (Xequ_ok _ _ _ _ _ X) as (r & sp & E1 & (G1 & G2 & G3) & A3). exists r, s1, sp. split; [exact N1|]. split; [exact E1|].
  rewrite (near_segment _ _ N1) in *. destruct (advance0 s3 _ _ ltac:(congruence) S) as [S1 S2].
  destruct N1 as (N11 & N12 & _). destruct N4 as (N41 & N42 & _). unfold assigned. rewrite N41, N42, S2, G3, N12. repeat split.
  - unfold stands_for in *. rewrite S1. exact G1.
  - intros j l0 Nj Fj. rewrite S1. apply (G2 j l0 Nj). congruence.
Qed.

Lemma linestart_inp : forall s u s', linestart s = (Ok u, s') -> s'.(inp) = s.(inp).
Proof.
  intros s u s' E. unfold linestart in E. unfold bind at 1 in E. unfold upd_ct at 1, modify at 1 in E. set (s1 := set_ct _ s) in E.
  unfold bind at 1 in E. cbn [gets] in E. step E v s2 E2. unfold zerobuffer, upd_ct, modify in E. apply (f_equal snd) in E. cbn [snd] in E. subst s'. cbn [inp set_ct].
  change (inp s) with (inp s1). destruct (starundef s1).
  - unfold upd_fl, modify in E2. apply (f_equal snd) in E2. cbn [snd] in E2. subst s2. reflexivity.
  - step E2 v0 s3 E3. unfold upd_fl, modify in E3. apply (f_equal snd) in E3. cbn [snd] in E3.
    pose proof (SymFacts.setpc_inp (starvalue s1) s3) as K. rewrite E2 in K. cbn [snd] in K. rewrite K, <- E3. reflexivity.
Qed.

Lemma nospace_blanks : forall a, Forall (fun c => ~ SpecSplit.blank c) a -> nospacein a = true.
Proof.
  intros a H. unfold nospacein. destruct (existsb isblank a) eqn:X; [|reflexivity]. apply existsb_exists in X. destruct X as (c & I & B).
  rewrite Forall_forall in H. elim (H c I). apply SplitFacts.blank_isblank. exact B.
Qed.

(** The text of an assignment is taken apart at the equals sign. *)
Lemma assignment_split : forall t a b s q s', SpecSplit.first_cut ["="%char] t a b -> Forall (fun c => ~ SpecSplit.blank c) a ->
  splitline t s = (Ok q, s') -> forall l, tfind (lkey s.(inp).(segment) (s2l "equ")) s.(sy) = Some l ->
  l.(l_flags).(f_undef) = false -> l.(l_type) = TMnemo ->
  q = mkFields (Some (lkey s.(inp).(segment) (s2l "equ"), l)) (Some a) (s2l "equ") (Some b).
Proof.
  intros t a b s q s' C B E l F U T. unfold splitline in E. step E m s1 E1.
  destruct (SplitFacts.filter2_sep ["="%char] "?_=_?" t s m s1 eq_refl ltac:(discriminate) eq_refl E1) as [S1 M].
  destruct m as [[a' b']|]; [|elim (M a b (proj1 C))].
  destruct (LineText.first_cut_unique ["="%char] _ _ _ _ _ ltac:(discriminate) eq_refl C M) as [<- <-].
  rewrite (nospace_blanks _ B) in E. step E fm s2 E2. unfold findmnemo, searchlabel, bind in E2. cbn [gets ret] in E2.
  assert (Y : sy s1 = sy s /\ inp s1 = inp s) by (rewrite S1; split; reflexivity). destruct Y as [Y1 Y2]. rewrite Y1, Y2, F in E2.
  unfold usable in E2. cbn [snd] in E2. rewrite U, T in E2. cbn [negb ltype_eqb andb orb] in E2.
  step E v s3 E3. unfold ret in E, E2. apply (f_equal fst) in E. cbn [fst] in E. apply (f_equal fst) in E2. cbn [fst] in E2.
  inversion E2. subst fm. inversion E. reflexivity.
Qed.

Theorem assign_line : forall self n li s f s' a b, directive s "equ" HEqu -> assignment s a b -> asmline self n li true s = (Ok f, s') ->
  exists r s1 s2, near s s1 /\ parse b s1 = (Ok r, s2) /\ assigned (lkey s.(inp).(segment) a) r s s'.
Proof.
  intros self n li s f s' a b (l & F & U & Ty & P & NL & DL & DC & DM) (t & St & C & B) E.
  assert (T : exists q, taken_apart s q /\ q = mkFields (Some (lkey s.(inp).(segment) (s2l "equ"), l)) (Some a) (s2l "equ") (Some b)).
  { pose proof E as E0. unfold asmline in E0. step E0 u s1 E1. destruct u. destruct (near_linestart _ _ _ E1) as [N1 A1].
    unfold bind at 1 in E0. cbn [gets] in E0. step E0 t' s2 E2. pose proof (LineText.stripline_text _ _ _ E2) as St'.
    rewrite (linestart_inp _ _ _ E1) in St'. pose proof (LineText.statement_unique _ _ _ St St'). subst t'.
    assert (N2 : near s1 s2) by exact (proj1 (near_ok _ _ _ _ _ near_stripline E2)).
    pose proof (near_trans _ _ _ N1 N2) as N. destruct t as [|c t].
    { exfalso. destruct C as [(w1 & w2 & X & _) _]. destruct a; [destruct w1|]; discriminate X. }
    step E0 q s3 E3. exists q. split; [exists s1, (c :: t), s2, s3; repeat split; auto; discriminate|].
    pose proof (near_segment _ _ N) as Sg. destruct N as (N11 & _). rewrite <- Sg in *. rewrite <- N11 in F.
    exact (assignment_split _ _ _ _ _ _ C B E3 _ F U Ty). }
  destruct T as (q & T & ->). pose proof (equ_line _ _ _ _ _ _ _ _ l a E T eq_refl) as K. cbn [q_oper q_label otext of_its_own q_mnemo] in K.
  apply K; auto. unfold of_its_own. cbn [q_mnemo]. rewrite Ty. repeat split; auto. discriminate.
Qed.

(** ** Labels *)
Theorem label_line : forall self n li s f s' q a, asmline self n li true s = (Ok f, s') -> taken_apart s q -> of_its_own q -> heads q a ->
  labels (lkey s.(inp).(segment) a) (starvalue s) s'.(sy).
Proof.
  intros self n li s f s' q a E T O H. unfold heads in H. destruct (q_mnemo q) as [[key l]|] eqn:Q.
  - destruct (line_instr _ _ _ _ _ _ _ _ _ E T Q O) as (h & s1 & s2 & s3 & s4 & N1 & A1 & Lb & P' & X & S & N4).
    destruct H as [D L]. unfold labelled in Lb. rewrite D, L in Lb. destruct (SymFacts.herelabel_defines _ _ _ _ Lb) as (Nk & l2 & F2 & D2 & V2 & T2).
    assert (K : SymFacts.keeps s2 s').
    { pose proof (Walk.J_exec _ (pres_walk _ SymFacts.steps_keeps) h (l_modifier l) (q_label q) (q_oper q) s2) as K. rewrite X in K. cbn [fst snd how] in K.
      pose proof (pres_star_advance _ (p_lsteps _ (p_bsteps _ SymFacts.steps_keeps)) s3) as K2. rewrite S in K2. cbn [fst snd how] in K2.
      apply (SymFacts.keeps_trans s2 s3 s' K). apply (SymFacts.keeps_trans s3 s4 s' K2). apply SymFacts.keeps_same. intros k _. destruct N4 as (-> & _). reflexivity. }
    destruct (K _ _ Nk F2 D2) as (l3 & F3 & D3). rewrite (near_segment _ _ N1) in F3.
    exists l3. split; [exact F3|]. pose proof (SymFacts.see_definite _ _ D3 D2) as [D4 D5]. destruct D3 as (D3 & _).
    pose proof (f_equal SpecSymbols.v_type D3) as Dt. pose proof (f_equal SpecSymbols.v_value D3) as Dv. cbn [SpecSymbols.see SpecSymbols.v_type SpecSymbols.v_value] in Dt, Dv.
    rewrite Dt, Dv, V2. split; [exact T2|]. split; [|auto]. destruct N1 as (N1 & _). unfold starvalue, star. rewrite N1. reflexivity.
  - destruct (line_bare _ _ _ _ _ _ _ E T Q) as (s1 & s2 & N1 & X & N2). subst a.
    destruct (SymFacts.herelabel_defines _ _ _ _ X) as (Nk & l2 & F2 & D2 & V2 & T2). rewrite (near_segment _ _ N1) in F2.
    destruct N2 as (N2 & _). exists l2. rewrite N2. split; [exact F2|]. split; [exact T2|]. destruct D2 as [D2 D3].
    split; [|auto]. rewrite V2. destruct N1 as (N1 & _). unfold starvalue, star. rewrite N1. reflexivity.
Qed.
