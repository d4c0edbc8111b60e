(** Lemmas on the reasons why an instruction of the Z80 is refused. *)
From Coq Require Import String Ascii ZArith List Bool Lia ZifyBool.
From Verif Require Import Base State Tree Filter Output Label Operator Parse Scode Tables Cpu6800 Cpu6502 CpuZ80 Crasm BaseFacts FilterFacts TreeFacts
  Frame Eval SpecEmit EmitFacts PseudoFacts SpecForms FormFacts SpecCpu CpuFacts SpecZ80 Z80Facts Z80Inst SpecAccept AcceptFacts SpecAcceptZ.
From Verif Require SpecSplit SplitFacts.
Import ListNotations.
Open Scope Z_scope.
Ltac Zify.zify_post_hook ::= Z.div_mod_to_equations.

Lemma no_number_near : forall s s1 t, near s s1 -> no_number s1 t -> no_number s t.
Proof.
  intros s s1 t N [a b m H P|a b r H P T]; [apply (nn_error _ _ a b m)|apply (nn_type _ _ a b r)]; try assumption; eapply near_trans; eassumption.
Qed.
Lemma no_register_near : forall s s1 t, near s s1 -> no_register s1 t -> no_register s t.
Proof.
  intros s s1 t N [a b m H P|a b r H P T V]; [apply (nr_error _ _ a b m)|apply (nr_type _ _ a b r)]; try assumption; eapply near_trans; eassumption.
Qed.
Lemma unread_near : forall s s1 t, near s s1 -> unread s1 t -> unread s t.
Proof.
  intros s s1 t N [w a W F H|a F H]; [eapply ur_part; [exact W|exact F|eapply no_number_near; eassumption]|eapply ur_plain; [exact F|eapply no_register_near; eassumption]].
Qed.
Lemma when_bad : forall b m s e s', when b (err m) s = (Bad (Err e), s') -> b = true.
Proof. intros b m s e s' E. destruct b; [reflexivity|discriminate E]. Qed.
Lemma calm_filter0 : forall t p s, calm (filter0 t p) s.
Proof. intros t p s. unfold filter0. calmly. Qed.
Lemma calm_filter1 : forall t p s, calm (filter1 t p) s.
Proof. intros t p s. unfold filter1. calmly. Qed.
Lemma calm_filter2 : forall t p s, calm (filter2 t p) s.
Proof. intros t p s. unfold filter2. calmly. Qed.
Lemma calm_upd : forall f s, calm (upd_cp f) s.
Proof. intros f s e s' E. discriminate E. Qed.
#[export] Hint Resolve calm_filter0 calm_filter1 calm_filter2 calm_upd : calmdb.

(** * Reading an operand *)
Lemma getindexed_bad : forall t l fs, Forall2 (fun p q => form_of (s2l (fst p)) = Some (fst q) /\ snd q = idxform (snd p) /\ In (snd p) [0; 1; 2; 3; 4; 5]) l fs ->
  forall tail s e s', getindexed t l s = (Bad (Err e), s') ->
  exists w a, first_fit t (fs ++ tail) w a /\
    ((In w [FPlus false; FPlus true; FMinus false; FMinus true] /\ no_number s a) \/ exists x, idxread s a w x /\ eff x s.(cp) = None).
Proof.
  intros t l fs F. induction F as [|[pat i] [f w] l fs (Fo & W & Hi) F IH]; intros tail s e s' E; cbn [getindexed fst snd app] in *.
  { discriminate E. }
  fails E m s1 E1; [elim (calm_filterc _ _ _ _ _ E)|]. destruct (close_filterc _ _ _ _ _ E1) as [C1 P1]. apply (filterc_form _ _ _ _ _ _ Fo) in E1.
  destruct m as [[caps used]|].
  - destruct E1 as (a & Fi & Ca). exists w, a. split; [constructor; exact Fi|].
    fails E u s2 E2; [discriminate E|]. apply upd_cp_ok in E2. subst s2.
    assert (X : match caps with a :: _ => a | [] => [] end = a).
    { destruct f; subst caps; [|reflexivity]. inversion Fi. reflexivity. }
    match type of E with context [parse ?z] => replace z with a in E by (symmetry; exact X) end. pose proof (close_cp s1 (set_z_offset 0 (cp s1))) as C2. apply (close_trans _ _ _ C1) in C2.
    set (s2 := set_cp (set_z_offset 0 (cp s1)) s1) in *.
    fails E u1 s3 E3.
    + left. destruct (1 <? i) eqn:I; [|discriminate E]. split.
      { rewrite W. unfold idxform. cbn [In] in Hi. destruct Hi as [<-|[<-|[<-|[<-|[<-|[<-|[]]]]]]]; try discriminate I; cbn; auto. }
      eapply no_number_near; [apply C2|]. fails E r s4 E4; [eapply nn_error; [apply near_refl|exact E]|].
      fails E u2 s5 E5; [apply checktype_bad in E; eapply nn_type; [apply near_refl|exact E4|exact E]|]. discriminate E.
    + right.
      assert (V : exists d, s3.(cp) = set_z_offset d s1.(cp) /\ idxread s a w (Idx (Z.odd i) d)).
      { rewrite W. unfold idxform. destruct (1 <? i) eqn:I.
        - step E3 r s4 E4. destruct (close_parse _ _ _ _ E4) as [C3 P3].
          step E3 u2 s5 E5. apply checktype_ok in E5. destruct E5 as [T ->]. apply upd_cp_ok in E3. subst s3.
          assert (Z0 : value_z s a (s32 (r_value r))) by (eapply value_z_near; [apply C2|]; eapply value_z_here; eassumption).
          replace (i <=? 1) with false by lia. destruct (3 <? i) eqn:I3.
          + exists (s32 (- s32 (r_value r))). split; [cbn [cp set_cp]; rewrite P3; reflexivity|].
            replace (i <=? 3) with false by lia. constructor. exact Z0.
          + exists (s32 (r_value r)). split; [cbn [cp set_cp]; rewrite P3; reflexivity|].
            replace (i <=? 3) with true by lia. constructor. exact Z0.
        - injection E3 as _ <-. exists 0. split; [reflexivity|]. replace (i <=? 1) with true by lia. constructor. }
      destruct V as (d & P3 & R). exists (Idx (Z.odd i) d). split; [exact R|].
      fails E c s4 E4; [discriminate E|]. apply gets_ok in E4. destruct E4 as [-> ->].
      fails E u3 s4 E4; [|discriminate E]. apply when_bad in E. rewrite P3, P1 in E. cbn [z_indexflag z_offsetflag set_z_offset] in E.
      cbn [eff]. rewrite E. reflexivity.
  - destruct (IH tail _ _ _ E) as (w' & a & Ff & K). exists w', a. split; [apply ff_there; assumption|].
    destruct K as [[Iw K]|(x & R & Ef)]; [left; split; [exact Iw|eapply no_number_near; [apply C1|exact K]]|right].
    exists x. rewrite <- P1. split; [|exact Ef]. destruct R; constructor; eapply value_z_near; try eassumption; apply C1.
Qed.
Lemma indexed_forms2 : Forall2 (fun p q => form_of (s2l (fst p)) = Some (fst q) /\ snd q = idxform (snd p) /\ In (snd p) [0; 1; 2; 3; 4; 5]) indexed (firstn 6 zforms).
Proof. unfold indexed. cbn [firstn zforms]. repeat (apply Forall2_cons; [split; [reflexivity|split; [reflexivity|cbn [In snd]; auto 10]]|]). apply Forall2_nil. Qed.
Lemma use_bad : forall i s e s', when (negb (z_indexflag (cp s) =? 0) && negb (z_indexflag (cp s) =? i)) (err badop) s = (Bad (Err e), s') -> use i s.(cp) = None.
Proof. intros i s e s' E. apply when_bad in E. unfold use. rewrite E. reflexivity. Qed.

Theorem getreg_bad : forall t s e s', named s -> getreg t s = (Bad (Err e), s') ->
  unread s t \/ exists x, reads s t x /\ eff x s.(cp) = None.
Proof.
  intros t s e s' N E. unfold getreg in E. fails E b s1 E1.
  { apply (getindexed_bad _ _ _ indexed_forms2 (skipn 6 zforms)) in E. change (firstn 6 zforms ++ skipn 6 zforms) with zforms in E.
    destruct E as (w & a & Ff & [[I H]|(x & R & Ef)]).
    - left. eapply ur_part; [|exact Ff|exact H]. cbn [In] in I |- *. intuition.
    - right. exists x. split; [|exact Ef]. destruct R as [iy|iy v V|iy v V]; [eapply rd_idx; exact Ff|eapply rd_plus; eassumption|eapply rd_minus; eassumption]. }
  apply (getindexed_ok _ _ _ indexed_forms (skipn 6 zforms)) in E1. change (firstn 6 zforms ++ skipn 6 zforms) with zforms in E1.
  destruct E1 as [C1 K]. destruct b; [discriminate E|].
  destruct K as [P1 K]. cbn [skipn zforms] in K.
  fails E b s2 E2; [elim (calm_filter0 _ _ _ _ _ E)|]. destruct (close_filter0 _ _ _ _ _ E2) as [C2 P2]. apply (filter0_form _ (Fixed (t_ "(_HL_)"))) in E2; [|reflexivity].
  pose proof (close_trans _ _ _ C1 C2) as C. rewrite P1 in P2. clear C1 C2 P1. destruct b.
  { destruct E2 as (a & Fi). fails E c s3 E3; [discriminate E|]. apply gets_ok in E3. destruct E3 as [-> ->]. fails E u s3 E3; [|discriminate E].
    apply use_bad in E. right. exists (Ind rHL). split; [eapply rd_ind; apply K; constructor; exact Fi|]. rewrite <- P2. exact E. }
  assert (K1 : forall w a, first_fit t (skipn 7 zforms) w a -> first_fit t zforms w a) by (intros; apply K; apply ff_there; assumption).
  clear K E2. cbn [skipn zforms] in K1.
  fails E b s3 E3; [elim (calm_filter0 _ _ _ _ _ E)|]. destruct (close_filter0 _ _ _ _ _ E3) as [C3 P3]. apply (filter0_form _ (Fixed (t_ "(_BC_)"))) in E3; [|reflexivity].
  apply (close_trans _ _ _ C) in C3. rewrite P2 in P3. clear C P2. destruct b; [discriminate E|].
  assert (K2 : forall w a, first_fit t (skipn 8 zforms) w a -> first_fit t zforms w a) by (intros; apply K1; apply ff_there; assumption).
  clear K1 E3. cbn [skipn zforms] in K2.
  fails E b s4 E4; [elim (calm_filter0 _ _ _ _ _ E)|]. destruct (close_filter0 _ _ _ _ _ E4) as [C4 P4]. apply (filter0_form _ (Fixed (t_ "(_DE_)"))) in E4; [|reflexivity].
  apply (close_trans _ _ _ C3) in C4. rewrite P3 in P4. clear C3 P3. destruct b; [discriminate E|].
  assert (K3 : forall w a, first_fit t (skipn 9 zforms) w a -> first_fit t zforms w a) by (intros; apply K2; apply ff_there; assumption).
  clear K2 E4. cbn [skipn zforms] in K3.
  fails E m s5 E5; [elim (calm_filter1 _ _ _ _ _ E)|]. destruct (close_filter1 _ _ _ _ _ E5) as [C5 P5]. apply (filter1_form _ (t_ "(_") (t_ "_)")) in E5; [|reflexivity].
  apply (close_trans _ _ _ C4) in C5. rewrite P4 in P5. clear C4 P4. destruct m as [a|].
  { assert (Ff : first_fit t zforms FMem a) by (apply K3; constructor; exact E5).
    fails E r s6 E6.
    { left. eapply ur_part; [|exact Ff|eapply no_number_near; [apply C5|]; eapply nn_error; [apply near_refl|exact E]]. cbn [In]. auto 10. }
    destruct (close_parse _ _ _ _ E6) as [C6 P6]. fails E u s7 E7.
    { apply checktype_bad in E. left. eapply ur_part; [|exact Ff|eapply no_number_near; [apply C5|]; eapply nn_type; [apply near_refl|exact E6|exact E]]. cbn [In]. auto 10. }
    apply checktype_ok in E7. destruct E7 as [T ->].
    fails E c s7 E7; [discriminate E|]. apply gets_ok in E7. destruct E7 as [-> ->]. fails E u1 s7 E7; [|discriminate E]. apply when_bad in E.
    right. exists (Mem (s32 (r_value r))). split.
    - eapply rd_mem; [exact Ff|]. eapply value_z_near; [apply C5|]. eapply value_z_here; eassumption.
    - cbn [eff]. rewrite P6, P5 in E. rewrite E. reflexivity. }
  assert (Ff : first_fit t zforms FPlain t).
  { apply K3. apply ff_there; [exact E5|]. constructor.
    replace t with ([] ++ t ++ []) at 1 by (cbn [app]; apply app_nil_r). constructor; [constructor|constructor|congruence]. }
  clear K3 E5.
  fails E r s6 E6; [left; eapply ur_plain; [exact Ff|eapply no_register_near; [apply C5|]; eapply nr_error; [apply near_refl|exact E]]|].
  destruct (close_parse _ _ _ _ E6) as [C6 P6]. pose proof (close_trans _ _ _ C5 C6) as C7.
  destruct (parse_listed _ _ _ _ (proj2 (proj2 C5) N) E6) as [Li _].
  destruct (ltype_eqb (r_type r) TAbs) eqn:Ty.
  { assert (T : r_type r = TAbs) by (destruct (r_type r); try discriminate Ty; reflexivity).
    fails E c s7 E7; [discriminate E|]. apply gets_ok in E7. destruct E7 as [-> ->]. fails E u1 s7 E7; [|discriminate E]. apply when_bad in E.
    right. exists (Num (s32 (r_value r))). split.
    - eapply rd_num; [exact Ff|]. eapply value_z_near; [apply C5|]. eapply value_z_here; eassumption.
    - cbn [eff]. rewrite P6, P5 in E. rewrite E. reflexivity. }
  assert (NT : r_type r <> TAbs) by (intros X; rewrite X in Ty; discriminate Ty).
  fails E u s7 E7.
  { apply checktype_bad in E. left. eapply ur_plain; [exact Ff|eapply no_register_near; [apply C5|]; eapply nr_type; [apply near_refl|exact E6|exact NT|]]. intros; contradiction. }
  apply checktype_ok in E7. destruct E7 as [T ->]. destruct (Li T) as (n & Mn). rewrite Mn in E.
  assert (B : (number n <? 0) || (31 <? number n) = false) by (destruct n; reflexivity). rewrite B in E.
  fails E u1 s7 E7.
  { apply when_bad in E. rewrite pow_number in E. left. eapply ur_plain; [exact Ff|eapply no_register_near; [apply C5|]; eapply nr_type; [apply near_refl|exact E6|exact NT|]].
    intros x _ Mx. rewrite Mn in Mx. rewrite <- Mx. lia. }
  apply when_err in E7. destruct E7 as [V ->]. rewrite pow_number in V.
  assert (Rd : reads s t (Reg n)).
  { eapply rd_reg; [exact Ff|]. exists s5, s6, r. split; [apply C5|]. split; [exact E6|]. split; [exact T|]. split; [exact Mn|]. lia. }
  right. exists (Reg n). split; [exact Rd|]. rewrite <- P5, <- P6.
  destruct n; cbn [number] in E; cbn [Z.eqb Pos.eqb orb HLREGISTER] in E; try discriminate E;
    (fails E c s7 E7; [discriminate E|]; apply gets_ok in E7; destruct E7 as [-> ->]; fails E u2 s7 E7; [|discriminate E]; apply use_bad in E; exact E).
Qed.

(** * Storing *)
Lemma calm_docode : forall code s, s.(fl).(a_org_gv) = true -> calm (docode code) s.
Proof.
  intros code s O. unfold docode. apply calm_bind; [apply calm_gets|]. intros c s1 E. injection E as <- <-.
  assert (K : forall b x s, s.(fl).(a_org_gv) = true -> calm (when b (insert8 x)) s /\ forall u s', when b (insert8 x) s = (Ok u, s') -> s'.(fl).(a_org_gv) = true).
  { intros b x s0 O0. unfold when. destruct b; [split; [apply calm_insert8; exact O0|intros u s' E; eapply insert8_org; eassumption]|].
    split; [apply calm_ret|]. intros u s' E. injection E as _ <-. exact O0. }
  apply calm_bind; [apply K; exact O|]. intros u s1 E. apply K in E; [|exact O]. clear O.
  apply calm_bind; [destruct (hashigh code); apply calm_insert8; exact E|]. intros u1 s2 E2.
  assert (O2 : s2.(fl).(a_org_gv) = true) by (destruct (hashigh code); eapply insert8_org; eassumption). clear E E2.
  apply calm_bind.
  { destruct (z_offsetflag (cp s)); [|apply calm_ret]. apply calm_any; [apply calm_insert8; exact O2|]. intros. calmly. }
  intros u2 s3 E3. assert (O3 : s3.(fl).(a_org_gv) = true).
  { destruct (z_offsetflag (cp s)); [|injection E3 as _ <-; exact O2]. step E3 u3 s4 E4. apply (insert8_org _ _ _ _ E4) in O2.
    apply when_warning in E3. destruct E3 as [S _]. eapply same_org; eassumption. }
  apply calm_bind; [apply K; exact O3|]. intros u3 s4 E4. apply K in E4; [|exact O3].
  destruct (z_arg8flag (cp s)).
  - apply calm_any; [apply calm_insert8; exact E4|]. intros. calmly.
  - destruct (z_arg16flag (cp s)); [apply calm_insert16; exact E4|apply calm_ret].
Qed.
Lemma close_org : forall s s', close s s' -> s.(fl).(a_org_gv) = true -> s'.(fl).(a_org_gv) = true.
Proof. intros s s' C L. rewrite (near_fl _ _ (proj1 C)). exact L. Qed.

(** * Instructions *)
Lemma first_fit_in : forall A t (l : list (form * A)) w a, first_fit t l w a -> In w (map snd l).
Proof. intros A t l w a F. induction F; [left; reflexivity|right; assumption]. Qed.
Lemma reads_eff : forall s t x c, reads s t x -> eff x (clr c) <> None.
Proof.
  intros s t x [cf of off i a a8 a16] R. unfold clr. destruct R as [iy b F|iy b v F V|iy b v F V|r b F|b v F V|b v F V|b r F V]; cbn; try discriminate.
  - apply first_fit_in in F. cbn [map snd zforms In] in F.
    destruct r; cbn; try discriminate; exfalso; repeat (destruct F as [F|F]; [discriminate F|]); exact F.
  - destruct r; cbn; discriminate.
Qed.
Lemma cleared_bad : forall t s e s', named s -> s.(cp) = clr s.(cp) -> getreg t s = (Bad (Err e), s') -> unread s t.
Proof.
  intros t s e s' N P E. destruct (getreg_bad _ _ _ _ N E) as [U|(x & R & Ef)]; [exact U|]. rewrite P in Ef. elim (reads_eff _ _ _ _ R Ef).
Qed.
Lemma clr_clr : forall c, clr (clr c) = clr c.
Proof. intros []. reflexivity. Qed.
Lemma first_bad : forall t s u s1 e s', named s -> clrall s = (Ok u, s1) -> getreg t s1 = (Bad (Err e), s') -> unread s t.
Proof.
  intros t s u s1 e s' N E1 E. apply clrall_ok in E1. assert (C1 : close s s1) by (subst s1; apply close_cp).
  eapply unread_near; [apply C1|]. eapply cleared_bad; [apply C1; exact N| |exact E]. subst s1. cbn [cp set_cp]. symmetry. apply clr_clr.
Qed.

Lemma ld_none : forall x y c c1, eff x (clr c) = Some c1 -> eff y c1 = None \/ ld_code (zcode x) (zcode y) = None -> z_load x y = None.
Proof.
  intros x y [cf of off i a a8 a16] c1 E1 H. unfold clr in E1. cbn in E1.
  destruct x as [[]|[]|[] d|m|v| | | |]; cbn in E1; try discriminate E1; injection E1 as <-;
  destruct y as [[]|[]|[] d'|m'|v'| | | |]; try reflexivity; exfalso;
  (destruct H as [H|H]; [cbn in H; discriminate H|vm_compute in H; discriminate H]).
Qed.
Theorem ld_bad : forall o s e s', named s -> s.(fl).(a_org_gv) = true -> z_ld o s = (Bad (Err e), s') -> refusable s "ld" o.
Proof.
  intros o s e s' N O E. unfold z_ld in E. fails E m s1 E1; [elim (calm_filter2 _ _ _ _ _ E)|]. destruct (close_filter2 _ _ _ _ _ E1) as [C1 P1]. apply cut_comma in E1.
  destruct m as [[a b]|]; [|apply re_comma; [left; reflexivity|exact E1]].
  fails E u1 s2 E2; [discriminate E|]. pose proof (proj2 (proj2 C1) N) as N1.
  fails E g1 s3 E3.
  { eapply re_operand; [eapply ot_left; [left; reflexivity|exact E1]|]. eapply unread_near; [apply C1|]. eapply first_bad; [exact N1|exact E2|exact E]. }
  destruct (first_read _ _ _ _ _ _ N1 E2 E3) as (x & Rx & Ex & -> & C3). apply (reads_near _ _ _ _ (proj1 C1)) in Rx. apply (close_trans _ _ _ C1) in C3.
  fails E g2 s4 E4.
  { destruct (getreg_bad _ _ _ _ (proj2 (proj2 C3) N) E) as [U|(y & Ry & Ey)].
    - eapply re_operand; [eapply ot_right; [left; reflexivity|exact E1]|]. eapply unread_near; [apply C3|exact U].
    - apply (reads_near _ _ _ _ (proj1 C3)) in Ry. eapply re_none; [eapply wt_two; [left; reflexivity|exact E1|exact Rx|exact Ry]|].
      change (z_load x y = None). eapply ld_none; [exact Ex|left; exact Ey]. }
  pose proof (proj2 (proj2 C3) N) as N3. reading E4 N3 y Ry Ey Zy C4. apply (reads_near _ _ _ _ (proj1 C3)) in Ry. apply (close_trans _ _ _ C3) in C4. subst g2.
  destruct (ld_code (zcode x) (zcode y)) as [[k a8]|] eqn:K.
  - exfalso. fails E u2 s5 E5; [destruct a8; discriminate E|].
    assert (O5 : s5.(fl).(a_org_gv) = true).
    { apply when_fine in E5. destruct E5 as [[-> E5]|[-> ->]]; [apply upd_cp_ok in E5; subst s5|]; apply (close_org _ _ C4 O). }
    elim (calm_docode _ _ O5 _ _ E).
  - eapply re_none; [eapply wt_two; [left; reflexivity|exact E1|exact Rx|exact Ry]|].
    change (z_load x y = None). eapply ld_none; [exact Ex|right; exact K].
Qed.

(** ** One operand *)
Theorem onreg8_bad : forall n c k, assoc n rotations = Some k ->
  (forall x, zilog 0 n [x] = on_r_cb (fun r => 8 * k + r) x) -> ~ In n ["jr"; "djnz"]%string -> In n ones ->
  forall o s e s', named s -> s.(fl).(a_org_gv) = true -> z_onreg8 c o s = (Bad (Err e), s') -> refusable s n o.
Proof.
  intros n c k A Zn J I1 o s e s' N O E. unfold z_onreg8 in E. fails E u1 s1 E1; [discriminate E|]. 
  fails E g s2 E2; [eapply re_operand; [apply ot_one; exact I1|eapply first_bad; eassumption]|].
  destruct (first_read _ _ _ _ _ _ N E1 E2) as (x & Rx & Ex & -> & C).
  fails E u2 s3 E3.
  - apply when_bad in E. eapply re_none; [apply wt_one; [exact I1|exact Rx]|]. rewrite (zilog_pc _ 0 _ _ J), Zn.
    clear - E. destruct x as [[]|[]|[] d|m|v| | | |]; try reflexivity; vm_compute in E; discriminate E.
  - apply when_err in E3. destruct E3 as [_ ->]. elim (calm_docode _ _ (close_org _ _ C O) _ _ E).
Qed.
Theorem incr_bad : forall n c, (n = "inc"%string /\ c = 1027) \/ (n = "dec"%string /\ c = 1291) ->
  forall o s e s', named s -> s.(fl).(a_org_gv) = true -> z_incr c o s = (Bad (Err e), s') -> refusable s n o.
Proof.
  intros n c H o s e s' N O E.
  assert (I1 : In n ones) by (destruct H as [[-> _]|[-> _]]; cbn; auto 20).
  unfold z_incr in E. fails E u1 s1 E1; [discriminate E|].
  fails E g s2 E2; [eapply re_operand; [apply ot_one; exact I1|eapply first_bad; eassumption]|].
  destruct (first_read _ _ _ _ _ _ N E1 E2) as (x & Rx & Ex & -> & C).
  destruct (isreg8 (zcode x)) eqn:B8; [elim (calm_docode _ _ (close_org _ _ C O) _ _ E)|].
  destruct (isreg16 (zcode x)) eqn:B16; [elim (calm_docode _ _ (close_org _ _ C O) _ _ E)|].
  eapply re_none; [apply wt_one; [exact I1|exact Rx]|].
  assert (J : ~ In n ["jr"; "djnz"]%string) by (destruct H as [[-> _]|[-> _]]; notrel). rewrite (zilog_pc _ 0 _ _ J).
  clear - B8 B16 H. destruct x as [[]|[]|[] d|m|v| | | |]; vm_compute in B8, B16; try discriminate B8; try discriminate B16; destruct H as [[-> _]|[-> _]]; reflexivity.
Qed.
Theorem stackop_bad : forall n c, (n = "push"%string /\ c = 69) \/ (n = "pop"%string /\ c = 65) ->
  forall o s e s', named s -> s.(fl).(a_org_gv) = true -> z_stackop c o s = (Bad (Err e), s') -> refusable s n o.
Proof.
  intros n c H o s e s' N O E.
  assert (I1 : In n ones) by (destruct H as [[-> _]|[-> _]]; cbn; auto 20).
  unfold z_stackop in E. fails E u1 s1 E1; [discriminate E|].
  fails E g s2 E2; [eapply re_operand; [apply ot_one; exact I1|eapply first_bad; eassumption]|].
  destruct (first_read _ _ _ _ _ _ N E1 E2) as (x & Rx & Ex & -> & C). cbv zeta in E.
  fails E u2 s3 E3; [|apply when_err in E3; destruct E3 as [_ ->]; elim (calm_docode _ _ (close_org _ _ C O) _ _ E)].
  apply when_bad in E. eapply re_none; [apply wt_one; [exact I1|exact Rx]|].
  assert (J : ~ In n ["jr"; "djnz"]%string) by (destruct H as [[-> _]|[-> _]]; notrel). rewrite (zilog_pc _ 0 _ _ J).
  clear - E H. destruct x as [[]|[]|[] d|m|v| | | |]; vm_compute in E; try discriminate E; destruct H as [[-> _]|[-> _]]; reflexivity.
Qed.

(** ** Bits *)
Theorem bitop_bad : forall n code k, In (n, code, k) [("bit", -13504, 0x40); ("set", -13376, 0xC0); ("res", -13440, 0x80)]%string ->
  forall o s e s', named s -> s.(fl).(a_org_gv) = true -> z_bitop code o s = (Bad (Err e), s') -> refusable s n o.
Proof.
  intros n code k I o s e s' N O E.
  assert (Ib : In n bits) by (cbn [In] in I; unfold bits; cbn [bit_ops map fst In]; repeat (destruct I as [I|I]; [injection I as <- _ _; auto|]); destruct I).
  assert (J : ~ In n ["jr"; "djnz"]%string) by (cbn [In] in I; repeat (destruct I as [I|I]; [injection I as <- <- <-; notrel|]); destruct I).
  unfold z_bitop in E. fails E u1 s1 E1; [discriminate E|]. apply clrall_ok in E1.
  assert (C1 : close s s1) by (subst s1; apply close_cp).
  fails E m s2 E2; [elim (calm_filter2 _ _ _ _ _ E)|]. destruct (close_filter2 _ _ _ _ _ E2) as [C2 P2]. apply cut_comma in E2. apply (close_trans _ _ _ C1) in C2.
  destruct m as [[a b]|]; [|apply re_comma; [apply in_or_app; right; exact Ib|exact E2]].
  fails E r s3 E3.
  { eapply re_numeral; [eapply nt_bit; [exact Ib|exact E2]|]. eapply no_number_near; [apply C2|]. eapply nn_error; [apply near_refl|exact E]. }
  destruct (close_parse _ _ _ _ E3) as [C3 P3]. pose proof (close_trans _ _ _ C2 C3) as C3'.
  fails E u2 s4 E4.
  { eapply re_numeral; [eapply nt_bit; [exact Ib|exact E2]|]. eapply no_number_near; [apply C2|]. apply checktype_bad in E. eapply nn_type; [apply near_refl|exact E3|exact E]. }
  apply checktype_ok in E4. destruct E4 as [T ->]. cbv zeta in E.
  assert (V : value_z s a (s32 (r_value r))) by (eapply value_z_near; [apply C2|]; eapply value_z_here; eassumption).
  assert (Zb : forall v y, field_r y = None -> zilog (pc (wr s)) n [Num v; y] = None).
  { intros v y H. rewrite (zilog_pc _ 0 _ _ J). clear - I H.
    assert (K : forall k, (if (0 <=? v) && (v <=? 7) then on_r_cb (fun r => k + 8 * v + r) y else None) = None).
    { intros k0. destruct (_ && _); [|reflexivity]. unfold on_r_cb. rewrite H. reflexivity. }
    cbn [In] in I. repeat (destruct I as [I|I]; [injection I as <- _ _; destruct y; first [exact (K _)|reflexivity]|]). destruct I. }
  assert (Nr : forall x, negb (isreg8 (zcode x)) = true -> field_r x = None).
  { intros x B. destruct x as [[]|[]|[] d|m|v| | | |]; try reflexivity; vm_compute in B; discriminate B. }
  fails E u3 s4 E4.
  { apply when_bad in E. eapply re_bit; [exact Ib|exact E2|exact V|lia]. }
  apply when_err in E4. destruct E4 as [_ ->].
  assert (P3' : s3.(cp) = clr s.(cp)) by (rewrite P3, P2; subst s1; reflexivity).
  fails E g s4 E4.
  { eapply re_operand; [eapply ot_right; [apply in_or_app; right; apply in_or_app; right; exact Ib|exact E2]|].
    eapply unread_near; [apply C3'|]. eapply cleared_bad; [apply C3'; exact N| |exact E]. rewrite P3'. symmetry. apply clr_clr. }
  pose proof (proj2 (proj2 C3') N) as N3. reading E4 N3 y Ry Ey Zy C4. subst g. pose proof (close_trans _ _ _ C3' C4) as C5.
  fails E u4 s5 E5; [|apply when_err in E5; destruct E5 as [_ ->]; elim (calm_docode _ _ (close_org _ _ C5 O) _ _ E)].
  apply when_bad in E. eapply re_none; [eapply wt_bit; [exact Ib|exact E2|exact V|eapply reads_near; [apply C3'|exact Ry]]|].
  apply Zb, Nr. exact E.
Qed.

(** ** Operations with the accumulator *)
Lemma logical_bad : forall k o s e s', named s -> s.(fl).(a_org_gv) = true -> z_logical k o s = (Bad (Err e), s') ->
  (SpecSplit.uncut comma (otext o) /\ unread s (otext o)) \/
  (exists a b, SpecSplit.first_cut comma (otext o) a b /\ (unread s a \/ unread s b \/ exists x, reads s a x /\ x <> Reg rA)).
Proof.
  intros k o s e s' N O E. unfold z_logical in E. fails E u1 s1 E1; [discriminate E|]. apply clrall_ok in E1.
  assert (C1 : close s s1) by (subst s1; apply close_cp).
  fails E m s2 E2; [elim (calm_filter2 _ _ _ _ _ E)|]. destruct (close_filter2 _ _ _ _ _ E2) as [C2 P2]. apply cut_comma in E2. apply (close_trans _ _ _ C1) in C2.
  assert (P2' : s2.(cp) = clr s.(cp)) by (rewrite P2; subst s1; reflexivity). pose proof (proj2 (proj2 C2) N) as N2.
  fails E t s3 E3.
  { destruct m as [[a b]|]; [|discriminate E]. right. exists a, b. split; [exact E2|].
    fails E g s4 E4.
    - left. eapply unread_near; [apply C2|]. eapply cleared_bad; [exact N2| |exact E]. rewrite P2'. symmetry. apply clr_clr.
    - reading E4 N2 x Rx Ex Zx C4. subst g. right. right. exists x. split; [eapply reads_near; [apply C2|exact Rx]|].
      fails E u2 s5 E5; [apply when_bad in E; intros ->; discriminate E|].
      fails E u3 s6 E6; [elim (calm_warning _ _ _ _ E)|discriminate E]. }
  assert (K : close s s3 /\ s3.(cp) = clr s.(cp) /\
    ((SpecSplit.uncut comma (otext o) /\ t = otext o) \/ (exists a, SpecSplit.first_cut comma (otext o) a t))).
  { destruct m as [[a b]|].
    - step E3 g s4 E4. reading E4 N2 x Rx Ex Zx C4.
      step E3 u2 s5 E5. apply when_err in E5. destruct E5 as [B ->].
      step E3 u3 s5 E5. apply close_warning in E5. destruct E5 as [C5 P5]. injection E3 as <- <-.
      assert (zcode x = ACCUMULATOR) as Za by lia. apply is_acc in Za. subst x. cbn [eff] in Ex. injection Ex as Ex.
      split; [eapply close_trans; [exact C2|]; eapply close_trans; eassumption|]. split; [rewrite P5, <- Ex; exact P2'|].
      right. exists a. exact E2.
    - injection E3 as <- <-. split; [exact C2|]. split; [exact P2'|]. left. split; [exact E2|reflexivity]. }
  destruct K as (C3 & P3 & Sp). clear E2 E3.
  fails E g s4 E4.
  { assert (U : unread s t) by (eapply unread_near; [apply C3|]; eapply cleared_bad; [apply C3; exact N| |exact E]; rewrite P3; symmetry; apply clr_clr).
    destruct Sp as [[A ->]|(a & A)]; [left; auto|right; exists a, t; auto]. }
  pose proof (proj2 (proj2 C3) N) as N3. reading E4 N3 x Rx Ex Zx C4. apply (close_trans _ _ _ C3) in C4. pose proof (close_org _ _ C4 O) as O4.
  exfalso. fails E g' s5 E5; [destruct (g =? IMDATA) in E; discriminate E|].
  assert (O5 : s5.(fl).(a_org_gv) = true).
  { destruct (g =? IMDATA); [step E5 u2 s6 E6; apply upd_cp_ok in E6; subst s6|]; injection E5 as _ <-; exact O4. }
  elim (calm_docode _ _ O5 _ _ E).
Qed.
Theorem logical_refused : forall n k, In (n, k) [("or", 176); ("and", 160); ("xor", 168); ("sub", 144); ("cp", 184)]%string ->
  forall o s e s', named s -> s.(fl).(a_org_gv) = true -> z_logical k o s = (Bad (Err e), s') -> refusable s n o.
Proof.
  intros n k I o s e s' N O E.
  assert (Il : In n logicals) by (cbn [In] in I; unfold logicals; cbn [In]; repeat (destruct I as [I|I]; [injection I as <- _; auto 10|]); destruct I).
  destruct (logical_bad _ _ _ _ _ N O E) as [[U R]|(a & b & F & [R|[R|(x & R & H)]])].
  - eapply re_operand; [apply ot_single; [exact Il|exact U]|exact R].
  - eapply re_operand; [eapply ot_left; [apply in_or_app; right; exact Il|exact F]|exact R].
  - eapply re_operand; [eapply ot_right; [apply in_or_app; right; apply in_or_app; left; exact Il|exact F]|exact R].
  - eapply re_acc; [exact Il|exact F|exact R|exact H].
Qed.
Lemma hl_none : forall n k x y c c1, In (n, k) [("add", 128); ("adc", 136); ("sbc", 152)]%string -> zcode x = HLREGISTER -> eff x (clr c) = Some c1 ->
  negb (z_indexflag c1 =? HL) && negb (k =? 128) = true \/ eff y c1 = None \/ negb (isreg16 (zcode y)) = true -> with_hl n x y = None.
Proof.
  intros n k x y [cf of off i a a8 a16] c1 I Zx E1 H. unfold clr in E1. cbn in E1.
  destruct (is_hl _ Zx) as [->|[->| ->]]; cbn in E1; injection E1 as <-; clear Zx;
  cbn [In] in I; (destruct I as [I|[I|[I|[]]]]; injection I as <- <-);
  destruct y as [[]|[]|[] d|m|v| | | |]; try reflexivity; exfalso; (destruct H as [H|[H|H]]; [vm_compute in H; discriminate H|cbn in H; discriminate H|vm_compute in H; discriminate H]).
Qed.
Theorem arith_bad : forall n k, In (n, k) [("add", 128); ("adc", 136); ("sbc", 152)]%string ->
  forall o s e s', named s -> s.(fl).(a_org_gv) = true -> z_arith k o s = (Bad (Err e), s') -> refusable s n o.
Proof.
  intros n k I o s e s' N O E.
  assert (Ia : In n ["add"; "adc"; "sbc"]%string)
    by (cbn [In] in I |- *; repeat (destruct I as [I|I]; [injection I as <- _; auto 10|]); destruct I).
  assert (It : In n twos) by (unfold twos; right; exact Ia).
  unfold z_arith in E. fails E u1 s1 E1; [discriminate E|]. apply clrall_ok in E1.
  assert (C1 : close s s1) by (subst s1; apply close_cp).
  fails E m s2 E2; [elim (calm_filter2 _ _ _ _ _ E)|]. destruct (close_filter2 _ _ _ _ _ E2) as [C2 P2]. apply cut_comma in E2. apply (close_trans _ _ _ C1) in C2.
  assert (P2' : s2.(cp) = clr s.(cp)) by (rewrite P2; subst s1; reflexivity). pose proof (proj2 (proj2 C2) N) as N2.
  destruct m as [[a b]|]; [|apply re_comma; [apply in_or_app; left; exact It|exact E2]].
  fails E g s3 E3.
  { eapply re_operand; [eapply ot_left; [apply in_or_app; left; exact It|exact E2]|]. eapply unread_near; [apply C2|].
    eapply cleared_bad; [exact N2| |exact E]. rewrite P2'. symmetry. apply clr_clr. }
  reading E3 N2 x Rx Ex Zx C3. rewrite P2' in Ex. subst g. apply (close_trans _ _ _ C2) in C3. apply (reads_near _ _ _ _ (proj1 C2)) in Rx.
  pose proof (proj2 (proj2 C3) N) as N3. pose proof (close_org _ _ C3 O) as O3.
  destruct (zcode x =? ACCUMULATOR) eqn:Za.
  - apply Z.eqb_eq, is_acc in Za. subst x. destruct (logical_bad _ _ _ _ _ N3 O3 E) as [[U R]|(c & d & F & K)]; cbn [otext] in *.
    + eapply re_operand; [eapply ot_right; [apply in_or_app; left; exact It|exact E2]|]. eapply unread_near; [apply C3|exact R].
    + eapply re_third; [exact Ia|exact E2|exact F].
  - destruct (zcode x =? HLREGISTER) eqn:Zh.
    + apply Z.eqb_eq in Zh.
      assert (Z3 : forall y p, zilog p n [x; y] = with_hl n x y).
      { intros y p. cbn [In] in I; destruct (is_hl _ Zh) as [->|[->| ->]]; repeat (destruct I as [I|I]; [injection I as <- <-; reflexivity|]); destruct I. }
      fails E c s4 E4; [discriminate E|]. apply gets_ok in E4. destruct E4 as [-> ->].
      fails E u2 s4 E4.
      { apply when_bad in E. eapply re_index; [exact Ia|exact E2|exact Rx|]. intros y. rewrite Z3. eapply hl_none; eauto. }
      apply when_err in E4. destruct E4 as [B ->]. cbv zeta in E.
      fails E g s4 E4.
      { destruct (getreg_bad _ _ _ _ N3 E) as [U|(y & Ry & Ey)].
        - eapply re_operand; [eapply ot_right; [apply in_or_app; left; exact It|exact E2]|]. eapply unread_near; [apply C3|exact U].
        - apply (reads_near _ _ _ _ (proj1 C3)) in Ry. eapply re_none; [eapply wt_two; [exact It|exact E2|exact Rx|exact Ry]|].
          rewrite Z3. eapply hl_none; eauto. }
      reading E4 N3 y Ry Ey Zy C4. subst g. apply (reads_near _ _ _ _ (proj1 C3)) in Ry. apply (close_trans _ _ _ C3) in C4.
      fails E u3 s5 E5; [|apply when_err in E5; destruct E5 as [_ ->]; elim (calm_docode _ _ (close_org _ _ C4 O) _ _ E)].
      apply when_bad in E. eapply re_none; [eapply wt_two; [exact It|exact E2|exact Rx|exact Ry]|].
      rewrite Z3. eapply hl_none; eauto.
    + eapply re_index; [exact Ia|exact E2|exact Rx|]. intros y.
      assert (J : ~ In n ["jr"; "djnz"]%string) by (cbn [In] in Ia; destruct Ia as [<-|[<-|[<-|[]]]]; notrel). rewrite (zilog_pc _ 0 _ _ J).
      clear - Ia Za Zh. cbn [In] in Ia. destruct Ia as [<-|[<-|[<-|[]]]];
      destruct x as [[]|[]|[] d|m|v| | | |]; try reflexivity; first [discriminate Za|discriminate Zh].
Qed.

(** ** Instructions without operands *)
Theorem simple_bad : forall n c, In n (map fst plain) ->
  forall o s e s', s.(fl).(a_org_gv) = true -> simple c o s = (Bad (Err e), s') -> refusable s n o.
Proof.
  intros n c I o s e s' O E. apply re_extra; [exact I|]. intros ->. unfold simple in E.
  fails E u s1 E1; [unfold when in E; destruct (hashigh c); [elim (calm_insert8 _ _ O _ _ E)|discriminate E]|].
  assert (O1 : s1.(fl).(a_org_gv) = true) by (unfold when in E1; destruct (hashigh c); [eapply insert8_org; eassumption|injection E1 as _ <-; exact O]).
  fails E u1 s2 E2; [elim (calm_insert8 _ _ O1 _ _ E)|]. discriminate E.
Qed.
(** ** IM, RST *)
Theorem im_bad : forall o s e s', s.(fl).(a_org_gv) = true -> z_im o s = (Bad (Err e), s') -> refusable s "im" o.
Proof.
  intros o s e s' O E. unfold z_im in E. change (otext o) with (given o) in E.
  fails E r s1 E1; [eapply re_numeral; [apply nt_whole; left; reflexivity|]; eapply nn_error; [apply near_refl|exact E]|].
  destruct (close_parse _ _ _ _ E1) as [C1 _]. pose proof (close_org _ _ C1 O) as O1.
  fails E u1 s2 E2; [eapply re_numeral; [apply nt_whole; left; reflexivity|]; apply checktype_bad in E; eapply nn_type; [apply near_refl|exact E1|exact E]|].
  apply checktype_ok in E2. destruct E2 as [T ->].
  destruct (r_value r =? 0) eqn:B0; [elim (calm_insert16 _ _ O1 _ _ E)|].
  destruct (r_value r =? 1) eqn:B1; [elim (calm_insert16 _ _ O1 _ _ E)|].
  destruct (r_value r =? 2) eqn:B2; [elim (calm_insert16 _ _ O1 _ _ E)|].
  eapply re_mode; [reflexivity|apply near_refl|exact E1|]. cbn [In]. lia.
Qed.
Theorem rst_bad : forall o s e s', s.(fl).(a_org_gv) = true -> z_rst o s = (Bad (Err e), s') -> refusable s "rst" o.
Proof.
  intros o s e s' O E. unfold z_rst in E. change (otext o) with (given o) in E.
  fails E r s1 E1; [eapply re_numeral; [apply nt_whole; right; left; reflexivity|]; eapply nn_error; [apply near_refl|exact E]|].
  destruct (close_parse _ _ _ _ E1) as [C1 _]. pose proof (close_org _ _ C1 O) as O1.
  fails E u1 s2 E2; [eapply re_numeral; [apply nt_whole; right; left; reflexivity|]; apply checktype_bad in E; eapply nn_type; [apply near_refl|exact E1|exact E]|].
  apply checktype_ok in E2. destruct E2 as [T ->]. cbv zeta in E.
  fails E u2 s2 E2; [elim (calm_insert8 _ _ O1 _ _ E)|]. apply when_bad in E.
  eapply re_none; [apply wt_whole; [left; reflexivity|eapply value_z_here; eassumption]|].
  change (restart (s32 (r_value r)) = None). unfold restart. rewrite s32_16. change (2 ^ 16) with 65536.
  assert (H : forall v, v mod 65536 <= 56 -> v mod 8 = 0 -> Z.land v 65479 = 0).
  { intros v A B. change 65479 with (Z.lor (Z.shiftl (Z.ones 10) 6) (Z.ones 3)). rewrite Z.land_lor_distr_r. apply Z.lor_eq_0_iff. split.
    - assert (X : (Z.land v (Z.shiftl (Z.ones 10) 6) =? 0) = true); [|lia]. rewrite land_field by lia. change (2 ^ 6) with 64. change (2 ^ 10) with 1024. lia.
    - rewrite Z.land_ones by lia. change (2 ^ 3) with 8. exact B. }
  pose proof (land_fff8 (r_value r)) as Q. destruct (Z.land (r_value r) 65528 =? 0).
  - exfalso. rewrite H in E; [discriminate E| |]; rewrite Z.shiftl_mul_pow2 by lia; change (2 ^ 3) with 8; unfold s64; lia.
  - replace (r_value r mod 65536 <=? 7) with false by lia.
    destruct ((r_value r mod 65536 <=? 56) && (r_value r mod 65536 mod 8 =? 0)) eqn:K; [|reflexivity].
    exfalso. rewrite H in E; [discriminate E| |]; lia.
Qed.

(** ** Jumps *)
Lemma no_number_unusable : forall s s1 t, close s s1 -> unusable s1 t -> no_number s t.
Proof.
  intros s s1 t C [a b m H P|a b r H P T]; [apply (nn_error _ _ a b m)|apply (nn_type _ _ a b r)]; try assumption;
    (eapply near_trans; [apply C|apply near_same; exact H]).
Qed.
Lemma relative_none : forall s s1 t, close s s1 -> distant s1 t -> no_number s t \/ exists v, value_z s t v /\ forall op, relative s.(wr).(pc) op v = None.
Proof.
  intros s s1 t C [U|(r & (s2 & s3 & S & P & T) & H)]; [left; eapply no_number_unusable; eassumption|right].
  exists (s32 (r_value r)). split.
  - exists s2, s3, r. split; [eapply near_trans; [apply C|apply near_same; exact S]|]. auto.
  - intros op. assert (W : wr s1 = wr s) by apply C. rewrite W in H. unfold relative. cbv zeta. rewrite trunc_s32.
    destruct (_ && _) eqn:B; [|reflexivity]. exfalso. apply (H (s32 (s32 (r_value r) - (pc (wr s) + 2)))); [lia|].
    unfold s32. change (2 ^ 32) with 4294967296. lia.
Qed.
Theorem djnz_bad : forall o s e s', s.(fl).(a_org_gv) = true -> branch 16 o s = (Bad (Err e), s') -> refusable s "djnz" o.
Proof.
  intros o s e s' O E. apply branch_bad in E; [|exact O]. destruct (relative_none _ _ _ (close_refl s) E) as [U|(v & V & Z)].
  - eapply re_numeral; [apply nt_whole; cbn [In]; auto|exact U].
  - eapply re_none; [apply wt_whole; [cbn [In]; auto|exact V]|]. exact (Z 16).
Qed.
Lemma findcond_bad : forall t l, forallb (fun c => match form_of (s2l c) with Some (Fixed p) => true | _ => false end) l = true ->
  forall i s, calm (findcond t i l) s /\ forall s', findcond t i l s = (Ok None, s') -> forall n, In n l -> ~ spells (t_ n) t.
Proof.
  intros t l. induction l as [|c l IH]; intros F i s; cbn [findcond].
  { split; [apply calm_ret|]. intros s' _ n []. }
  cbn [forallb] in F. apply andb_prop in F. destruct F as [Fc F]. split.
  - apply calm_any; [apply calm_filter0|]. intros b s1. destruct b; [apply calm_ret|]. apply IH. exact F.
  - intros s' E n I H. step E b s1 E1. destruct (form_of (s2l c)) as [f|] eqn:Fo; [|discriminate Fc]. apply (filter0_form _ _ _ _ _ _ Fo) in E1.
    destruct b; [discriminate E|]. destruct I as [<-|I]; [|exact (proj2 (IH F (i + 1) s1) _ E n I H)].
    destruct f as [p|]; [|discriminate Fc]. unfold form_of in Fo.
    assert (p = s2l c).
    { destruct (segments (s2l c)) as [h tl] eqn:Sg. destruct tl as [|p0 [|p1 tl]]; [|destruct (_ && _); discriminate Fo|discriminate Fo].
      destruct (forallb sign h); [|discriminate Fo]. injection Fo as <-. clear - Sg. revert h Sg. generalize (s2l c). intros w.
      induction w as [|x w IHw]; intros h Sg; cbn [segments] in Sg; [injection Sg as <-; reflexivity|].
      destruct (segments w) as [h' t']. destruct (zc x =? 63); [discriminate Sg|]. injection Sg as <- ->. f_equal. apply IHw. reflexivity. }
    subst p. apply (E1 []). constructor. exact H.
Qed.
Lemma condition_none : forall m t s s', findcond t 0 (firstn m condcodes) s = (Ok None, s') -> forall c, condition t c -> Z.of_nat m <= c.
Proof.
  intros m t s s' E c (n & Nt & Hc & Sp). destruct (findcond_bad t _ (conditions_ok m) 0 s) as [_ K].
  destruct (Z_lt_dec c (Z.of_nat m)) as [L|L]; [exfalso|lia]. apply (K _ E n); [|exact Sp].
  apply nth_error_In with (n := Z.to_nat c). assert (X : (Z.to_nat c < m)%nat) by lia. clear - Nt X. change conditions with condcodes in Nt. revert Nt X.
  generalize (Z.to_nat c) as i. generalize condcodes as l. induction m as [|m IH]; intros l i Nt X; [lia|].
  destruct l as [|a l]; [destruct i; discriminate Nt|]. destruct i as [|i]; [exact Nt|]. cbn [firstn nth_error] in *. apply IH; [exact Nt|lia].
Qed.
Lemma searchcond_bad : forall m t s e s', searchcond m t s = (Bad (Err e), s') ->
  exists a b, SpecSplit.first_cut comma t a b /\ forall c, condition a c -> Z.of_nat m <= c.
Proof.
  intros m t s e s' E. unfold searchcond in E. fails E f s1 E1; [elim (calm_filter2 _ _ _ _ _ E)|]. apply cut_comma in E1.
  destruct f as [[a b]|]; [|discriminate E]. exists a, b. split; [exact E1|].
  fails E c s2 E2; [elim (proj1 (findcond_bad _ _ (conditions_ok m) 0 s1) _ _ E)|]. destruct c as [j|]; [discriminate E|].
  eapply condition_none. exact E2.
Qed.
Lemma searchcond_cut : forall m t s cr s', searchcond m t s = (Ok cr, s') -> close s s' /\
  ((exists a c, SpecSplit.first_cut comma t a (snd cr) /\ condition a c /\ fst cr = c /\ c < Z.of_nat m) \/ (cr = (-1, t) /\ SpecSplit.uncut comma t)).
Proof.
  intros m t s cr s' E. pose proof (searchcond_ok _ _ _ _ _ E) as [C [K|K]]; split; try exact C; [left; exact K|right; split; [exact K|]].
  unfold searchcond in E. step E f s1 E1. apply cut_comma in E1. destruct f as [[a b]|]; [|exact E1].
  step E c s2 E2. destruct c as [j|]; [|elim (error_never _ _ _ _ _ E)]. injection E as E _. apply condition_ok in E2. destruct E2 as [(? & _ & H & _) _].
  rewrite <- E in K. injection K as -> _. lia.
Qed.
Theorem jr_bad : forall o s e s', s.(fl).(a_org_gv) = true -> z_jr o s = (Bad (Err e), s') -> refusable s "jr" o.
Proof.
  intros o s e s' O E. unfold z_jr in E. change (otext o) with (given o) in E. fails E cr s1 E1.
  { apply searchcond_bad in E. destruct E as (a & b & F & H). eapply re_cond; [left; reflexivity|exact F|]. intros c Hc. apply H in Hc. split; [reflexivity|lia]. }
  apply searchcond_cut in E1. destruct E1 as [C1 K]. apply branch_bad in E; [|eapply close_org; eassumption]. cbn [given] in E.
  destruct (relative_none _ _ _ C1 E) as [U|(v & V & Z)].
  - eapply re_numeral; [|exact U]. destruct K as [(a & c & F & Co & _)|[-> K]]; [eapply nt_cond; [left; reflexivity|exact F|exact Co]|].
    apply nt_jump; [left; reflexivity|exact K|discriminate].
  - destruct K as [(a & c & F & Co & _ & L)|[-> K]].
    + eapply re_none; [eapply wt_cond; [left; reflexivity|exact F|exact Co|exact V]|].
      change ((if c <=? 3 then relative (pc (wr s)) (0x20 + 8 * c) v else None) = None). rewrite Z. destruct (c <=? 3); reflexivity.
    + eapply re_none; [apply wt_jump; [left; reflexivity|exact K|exact V]|]. exact (Z 0x18).
Qed.
Lemma condjump_bad : forall n base plain o s s0 e s', close s s0 -> s.(fl).(a_org_gv) = true -> In n ["jp"; "call"]%string ->
  (n = "jp"%string -> forall a, ~ fits parens (given o) a) -> condjump base plain (given o) s0 = (Bad (Err e), s') -> refusable s n o.
Proof.
  intros n base plain o s s0 e s' C0 O I J E. assert (I' : In n jumps) by (right; exact I). unfold condjump in E. fails E cr s1 E1.
  { apply searchcond_bad in E. destruct E as (a & b & F & H). eapply re_cond; [exact I'|exact F|]. intros c Hc. pose proof (H _ Hc) as L.
    destruct Hc as (? & _ & Hc & _). lia. }
  apply searchcond_cut in E1. destruct E1 as [C1 K]. apply (close_trans _ _ _ C0) in C1. cbv zeta in E.
  assert (U : numeral n (given o) (snd cr)).
  { destruct K as [(a & c & F & Co & _)|[-> K]]; [eapply nt_cond; [exact I'|exact F|exact Co]|]. apply nt_jump; assumption. }
  fails E r s2 E2; [eapply re_numeral; [exact U|]; apply (no_number_near _ s1); [apply C1|]; eapply nn_error; [apply near_refl|exact E]|].
  destruct (close_parse _ _ _ _ E2) as [C2 _]. apply (close_trans _ _ _ C1) in C2. pose proof (close_org _ _ C2 O) as O2.
  fails E u1 s3 E3; [eapply re_numeral; [exact U|]; apply (no_number_near _ s1); [apply C1|]; apply checktype_bad in E; eapply nn_type; [apply near_refl|exact E2|exact E]|].
  apply checktype_ok in E3. destruct E3 as [T ->].
  exfalso. fails E u2 s3 E3; [destruct (0 <=? fst cr * 8); elim (calm_insert8 _ _ O2 _ _ E)|].
  assert (O3 : s3.(fl).(a_org_gv) = true) by (destruct (0 <=? fst cr * 8); eapply insert8_org; eassumption).
  elim (calm_insert16 _ _ O3 _ _ E).
Qed.
Theorem call_bad : forall o s e s', s.(fl).(a_org_gv) = true -> z_call o s = (Bad (Err e), s') -> refusable s "call" o.
Proof.
  intros o s e s' O E. eapply condjump_bad; [apply close_refl|exact O|right; left; reflexivity|discriminate|exact E].
Qed.
Theorem jp_bad : forall o s e s', named s -> s.(fl).(a_org_gv) = true -> z_jp o s = (Bad (Err e), s') -> refusable s "jp" o.
Proof.
  intros o s e s' N O E. unfold z_jp in E. change (otext o) with (given o) in E. fails E u1 s1 E1; [discriminate E|]. apply clrall_ok in E1.
  assert (C1 : close s s1) by (subst s1; apply close_cp).
  fails E m s2 E2; [elim (calm_filter1 _ _ _ _ _ E)|]. destruct (close_filter1 _ _ _ _ _ E2) as [C2 P2]. apply (filter1_form _ (t_ "(_") (t_ "_)")) in E2; [|reflexivity].
  apply (close_trans _ _ _ C1) in C2. assert (P2' : s2.(cp) = clr s.(cp)) by (rewrite P2; subst s1; reflexivity). pose proof (proj2 (proj2 C2) N) as N2.
  destruct m as [a|]; [|eapply condjump_bad; [exact C2|exact O|left; reflexivity|intros _; exact E2|exact E]].
  fails E g s3 E3.
  - eapply re_operand; [apply ot_jump; exact E2|]. eapply unread_near; [apply C2|]. eapply cleared_bad; [exact N2| |exact E]. rewrite P2'. symmetry. apply clr_clr.
  - reading E3 N2 x Rx Ex Zx C3. subst g. apply (close_trans _ _ _ C2) in C3.
    destruct (zcode x =? HLREGISTER) eqn:Zh; [elim (calm_docode _ _ (close_org _ _ C3 O) _ _ E)|].
    eapply re_through; [reflexivity|exact E2|eapply reads_near; [apply C2|exact Rx]|].
    cbn [In]. intros [<-|[<-|[<-|[]]]]; discriminate Zh.
Qed.
Theorem ret_bad : forall o s e s', s.(fl).(a_org_gv) = true -> z_ret o s = (Bad (Err e), s') -> refusable s "ret" o.
Proof.
  intros o s e s' O E. unfold z_ret in E. change (otext o) with (given o) in E. destruct (given o) as [|ch t] eqn:T; [elim (calm_insert8 _ _ O _ _ E)|].
  fails E c s1 E1; [elim (proj1 (findcond_bad _ _ (conditions_ok 8) 0 s) _ _ E)|].
  destruct c as [j|].
  - exfalso. apply (findcond_ok _ _ (conditions_ok 8)) in E1. destruct E1 as [C1 _]. elim (calm_insert8 _ _ (close_org _ _ C1 O) _ _ E).
  - apply re_ret; [reflexivity|rewrite T; discriminate|]. intros c Hc. rewrite T in Hc. pose proof (condition_none 8 _ _ _ E1 _ Hc) as L.
    destruct Hc as (? & _ & Hc & _). lia.
Qed.


(** ** EX *)
Lemma filter0_fixed : forall pat p t s b s', form_of (s2l pat) = Some (Fixed p) -> filter0 t pat s = (Ok b, s') -> if b then True else ~ fits (Fixed p) t [].
Proof. intros pat p t s b s' Fo E. apply (filter0_form _ _ _ _ _ _ Fo) in E. destruct b; [exact Logic.I|apply E]. Qed.
Lemma ex_af_bad : forall t s e s', s.(fl).(a_org_gv) = true -> z_ex_af t s = (Bad (Err e), s') ->
  (forall p a, In p ["AF_,_AF'_"; "AF'_,_AF_"]%string -> ~ fits (Free (t_ p) []) t a) \/
  exists p a, In p ["AF_,_AF'_"; "AF'_,_AF_"]%string /\ fits (Free (t_ p) []) t a /\ a <> [] /\ forall c, a <> ";"%char :: c.
Proof.
  intros t s e s' O E. unfold z_ex_af in E. fails E m s1 E1; [elim (calm_filter1 _ _ _ _ _ E)|]. destruct (close_filter1 _ _ _ _ _ E1) as [C1 _].
  apply (filter1_form _ (t_ "AF_,_AF'_") []) in E1; [|reflexivity].
  fails E m2 s2 E2; [destruct m; [discriminate E|elim (calm_filter1 _ _ _ _ _ E)]|].
  assert (K : close s1 s2 /\ match m2 with Some a => exists p, In p ["AF_,_AF'_"; "AF'_,_AF_"]%string /\ fits (Free (t_ p) []) t a
    | None => forall p a, In p ["AF_,_AF'_"; "AF'_,_AF_"]%string -> ~ fits (Free (t_ p) []) t a end).
  { destruct m as [a|].
    - injection E2 as <- <-. split; [apply close_refl|]. exists "AF_,_AF'_"%string. split; [left; reflexivity|exact E1].
    - destruct (close_filter1 _ _ _ _ _ E2) as [C2 P2]. apply (filter1_form _ (t_ "AF'_,_AF_") []) in E2; [|reflexivity].
      split; [exact C2|]. destruct m2 as [a|]; [exists "AF'_,_AF_"%string; split; [right; left; reflexivity|exact E2]|].
      intros p a [<-|[<-|[]]]; [apply E1|apply E2]. }
  destruct K as [C2 K]. pose proof (close_org _ _ (close_trans _ _ _ C1 C2) O) as O2.
  destruct m2 as [a|]; [|left; exact K]. destruct K as (p & Ip & F). right. exists p, a. split; [exact Ip|]. split; [exact F|].
  destruct a as [|c a]; [elim (calm_docode _ _ O2 _ _ E)|]. split; [discriminate|]. intros c' X. injection X as -> ->.
  change (zc ";" =? 59) with true in E. elim (calm_docode _ _ O2 _ _ E).
Qed.
Theorem ex_bad : forall o s e s', named s -> s.(fl).(a_org_gv) = true -> z_ex o s = (Bad (Err e), s') -> refusable s "ex" o.
Proof.
  intros o s e s' N O E. unfold z_ex in E. cbv zeta in E. change (otext o) with (given o) in E. fails E u1 s1 E1; [discriminate E|]. apply clrall_ok in E1.
  assert (C1 : close s s1) by (subst s1; apply close_cp). assert (P1 : s1.(cp) = clr s.(cp)) by (subst s1; reflexivity). clear E1.
  fails E b s2 E2; [elim (calm_filter0 _ _ _ _ _ E)|]. destruct (close_filter0 _ _ _ _ _ E2) as [C2 P2]. apply (filter0_fixed _ (t_ "DE_,_HL")) in E2; [|reflexivity].
  apply (close_trans _ _ _ C1) in C2. rewrite P1 in P2.
  fails E b2 s3 E3; [destruct b; [discriminate E|elim (calm_filter0 _ _ _ _ _ E)]|].
  assert (K : close s s3 /\ s3.(cp) = clr s.(cp) /\ (b2 = false -> forall p, In p ["DE_,_HL"; "HL_,_DE"]%string -> ~ fits (Fixed (t_ p)) (given o) [])).
  { destruct b.
    - injection E3 as <- <-. split; [exact C2|]. split; [exact P2|discriminate].
    - destruct (close_filter0 _ _ _ _ _ E3) as [C3 P3]. apply (filter0_fixed _ (t_ "HL_,_DE")) in E3; [|reflexivity].
      split; [eapply close_trans; eassumption|]. split; [congruence|]. intros -> p [<-|[<-|[]]]; [exact E2|exact E3]. }
  destruct K as (C3 & P3 & D). clear E3. destruct b2; [elim (calm_docode _ _ (close_org _ _ C3 O) _ _ E)|]. specialize (D eq_refl).
  fails E m s4 E4; [elim (calm_filter1 _ _ _ _ _ E)|]. destruct (close_filter1 _ _ _ _ _ E4) as [C4 P4]. apply (filter1_form _ (t_ "(_SP_)_,_") []) in E4; [|reflexivity].
  apply (close_trans _ _ _ C3) in C4. rewrite P3 in P4.
  fails E m2 s5 E5; [destruct m; [discriminate E|elim (calm_filter1 _ _ _ _ _ E)]|].
  assert (K : close s s5 /\ s5.(cp) = clr s.(cp) /\
    match m2 with
    | Some a => exists f, In f on_stack /\ fits f (given o) a
    | None => forall f a, In f on_stack -> ~ fits f (given o) a end).
  { destruct m as [a|].
    - injection E5 as <- <-. split; [exact C4|]. split; [exact P4|]. eexists. split; [left; reflexivity|exact E4].
    - destruct (close_filter1 _ _ _ _ _ E5) as [C5 P5]. apply (filter1_form _ [] (t_ "_,_(_SP_)")) in E5; [|reflexivity].
      split; [eapply close_trans; eassumption|]. split; [congruence|]. destruct m2 as [a|]; [eexists; split; [right; left; reflexivity|exact E5]|].
      intros f a [<-|[<-|[]]]; [apply E4|apply E5]. }
  destruct K as (C5 & P5 & K). clear E4 E5 C4 P4 m. pose proof (proj2 (proj2 C5) N) as N5.
  destruct m2 as [a|].
  - destruct K as (f & If & Fi). fails E g s6 E6.
    + eapply re_operand; [eapply ot_ex; [exact If|exact Fi]|]. eapply unread_near; [apply C5|]. eapply cleared_bad; [exact N5| |exact E]. rewrite P5. symmetry. apply clr_clr.
    + reading E6 N5 x Rx Ex Zx C6. subst g. apply (reads_near _ _ _ _ (proj1 C5)) in Rx. apply (close_trans _ _ _ C5) in C6.
      destruct (zcode x =? HLREGISTER) eqn:Zh; [elim (calm_docode _ _ (close_org _ _ C6 O) _ _ E)|].
      apply ex_af_bad in E; [|exact (close_org _ _ C6 O)]. apply re_ex; [reflexivity|exact D| |exact E].
      right. exists f, a, x. split; [exact If|]. split; [exact Fi|]. split; [exact Rx|]. cbn [In]. intros [<-|[<-|[<-|[]]]]; discriminate Zh.
  - apply ex_af_bad in E; [|exact (close_org _ _ C5 O)]. apply re_ex; [reflexivity|exact D| |exact E]. left. exact K.
Qed.

(** ** IN, OUT *)
Lemma mlit_end2 : forall seg s, mlit true false seg s = MEnd -> (letters s < signs seg)%nat.
Proof.
  induction seg as [|f seg IH]; intros s H; cbn [mlit] in H; [discriminate H|].
  unfold signs. cbn [List.filter]. destruct (zc f =? 95) eqn:U; cbn [negb].
  - apply IH in H. rewrite letters_skip in H. exact H.
  - cbn [List.length]. destruct s as [|c s]; [cbn; lia|]. cbn [andb] in H. destruct (charmatch f c); [|discriminate H]. apply IH in H.
    pose proof (letters_cons c s). unfold signs in H. lia.
Qed.
Lemma mlit_end3 : forall seg s, mlit false false seg s = MEnd -> (letters s < signs seg)%nat.
Proof.
  induction seg as [|f seg IH]; intros s H; cbn [mlit] in H; [discriminate H|].
  unfold signs. cbn [List.filter]. destruct (zc f =? 95) eqn:U; cbn [negb].
  - apply IH in H. rewrite letters_skip in H. exact H.
  - cbn [List.length]. destruct s as [|c s]; [cbn; lia|]. discriminate H.
Qed.
Lemma wild_mid_none : forall k seg rem, forallb sign seg = true -> (1 <= signs seg)%nat -> forall starts q cap,
  fr_caps (wildloop k seg false rem starts q cap) = None -> forall a y r, starts = a ++ y ++ r -> qzero (fold_left qstep a q) = true -> spells seg y ->
  exists a' y' r', starts = a' ++ y' ++ r' /\ qzero (fold_left qstep a' q) = true /\ spells seg y' /\ fr_caps (k (fold_left qstep a' q) r') = None /\
    (List.length a' <= List.length a)%nat.
Proof.
  intros k seg rem S Sg. induction starts as [|c starts IH]; intros q cap H a y r E Q X; cbn [wildloop] in H.
  - apply eq_sym, app_eq_nil in E. destruct E as [-> E]. apply app_eq_nil in E. destruct E as [-> ->]. apply spells_letters in X; [|exact S]. cbn in X. lia.
  - destruct (mlit (qzero q) false seg (c :: starts)) as [r1| |] eqn:M.
    + pose proof (mlit_quiet2 _ _ _ _ _ Sg M) as Q1. rewrite Q1 in M. destruct (mlit_sound _ _ _ _ S M) as (x & Ex & X1 & _).
      cbn [fr_caps] in H. destruct (fr_caps (k q r1)) eqn:K; [discriminate H|]. exists [], x, r1. cbn [fold_left app List.length]. repeat split; try assumption. lia.
    + exfalso. assert (L : (letters (c :: starts) < signs seg)%nat) by (destruct (qzero q); [apply mlit_end2|apply mlit_end3]; exact M).
      apply spells_letters in X; [|exact S]. rewrite E, !letters_app in L. lia.
    + destruct a as [|c' a].
      * cbn [fold_left] in Q. rewrite Q in M. rewrite E in M. cbn [app] in M. destruct (mlit_prefix _ _ r S X) as (r' & M' & _). rewrite M' in M. discriminate M.
      * injection E as <- E. destruct (IH _ _ H a y r E Q X) as (a' & y' & r' & E' & Q' & X' & K & L). exists (c :: a'), y', r'.
        cbn [app fold_left List.length]. rewrite <- E'. repeat split; try assumption. lia.
Qed.
Lemma filter2_none : forall pat h p q t s s', segments (s2l pat) = (h, [p; q]) -> forallb sign p = true -> forallb sign q = true ->
  (1 <= signs p)%nat -> q = [] \/ (1 <= signs q)%nat -> filter2 t pat s = (Ok None, s') -> fr_caps (filter_pure t (s2l pat)) = None.
Proof.
  intros pat h p q t s s' Sg Sp Sq Np Nq E. unfold filter2 in E. step E m s1 E1. injection E as E _.
  unfold filterc, bind in E1. cbn [gets] in E1. destruct (4000 <=? _); [discriminate E1|]. destruct (fr_caps _) as [l|] eqn:F; [|reflexivity].
  injection E1 as <- _. exfalso.
  unfold filter_pure in F. rewrite Sg in F. cbn [lastseg] in F. destruct (mlit true false h t) as [r| |] eqn:M; try discriminate F.
  assert (F' : fr_caps (wildloop (fwild [q]) p false (zlen r) r q0 []) = Some l) by (destruct p as [|p0 p]; [cbn in Np; lia|exact F]).
  apply wild_mid in F'; [|exact Sp|exact Np]. destruct F' as (a & y & r' & l' & -> & Q & Y & Hl & K). cbn [rev app] in Hl. subst l.
  destruct Nq as [->|Nq].
  - cbn [fwild fr_caps] in K. injection K as <-. discriminate E.
  - assert (K' : fr_caps (wildloop (fwild []) q true (zlen r') r' (fold_left qstep a q0) []) = Some l') by (destruct q as [|z0 q]; [cbn in Nq; lia|exact K]).
    pose proof (wild_last (fwild []) q (zlen r') Sq Nq r' (fold_left qstep a q0) []) as W. rewrite K' in W. destruct W as (a2 & y2 & _ & -> & _). discriminate E.
Qed.
Lemma spells1 : forall c x, spells [c] x -> c <> "_"%char -> exists d, x = [d] /\ SpecSplit.upper c = SpecSplit.upper d.
Proof.
  intros c x H Nc. inversion H as [|p w t W X E1|c' p d t N U X]; subst; [elim Nc; reflexivity|]. inversion X. subst. exists d. auto.
Qed.
Lemma out_none : forall t s s', filter2 t "(?)_,_?" s = (Ok None, s') -> forall a b, ~ fits2 (t_ "(") (t_ ")_,_") [] t a b.
Proof.
  intros t s s' E a b (x & y & z & -> & X & Y & Z & O). apply (filter2_none _ (t_ "(") (t_ ")_,_") []) in E; [|reflexivity..|cbn; lia|left; reflexivity].
  destruct (spells1 _ _ X) as (d & -> & U); [discriminate|]. unfold filter_pure in E. change (segments (s2l "(?)_,_?")) with (t_ "(", [t_ ")_,_"; []]) in E.
  cbn [lastseg app] in E. cbv iota beta zeta in E.
  assert (M : mlit true false (t_ "(") (d :: a ++ y ++ b ++ z) = MOk (a ++ y ++ b ++ z)).
  { change (t_ "(") with ["("%char]. cbn [mlit]. change (zc "("%char =? 95) with false. cbn [andb].
    rewrite (proj2 (charmatch_sign "("%char d eq_refl) U). reflexivity. }
  rewrite M in E. change (fwild [t_ ")_,_"; []] q0 (a ++ y ++ b ++ z)) with
    (wildloop (fwild [[]]) (t_ ")_,_") false (zlen (a ++ y ++ b ++ z)) (a ++ y ++ b ++ z) q0 []) in E.
  destruct (fun A B => wild_mid_none _ _ _ A B _ _ _ E a y (b ++ z) eq_refl) as (a' & y' & r' & _ & _ & _ & K & _); [reflexivity|cbn; lia|apply quiet_outside; exact O|exact Y|].
  discriminate K.
Qed.
Lemma blank_comma : ~ SpecSplit.blank ","%char.
Proof. intros [X|X]; discriminate X. Qed.
Lemma blank_paren : ~ SpecSplit.blank "("%char.
Proof. intros [X|X]; discriminate X. Qed.
Lemma upper_is : forall c d, In c [","; "("]%char -> SpecSplit.upper c = SpecSplit.upper d -> d = c.
Proof.
  intros c d I U. assert (K : forall d, SpecSplit.upper d = ","%char \/ SpecSplit.upper d = "("%char -> SpecSplit.upper d = d).
  { intros [[] [] [] [] [] [] [] []] [H|H]; vm_compute in H |- *; first [reflexivity|discriminate H]. }
  destruct I as [<-|[<-|[]]]; rewrite <- (K d); try (symmetry; exact U); [left|right]; symmetry; exact U.
Qed.
Lemma in_shape : forall y, spells (t_ "_,_(") y -> exists w1 w2, y = w1 ++ ","%char :: w2 ++ ["("%char] /\ Forall SpecSplit.blank w1 /\ Forall SpecSplit.blank w2.
Proof.
  intros y H. change (t_ "_,_(") with ["_"; ","; "_"; "("]%char in H. inversion H as [|p w t W X|c p d t N U X]; subst; [|elim N; reflexivity].
  inversion X as [|? ? ? W2 X2|c p0 d t0 N U X2]; subst. apply upper_is in U; [subst d|left; reflexivity].
  inversion X2 as [|p1 w2 t1 W2 X3|c p1 d t1 N2 U2 X3]; subst; [|elim N2; reflexivity].
  destruct (spells1 _ _ X3) as (d & -> & U); [discriminate|]. apply upper_is in U; [subst d|right; left; reflexivity]. exists w, w2. auto.
Qed.
Lemma split_at : forall (c : ascii) p p' r r', p ++ c :: r = p' ++ c :: r' -> ~ List.In c p -> ~ List.In c p' -> p = p' /\ r = r'.
Proof.
  intros c p. induction p as [|x p IH]; intros [|x' p'] r r' E H H'; cbn [app] in E.
  - injection E as ->. auto.
  - injection E as <- _. elim H'. left. reflexivity.
  - injection E as -> _. elim H. left. reflexivity.
  - injection E as <- E. apply IH in E; [|intros X; apply H; right; exact X|intros X; apply H'; right; exact X]. destruct E as [-> ->]. auto.
Qed.
Lemma not_in_blanks : forall c w, Forall SpecSplit.blank w -> ~ SpecSplit.blank c -> ~ List.In c w.
Proof. intros c w F N I. rewrite Forall_forall in F. apply N. apply F. exact I. Qed.
Lemma in_prefix : forall (c : ascii) a a' r r', a ++ r = a' ++ r' -> (List.length a' <= List.length a)%nat -> List.In c a' -> List.In c a.
Proof.
  intros c a. induction a as [|x a IH]; intros [|x' a'] r r' E L I; cbn in L; try lia; [exact I|destruct I|].
  cbn [app] in E. injection E as <- E. destruct I as [->|I]; [left; reflexivity|right]. eapply IH; [exact E|lia|exact I].
Qed.
Lemma in_none : forall t s s', filter2 t "?_,_(?)" s = (Ok None, s') -> forall a b, fits2 [] (t_ "_,_(") (t_ ")") t a b -> List.In ","%char a \/ ~ SpecSplit.outside b.
Proof.
  intros t s s' E a b (x & y & z & -> & X & Y & Z & O). apply (filter2_none _ [] (t_ "_,_(") (t_ ")")) in E; [|reflexivity..|cbn; lia|right; cbn; lia].
  inversion X. subst x. cbn [app] in E. destruct (in_dec ascii_dec ","%char a) as [I|I]; [left; exact I|right]. intros Ob.
  unfold filter_pure in E. change (segments (s2l "?_,_(?)")) with (@nil ascii, [t_ "_,_("; t_ ")"]) in E. cbn [lastseg mlit] in E. cbv iota beta zeta in E.
  change (fwild [t_ "_,_("; t_ ")"] q0 (a ++ y ++ b ++ z)) with
    (wildloop (fwild [t_ ")"]) (t_ "_,_(") false (zlen (a ++ y ++ b ++ z)) (a ++ y ++ b ++ z) q0 []) in E.
  destruct (fun A B => wild_mid_none _ _ _ A B _ _ _ E a y (b ++ z) eq_refl) as (a' & y' & r' & Eq & Q & Y' & K & L); [reflexivity|cbn; lia|apply quiet_outside; exact O|exact Y|].
  destruct (in_shape _ Y) as (w1 & w2 & -> & B1 & B2). destruct (in_shape _ Y') as (v1 & v2 & -> & D1 & D2).
  assert (Ia : ~ List.In ","%char a') by (intros H; apply I; exact (in_prefix _ _ _ _ _ Eq L H)).
  rewrite <- !app_assoc in Eq. cbn [app] in Eq. rewrite !app_assoc in Eq.
  apply split_at in Eq.
  - destruct Eq as [_ Eq]. rewrite <- !app_assoc in Eq. cbn [app] in Eq.
    apply split_at in Eq; [|apply not_in_blanks; [assumption|exact blank_paren]..]. destruct Eq as [_ <-].
    pose proof (wild_last (fwild []) (t_ ")") (zlen (b ++ z)) eq_refl ltac:(cbn; lia) (b ++ z) (fold_left qstep a' q0) []) as W.
    change (fwild [t_ ")"] (fold_left qstep a' q0) (b ++ z)) with (wildloop (fwild []) (t_ ")") true (zlen (b ++ z)) (b ++ z) (fold_left qstep a' q0) []) in K.
    rewrite K in W. apply (W b z eq_refl); [|exact Z].
    destruct (SplitFacts.fold_view a' q0 eq_refl) as [V S]. destruct (SplitFacts.fold_view b _ S) as [V2 S2].
    apply (SplitFacts.qzero_view _ S2). rewrite V2. apply (SplitFacts.qzero_view _ S) in Q. rewrite Q. exact Ob.
  - intros H. apply in_app_or in H. destruct H as [H|H]; [exact (I H)|exact (not_in_blanks _ _ B1 blank_comma H)].
  - intros H. apply in_app_or in H. destruct H as [H|H]; [exact (Ia H)|exact (not_in_blanks _ _ D1 blank_comma H)].
Qed.

Lemma inout_bad : forall code a b s e s', code = 211 \/ code = 219 -> named s -> s.(fl).(a_org_gv) = true -> s.(cp) = clr s.(cp) ->
  (reg <- getreg a ;;
   if reg =? IMDATA then
     reg <- getreg b ;;
     when (negb (reg =? ACCUMULATOR)) (err needacc) ;;;
     upd_cp (set_z_arg8flag true) ;;;
     docode code
   else if reg =? 1 then
     reg <- getreg b ;;
     when (negb (isreg8 reg) || (reg =? 6)) (err "operates on reg8 only") ;;;
     let reg := reg * 8 in
     let reg := if Z.land code 8 =? 0 then reg + 1 else reg in
     docode (60736 + reg)
   else err "port is (C) or (nn)") s = (Bad (Err e), s') ->
  unread s a \/ unread s b \/ (exists x, reads s a x /\ x <> Reg rC /\ forall v, x <> Num v) \/
  exists x y, port s a x /\ reads s b y /\ (if code =? 211 then zilog 0 "out" [x; y] else zilog 0 "in" [y; x]) = None.
Proof.
  intros code a b s e s' Hc N O Pc E. fails E g s1 E1; [left; eapply cleared_bad; eassumption|].
  reading E1 N x Rx Ex Zx C1. subst g. rewrite Pc in Ex. pose proof (proj2 (proj2 C1) N) as N1.
  destruct (zcode x =? IMDATA) eqn:Zi.
  - apply Z.eqb_eq, is_num in Zi. destruct Zi as (v & ->). right.
    fails E g s2 E2.
    { destruct (getreg_bad _ _ _ _ N1 E) as [U|(y & Ry & Ey)]; [left; eapply unread_near; [apply C1|exact U]|right; right].
      exists (Port v), y. split; [apply pt_n; exact Rx|]. split; [eapply reads_near; [apply C1|exact Ry]|].
      destruct (cp s) as [cf of off i aa a8 a16]. unfold clr in Ex. cbn in Ex. injection Ex as Ex. rewrite <- Ex in Ey.
      clear - Hc Ey. destruct y as [[]|[]|[] d|m|w| | | |]; cbn in Ey; try discriminate Ey; destruct Hc as [->| ->]; reflexivity. }
    reading E2 N1 y Ry Ey Zy C2. subst g. apply (reads_near _ _ _ _ (proj1 C1)) in Ry. apply (close_trans _ _ _ C1) in C2.
    fails E u1 s3 E3.
    { apply when_bad in E. right. right. exists (Port v), y. split; [apply pt_n; exact Rx|]. split; [exact Ry|].
      clear - Hc E. destruct y as [[]|[]|[] d|m|w| | | |]; cbn in E; try discriminate E; destruct Hc as [->| ->]; reflexivity. }
    apply when_err in E3. destruct E3 as [_ ->]. fails E u2 s3 E3; [discriminate E|]. apply upd_cp_ok in E3. subst s3.
    exfalso. exact (calm_docode _ (set_cp (set_z_arg8flag true (cp s2)) s2) (close_org _ _ C2 O) _ _ E).
  - destruct (zcode x =? 1) eqn:Z1.
    + apply Z.eqb_eq, is_c in Z1. subst x. right.
      fails E g s2 E2.
      { destruct (getreg_bad _ _ _ _ N1 E) as [U|(y & Ry & Ey)]; [left; eapply unread_near; [apply C1|exact U]|exfalso].
        cbn [eff] in Ex. injection Ex as Ex. rewrite <- Ex in Ey. elim (reads_eff _ _ _ _ Ry Ey). }
      reading E2 N1 y Ry Ey Zy C2. subst g. apply (reads_near _ _ _ _ (proj1 C1)) in Ry. apply (close_trans _ _ _ C1) in C2.
      fails E u1 s3 E3.
      { apply when_bad in E. right. right. exists PortC, y. split; [apply pt_c; exact Rx|]. split; [exact Ry|].
        clear - Hc E. destruct y as [[]|[]|[] d|m|w| | | |]; cbn in E; try discriminate E; destruct Hc as [->| ->]; reflexivity. }
      apply when_err in E3. destruct E3 as [_ ->]. cbv zeta in E. exfalso. exact (calm_docode _ _ (close_org _ _ C2 O) _ _ E).
    + right. right. left. exists x. split; [exact Rx|]. split; [intros ->; discriminate Z1|]. intros v ->. discriminate Zi.
Qed.
Theorem in_bad : forall o s e s', named s -> s.(fl).(a_org_gv) = true -> z_inout 219 o s = (Bad (Err e), s') -> refusable s "in" o.
Proof.
  intros o s e s' N O E. unfold z_inout in E. cbv zeta in E. change (otext o) with (given o) in E. fails E u1 s1 E1; [discriminate E|]. apply clrall_ok in E1.
  assert (C1 : close s s1) by (subst s1; apply close_cp). assert (P1 : s1.(cp) = clr s.(cp)) by (subst s1; reflexivity). clear E1.
  change (Z.land 219 8 =? 0) with false in E. cbv iota in E.
  fails E m0 s2 E2; [fails E m s3 E3; [elim (calm_filter2 _ _ _ _ _ E)|discriminate E]|]. step E2 m s3 E3. injection E2 as <- <-.
  destruct (close_filter2 _ _ _ _ _ E3) as [C2 P2]. apply (close_trans _ _ _ C1) in C2. rewrite P1 in P2.
  destruct m as [[a b]|]; [|apply re_in; [reflexivity|exact (in_none _ _ _ E3)]].
  apply (two_free _ [] (t_ "_,_(") (t_ ")")) in E3; [|reflexivity..|cbn; lia|right; cbn; lia].
  apply (inout_bad 219 b a) in E; [|auto|apply C2; exact N|exact (close_org _ _ C2 O)|rewrite P2; symmetry; apply clr_clr].
  destruct E as [U|[U|[(x & Rx & H1 & H2)|(x & y & Px & Ry & Z)]]].
  - eapply re_operand; [eapply ot_in; [exact E3|right; reflexivity]|eapply unread_near; [apply C2|exact U]].
  - eapply re_operand; [eapply ot_in; [exact E3|left; reflexivity]|eapply unread_near; [apply C2|exact U]].
  - eapply re_port_in; [reflexivity|exact E3|eapply reads_near; [apply C2|exact Rx]|exact H1|exact H2].
  - eapply re_none; [eapply wt_in; [exact E3|eapply reads_near; [apply C2|exact Ry]|]|].
    + instantiate (1 := x). destruct Px as [Px|v Px]; constructor; (eapply reads_near; [apply C2|exact Px]).
    + rewrite (zilog_pc _ 0); [exact Z|notrel].
Qed.
Theorem out_bad : forall o s e s', named s -> s.(fl).(a_org_gv) = true -> z_inout 211 o s = (Bad (Err e), s') -> refusable s "out" o.
Proof.
  intros o s e s' N O E. unfold z_inout in E. cbv zeta in E. change (otext o) with (given o) in E. fails E u1 s1 E1; [discriminate E|]. apply clrall_ok in E1.
  assert (C1 : close s s1) by (subst s1; apply close_cp). assert (P1 : s1.(cp) = clr s.(cp)) by (subst s1; reflexivity). clear E1.
  change (Z.land 211 8 =? 0) with true in E. cbv iota in E. fails E m s2 E3; [elim (calm_filter2 _ _ _ _ _ E)|].
  destruct (close_filter2 _ _ _ _ _ E3) as [C2 P2]. apply (close_trans _ _ _ C1) in C2. rewrite P1 in P2.
  destruct m as [[a b]|]; [|apply re_out; [reflexivity|exact (out_none _ _ _ E3)]].
  apply (two_free _ (t_ "(") (t_ ")_,_") []) in E3; [|reflexivity..|cbn; lia|left; reflexivity].
  apply (inout_bad 211 a b) in E; [|auto|apply C2; exact N|exact (close_org _ _ C2 O)|rewrite P2; symmetry; apply clr_clr].
  destruct E as [U|[U|[(x & Rx & H1 & H2)|(x & y & Px & Ry & Z)]]].
  - eapply re_operand; [eapply ot_out; [exact E3|left; reflexivity]|eapply unread_near; [apply C2|exact U]].
  - eapply re_operand; [eapply ot_out; [exact E3|right; reflexivity]|eapply unread_near; [apply C2|exact U]].
  - eapply re_port_out; [reflexivity|exact E3|eapply reads_near; [apply C2|exact Rx]|exact H1|exact H2].
  - eapply re_none; [eapply wt_out; [exact E3| |eapply reads_near; [apply C2|exact Ry]]|].
    + instantiate (1 := x). destruct Px as [Px|v Px]; constructor; (eapply reads_near; [apply C2|exact Px]).
    + rewrite (zilog_pc _ 0); [exact Z|notrel].
Qed.

(** ** All instructions *)
Ltac refused_by T N O E := first [eapply T; [exact N|exact O|exact E] | eapply T; [exact O|exact E]].
Ltac refused_in T N O E := eapply T; [cbn [In]; auto 10|exact N|exact O|exact E].
Ltac refusal_of E N O :=
  cbn [exec mn l_modifier] in E;
  try (match type of E with context [s16 ?k] => let v := eval vm_compute in (s16 k) in change (s16 k) with v in E end);
  lazymatch type of E with
  | simple _ _ _ = _ => eapply simple_bad; [vm_compute; auto 60|exact O|exact E]
  | z_im _ _ = _ => refused_by im_bad N O E
  | z_rst _ _ = _ => refused_by rst_bad N O E
  | branch _ _ _ = _ => refused_by djnz_bad N O E
  | z_jr _ _ = _ => refused_by jr_bad N O E
  | z_jp _ _ = _ => refused_by jp_bad N O E
  | z_call _ _ = _ => refused_by call_bad N O E
  | z_ret _ _ = _ => refused_by ret_bad N O E
  | z_ex _ _ = _ => refused_by ex_bad N O E
  | z_inout 219 _ _ = _ => refused_by in_bad N O E
  | z_inout 211 _ _ = _ => refused_by out_bad N O E
  | z_ld _ _ = _ => refused_by ld_bad N O E
  | z_stackop _ _ _ = _ => eapply stackop_bad; [|exact N|exact O|exact E]; auto
  | z_incr _ _ _ = _ => eapply incr_bad; [|exact N|exact O|exact E]; auto
  | z_onreg8 _ _ _ = _ => eapply onreg8_bad; [reflexivity|intros [[]|[]|[] ?|?|?|?| | |]; reflexivity|notrel|vm_compute; auto 20|exact N|exact O|exact E]
  | z_bitop _ _ _ = _ => refused_in bitop_bad N O E
  | z_logical _ _ _ = _ => refused_in logical_refused N O E
  | z_arith _ _ _ = _ => refused_in arith_bad N O E
  end.
Theorem inst_z80_refused : forall n l h, In (n, l) mz80 -> l.(l_ptr) = PFun h ->
  forall lb o s e s', named s -> s.(fl).(a_org_gv) = true -> exec h l.(l_modifier) lb o s = (Bad (Err e), s') -> refusable s n o.
Proof.
  intros n l h I Hp lb o s e s' N O E.
  unfold mz80 in I. cbn [In] in I.
  let rec go := lazymatch type of I with
    | False => destruct I
    | _ => destruct I as [I|I];
        [injection I as <- <-; cbn [mn rg l_ptr] in Hp; lazymatch type of Hp with PFun _ = PFun _ => injection Hp as <-; refusal_of E N O | _ => discriminate Hp end|go]
    end in go.
Qed.
Lemma assoc_in : forall A n (l : list (string * A)) a, assoc n l = Some a -> In n (map fst l).
Proof.
  intros A n l. induction l as [|[m b] l IH]; intros a E; [discriminate E|]. cbn [assoc] in E. destruct (String.eqb_spec n m) as [->|].
  - left. reflexivity.
  - right. eapply IH. exact E.
Qed.
Definition zilog_names : list string :=
  (map fst alu ++ map fst plain ++ map fst rotations ++ map fst bit_ops ++
  ["ld"; "ret"; "jp"; "inc"; "dec"; "im"; "rst"; "djnz"; "jr"; "call"; "push"; "pop"; "in"; "out"; "ex"]%string)%list.
Ltac name_known E :=
  repeat match type of E with
    | (if String.eqb ?n ?m then _ else _) = _ => destruct (String.eqb_spec n m) as [->|]; [vm_compute; auto 80|]
    | match assoc ?n ?l with _ => _ end = _ => let A := fresh in destruct (assoc n l) eqn:A; [apply assoc_in in A; unfold zilog_names; rewrite ?in_app_iff; auto 10|]
    | assoc ?n ?l = _ => apply assoc_in in E; unfold zilog_names; rewrite ?in_app_iff; auto 10
    | None = _ => discriminate E
    end.
Lemma zilog_known : forall a n ops bs, zilog a n ops = Some bs -> In n zilog_names.
Proof.
  intros a n ops bs E. unfold zilog in E. name_known E. unfold z_other in E.
  destruct ops as [|x [|y [|z ops]]]; [name_known E| | |];
    [destruct x as [[]|[]|[] d|m|w|c| |p|]; name_known E| |destruct x as [[]|[]|[] d|m|w|c| |p|]; try discriminate E; destruct y as [[]|[]|[] d2|m2|w2|c2| |p2|]; discriminate E].
  destruct x as [[]|[]|[] d|m|w|c| |p|]; try discriminate E; destruct y as [[]|[]|[] d2|m2|w2|c2| |p2|]; name_known E.
Qed.
Lemma names_in_table : forallb (fun n => existsb (fun e => String.eqb n (fst e) && match l_ptr (snd e) with PFun _ => true | _ => false end) mz80) zilog_names = true.
Proof. vm_compute. reflexivity. Qed.
Theorem zilog_listed : forall a n ops bs, zilog a n ops = Some bs -> exists l h, In (n, l) mz80 /\ l.(l_ptr) = PFun h.
Proof.
  intros a n ops bs E. apply zilog_known in E. pose proof (proj1 (forallb_forall _ _) names_in_table n E) as X.
  apply existsb_exists in X. destruct X as ((m & l) & I & X). apply andb_prop in X. destruct X as [X P]. apply String.eqb_eq in X. cbn [fst snd] in *. subst m.
  destruct (l_ptr l) as [|h|] eqn:Q; try discriminate P. exists l, h. auto.
Qed.
Theorem plain_accepted : forall n s, In n (map fst plain) -> ~ refusable s n None.
Proof.
  intros n s I R.
  assert (D : forall l, forallb (fun m => negb (existsb (String.eqb m) l)) (map fst plain) = true -> ~ In n l).
  { intros l F J. pose proof (proj1 (forallb_forall _ _) F n I) as X. apply negb_true_iff in X.
    assert (Y : existsb (String.eqb n) l = true) by (apply existsb_exists; exists n; split; [exact J|apply String.eqb_refl]). congruence. }
  assert (D1 : forall m, n = m -> forallb (fun x => negb (existsb (String.eqb x) [m])) (map fst plain) = true -> False).
  { intros m -> F. apply (D _ F). left. reflexivity. }
  destruct R as [u Op U|u Nu U|ops W Z|? ? ? J|? ? ? J|? ? ? ? J|? O|J|? ? ? J|? ? J|J|? ? J|? ? ? J|J|J|? ? ? J|? ? ? J|J];
    try (apply (D _) in J; [exact J|vm_compute; reflexivity]); try (apply (D1 _ J); vm_compute; reflexivity); try (apply O; reflexivity).
  - inversion Op; subst; try (match goal with J : In n _ |- _ => apply (D _) in J; [exact J|vm_compute; reflexivity] end);
      (eapply D1; [reflexivity|vm_compute; reflexivity]).
  - inversion Nu; subst; match goal with J : In n _ |- _ => apply (D _) in J; [exact J|vm_compute; reflexivity] end.
  - inversion W; subst; try (match goal with J : In n _ |- _ => apply (D _) in J; [exact J|vm_compute; reflexivity] end);
      (eapply D1; [reflexivity|vm_compute; reflexivity]).
Qed.
