(** Ordinary lines leave the stack of sources alone. *)
From Coq Require Import String Ascii ZArith List Bool Lia ZifyBool ZifyNat.
From Verif Require Import Base State Tree Filter Output Label Operator Parse Scode Pseudos Cpu6800 Cpu6502 CpuZ80 Macro Crasm.
From Verif Require Import BaseFacts TreeFacts Frame Eval CpuFacts SpecEmit SpecStar EmitFacts Local SpecLayout.
From Verif Require SymFacts StarFacts Walk LayoutRel.
Import ListNotations.
Open Scope Z_scope.

Definition hd (s s' : state) : Prop := s'.(inp).(srcs) = s.(inp).(srcs) /\ (s.(fl).(a_relatif) = false -> s'.(fl).(a_relatif) = false).
Definition H : relation := always hd.
Lemma hd_same : forall s s', s'.(inp).(srcs) = s.(inp).(srcs) -> (s.(fl).(a_relatif) = false -> s'.(fl).(a_relatif) = false) -> hd s s'.
Proof. intros s s' A B. split; assumption. Qed.
Lemma hd_trans : forall a b c, hd a b -> hd b c -> hd a c.
Proof. intros a b c [A1 A2] [B1 B2]. split; [congruence|auto]. Qed.
Lemma H_order : order H.
Proof. constructor; unfold H, always; intros; auto; [split; auto|eapply hd_trans; eassumption]. Qed.
Lemma H_lsteps : lsteps H.
Proof. constructor; [exact H_order|..]; intros; split; auto. Qed.
Lemma H_osteps : osteps H.
Proof. apply lsteps_osteps, H_lsteps. Qed.
Lemma H_error : forall A m, pres H A (error m).
Proof.
  intros A m s. split.
  - pose proof (SymFacts.error_inp A m s) as E. unfold SymFacts.sameinp in E. rewrite E. reflexivity.
  - rewrite SymFacts.error_relatif. auto.
Qed.
Lemma H_esteps : esteps H.
Proof. constructor; [exact H_osteps|..]; intros; try (split; auto; fail). apply H_error. Qed.
Lemma H_insert8 : forall x, pres H _ (insert8 x).
Proof. apply (Run.insert8_free H H_order); intros; try (split; auto; fail); [exact H_osteps|apply H_error]. Qed.
Lemma H_modify : forall f, (forall s, (f s).(inp).(srcs) = s.(inp).(srcs)) -> (forall s, s.(fl).(a_relatif) = false -> (f s).(fl).(a_relatif) = false) -> pres H _ (modify f).
Proof. intros f A B s. split; [apply A|apply B]. Qed.

Ltac k1 :=
  lazymatch goal with
  | |- pres H _ (bind _ _) => apply (pres_bind H H_order); [ | intros ]
  | |- pres H _ (ret _) => apply (pres_ret H H_order)
  | |- pres H _ (gets _) => apply (pres_gets H H_order)
  | |- pres H _ (when _ _) => unfold when
  | |- pres H _ (stop _) => intros ?; split; auto
  | |- pres H _ (error _) => apply H_error
  | |- pres H _ (err _) => apply H_error
  | |- pres H _ (fatal _) => apply (pres_fatal H H_osteps)
  | |- pres H _ (warning _) => apply (pres_warning H H_osteps)
  | |- pres H _ outputline => apply (pres_outputline H H_osteps)
  | |- pres H _ outputEOL => apply (pres_outputEOL H H_osteps)
  | |- pres H _ outputEOP => apply (pres_outputEOP H H_osteps)
  | |- pres H _ star_advance => apply (pres_star_advance H H_lsteps)
  | |- pres H _ (position _) => apply (pres_position H H_osteps)
  | |- pres H _ (outputaddr _) => apply (pres_outputaddr H H_osteps)
  | |- pres H _ (filterc _ _) => apply (pres_filterc H H_osteps)
  | |- pres H _ (filter2 _ _) => apply (pe_filter2 H H_esteps)
  | |- pres H _ (filter0 _ _) => apply (pe_filter0 H H_esteps)
  | |- pres H _ (findlabel _) => apply (pe_findlabel H H_esteps)
  | |- pres H _ (parse _) => apply (pe_parse H H_esteps)
  | |- pres H _ (checktype _ _) => apply (pe_checktype H H_esteps)
  | |- pres H _ (insert8 _) => apply H_insert8
  | |- pres H _ (upd_ls _) => apply H_modify; auto
  | |- pres H _ (upd_fl _) => apply H_modify; auto
  | |- pres H _ (upd_sy _) => apply H_modify; auto
  | |- pres H _ (upd_inp _) => apply H_modify; auto
  | |- pres H _ (upd_cp _) => apply H_modify; auto
  | |- pres H _ (upd_ct _) => apply H_modify; auto
  | |- pres H _ (upd_wr _) => apply H_modify; auto
  | |- pres H _ (match ?x with _ => _ end) => destruct x
  end.
Ltac k := repeat first [k1 | progress (cbv beta zeta)].

Lemma H_insert16 : forall x, pres H _ (insert16 x).
Proof. intros x. unfold insert16. k. Qed.
Lemma H_insert32 : forall x, pres H _ (insert32 x).
Proof. intros x. unfold insert32. k; apply H_insert16. Qed.
Lemma H_stocke : forall t m, pres H _ (stocke t m).
Proof. intros t m. unfold stocke, flip_lohi. k; first [apply H_insert16|apply H_insert32]. Qed.
Lemma H_dcloop : forall n o m, pres H _ (dcloop n o m).
Proof. induction n as [|n IH]; intros o m; cbn [dcloop]; k; first [apply H_stocke|apply IH]. Qed.
Lemma H_dsloop : forall n v, pres H _ (dsloop n v).
Proof. induction n as [|n IH]; intros v; cbn [dsloop]; k. apply IH. Qed.
Lemma H_Xds : forall o, pres H _ (Xds o).
Proof. intros o. unfold Xds. k. apply H_dsloop. Qed.
Lemma H_sy : forall s t, H Fine s (set_sy t s).
Proof. intros s t. split; auto. Qed.
Lemma H_init_entry : forall e, pres H _ (init_entry e).
Proof.
  intros e s. unfold init_entry, searchlabel, bind. cbn [gets ret]. set (key := lkey _ _).
  destruct (tfind key (sy s)) as [l|]; [|apply H_sy]. destruct (_ && _); [apply H_sy|apply (pres_warning H H_osteps)].
Qed.
Lemma H_init_inner : forall n i key t, pres H _ (init_inner n i key t).
Proof. induction n as [|n IH]; intros; cbn [init_inner]; k; [apply H_init_entry|apply IH]. Qed.
Lemma H_init_outer : forall n key t, pres H _ (init_outer n key t).
Proof. induction n as [|n IH]; intros; cbn [init_outer]; k; [apply H_init_inner|apply IH]. Qed.
Lemma H_init : forall t, pres H _ (init_label_list t).
Proof. intros. apply H_init_outer. Qed.
Lemma H_local : local (pres H).
Proof.
  constructor; intros.
  all: lazymatch goal with
  | X : forall s, ?m s = ?m' s |- _ => apply (pres_ext H _ m); assumption
  | |- pres H _ (bind (gets _) _) => k
  | |- pres H _ (bind _ _) => apply (pres_bind H H_order); assumption
  | |- pres H _ (settitle _) => unfold settitle; k
  | |- pres H _ (setpage _ _) => unfold setpage; k
  | |- pres H _ (init6800 _) => unfold init6800; k; apply H_init
  | |- pres H _ (init6502 _) => unfold init6502; k; apply H_init
  | |- pres H _ (initz80 _) => unfold initz80; k; apply H_init
  | |- pres H _ zerobuffer => unfold zerobuffer; k
  | |- pres H _ flip_lohi => unfold flip_lohi; k
  | |- pres H _ newsegment => unfold newsegment; k
  | |- pres H _ (Xdc _ _) => unfold Xdc; apply H_dcloop
  | |- pres H _ _ => k
  end.
Qed.
Lemma H_deflabel : forall nm f ty v, pres H _ (deflabel nm f ty v).
Proof. intros nm f ty v s. rewrite deflabel_eq. destruct (refused _ _); [apply H_error|apply H_sy]. Qed.
Lemma H_herelabel : forall nm, pres H _ (herelabel nm).
Proof. intros nm. unfold herelabel. k; try apply H_deflabel. Qed.
Lemma H_Xequ : forall t o, pres H _ (Xequ t o).
Proof. intros t o. apply (J_Xequ _ H_local). intros x. apply (pres_bind H H_order); [apply H_deflabel|intros; k]. Qed.
Lemma H_exec : forall h m lab o, h <> HInclude -> pres H _ (exec h m lab o).
Proof.
  intros h m lab o N. apply (J_exec _ H_local); intros.
  - unfold Xfail. k.
  - contradiction.
  - apply H_Xequ.
  - apply H_Xds.
Qed.
Lemma H_linestart : pres H _ linestart.
Proof. unfold linestart, zerobuffer. k; apply (Run.setpc_free H H_order); intros; split; auto. Qed.
Lemma H_stripline : pres H _ stripline.
Proof. unfold stripline. k. Qed.

(** The whole line, however it ends. *)
Theorem line_hd : forall self n s, (forall q, taken_apart s q -> ordinary q) -> hd s (snd (asmline self n true true s)).
Proof.
  intros self n s Q. change (hd s (snd (asmline self n true true s))) with (from H s (asmline self n true true) s). unfold asmline.
  apply (from_bind H); [exact (H_linestart s)|]. intros u s1 E1. destruct u.
  assert (D1 : H Fine s s1) by (pose proof (H_linestart s) as D; rewrite E1 in D; exact D).
  apply (from_bind H); [exact D1|]. intros col s0 [= <- <-].
  apply (from_bind H); [apply (from_pres H H_order); [exact D1|apply H_stripline]|]. intros t s2 E2.
  assert (D2 : H Fine s s2) by (pose proof (H_stripline s1) as D; rewrite E2 in D; exact (hd_trans _ _ _ D1 D)).
  destruct t as [|c t]; [apply (from_pres H H_order); [exact D2|]; k|].
  apply (from_bind H); [apply (from_pres H H_order); [exact D2|]; apply (J_splitline _ H_local)|]. intros q s3 E3.
  assert (D3 : H Fine s s3) by (pose proof (J_splitline _ H_local (c :: t) s2) as D; rewrite E3 in D; exact (hd_trans _ _ _ D2 D)).
  destruct (Q q) as (_ & O & I); [exists s1, (c :: t), s2, s3; repeat split; auto; discriminate|]. unfold of_its_own in O.
  apply (from_pres H H_order); [exact D3|].
  destruct (q_mnemo q) as [[key l]|] eqn:Mn.
  2:{ destruct (_ && _ && _); k. apply H_herelabel. }
  destruct O as (O1 & O2 & O3). unfold dispatch. cbv zeta. rewrite O2, O3. cbn [orb].
  apply (pres_bind H H_order); [k|intros _]. apply (pres_bind H H_order); [k; apply H_herelabel|intros _].
  destruct (l_type l); try contradiction; k.
  all: apply H_exec; congruence.
Qed.
