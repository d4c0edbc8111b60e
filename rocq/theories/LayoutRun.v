(** The two passes over a program. *)
From Coq Require Import String Ascii ZArith List Bool Lia ZifyBool ZifyNat.
From Verif Require Import Base State Tree Tables Filter Output Label Operator Parse Scode Macro Cpu6800 Cpu6502 CpuZ80 Pseudos Crasm.
From Verif Require Import TreeFacts Frame Walk Run SymFacts SpecStar SpecJoin SpecLayout LayoutFacts LayoutRel LayoutOps LayoutPseudo LayoutLine.
From Verif Require SpecObject LayoutSrc KeepFacts JoinRun ObjRun.
From Verif Require BaseFacts FilterFacts MacroFacts InputFacts CountFacts EmitFacts.
Import ListNotations.
Open Scope Z_scope.

(** ** The number of errors does not decrease *)
Definition climbs : relation := always (fun s s' => s.(ct).(errnumber) <= s'.(ct).(errnumber)).
Ltac climb := unfold climbs, always; intros; cbn; lia.
Lemma climbs_lsteps : lsteps climbs.
Proof. constructor; [constructor|..]; unfold climbs, always; intros; cbn; lia. Qed.
Lemma climbs_error : forall m, pres climbs unit (error m).
Proof. apply error_parts; [apply climbs_lsteps|climb|climb]. Qed.
Lemma climbs_steps : steps climbs.
Proof.
  pose proof climbs_lsteps as L. pose proof (p_order _ L) as O.
  assert (W : forall s w, climbs Fine s (set_wr w s)) by climb.
  constructor; [constructor; [exact L|..]|..]; try climb.
  - intros s a. apply (setpc_free _ O W).
  - intros s m. apply climbs_error.
  - intros s x. apply (insert8_free _ O W (lsteps_osteps _ L)); try climb. apply climbs_error.
Qed.
Lemma passloop_climbs : forall n s, s.(ct).(errnumber) <= (snd (passloop n s)).(ct).(errnumber).
Proof. intros n s. exact (J_passloop _ (pres_walk _ climbs_steps) n s). Qed.
Lemma passline_climbs : forall n s, s.(ct).(errnumber) <= (snd (passline n s)).(ct).(errnumber).
Proof. intros n s. exact (J_passline _ (pres_walk _ climbs_steps) n s). Qed.
Lemma passline_grows : forall n s, grows s.(sy) (snd (passline n s)).(sy).
Proof. intros n s. exact (J_passline _ GW n s). Qed.
Lemma passloop_grows : forall n s, grows s.(sy) (snd (passloop n s)).(sy).
Proof. intros n s. exact (J_passloop _ GW n s). Qed.

(** One turn of the loop. *)
Lemma passloop_turn : forall n s u s', passloop n s = (Ok u, s') ->
  exists m, n = S m /\
  match passline m s with
  | (Ok _, s1) => if s1.(inp).(maineof) then s' = s1 else passloop m s1 = (Ok u, s')
  | (Bad (Err _), s1) => passloop m (set_ct (set_errnumber (s1.(ct).(errnumber) + 1) s1.(ct)) s1) = (Ok u, s')
  | _ => False
  end.
Proof.
  intros [|m] s u s' E; [discriminate E|]. exists m. split; [reflexivity|]. cbn [passloop] in E. unfold bind at 1 in E. unfold catch in E.
  destruct (passline m s) as [[a|[e|?|?| |]] s1]; try discriminate E; [|exact E].
  unfold bind, mainfeof, gets in E. cbn in E. destruct (maineof (inp s1)); [|exact E].
  apply (f_equal snd) in E. cbn in E. congruence.
Qed.

Section Run.
Variable F : final.
Variable SF : forward_numbers F.

(** ** The next line *)
Lemma linegets_main : forall s, s.(inp).(srcs) = [] ->
  exists s1 c r e, InputFacts.listed s s1 /\ (e = true -> r = []) /\
    (s.(inp).(mainrest) = [] -> c = [] /\ r = [] /\ e = true) /\ fgets 249 s.(inp).(mainrest) = (c, r, e) /\
    linegets s = (Ok tt, set_inp (set_mainrest r (set_maineof e (set_linenumber (s.(inp).(linenumber) + 1)
       (set_curline (List.filter keepchar (uptonl c)) s.(inp))))) s1).
Proof.
  intros s S. destruct (fgets 249 s.(inp).(mainrest)) as [[t r] e] eqn:E.
  destruct (InputFacts.readline_spec _ s _ _ _ E) as (s1 & s' & L & R & Q).
  exists s1, t, r, e. split; [exact L|]. split; [|split; [|split; [reflexivity|]]].
  - apply InputFacts.fgets_spec in E. destruct E as [_ X]. intros ->. apply X.
  - intros N. rewrite N in E. cbn in E. injection E as <- <- <-. auto.
  - unfold linegets. unfold bind, gets. rewrite S. cbn [popended ret]. rewrite S, R. rewrite Q. reflexivity.
Qed.
Lemma linegets_pair : forall s1 s2, Tb F s1 s2 ->
  exists a1 a2, linegets s1 = (Ok tt, a1) /\ linegets s2 = (Ok tt, a2) /\ Tb F a1 a2 /\ a1.(inp) = a2.(inp) /\ a1.(sy) = s1.(sy).
Proof.
  intros s1 s2 H. destruct H as [B1 B2 B3 B4 B5 B6 B7 B8 B9]. cbn in B1, B2, B3, B4, B5, B6, B7, B8, B9.
  assert (S2 : srcs (inp s2) = []) by (apply (f_equal srcs) in B3; cbn in B3; congruence).
  destruct (linegets_main s1 B4) as (t1 & c1 & r1 & e1 & L1 & Z1 & _ & G1 & E1).
  destruct (linegets_main s2 S2) as (t2 & c2 & r2 & e2 & L2 & _ & _ & G2 & E2).
  assert (Er : mainrest (inp s1) = mainrest (inp s2)) by (apply (f_equal mainrest) in B3; exact B3).
  rewrite Er, G2 in G1. injection G1 as <- <- <-. rewrite E1, E2. eexists _, _. split; [reflexivity|]. split; [reflexivity|].
  destruct L1 as (L1f & L1w & L1s & L1i & L1c & L1p & _ & _ & L1e & _). destruct L2 as (L2f & L2w & L2s & L2i & L2c & L2p & _ & _ & L2e & _).
  assert (I : set_mainrest r2 (set_maineof e2 (set_linenumber (s1.(inp).(linenumber) + 1) (set_curline (List.filter keepchar (uptonl c2)) s1.(inp)))) =
    set_mainrest r2 (set_maineof e2 (set_linenumber (s2.(inp).(linenumber) + 1) (set_curline (List.filter keepchar (uptonl c2)) s2.(inp))))).
  { destruct (inp s1), (inp s2). cbn in *. injection B3. intros. subst. reflexivity. }
  split; [|split; [exact I|exact L1s]].
  constructor; cbn [coreof k_pass k_inp k_rel k_sy k_em ct inp fl sy emitted set_inp]; try rewrite L1f; try rewrite L2f; try rewrite L1s, L2s; try rewrite L1e, L2e; try assumption.
  - rewrite L1c. exact B1.
  - rewrite L2c. exact B2.
  - rewrite I. reflexivity.
Qed.

(** ** One line *)
Lemma passline_pair : forall m s1 s2 u s2', Tb F s1 s2 ->
  (forall a q, linegets s1 = (Ok tt, a) -> taken_apart a q ->
     ordinary q /\ (forall f b, run m KLine true true a = (Ok f, b) -> watches F q b.(inp) -> settled b.(ct).(calcresult))) ->
  passline m s2 = (Ok u, s2') ->
  match passline m s1 with
  | (Ok _, s1') => grows s1'.(sy) F -> Tb F s1' s2'
  | (Bad (Err e), s1') => grows s1'.(sy) F -> late e -> Tb F s1' s2'
  | _ => True
  end.
Proof.
  intros m s1 s2 u s2' H Hq E. destruct (linegets_pair s1 s2 H) as (a1 & a2 & E1 & E2 & Ha & I & _).
  unfold passline in *. unfold bind at 1 in E; unfold bind at 1. rewrite E2 in E. rewrite E1. specialize (Hq a1). 
  seq E. rename a into f2, s into b2. destruct m as [|m]; [discriminate E0|].
  assert (f2 = FNone) as -> by (destruct f2; [reflexivity|elim (never_err _ _ _ _ _ E)..]).
  apply (f_equal snd) in E. cbn in E. subst b2.
  pose proof (asmline_pair F SF m a1 a2 _ _ Ha I (fun q X => proj1 (Hq q E1 X)) (fun q f s' X Y => proj2 (Hq q E1 X) f s' Y) E0) as P.
  unfold bind. destruct (run (S m) KLine true true a1) as [[f1|[e|?|?| |]] b1]; try exact Logic.I; [|exact P].
  destruct f1; cbn [ret]; [intros G; apply P, G|..].
  all: match goal with |- match ?x with _ => _ end => destruct x as [[v|[e|?|?| |]] c1] eqn:Ee end; try exact Logic.I;
    [elim (never_err _ _ _ _ _ Ee)|]; intros G L; exfalso.
  all: pose proof (growing_error unit (s2l "ELSE, ENDC, ENDM, EXITM illegal here") b1) as X; unfold err in Ee.
  all: rewrite Ee in X; cbn [snd] in X; destruct P as [_ P]; [exact (grows_trans _ _ _ X G)|discriminate P].
Qed.

Lemma strip_blank : forall b, b.(inp).(curline) = [] ->
  match stripline b with
  | (Ok t, d) => t = [] /\ d.(inp) = set_curline [] b.(inp) /\ d.(sy) = b.(sy) /\ d.(emitted) = b.(emitted)
  | (Bad (Err _), _) => False
  | _ => True
  end.
Proof.
  intros b C. unfold stripline, filter2, filterc, bind, gets. rewrite C. set (fp := filter_pure [] (s2l "_?_;?")).
  assert (N : fr_caps fp = None) by reflexivity. rewrite N. destruct (4000 <=? _); [exact Logic.I|]. repeat split.
Qed.
(** The line read after the end of the source file. *)
Lemma blank_line : forall m s, s.(inp).(srcs) = [] -> s.(inp).(mainrest) = [] ->
  match passline m s with
  | (Ok _, d) => d.(sy) = s.(sy) /\ d.(emitted) = s.(emitted) /\ d.(inp).(maineof) = true
  | (Bad (Err _), _) => False
  | _ => True
  end.
Proof.
  intros m s1 B4 B9.
  destruct (linegets_main s1 B4) as (t1 & c1 & r1 & e1 & L1 & _ & N & _ & E1). destruct (N B9) as (-> & -> & ->). cbn [uptonl List.filter] in E1.
  unfold passline. unfold bind at 1. rewrite E1.
  destruct L1 as (_ & _ & Ls & _ & _ & _ & _ & _ & Le & _).
  set (a := set_inp _ t1) in *.
  assert (Ca : a.(inp).(curline) = []) by reflexivity. assert (Ma : a.(inp).(maineof) = true) by reflexivity.
  assert (Ya : a.(sy) = s1.(sy)) by exact Ls. assert (Ea : a.(emitted) = s1.(emitted)) by exact Le.
  clearbody a. rewrite <- Ya, <- Ea. clear Ya Ea E1 N Ls Le.
  destruct m as [|m]; [exact Logic.I|]. unfold bind at 1. rewrite run_opened. unfold bind at 1.
  pose proof (linestart_core a) as C. destruct (linestart a) as [[v|[e|?|?| |]] b]; try exact Logic.I; [|exact C].
  assert (Ib : b.(inp) = a.(inp)) by exact (f_equal k_inp C). assert (Yb : b.(sy) = a.(sy)) by exact (f_equal k_sy C).
  assert (Eb : b.(emitted) = a.(emitted)) by exact (f_equal k_em C). rewrite <- Yb, <- Eb. rewrite <- Ib in Ca, Ma.
  unfold bind at 1. pose proof (strip_blank b Ca) as S. destruct (stripline b) as [[t|[e|?|?| |]] b']; try exact Logic.I; [|exact S].
  destruct S as (-> & S1 & S2 & S3). rewrite <- S2, <- S3. cbn [opened].
  assert (Mu : pres mute _ (when true outputline ;;; ret FNone)) by mutes. specialize (Mu b').
  assert (Fl : forall s f s', (when true outputline ;;; ret FNone) s = (Ok f, s') -> f = FNone) by (intros s f s' Q; seq Q; injection Q as <- _; reflexivity).
  specialize (Fl b').
  destruct ((when true outputline ;;; ret FNone) b') as [[f|[e|?|?| |]] d]; try exact Logic.I; cbn [fst snd how] in Mu; [|exact Mu].
  rewrite (Fl _ _ eq_refl). cbn [ret].
  assert (Id : d.(inp) = b'.(inp)) by exact (f_equal k_inp Mu). rewrite Id, S1. cbn [maineof set_curline].
  split; [exact (f_equal k_sy Mu)|]. split; [exact (f_equal k_em Mu)|exact Ma].
Qed.
Lemma blank_turn : forall n s1 s2 u s1', Tb F s1 s2 -> s1.(inp).(maineof) = true -> passloop n s1 = (Ok u, s1') ->
  s1'.(sy) = s1.(sy) /\ s1'.(emitted) = s1.(emitted) /\ exists m v, n = S m /\ catch (passline m) s1 = (Ok (Some v), s1') /\ s1'.(inp).(maineof) = true.
Proof.
  intros n s1 s2 u s1' H M E. destruct H as [_ _ _ B4 _ _ _ _ B9]. cbn in B4, B9.
  apply passloop_turn in E. destruct E as (m & -> & E). pose proof (blank_line m s1 B4 (B9 M)) as X. unfold catch.
  destruct (passline m s1) as [[v|[e|?|?| |]] d] eqn:P; try contradiction. destruct X as (X1 & X2 & X3). rewrite X3 in E. subst d.
  split; [exact X1|]. split; [exact X2|]. exists m, v. rewrite P. auto.
Qed.

(** ** All lines *)
Lemma Tb_place : forall s1 s2, Tb F s1 s2 -> place s1 = place s2.
Proof.
  intros s1 s2 H. pose proof (b_tables _ _ _ H starkey) as [X _]. destruct (X eq_refl) as (l1 & l2 & E1 & E2 & (S1 & S2 & _ & _ & _ & _ & S3)).
  cbn [coreof k_sy] in E1, E2. unfold place, starundef, starvalue, star. rewrite E1, E2, <- S1. destruct (f_undef (l_flags l1)) eqn:U; [reflexivity|].
  destruct (S3 eq_refl) as (_ & _ & _ & _ & _ & _ & V & _). rewrite S2 in V. rewrite (vals_value _ _ _ _ _ _ _ V). reflexivity.
Qed.
Lemma stations_end : forall n s l, stations n s l -> exists t, l = place s :: t.
Proof. intros n s l []; eauto. Qed.
Definition turn_ok (n : nat) (s s' : state) : Prop := exists r, catch (passline n) s = (Ok r, s') /\ (r = None \/ s'.(inp).(maineof) = false).
Lemma straight_turn : forall n s s', straight (S n) s -> turn_ok n s s' -> straight n s'.
Proof. intros n s s' H (r & E & C) m t a q R. apply H. eapply rounds_more; eassumption. Qed.
Lemma late_turn : forall n s s', (forall e, complains (S n) s e -> late e) -> turn_ok n s s' -> forall e, complains n s' e -> late e.
Proof. intros n s s' H (r & E & C) e (m & t & t' & R & X). apply H. exists m, t, t'. split; [eapply rounds_more; eassumption|exact X]. Qed.
Lemma stations_turn : forall n s s' l, stations (S n) s l -> turn_ok n s s' -> exists t, l = place s :: t /\ stations n s' t.
Proof.
  intros n s s' l H (r & E & C). inversion H as [n0 s0 u s1 E1 M|n0 s0 r0 s1 l0 E1 C1 H1]; subst.
  - rewrite E in E1. injection E1 as -> ->. destruct C as [C|C]; [discriminate C|congruence].
  - rewrite E in E1. injection E1 as -> ->. eauto.
Qed.
Lemma stations_stop : forall n s s' u l, stations (S n) s l -> catch (passline n) s = (Ok (Some u), s') -> s'.(inp).(maineof) = true -> l = [place s].
Proof.
  intros n s s' u l H E C. inversion H as [n0 s0 v s1 E1 M|n0 s0 r0 s1 l0 E1 C1 H1]; subst; [reflexivity|].
  rewrite E in E1. injection E1 as <- <-. destruct C1 as [X|X]; [discriminate X|congruence].
Qed.
Lemma steadily_turn : forall n s s' (G : str -> Prop), (forall k, G k -> steadily (S n) s k) -> turn_ok n s s' -> forall k, G k -> steadily n s' k.
Proof. intros n s s' G H (r & E & C) k K m t a q x f b R. apply (H k K m t a q x f b). eapply rounds_more; eassumption. Qed.
Lemma loop_pair : forall n s1 s2 s1' s2', Tb F s1 s2 -> straight n s1 -> (forall k, pins F k -> steadily n s1 k) -> (forall e, complains n s1 e -> late e) ->
  passloop n s1 = (Ok tt, s1') -> passloop n s2 = (Ok tt, s2') -> 0 <= s2.(ct).(errnumber) -> s2'.(ct).(errnumber) = 0 ->
  grows s1'.(sy) F ->
  tables F s1'.(sy) s2'.(sy) /\ addresses 1 s1'.(emitted) = addresses 2 s2'.(emitted) /\
  (forall l1 l2, stations n s1 l1 -> stations n s2 l2 -> l1 = l2 \/ exists p, l1 = l2 ++ [p]).
Proof.
  induction n as [|n IH]; intros s1 s2 s1' s2' H St Sd La E1 E2 P0 P1 G; [discriminate E1|].
  apply passloop_turn in E1. destruct E1 as (m & Em & E1). injection Em as <-.
  apply passloop_turn in E2. destruct E2 as (m & Em & E2). injection Em as <-.
  pose proof (passline_climbs n s2) as C2. pose proof (passline_grows n s1) as G1.
  assert (T2 : exists u a2, passline n s2 = (Ok u, a2)).
  { destruct (passline n s2) as [[u|[e|?|?| |]] a2] eqn:L2; try contradiction; [eauto|]. exfalso. cbn in C2.
    pose proof (passloop_climbs n (set_ct (set_errnumber (errnumber (ct a2) + 1) (ct a2)) a2)) as C3. rewrite E2 in C3. cbn in C3. lia. }
  destruct T2 as (u2 & a2 & L2). rewrite L2 in E2, C2. cbn [snd] in C2.
  assert (Sw : forall a q, linegets s1 = (Ok tt, a) -> taken_apart a q -> ordinary q /\
    (forall f b, run n KLine true true a = (Ok f, b) -> watches F q b.(inp) -> settled b.(ct).(calcresult))).
  { intros a q Ea Ta. destruct (St n s1 a q (rounds_none _ _) Ea Ta) as [W1 W2]. split; [exact W1|]. intros f b Er [W|(x & W3 & W4)]; [exact (W2 W f b Er)|].
    exact (Sd _ W4 n s1 a q x f b (rounds_none _ _) Ea Ta W3 Er eq_refl). }
  pose proof (passline_pair n s1 s2 u2 a2 H Sw L2) as P.
  pose proof (Tb_place _ _ H) as Pl.
  destruct (passline n s1) as [[u1|[e|?|?| |]] a1] eqn:L1; try contradiction; cbn [snd] in G1.
  - assert (Ga : grows a1.(sy) F).
    { destruct (maineof (inp a1)); [subst s1'; exact G|]. pose proof (passloop_grows n a1) as X. rewrite E1 in X. exact (grows_trans _ _ _ X G). }
    specialize (P Ga). assert (Me : maineof (inp a1) = maineof (inp a2)) by exact (f_equal maineof (b_inp _ _ _ P)).
    assert (K1 : catch (passline n) s1 = (Ok (Some u1), a1)) by (unfold catch; rewrite L1; reflexivity).
    assert (K2 : catch (passline n) s2 = (Ok (Some u2), a2)) by (unfold catch; rewrite L2; reflexivity).
    destruct (maineof (inp a1)) eqn:M1; rewrite <- Me in E2.
    + subst s1' s2'. split; [exact (b_tables _ _ _ P)|]. split; [exact (b_em _ _ _ P)|]. intros l1 l2 S1 S2.
      rewrite (stations_stop _ _ _ _ _ S1 K1 M1), (stations_stop _ _ _ _ _ S2 K2 (eq_sym Me)). left. rewrite Pl. reflexivity.
    + assert (O1 : turn_ok n s1 a1) by (exists (Some u1); auto). assert (O2 : turn_ok n s2 a2) by (exists (Some u2); auto).
      destruct (IH a1 a2 s1' s2' P (straight_turn _ _ _ St O1) (steadily_turn _ _ _ _ Sd O1) (late_turn _ _ _ La O1) E1 E2 ltac:(lia) P1 G) as (A & B & C).
      split; [exact A|]. split; [exact B|]. intros l1 l2 S1 S2. destruct (stations_turn _ _ _ _ S1 O1) as (t1 & -> & Q1).
      destruct (stations_turn _ _ _ _ S2 O2) as (t2 & -> & Q2). destruct (C _ _ Q1 Q2) as [->|(p & ->)]; [left|right; exists p]; rewrite Pl; reflexivity.
  - set (b1 := set_ct (set_errnumber (errnumber (ct a1) + 1) (ct a1)) a1) in *.
    assert (Ga : grows a1.(sy) F).
    { pose proof (passloop_grows n b1) as X. rewrite E1 in X. exact (grows_trans _ _ _ X G). }
    assert (Lt : late e) by (apply La; exists n, s1, a1; split; [apply rounds_none|exact L1]).
    specialize (P Ga Lt). assert (Pb : Tb F b1 a2) by exact P.
    assert (K1 : catch (passline n) s1 = (Ok None, b1)) by (unfold catch; rewrite L1; reflexivity).
    assert (K2 : catch (passline n) s2 = (Ok (Some u2), a2)) by (unfold catch; rewrite L2; reflexivity).
    assert (Me : maineof (inp b1) = maineof (inp a2)) by exact (f_equal maineof (b_inp _ _ _ P)).
    assert (O1 : turn_ok n s1 b1) by (exists None; auto).
    destruct (maineof (inp a2)) eqn:M2.
    + subst s2'. destruct (blank_turn n b1 a2 tt s1' Pb Me E1) as (X1 & X2 & X3). rewrite X1, X2. split; [exact (b_tables _ _ _ Pb)|]. split; [exact (b_em _ _ _ Pb)|].
      intros l1 l2 S1 S2. rewrite (stations_stop _ _ _ _ _ S2 K2 M2). destruct (stations_turn _ _ _ _ S1 O1) as (t1 & -> & Q1).
      destruct X3 as (m & v & -> & X3 & X4). rewrite (stations_stop _ _ _ _ _ Q1 X3 X4). right. exists (place b1). rewrite Pl. reflexivity.
    + assert (O2 : turn_ok n s2 a2) by (exists (Some u2); auto).
      destruct (IH b1 a2 s1' s2' Pb (straight_turn _ _ _ St O1) (steadily_turn _ _ _ _ Sd O1) (late_turn _ _ _ La O1) E1 E2 ltac:(lia) P1 G) as (A & B & C).
      split; [exact A|]. split; [exact B|]. intros l1 l2 S1 S2. destruct (stations_turn _ _ _ _ S1 O1) as (t1 & -> & Q1).
      destruct (stations_turn _ _ _ _ S2 O2) as (t2 & -> & Q2). destruct (C _ _ Q1 Q2) as [->|(p & ->)]; [left|right; exists p]; rewrite Pl; reflexivity.
Qed.
End Run.

(** ** The first pass on its own *)
Lemma pass_hd : forall n s s', s.(inp).(srcs) = [] -> s.(fl).(a_relatif) = false -> straight n s -> passloop n s = (Ok tt, s') ->
  s'.(inp).(srcs) = [] /\ s'.(fl).(a_relatif) = false.
Proof.
  induction n as [|n IH]; intros s s' A B St E; [discriminate E|].
  apply passloop_turn in E. destruct E as (m & Em & E). injection Em as <-.
  destruct (linegets_main s A) as (t1 & c & r & e & L & _ & _ & _ & E1). destruct L as (Lf & _ & _ & Li & _).
  pose proof (fun q => St n s _ q (rounds_none _ _) E1) as Q.
  assert (X : (snd (passline n s)).(inp).(srcs) = [] /\ (snd (passline n s)).(fl).(a_relatif) = false).
  { set (a := set_inp _ t1) in *.
    assert (Aa : a.(inp).(srcs) = []) by exact A. assert (Ba : a.(fl).(a_relatif) = false) by (cbn; rewrite Lf; exact B).
    assert (Pa : passline n s = (f <- run n KLine true true ;; match f with FNone => ret tt | _ => err "ELSE, ENDC, ENDM, EXITM illegal here" end) a).
    { unfold passline. unfold bind at 1. rewrite E1. reflexivity. }
    rewrite Pa. clearbody a. unfold bind. destruct n as [|n]; [split; [exact Aa|exact Ba]|].
    pose proof (LayoutSrc.line_hd (run n) n a (fun q T => proj1 (Q q T))) as [H1 H2].
    change (asmline (run n) n true true a) with (run (S n) KLine true true a) in *.
    destruct (run (S n) KLine true true a) as [[f|b] a']; cbn [snd] in *; [|split; [congruence|auto]].
    destruct f; cbn [ret snd]; [split; [congruence|auto]|..].
    all: pose proof (LayoutSrc.H_error unit (s2l "ELSE, ENDC, ENDM, EXITM illegal here") a') as [H3 H4]; unfold err.
    all: split; [congruence|auto]. }
  destruct X as [X1 X2].
  destruct (passline n s) as [[u|[er|?|?| |]] s1] eqn:P; try contradiction; cbn [snd] in X1, X2.
  - destruct (maineof (inp s1)) eqn:M; [subst; auto|]. apply (IH s1); auto. eapply straight_turn; [exact St|].
    exists (Some u). unfold catch. rewrite P. auto.
  - refine (IH _ _ _ _ _ E); auto. eapply straight_turn; [exact St|]. exists None. unfold catch. rewrite P. auto.
Qed.
Lemma stations_exist : forall n s s', passloop n s = (Ok tt, s') -> exists l, stations n s l.
Proof.
  induction n as [|n IH]; intros s s' E; [discriminate E|].
  apply passloop_turn in E. destruct E as (m & Em & E). injection Em as <-.
  destruct (passline n s) as [[u|[er|?|?| |]] s1] eqn:P; try contradiction.
  - assert (C : catch (passline n) s = (Ok (Some u), s1)) by (unfold catch; rewrite P; reflexivity).
    destruct (maineof (inp s1)) eqn:M; [eexists; eapply stations_last; eassumption|]. destruct (IH _ _ E) as [l L].
    eexists. eapply stations_more; [exact C|right; exact M|exact L].
  - destruct (IH _ _ E) as [l L]. eexists. eapply stations_more; [unfold catch; rewrite P; reflexivity|left; reflexivity|exact L].
Qed.

(** ** The start of the second pass *)
Fixpoint tall (p : str -> label -> bool) (t : tree) : bool :=
  match t with Leaf => true | Node l k v r => tall p l && p k v && tall p r end.
Lemma tall_find : forall p t k l, tall p t = true -> tfind k t = Some l -> p k l = true.
Proof.
  intros p t k l. induction t as [|a IHa k' v b IHb]; cbn [tall tfind]; [discriminate|].
  intros H E. apply andb_prop in H. destruct H as [H H3]. apply andb_prop in H. destruct H as [H1 H2].
  destruct (strcmp k k') eqn:C; auto. injection E as <-. apply strcmp_eq in C. subst. exact H2.
Qed.
Definition keyword_ok (k : str) (l : label) : bool :=
  match l.(l_type), l.(l_table), l.(l_ptr) with
  | TMnemo, TPseudos, PFun HZBitop => false
  | TMnemo, TPseudos, PFun _ => true
  | _, _, _ => false
  end && negb l.(l_flags).(f_undef) && l.(l_flags).(f_noredef) && negb l.(l_flags).(f_forward) && negb (streq k starkey).

Lemma keywords_ok : tall keyword_ok KeepFacts.first_tree = true.
Proof. vm_compute. reflexivity. Qed.
Lemma keynames_there : forall k, keyname k -> tfind k KeepFacts.first_tree <> None.
Proof.
  intros k K. assert (A : forallb (fun k => match tfind k KeepFacts.first_tree with Some _ => true | None => false end)
    (map (fun e => lkey 0 (s2l (fst e))) pseudos) = true) by (vm_compute; reflexivity).
  rewrite forallb_forall in A. specialize (A k K). destruct (tfind k KeepFacts.first_tree); congruence.
Qed.
Lemma first_star : tfind starkey KeepFacts.first_tree = None.
Proof. vm_compute. reflexivity. Qed.
Lemma start_other : forall r t k, k <> starkey -> tfind k (startstar r t) = tfind k t.
Proof.
  intros r t k N. unfold startstar. rewrite !tfind_tupd_other by exact N. destruct (tfind starkey t); [reflexivity|].
  apply tfind_tins_other. exact N.
Qed.
Lemma start_star : forall r t, exists l, tfind starkey (startstar r t) = Some l /\
  l.(l_flags).(f_undef) = true /\ l.(l_flags).(f_forward) = false /\ l.(l_flags).(f_noredef) = false /\
  l.(l_table) = match tfind starkey t with Some l => l.(l_table) | None => TUser end.
Proof.
  intros r t. unfold startstar. rewrite !tfind_tupd_same. destruct (tfind starkey t) as [l|] eqn:E.
  - rewrite E. eexists. split; [reflexivity|]. repeat split.
  - rewrite tfind_tins_same by exact E. eexists. split; [reflexivity|]. repeat split.
Qed.
Lemma start_tables : forall F : final, grows (startstar false KeepFacts.first_tree) F ->
  tables F (startstar false KeepFacts.first_tree) (startstar false (tmap undef_node F)).
Proof.
  intros F G k. specialize (G k). split.
  - intros ->. destruct (start_star false KeepFacts.first_tree) as (l1 & E1 & U1 & W1 & N1 & T1).
    destruct (start_star false (tmap undef_node F)) as (l2 & E2 & U2 & W2 & N2 & T2). exists l1, l2. split; [exact E1|]. split; [exact E2|].
    rewrite E1 in G. destruct G as (l' & EF & B & _). rewrite tfind_tmap, EF in T2. cbn [option_map undef_node set_l_flags l_table] in T2.
    unfold starry. rewrite U1, U2, W1, W2, N1, N2. repeat split; try discriminate. congruence.
  - intros N. rewrite !start_other in * by exact N. rewrite tfind_tmap. destruct (tfind k KeepFacts.first_tree) as [l1|] eqn:E1.
    + pose proof (tall_find _ _ _ _ keywords_ok E1) as K. unfold keyword_ok in K.
      destruct G as (lF & EF & B1 & B2 & B3 & B4 & B5). rewrite EF.
      destruct (l_type l1) eqn:Ty; try discriminate K. destruct (l_table l1) eqn:Tb; try discriminate K. destruct (l_ptr l1) as [|h|] eqn:Pt; try discriminate K.
      assert (Kh : h <> HZBitop) by (intros ->; discriminate K).
      assert (K' : negb (f_undef (l_flags l1)) && f_noredef (l_flags l1) && negb (f_forward (l_flags l1)) = true).
      { destruct h; try discriminate K; apply andb_prop in K; destruct K as [K _]; exact K. }
      clear K. rewrite !andb_true_iff, !negb_true_iff in K'. destruct K' as [[U1 Nr] Fw]. rewrite U1.
      exists (undef_node lF). split; [reflexivity|].
      split; [|intros _; destruct (firm_fields _ _ (B5 N (conj U1 Nr))) as (_ & _ & A3 & _); cbn; congruence].
      pose proof (B5 N (conj U1 Nr)) as Fi. destruct (firm_fields _ _ Fi) as (A1 & A2 & A3 & A4 & A5 & A6). apply flag_fields in A5.
      destruct A5 as (F1 & F2 & F3 & F4 & F5 & F6 & F7).
      unfold samelab, undef_node. cbn [l_flags set_l_flags set_f_undef set_f_forward f_undef f_forward f_noredef l_type l_table l_modifier l_ptr l_value].
      rewrite A4, A1, Ty, Tb, F1, F2, F3, U1, Fw, Nr. cbn [table_eqb negb orb vals numeric].
      repeat match goal with |- _ /\ _ => split end; try congruence.
      all: try (rewrite A6 by congruence; congruence).
      all: try (intros X; congruence).
      intros _. repeat split; cbn; congruence.
    + destruct (tfind k F) as [lF|] eqn:EF; [|reflexivity]. exists (undef_node lF). split; [reflexivity|]. split; [reflexivity|].
      cbn. destruct (l_table lF) eqn:Tb; try reflexivity. elim (keynames_there k (G _ eq_refl Tb)). exact E1.
Qed.

(** ** The whole run *)
Definition closed : relation := always (fun s s' => s'.(emitted) = s.(emitted) /\ s'.(ct).(errnumber) = s.(ct).(errnumber) /\
  forall k, k <> starkey -> tfind k s'.(sy) = tfind k s.(sy)).
Lemma closed_lsteps : lsteps closed.
Proof.
  constructor; [constructor|..]; unfold closed, always; intros; try (repeat split; reflexivity).
  - assumption.
  - destruct H as (A1 & A2 & A3), H0 as (B1 & B2 & B3). split; [congruence|]. split; [congruence|]. intros k N. rewrite B3, A3; auto.
  - split; [reflexivity|]. split; [reflexivity|]. intros k N. cbn [sy set_sy]. apply tfind_tupd_other. exact N.
Qed.
Lemma finish_closed : pres closed _ finish.
Proof. apply finish_free; [exact closed_lsteps|..]; unfold closed, always; intros; repeat split; reflexivity. Qed.

Definition fresh_inp (m : str) (i : input) : input :=
  set_macrolevel 0 (set_thiscall 0 (set_segment 0 (set_includelevel 0 (set_linenumber 0 (set_lineprefix (cz 0) (set_mainrest m (set_maineof false i))))))).
Lemma fresh_same : forall m i j, i.(srcs) = [] -> j.(srcs) = [] -> set_curline [] (fresh_inp m i) = set_curline [] (fresh_inp m j).
Proof. intros m [] [] A B. cbn in A, B. subst. reflexivity. Qed.

Lemma init_facts : forall fs main s, init_label_list pseudos (init_state fs main) = (Ok tt, s) ->
  s.(inp).(srcs) = [] /\ s.(fl).(a_relatif) = false /\ s.(maintext) = main /\ s.(sy) = KeepFacts.first_tree /\ s.(emitted) = [].
Proof.
  intros fs main s E. rewrite KeepFacts.init_tree in E. assert (X : s = set_sy KeepFacts.first_tree (init_state fs main)) by congruence.
  generalize dependent KeepFacts.first_tree. intros t _ ->. repeat split.
Qed.
Lemma pass_eq : forall n k s, pass n k s = bind (passstart k) (fun _ => passloop n) s.
Proof. reflexivity. Qed.
Theorem layout_all : forall n o fs main b1 b2 s1 s,
  pass_starts n o fs main 1 b1 -> pass_starts n o fs main 2 b2 ->
  first n (init_state fs main) = (Ok tt, s1) -> assemble n o (init_state fs main) = (Ok tt, s) -> s.(ct).(errnumber) = 0 ->
  straight n b1 -> (forall e, complains n b1 e -> late e) -> forward_numbers s1.(sy) ->
  addresses 1 s1.(emitted) = addresses 2 s.(emitted) /\
  (exists l1 l2, stations n b1 l1 /\ stations n b2 l2 /\ (l1 = l2 \/ exists p, l1 = l2 ++ [p])) /\
  (forall k l1, k <> starkey -> tfind k s1.(sy) = Some l1 -> l1.(l_flags).(f_undef) = false ->
     exists l, tfind k s.(sy) = Some l /\ l.(l_flags).(f_undef) = false /\ l.(l_type) = l1.(l_type) /\
       (l1.(l_flags).(f_forward) = false \/ steadily n b1 k -> l.(l_value) = l1.(l_value))) /\
  (forall k, k <> starkey -> tfind k s1.(sy) = None -> tfind k s.(sy) = None).
Proof.
  intros n o fs main b1 b2 s1 s P1 P2 Ef Ea Z St La SF.
  destruct P1 as [(_ & s0 & I1 & I2)|(X & _)]; [|discriminate X]. destruct P2 as [(X & _)|(_ & s0' & s0'' & I3 & I4 & I5)]; [discriminate X|].
  rewrite Ef in I3. injection I3 as <-.
  assert (E1 : passloop n b1 = (Ok tt, s1)).
  { rewrite first_eq, (KeepFacts.bind_ok _ _ _ _ _ _ _ I1) in Ef. rewrite pass_eq, (KeepFacts.bind_ok _ _ _ _ _ _ _ I2) in Ef. exact Ef. }
  assert (Off1 := ObjRun.first_off n fs main). rewrite Ef in Off1. destruct Off1 as (Pn & _ & _ & _ & _ & Em2).
  rewrite assemble_split, (KeepFacts.bind_ok _ _ _ _ _ _ _ Ef), (KeepFacts.bind_ok _ _ _ _ _ _ _ I4) in Ea.
  apply EmitFacts.seq_ok in Ea. destruct Ea as (u & s2 & E2 & Ea). rewrite pass_eq, (KeepFacts.bind_ok _ _ _ _ _ _ _ I5) in E2. destruct u.
  assert (Cl := finish_closed s2). rewrite Ea in Cl. cbn [fst snd how] in Cl. destruct Cl as (C1 & C2 & C3).
  destruct (init_facts _ _ _ I1) as (J1 & J2 & J3 & J4 & J5). clear I1. rewrite passstart_eq in I2. injection I2 as I2.
  rewrite between_eq in I4. injection I4 as I4. rewrite passstart_eq in I5. injection I5 as I5.
  assert (Hs : s1.(inp).(srcs) = [] /\ s1.(fl).(a_relatif) = false).
  { apply (pass_hd n b1 s1); auto; rewrite <- I2; [exact J1|]. cbn [fl set_ct set_sy set_inp set_fl]. destruct (a_nolist (fl s0)); exact J2. }
  destruct Hs as [Hs1 Hs2].
  assert (Mt : s1.(maintext) = b1.(maintext)) by (pose proof (J_passloop _ JoinRun.world_walk n b1) as X; rewrite E1 in X; apply X).
  assert (Mb : b1.(maintext) = main) by (rewrite <- I2; exact J3).
  assert (Y1 : b1.(sy) = startstar false KeepFacts.first_tree) by (rewrite <- I2; cbn [sy set_ct set_sy]; rewrite J2, J4; reflexivity).
  assert (G : grows b1.(sy) s1.(sy)) by (pose proof (passloop_grows n b1) as X; rewrite E1 in X; exact X).
  assert (Y2 : b2.(sy) = startstar false (tmap undef_node s1.(sy))).
  { rewrite <- I5. cbn [sy set_ct set_sy]. rewrite <- I4. cbn [sy set_sy fl set_fl]. 
    destruct (ogiven (o_scode o)), (o_list o), (o_warn o); cbn; rewrite Hs2; reflexivity. }
  assert (Tb0 : Tb (mkFinal s1.(sy) (steadily n b1)) b1 b2).
  { constructor; cbn [coreof k_pass k_inp k_sy k_rel k_em].
    - rewrite <- I2. reflexivity.
    - rewrite <- I5. reflexivity.
    - assert (Q1 : inp b1 = fresh_inp main s0.(inp)) by (rewrite <- I2; cbn [inp set_ct set_sy set_inp]; rewrite J3; reflexivity).
      assert (Q2 : inp b2 = fresh_inp main s1.(inp)) by (rewrite <- I5, <- I4; cbn [inp set_ct set_sy set_inp set_fl maintext]; rewrite Mt, Mb; reflexivity).
      rewrite Q1, Q2. apply fresh_same; [exact J1|exact Hs1].
    - rewrite <- I2. exact J1.
    - rewrite <- I2. cbn [fl set_ct set_sy set_inp set_fl]. destruct (a_nolist (fl s0)); exact J2.
    - rewrite <- I5, <- I4. destruct (ogiven (o_scode o)), (o_list o), (o_warn o); cbn; try exact Hs2; destruct (a_nolist (fl s1)); exact Hs2.
    - rewrite Y1, Y2. apply start_tables. rewrite <- Y1. exact G.
    - assert (K1 : emitted b1 = []) by (rewrite <- I2; exact J5). assert (K2 : emitted b2 = emitted s1) by (rewrite <- I5, <- I4; reflexivity).
      rewrite K1, K2. assert (X : SpecObject.second_pass (emitted s1) = []) by (apply Em2; discriminate).
      unfold SpecObject.second_pass in X. rewrite CountFacts.filter_rev in X. apply (f_equal (@rev _)) in X. rewrite rev_involutive in X.
      unfold addresses. rewrite X. reflexivity.
    - rewrite <- I2. cbn [inp set_ct set_sy set_inp set_fl maineof set_macrolevel set_thiscall set_segment set_includelevel set_linenumber set_lineprefix set_mainrest set_maineof]. discriminate. }
  destruct (loop_pair (mkFinal s1.(sy) (steadily n b1)) SF n b1 b2 s1 s2 Tb0 St (fun _ X => X) La E1 E2) as (A & B & C).
  - rewrite <- I5. cbn. lia.
  - congruence.
  - apply grows_refl.
  - split; [rewrite C1; exact B|]. split.
    + destruct (stations_exist _ _ _ E1) as [l1 L1]. destruct (stations_exist _ _ _ E2) as [l2 L2]. exists l1, l2. split; [exact L1|]. split; [exact L2|]. exact (C _ _ L1 L2).
    + split; [|intros k N F1; destruct (A k) as [_ X]; specialize (X N); cbn [fin_tree] in X; rewrite F1 in X; rewrite (C3 _ N); exact X].
      intros k l1 N F1 U1. destruct (A k) as [_ X]. specialize (X N). rewrite F1, U1 in X. destruct X as (l2 & F2 & S & Sv).
      destruct S as (_ & S2 & S3 & _ & _ & _ & S7 & _). exists l2. rewrite (C3 _ N). split; [exact F2|]. split; [exact S2|]. split; [congruence|].
      intros [W|W]; [|symmetry; exact (Sv W)]. rewrite W in S7. symmetry. exact (vals_value _ _ _ _ _ _ _ S7).
Qed.
Theorem layout : forall n o fs main b1 b2 s1 s,
  pass_starts n o fs main 1 b1 -> pass_starts n o fs main 2 b2 ->
  first n (init_state fs main) = (Ok tt, s1) -> assemble n o (init_state fs main) = (Ok tt, s) -> s.(ct).(errnumber) = 0 ->
  straight n b1 -> (forall e, complains n b1 e -> late e) -> forward_numbers s1.(sy) ->
  addresses 1 s1.(emitted) = addresses 2 s.(emitted) /\
  (exists l1 l2, stations n b1 l1 /\ stations n b2 l2 /\ (l1 = l2 \/ exists p, l1 = l2 ++ [p])) /\
  (forall k l1, k <> starkey -> tfind k s1.(sy) = Some l1 -> l1.(l_flags).(f_undef) = false ->
     exists l, tfind k s.(sy) = Some l /\ l.(l_flags).(f_undef) = false /\ l.(l_type) = l1.(l_type) /\
       (l1.(l_flags).(f_forward) = false \/ steadily n b1 k -> l.(l_value) = l1.(l_value))).
Proof.
  intros n o fs main b1 b2 s1 s P1 P2 Ef Ea Z St La SF.
  destruct (layout_all n o fs main b1 b2 s1 s P1 P2 Ef Ea Z St La SF) as (A & B & C & _). auto.
Qed.
