(** A line without instruction between two lines of a program.  Nothing here is part of the model. *)
From Coq Require Import String Ascii ZArith List Bool Lia.
From Verif Require Import Base BaseFacts State Tree Filter Output Label Scode Tables Cpu6800 Macro Crasm.
From Verif Require Import SpecJoin Walk Frame Run CountFacts KeepFacts FuelFacts JoinFacts JoinFeed JoinLine JoinRun JoinProg CpuFacts.
Import ListNotations.
Open Scope Z_scope.

(** ** The start of a line, twice *)
Definition begun (s s' : state) : Prop :=
  s'.(ct) = set_bufferpos 0 (set_advance 0 s.(ct)) /\ s'.(sy) = s.(sy) /\ s'.(fl) = set_a_org_gv (negb (starundef s)) s.(fl) /\
  (starundef s = false -> s'.(wr).(pc) = u64 (starvalue s)).
Lemma linestart_begun : forall s u s', linestart s = (Ok u, s') -> begun s s'.
Proof.
  intros s u s' E. unfold linestart in E. step E u0 s0 E0. unfold upd_ct, modify in E0. injection E0 as <- <-.
  step E x s0 E0. cbn [gets] in E0. injection E0 as <- <-.
  step E u1 s1 E1. unfold zerobuffer, upd_ct, modify in E. injection E as <- <-. unfold begun. cbn [ct sy fl wr set_ct].
  change (starundef (set_ct (set_advance 0 (ct s)) s)) with (starundef s) in E1.
  change (starvalue (set_ct (set_advance 0 (ct s)) s)) with (starvalue s) in E1.
  destruct (starundef s).
  - unfold upd_fl, modify in E1. injection E1 as <- <-. repeat split. discriminate.
  - step E1 u2 s2 E2. unfold upd_fl, modify in E2. injection E2 as <- <-. unfold setpc in E1. cbv zeta in E1.
    step E1 p s3 E3. cbn [gets] in E3. injection E3 as <- <-.
    destruct (u64 (starvalue s) =? _) eqn:Q.
    + injection E1 as <- <-. repeat split. intros _. symmetry. apply Z.eqb_eq. exact Q.
    + step E1 u3 s3 E3. step E1 u4 s4 E4. unfold upd_wr, modify in E4. injection E4 as <- <-.
      step E1 u5 s5 E5. unfold upd_wr, modify in E5. injection E5 as <- <-. unfold upd_wr, modify in E1. injection E1 as <- <-.
      cbn [ct sy fl wr set_wr set_raw set_rawstart set_pc pc]. unfold flushscoderaw in E3. step E3 y s4 E4. cbn [gets] in E4. injection E4 as <- <-. cbv zeta in E3.
      step E3 u4 s4 E4. step E3 u5 s5 E5. unfold upd_wr, modify in E5, E3. injection E5 as <- <-. injection E3 as <- <-.
      assert (W : forall t a b z z', scwrite t a = (Ok z, b) -> z' = b -> ct z' = ct a /\ sy z' = sy a /\ fl z' = fl a).
      { intros t a b z z' H ->. unfold scwrite in H. step H x9 r1 H1. cbn [gets] in H1. injection H1 as <- <-. destruct (scode _); [|discriminate H].
        unfold upd_wr, modify in H. injection H as <- <-. repeat split. }
      cbn [ct sy fl set_wr].
      assert (K : ct s4 = set_advance 0 (ct s) /\ sy s4 = sy s /\ fl s4 = set_a_org_gv true (fl s)).
      { destruct (raw _); [injection E4 as <- <-; repeat split|]. destruct (a_code_hex _).
        - step E4 u6 s6 E6. destruct (negb _).
          + step E6 u7 s7 E7. unfold upd_wr, modify in E6. injection E6 as <- <-.
            destruct (W _ _ _ _ _ E7 eq_refl) as (A1 & A2 & A3). destruct (W _ _ _ _ _ E4 eq_refl) as (B1 & B2 & B3).
            rewrite B1, B2, B3. cbn [ct sy fl set_wr]. rewrite A1, A2, A3. repeat split.
          + injection E6 as <- <-. destruct (W _ _ _ _ _ E4 eq_refl) as (B1 & B2 & B3). rewrite B1, B2, B3. repeat split.
        - destruct (W _ _ _ _ _ E4 eq_refl) as (B1 & B2 & B3). rewrite B1, B2, B3. repeat split. }
      destruct K as (K1 & K2 & K3). rewrite K1, K2, K3. repeat split.
Qed.
Lemma linestart_again : forall s u s', linestart s = (Ok u, s') -> linestart s' = (Ok tt, s').
Proof.
  intros s u s' E. apply linestart_begun in E. destruct E as (Ec & Ey & Ef & Ep).
  assert (Su : starundef s' = starundef s) by (unfold starundef, star; rewrite Ey; reflexivity).
  assert (Sv : starvalue s' = starvalue s) by (unfold starvalue, star; rewrite Ey; reflexivity).
  unfold linestart, bind, upd_ct, upd_fl, zerobuffer, upd_ct, modify. cbn [gets].
  change (starundef (set_ct (set_advance 0 (ct s')) s')) with (starundef s').
  change (starvalue (set_ct (set_advance 0 (ct s')) s')) with (starvalue s').
  assert (Z : set_ct (set_bufferpos 0 (set_advance 0 (ct s'))) s' = s').
  { assert (Q : set_bufferpos 0 (set_advance 0 (ct s')) = ct s') by (rewrite Ec; reflexivity). rewrite Q. destruct s'; reflexivity. }
  rewrite Su, Sv. destruct (starundef s) eqn:U; cbn [negb] in Ef.
  - f_equal. etransitivity; [|exact Z].
    assert (F : set_a_org_gv false (fl s') = fl s') by (rewrite Ef; destruct (fl s); reflexivity).
    cbn [fl set_ct ct]. rewrite F. destruct s'; reflexivity.
  - assert (F : set_a_org_gv true (fl s') = fl s') by (rewrite Ef; destruct (fl s); reflexivity).
    unfold setpc, bind. cbv zeta. cbn [gets fl set_ct]. rewrite F. change (pc (wr (set_fl (fl s') (set_ct (set_advance 0 (ct s')) s')))) with (pc (wr s')).
    rewrite (Ep eq_refl), Z.eqb_refl. etransitivity; [|exact (f_equal (pair (Ok tt)) Z)]. destruct s'; reflexivity.
Qed.
Lemma run_again : forall n li ex s u s', linestart s = (Ok u, s') -> run (S n) KLine li ex s = run (S n) KLine li ex s'.
Proof.
  intros n li ex s u s' E. change (run (S n) KLine li ex) with (asmline (run n) n li ex).
  pose proof (linestart_again _ _ _ E) as E'. destruct u. unfold asmline. etransitivity; [exact (bind_ok _ _ _ _ _ _ _ E)|symmetry; exact (bind_ok _ _ _ _ _ _ _ E')].
Qed.

(** ** The rest of the pass *)
Lemma blur_put : forall s, blur s = put (curline (inp s)) (maineof (inp s)) (bare s).
Proof. reflexivity. Qed.
Lemma put_put : forall c e c' e' s, put c e (put c' e' s) = put c e s.
Proof. reflexivity. Qed.
Lemma loop_after : forall n s t x x', linestart x = (Ok tt, x') -> bare x = put [] false (blur s) -> bare t = bare x' ->
  fetch (place_of s) = fetch (place_of t) -> close0 pend (passloop n s) (passloop n t).
Proof.
  intros [|n] s t x x' Ex Bx Bt Fe; [exact Logic.I|]. cbn [passloop].
  eapply close0_bind; [reflexivity|reflexivity|..].
  2:{ intros r s1 t1 V1. apply (pend_close unit (match r with None => passloop n | Some _ => e <- mainfeof ;; if e : bool then ret tt else passloop n end)); [|exact V1].
      destruct r; [|apply (J_passloop _ pend_walk)]. apply (w_look _ pend_walk); [reflexivity|]. intros []; [apply (w_ret _ pend_walk)|apply (J_passloop _ pend_walk)]. }
  eapply close0_catch; [reflexivity|reflexivity|]. unfold passline.
  set (K := fun _ : unit => f <- run n KLine true true ;; match f with FNone => ret tt | _ => err "ELSE, ENDC, ENDM, EXITM illegal here" end).
  assert (JK : J pend 0 unit (K tt)).
  { apply (w_bind _ pend_walk); [apply (J_run _ pend_walk)|]. intros []; first [apply (w_ret _ pend_walk)|apply (w_error _ pend_walk)]. }
  change (close0 pend (bind linegets K s) (bind linegets K t)).
  pose proof (linegets_is s) as Gs. pose proof (linegets_is t) as Gt. unfold bind.
  destruct (linegets s) as [[[]|b] s1], (linegets t) as [[[]|b'] t1]; cbn [got] in Gs, Gt.
  - destruct Gs as (c & Hc & B1 & P1), Gt as (c' & Hc' & B2 & P2). rewrite <- Fe in Hc', B2, P2. rewrite Hc in Hc'. injection Hc' as <-.
    set (e := snd (snd (fetch (place_of s)))) in *.
    assert (C1 : curline (inp s1) = c) by exact (f_equal (fun x => curline (inp x)) B1).
    assert (E1 : maineof (inp s1) = e) by exact (f_equal (fun x => maineof (inp x)) B1).
    destruct n as [|n]; [exact Logic.I|].
    set (x2 := set_inp (set_maineof e (inp x)) x).
    assert (Q : bare s1 = bare x2).
    { unfold bare at 1. rewrite B1, E1, put_put. change (bare x2) with (put [] e (bare x)). rewrite Bx. reflexivity. }
    pose proof (linestart_bare s1 x2 Q) as L. pose proof (linestart_bare x x eq_refl) as Lx. rewrite Ex in Lx. destruct Lx as (_ & _ & _ & Ix & _).
    unfold x2 in L at 1. rewrite com_linestart, Ex in L. cbn [fst snd] in L.
    destruct (linestart s1) as [[[]|b] s1'] eqn:Es.
    + destruct L as (L1 & L2 & _ & L3 & _).
      assert (V : like pend s1' t1).
      { split.
        - rewrite (blur_put s1'), L3, C1, E1, L1, B2. change (blur t) with (put (curline (inp t)) (maineof (inp t)) (bare t)). rewrite Bt, put_put.
          change (put c e (put [] e (blur (set_inp (inp x2) x'))) = put c e (put [] (maineof (inp x')) (blur x'))). rewrite !put_put.
          unfold put, blur, x2. cbn [inp set_inp maineof set_maineof curline macrolevel thiscall segment fl wr sy ct cp files emitted reported looked]. rewrite Ix. reflexivity.
        - rewrite L2, P1, P2. apply PAfter. }
      change (close0 pend (K tt s1) (K tt t1)).
      assert (R : K tt s1 = K tt s1').
      { unfold K, bind. rewrite (run_again n true true s1 tt s1' Es). reflexivity. }
      rewrite R. apply pend_close; assumption.
    + assert (R : K tt s1 = (Bad b, s1')).
      { unfold K, bind. change (run (S n) KLine true true) with (asmline (run n) n true true). unfold asmline, bind at 1. rewrite Es. reflexivity. }
      change (close0 pend (K tt s1) (K tt t1)). rewrite R. destruct b; [contradiction|exact Logic.I..].
  - destruct b'; try contradiction; match goal with |- close0 _ ?x _ => destruct x as [[?|[]] ?]; exact Logic.I end.
  - destruct b; try contradiction; exact Logic.I.
  - destruct b, b'; try contradiction; exact Logic.I.
Qed.

Lemma rounds_steady : forall n s m s', rounds n s m s' -> zlen (mainrest (inp s')) <= zlen (mainrest (inp s)).
Proof.
  intros n s m s' R. induction R as [|n s r s1 m s2 E _ _ IH]; [lia|].
  pose proof (w_catch _ steady_walk _ _ (J_passline _ steady_walk n) s) as [Q _]. rewrite E in Q. cbn [snd] in Q. lia.
Qed.

Section Idle.
Variables (C B : str).
Hypothesis HC : idle_line C.
Hypothesis LC : (List.length C <= 248)%nat.
Hypothesis NB : B <> [].
Notation Y := (C ++ nl :: B).

Lemma round_idle : forall n t, dropped (map rough (srcs (inp t))) = [] -> mainrest (inp t) = Y ->
  ends (passline n) t (fun _ t2 => exists t1 t1', bare t1 = put [] false (blur t) /\ linestart t1 = (Ok tt, t1') /\ bare t2 = bare t1' /\
    place_of t2 = ([], B, false)).
Proof.
  intros n s Ds Ms. unfold passline. apply ends_bind. destruct HC as [Pc (w & Bw & Cw)].
  assert (KC : Forall (fun c => keepchar c = true) C) by (eapply Forall_impl; [|exact Pc]; intros c H; apply plain_keep; exact H).
  pose proof (whole_line s C B Ds Ms LC KC) as Ls. unfold ends in Ls. unfold ends at 1.
  destruct (linegets s) as [[u|b] s1]; [|exact Ls]. destruct Ls as [B1 P1].
  assert (C1 : curline (inp s1) = C) by exact (f_equal (fun x => curline (inp x)) B1).
  assert (A1 : bare s1 = put [] false (blur s)).
  { unfold bare. rewrite B1. rewrite (f_equal snd P1 : maineof (inp s1) = false). reflexivity. }
  apply ends_bind. destruct n as [|n]; [exact Logic.I|]. change (run (S n) KLine true true) with (asmline (run n) n true true).
  pose proof (linestart_bare s1 s1 eq_refl) as Q. destruct (linestart s1) as [[[]|b] s1'] eqn:Es.
  2:{ unfold ends, asmline, bind at 1. rewrite Es. destruct b; auto. }
  assert (LC' := LC). rewrite <- C1 in Cw, LC'.
  pose proof (line_idle (run n) n true s1 s1' w Es Bw Cw) as Z.
  assert (Z0 : zlen (curline (inp s1)) <= 249) by (unfold zlen; lia). specialize (Z Z0). unfold ends in Z |- * at 1.
  destruct (asmline (run n) n true true s1) as [[f|b] s2]; [|exact Z]. destruct Z as (-> & Z1 & Z2).
  eapply ends_step; [reflexivity|]. exists s1, s1'. split; [exact A1|]. split; [exact Es|]. split; [exact Z1|].
  rewrite Z2. destruct Q as (_ & Q & _). rewrite Q. exact P1.
Qed.

Definition meet (n : nat) (s t : state) : Prop :=
  forall s2 t2, passloop n s = (Ok tt, s2) -> passloop n t = (Ok tt, t2) -> like pend s2 t2.

Lemma loop_idle : forall n s t, blur s = blur t -> dropped (map rough (srcs (inp s))) = [] -> dropped (map rough (srcs (inp t))) = [] ->
  mainrest (inp s) = B -> mainrest (inp t) = Y -> meet n s t.
Proof.
  intros [|n] s t E Ds Dt Ms Mt s2 t2 Es Et; [discriminate Es|].
  cbn [passloop] in Et. unfold bind, catch in Et.
  pose proof (round_idle n t Dt Mt) as R. unfold ends in R. destruct (passline n t) as [[u|b] t1]; [|destruct b; try contradiction; discriminate Et].
  destruct R as (x & x' & X1 & X2 & X3 & X4). unfold mainfeof in Et. cbn [gets] in Et. rewrite (f_equal snd X4 : maineof (inp t1) = false) in Et.
  pose proof (below_passloop n (S n) (Nat.le_succ_diag_r n) t1) as Bl. destruct Bl as [Bl|Bl]; [rewrite Et in Bl; discriminate Bl|]. rewrite Et in Bl.
  rewrite <- E in X1.
  assert (Fe : fetch (place_of s) = fetch (place_of t1)).
  { rewrite X4. unfold fetch, place_of. rewrite Ds, Ms. reflexivity. }
  pose proof (loop_after (S n) s t1 x x' X2 X1 X3 Fe) as K. rewrite Es, <- Bl in K. exact (proj2 K).
Qed.
Lemma before_idle : forall n s m s', rounds n s m s' -> mainrest (inp s') = B -> Forall file_done (srcs (inp s')) ->
  forall t, blur s = blur t -> fore B Y (place_of s) (place_of t) -> meet n s t.
Proof.
  intros n s m s' R Ms Ds. induction R as [n s|n s r s1 m s2 E Q R IH]; intros t V W.
  - destruct W as (l & a & Ps & Pt & _).
    assert (a = []) as ->.
    { injection Ps as _ Ps _. rewrite Ms in Ps. apply (f_equal (@List.length ascii)) in Ps. rewrite !app_length in Ps. destruct a; [reflexivity|cbn in Ps; lia]. }
    injection Ps as Ps1 Ps2 _. injection Pt as Pt1 Pt2 _. apply loop_idle; auto; rewrite ?Pt1, <- ?Ps1; apply done_rough; exact Ds.
  - pose proof (join_walk (fore B Y) (zlen B) (fore_fetch B Y NB) (fore_eof B Y) (fore_push B Y)) as JW.
    pose proof (proj1 (w_catch _ JW _ _ (J_passline _ JW n)) s t (conj V W)) as Cl. rewrite E in Cl.
    destruct Cl as [Sh|Cl].
    { exfalso. unfold JoinFacts.short in Sh. cbn [snd] in Sh. pose proof (rounds_steady _ _ _ _ R). rewrite Ms in *. lia. }
    intros s3 t3 Es Et. cbn [passloop] in Es, Et. unfold bind at 1 in Es. rewrite E in Es. unfold bind at 1 in Et.
    destruct (catch (passline n) t) as [[r'|b'] t1] eqn:Ec; cbn [close0] in Cl; [|discriminate Et].
    destruct Cl as [<- [V1 W1]]. specialize (IH Ms Ds t1 V1 W1).
    assert (Ee : maineof (inp s1) = maineof (inp t1)) by exact (f_equal (fun x => maineof (inp x)) V1).
    destruct r as [u|]; [|exact (IH s3 t3 Es Et)]. destruct Q as [Q|Q]; [discriminate Q|]. unfold bind, mainfeof in Es, Et. cbn [gets] in Es, Et.
    rewrite <- Ee, Q in Et. rewrite Q in Es. exact (IH s3 t3 Es Et).
Qed.
End Idle.

Section Program.
Variables (n : nat) (o : options) (fs : str -> option str) (A C B : str).
Hypothesis HC : idle_line C.
Hypothesis LC : (List.length C <= 248)%nat.
Hypothesis NB : B <> [].
Hypothesis CA : closed A.
Notation Y := (C ++ nl :: B).

Lemma one_pass : forall s t, blur s = blur t -> map rough (srcs (inp s)) = map rough (srcs (inp t)) ->
  maintext s = A ++ B -> maintext t = A ++ Y -> forall k s2 t2,
  comes_to n (started k s) B -> passloop n (started k s) = (Ok tt, s2) -> passloop n (started k t) = (Ok tt, t2) ->
  blur s2 = blur t2 /\ place_of s2 = place_of t2.
Proof.
  intros s t V R Ms Mt k s2 t2 (m & s' & Ro & Mr & Dn) E E'.
  assert (W : fore B Y (place_of (started k s)) (place_of (started k t))).
  { rewrite !place_started, Ms, Mt, R. exists (map rough (srcs (inp t))), A. auto. }
  destruct (before_idle C B HC LC NB n _ m s' Ro Mr Dn _ (blur_started k s t V) W s2 t2 E E') as [V2 W2].
  split; [exact V2|]. exact (pend_over _ _ W2 (loop_eof _ _ _ E)).
Qed.
Lemma both_passes : forall s t,
  (forall k s0, pass_starts n o fs (A ++ B) k s0 -> comes_to n s0 B) ->
  assemble n o (init_state fs (A ++ B)) = (Ok tt, s) -> assemble n o (init_state fs (A ++ Y)) = (Ok tt, t) -> blur s = blur t.
Proof.
  intros s t Q E E'. rewrite start_body in E, E'.
  apply body_parts in E. destruct E as (s2 & s4 & E1 & E2 & E3). apply body_parts in E'. destruct E' as (t2 & t4 & T1 & T2 & T3).
  destruct (start_facts fs (A ++ B) (A ++ Y)) as (S1 & S2 & S3 & S4). destruct (start_facts fs (A ++ Y) (A ++ B)) as (_ & _ & S5 & S6).
  pose proof (start_init fs (A ++ B)) as S8. pose proof (start_first n fs (A ++ B)) as S9. rewrite E1 in S9.
  set (s0 := start fs (A ++ B)) in *. set (t0 := start fs (A ++ Y)) in *.
  assert (C1 : comes_to n (started 1 s0) B).
  { apply (Q 1). left. split; [reflexivity|]. exists s0. split; [exact S8|apply passstart_is]. }
  assert (S2' : map rough (srcs (inp s0)) = map rough (srcs (inp t0))) by (rewrite S2; reflexivity).
  destruct (one_pass s0 t0 S1 S2' S3 S5 1 s2 t2 C1 E1 T1) as [V2 P2].
  pose proof (J_passloop _ world_walk n (started 1 s0)) as Ws. rewrite E1 in Ws. cbn [snd] in Ws.
  pose proof (J_passloop _ world_walk n (started 1 t0)) as Wt. rewrite T1 in Wt. cbn [snd] in Wt.
  assert (C2 : comes_to n (turned o s2) B).
  { apply (Q 2). right. split; [reflexivity|]. exists s2, (snd (between o s2)). split; [exact S9|]. split; [apply between_is|apply passstart_is]. }
  assert (V4 : blur s4 = blur t4).
  { unfold turned in *. destruct (world_between o s2) as [X1 X2]. destruct (world_between o t2) as [X3 X4]. destruct Ws as [X5 X6]. destruct Wt as [X7 X8].
    destruct (world_started 1 s0) as [X9 X10]. destruct (world_started 1 t0) as [_ X12].
    refine (proj1 (one_pass (snd (between o s2)) (snd (between o t2)) (blur_between o s2 t2 V2) _ _ _ 2 s4 t4 C2 E2 T2)).
    - rewrite !between_srcs. exact (f_equal (fun p => fst (fst p)) P2).
    - rewrite X2, X6, X10. exact S3.
    - rewrite X4, X8, X12. exact S5. }
  pose proof (finish_like s4 t4 (conj V4 Logic.I)) as Cl. rewrite E3, T3 in Cl. destruct Cl as [_ [V _]]. exact V.
Qed.
End Program.

Theorem idle_inserted : forall n n' o fs A C B s t,
  (A = [] \/ exists a, A = a ++ [newline]) -> idle_line C -> (List.length C <= 248)%nat -> B <> [] ->
  (forall k s0, pass_starts n o fs (A ++ B) k s0 -> comes_to n s0 B) ->
  assemble n o (init_state fs (A ++ B)) = (Ok tt, s) ->
  assemble n' o (init_state fs (A ++ C ++ newline :: B)) = (Ok tt, t) ->
  same_outcome s t /\ leftover o s = leftover o t.
Proof.
  intros n n' o fs A C B s t CA HC LC NB Q E E'.
  assert (V : blur s = blur t).
  { pose proof (Nat.le_max_l n n') as Le. pose proof (Nat.le_max_r n n') as Le'. set (N := Nat.max n n') in *.
    apply (both_passes N o fs A C B HC LC NB CA).
    - exact (comes_budget n o fs _ _ (assemble_first _ _ _ _ E) Q N Le).
    - apply (assemble_budget n N _ _ _ _ Le E). discriminate.
    - apply (assemble_budget n' N _ _ _ _ Le' E'). discriminate. }
  split; [apply blur_outcome; exact V|].
  assert (W : wr s = wr t) by exact (f_equal wr V). assert (Er : errnumber (ct s) = errnumber (ct t)) by exact (f_equal (fun x => errnumber (ct x)) V).
  unfold leftover. rewrite W, Er. reflexivity.
Qed.
