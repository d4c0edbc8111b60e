(** An INCLUDE line against the text of its file.  Nothing here is part of the model. *)
From Coq Require Import String Ascii ZArith List Bool Lia.
From Verif Require Import Base BaseFacts State Tree Filter Output Label Scode Tables Cpu6800 Macro Crasm.
From Verif Require Import SpecJoin Walk Frame Run CountFacts KeepFacts FuelFacts JoinFacts JoinFeed JoinLine.
Import ListNotations.
Open Scope Z_scope.

(** ** The start of a line does not see where the line comes from *)
Definition com {A} (m : M A) : Prop := forall i s, m (set_inp i s) = (fst (m s), set_inp i (snd (m s))).
Lemma com_ret : forall A (a : A), com (ret a).
Proof. intros A a i s. reflexivity. Qed.
Lemma com_stop : forall A b, com (@stop A b).
Proof. intros A b i s. reflexivity. Qed.
Lemma com_bind : forall A B (m : M A) (k : A -> M B), com m -> (forall a, com (k a)) -> com (bind m k).
Proof. intros A B m k H K i s. unfold bind. rewrite H. destruct (m s) as [[a|b] s1]; cbn [fst snd]; [apply K|reflexivity]. Qed.
Lemma com_look : forall A B (f : state -> A) (k : A -> M B), (forall i s, k (f (set_inp i s)) = k (f s)) -> (forall a, com (k a)) -> com (bind (gets f) k).
Proof. intros A B f k E H i s. unfold bind. cbn [gets]. rewrite E. apply H. Qed.
Lemma com_modify : forall g, (forall i s, g (set_inp i s) = set_inp i (g s)) -> com (modify g).
Proof. intros g H i s. unfold modify. cbn [fst snd]. rewrite H. reflexivity. Qed.
Ltac com1 := lazymatch goal with
  | |- com (bind (gets _) _) => apply com_look; [intros; reflexivity|intros]
  | |- com (bind _ _) => apply com_bind; [|intros]
  | |- com (ret _) => apply com_ret
  | |- com (stop _) => apply com_stop
  | |- com (upd_wr _) => unfold upd_wr
  | |- com (upd_fl _) => unfold upd_fl
  | |- com (upd_ct _) => unfold upd_ct
  | |- com (modify _) => apply com_modify; intros; reflexivity
  | |- com (match ?x with _ => _ end) => destruct x
  | |- com zerobuffer => unfold zerobuffer
  | |- com (scwrite _) => unfold scwrite
  | |- com flushscoderaw => unfold flushscoderaw
  | |- com (setpc _) => unfold setpc
  | |- com linestart => unfold linestart
  end.
Lemma com_linestart : com linestart.
Proof. repeat (com1; cbv beta zeta). Qed.
Lemma linestart_bare : forall s t, bare s = bare t ->
  match linestart s, linestart t with
  | (Ok _, s'), (Ok _, t') => bare s' = bare t' /\ place_of s' = place_of s /\ place_of t' = place_of t /\ s'.(inp) = s.(inp) /\ t'.(inp) = t.(inp)
  | (Bad (Err _), _), _ | _, (Bad (Err _), _) => False
  | _, _ => True
  end.
Proof.
  intros s t E.
  assert (U : forall x, match linestart x with (Ok _, x') => inp x' = inp x | (Bad (Err _), _) => False | _ => True end).
  { intros x. pose proof (com_linestart (inp x) x) as C. pose proof (CallFacts.quietly_linestart x) as [D _].
    assert (X : set_inp (inp x) x = x) by (destruct x; reflexivity). rewrite X in C. destruct (linestart x) as [[u|[]] x']; cbn [fst snd how] in *; auto.
    - injection C as C. rewrite C. reflexivity. }
  pose proof (U s) as Us. pose proof (U t) as Ut.
  set (t0 := set_inp (set_curline (curline (inp s)) (inp t)) t).
  assert (Bt : blur s = blur t0).
  { assert (Q : put (curline (inp s)) (maineof (inp (blur s))) (bare s) = put (curline (inp s)) (maineof (inp (blur s))) (bare t)) by (rewrite E; reflexivity).
    assert (W : maineof (inp s) = maineof (inp t)) by exact (f_equal (fun x => maineof (inp x)) E).
    change (blur s = put (curline (inp s)) (maineof (inp (blur s))) (bare t)) in Q. rewrite Q.
    change (maineof (inp (blur s))) with (maineof (inp s)). rewrite W. reflexivity. }
  assert (Lk : like (fun _ _ => True) s t0) by (split; [exact Bt|exact Logic.I]).
  pose proof (i_linestart (fun _ _ => True) s t0 Lk) as C. unfold t0 in C. rewrite com_linestart in C.
  destruct (linestart s) as [[u|b] s'], (linestart t) as [[v|b'] t']; cbn [fst snd close0] in C.
  - destruct C as [_ [C _]]. repeat split; auto.
    + unfold bare. assert (X : maineof (inp s') = maineof (inp t')) by (rewrite Us, Ut; exact (f_equal (fun x => maineof (inp x)) E)).
      rewrite X, C, <- Ut. reflexivity.
    + unfold place_of. rewrite Us. reflexivity.
    + unfold place_of. rewrite Ut. reflexivity.
  - destruct b'; auto.
  - destruct b; auto.
  - destruct b; auto; destruct b'; auto.
Qed.

(** ** One line of the source file *)
Lemma done_rough : forall l, Forall file_done l -> dropped (map rough l) = [].
Proof. induction l as [|[[] a b c d e|a b c d e f] l IH]; intros H; inversion H; subst; auto; contradiction. Qed.
Lemma keep_nonl : forall l, Forall (fun c => keepchar c = true) l -> Forall (fun c => (zc c =? 10) = false) l.
Proof.
  intros l H. eapply Forall_impl; [|exact H]. intros c K. cbv beta in *. destruct (zc c =? 10) eqn:E; [|reflexivity]. exfalso.
  assert (X : zc c = 10) by lia. unfold keepchar, isprint, isascii in K. rewrite X in K. discriminate K.
Qed.
Lemma whole_line : forall s L B, dropped (map rough (srcs (inp s))) = [] -> mainrest (inp s) = L ++ nl :: B ->
  (List.length L <= 248)%nat -> Forall (fun c => keepchar c = true) L ->
  ends linegets s (fun _ s1 => blur s1 = put L false (blur s) /\ place_of s1 = ([], B, false)).
Proof.
  intros s L B D M Le K. pose proof (linegets_is s) as G. unfold ends. destruct (linegets s) as [[u|b] s1]; cbn [got] in G; [|destruct b; auto].
  unfold fetch, place_of in G. rewrite D, M in G. rewrite (fgets_line 249 L B) in G; [|lia|apply keep_nonl; exact K].
  cbn [fst snd cur_of] in G. rewrite (uptonl_line L K), (keep_all L K) in G. destruct G as (c & [= <-] & G1 & G2). auto.
Qed.

Lemma plain_keep : forall c, plain c -> keepchar c = true.
Proof.
  intros c [-> |H]; [reflexivity|]. unfold keepchar, isprint. assert (X : zc c = Z.of_N (N_of_ascii c)) by reflexivity.
  rewrite X. destruct (_ =? 9); [reflexivity|]. destruct ((32 <=? Z.of_N (N_of_ascii c)) && (Z.of_N (N_of_ascii c) <=? 126)) eqn:E; [reflexivity|lia].
Qed.
Lemma include_keep : forall L name, include_line L name -> Forall (fun c => keepchar c = true) L.
Proof.
  intros L name (w1 & k & w2 & -> & B1 & U & B2 & _ & _ & _ & _ & P & _).
  apply Forall_app. split.
  - eapply Forall_impl; [|exact B1]. intros c H. destruct (blank_class c H) as (_ & _ & X & _). exact X.
  - apply Forall_app. split; [eapply Forall_impl; [|exact (letter_free k U)]; intros c H; apply (letter_class c H)|].
    apply Forall_app. split; [eapply Forall_impl; [|exact B2]; intros c H; destruct (blank_class c H) as (_ & _ & X & _); exact X|].
    eapply Forall_impl; [|exact P]. intros c H. apply plain_keep. exact H.
Qed.

Section Include.
Variables (L C name F B : str).
Hypothesis HL : include_line L name.
Hypothesis LL : (List.length L <= 248)%nat.
Hypothesis HC : idle_line C.
Hypothesis LC : (List.length C <= 248)%nat.
Notation X := (L ++ nl :: B).
Notation Y := (C ++ nl :: F ++ nl :: B).

Lemma round_left : forall n s, dropped (map rough (srcs (inp s))) = [] -> mainrest (inp s) = X -> kept s -> files s name = Some F ->
  ends (passline n) s (fun _ s2 => exists s1 s1', bare s1 = put [] false (blur s) /\ linestart s1 = (Ok tt, s1') /\ bare s2 = bare s1' /\
    place_of s2 = ([SFile false F false false (cz 0) 0], B, false)).
Proof.
  intros n s Ds Ms K Fi. unfold passline. apply ends_bind.
  pose proof (whole_line s L B Ds Ms LL (include_keep _ _ HL)) as Ls. unfold ends in Ls. unfold ends at 1.
  destruct (linegets s) as [[u|b] s1]; [|exact Ls]. destruct Ls as [B1 P1].
  assert (K1 : kept s1) by (unfold kept; rewrite (f_equal sy B1 : sy s1 = sy s); exact K).
  assert (F1 : files s1 name = Some F) by (rewrite (f_equal files B1 : files s1 = files s); exact Fi).
  assert (C1 : curline (inp s1) = L) by exact (f_equal (fun x => curline (inp x)) B1).
  assert (A1 : bare s1 = put [] false (blur s)).
  { unfold bare. rewrite B1. rewrite (f_equal snd P1 : maineof (inp s1) = false). reflexivity. }
  apply ends_bind. destruct n as [|n]; [exact Logic.I|]. change (run (S n) KLine true true) with (asmline (run n) n true true).
  pose proof (linestart_bare s1 s1 eq_refl) as Q. destruct (linestart s1) as [[[]|b] s1'] eqn:Es.
  2:{ unfold ends, asmline, bind at 1. rewrite Es. destruct b; auto. }
  pose proof (line_include (run n) n s1 s1' L name F Es HL C1) as Z.
  assert (Z0 : zlen L <= 249) by (unfold zlen; lia). specialize (Z Z0 F1 K1). unfold ends in Z |- * at 1.
  destruct (asmline (run n) n true true s1) as [[f|b] s2]; [|exact Z]. destruct Z as (-> & Z1 & Z2).
  eapply ends_step; [reflexivity|]. exists s1, s1'. split; [exact A1|]. split; [exact Es|]. split; [exact Z1|].
  rewrite Z2. destruct Q as (_ & Q & _). rewrite P1 in Q. injection Q as -> -> ->. reflexivity.
Qed.
Lemma round_right : forall n t, dropped (map rough (srcs (inp t))) = [] -> mainrest (inp t) = Y ->
  ends (passline n) t (fun _ t2 => exists t1 t1', bare t1 = put [] false (blur t) /\ linestart t1 = (Ok tt, t1') /\ bare t2 = bare t1' /\
    place_of t2 = ([], F ++ nl :: B, false)).
Proof.
  intros n s Ds Ms. unfold passline. apply ends_bind. destruct HC as [Pc (w & Bw & Cw)].
  assert (KC : Forall (fun c => keepchar c = true) C) by (eapply Forall_impl; [|exact Pc]; intros c H; apply plain_keep; exact H).
  pose proof (whole_line s C (F ++ nl :: B) Ds Ms LC KC) as Ls. unfold ends in Ls. unfold ends at 1.
  destruct (linegets s) as [[u|b] s1]; [|exact Ls]. destruct Ls as [B1 P1].
  assert (C1 : curline (inp s1) = C) by exact (f_equal (fun x => curline (inp x)) B1).
  assert (A1 : bare s1 = put [] false (blur s)).
  { unfold bare. rewrite B1. rewrite (f_equal snd P1 : maineof (inp s1) = false). reflexivity. }
  apply ends_bind. destruct n as [|n]; [exact Logic.I|]. change (run (S n) KLine true true) with (asmline (run n) n true true).
  pose proof (linestart_bare s1 s1 eq_refl) as Q. destruct (linestart s1) as [[[]|b] s1'] eqn:Es.
  2:{ unfold ends, asmline, bind at 1. rewrite Es. destruct b; auto. }
  rewrite <- C1 in Cw, LC.
  pose proof (line_idle (run n) n true s1 s1' w Es Bw Cw) as Z.
  assert (Z0 : zlen (curline (inp s1)) <= 249) by (unfold zlen; lia). specialize (Z Z0). unfold ends in Z |- * at 1.
  destruct (asmline (run n) n true true s1) as [[f|b] s2]; [|exact Z]. destruct Z as (-> & Z1 & Z2).
  eapply ends_step; [reflexivity|]. exists s1, s1'. split; [exact A1|]. split; [exact Es|]. split; [exact Z1|].
  rewrite Z2. destruct Q as (_ & Q & _). rewrite Q. exact P1.
Qed.
Lemma round_include : forall n s t, blur s = blur t -> dropped (map rough (srcs (inp s))) = [] -> dropped (map rough (srcs (inp t))) = [] ->
  mainrest (inp s) = X -> mainrest (inp t) = Y -> kept s -> files s name = Some F ->
  match passline n s, passline n t with
  | (Ok _, s2), (Ok _, t2) => bare s2 = bare t2 /\ pend (place_of s2) (place_of t2) /\ maineof (inp s2) = false /\ maineof (inp t2) = false
  | (Bad (Err _), _), _ | _, (Bad (Err _), _) => False
  | _, _ => True
  end.
Proof.
  intros n s t E Ds Dt Ms Mt K Fi. pose proof (round_left n s Ds Ms K Fi) as Rs. pose proof (round_right n t Dt Mt) as Rt.
  unfold ends in Rs, Rt. destruct (passline n s) as [[u|b] s2]; destruct (passline n t) as [[v|b'] t2].
  - destruct Rs as (s1 & s1' & A1 & A2 & A3 & A4), Rt as (t1 & t1' & T1 & T2 & T3 & T4).
    assert (Q : bare s1 = bare t1) by (rewrite A1, T1, E; reflexivity). pose proof (linestart_bare s1 t1 Q) as W. rewrite A2, T2 in W.
    destruct W as (W & _). split; [congruence|]. split; [|split; [exact (f_equal snd A4)|exact (f_equal snd T4)]].
    rewrite A4, T4. pose proof (PMain [] false F false false (cz 0) 0 B) as P. cbn [app ins] in P. rewrite <- app_assoc in P. exact P.
  - destruct b'; auto.
  - destruct b; auto.
  - destruct b; auto; destruct b'; auto.
Qed.
End Include.

(** ** The rest of the pass *)
Lemma close0_catch : forall feed A (x y : res A * state) (m m' : M A) s t, m s = x -> m' t = y -> close0 feed x y -> close0 feed (catch m s) (catch m' t).
Proof.
  intros feed A x y m m' s t E E' H. unfold catch. rewrite E, E'. destruct x as [[a|b] s1], y as [[a'|b'] t1]; cbn [close0] in H.
  - destruct H as [-> H]. split; [reflexivity|exact H].
  - destruct b'; try contradiction; exact Logic.I.
  - destruct b; try contradiction; exact Logic.I.
  - destruct b, b'; try exact Logic.I. destruct H as [_ [V W]]. split; [reflexivity|]. split; [|exact W].
    change (set_ct (set_errnumber (errnumber (ct (blur s1)) + 1) (ct (blur s1))) (blur s1) = set_ct (set_errnumber (errnumber (ct (blur t1)) + 1) (ct (blur t1))) (blur t1)).
    rewrite V. reflexivity.
Qed.
Lemma close0_bind : forall feed A B (x y : res A * state) (m m' : M A) (k k' : A -> M B) s t, m s = x -> m' t = y -> close0 feed x y ->
  (forall a s1 t1, like feed s1 t1 -> close0 feed (k a s1) (k' a t1)) -> close0 feed (bind m k s) (bind m' k' t).
Proof.
  intros feed A B' x y m m' k k' s t E E' H K. unfold bind. rewrite E, E'. destruct x as [[a|b] s1], y as [[a'|b'] t1]; cbn [close0] in H.
  - destruct H as [<- H]. apply K. exact H.
  - destruct b'; [contradiction|..]; destruct (k a s1) as [[?|[]] ?]; exact Logic.I.
  - destruct b; [contradiction|..]; exact Logic.I.
  - destruct b, b'; try exact Logic.I. exact H.
Qed.
Definition pend_walk : walk (J pend 0) := join_walk pend 0 pend_fetch pend_eof pend_push.
Lemma pend_close : forall A (m : M A) s t, J pend 0 A m -> like pend s t -> close0 pend (m s) (m t).
Proof.
  intros A m s t [H _] V. destruct (H s t V) as [S|K]; [|exact K]. exfalso. unfold JoinFacts.short in S. pose proof (zlen_nonneg _ (mainrest (inp (snd (m s))))). lia.
Qed.
Lemma linegets_bare : forall s t, bare s = bare t -> pend (place_of s) (place_of t) -> close0 pend (linegets s) (linegets t).
Proof.
  intros s t V W. pose proof (linegets_is s) as Gs. pose proof (linegets_is t) as Gt.
  destruct (pend_fetch _ _ W) as [S|[Ef W']]; [pose proof (zlen_nonneg _ (rest_of (snd (fetch (place_of s))))); lia|].
  destruct (linegets s) as [[[]|b] s1], (linegets t) as [[[]|b'] t1]; cbn [got] in Gs, Gt.
  - destruct Gs as (c & Hc & B1 & P1), Gt as (c' & Hc' & B2 & P2). rewrite Ef, Hc' in Hc. injection Hc as <-.
    split; [reflexivity|]. split; [|rewrite P1, P2; exact W'].
    change (blur s1 = put c' (snd (snd (fetch (place_of s)))) (bare s)) in B1. change (blur t1 = put c' (snd (snd (fetch (place_of t)))) (bare t)) in B2.
    rewrite B1, B2, V, (pend_eof _ _ W'). reflexivity.
  - destruct b'; try contradiction; exact Logic.I.
  - destruct b; try contradiction; exact Logic.I.
  - destruct b, b'; try contradiction; exact Logic.I.
Qed.
Lemma loop_bare : forall n s t, bare s = bare t -> pend (place_of s) (place_of t) -> close0 pend (passloop n s) (passloop n t).
Proof.
  intros [|n] s t V W; [exact Logic.I|]. cbn [passloop].
  eapply close0_bind; [reflexivity|reflexivity|..].
  - eapply close0_catch; [reflexivity|reflexivity|]. unfold passline. eapply close0_bind; [reflexivity|reflexivity|apply linegets_bare; assumption|].
    intros _ s1 t1 V1. apply (pend_close unit (f <- run n KLine true true ;; match f with FNone => ret tt | _ => err "ELSE, ENDC, ENDM, EXITM illegal here" end)); [|exact V1].
    apply (w_bind _ pend_walk); [apply (J_run _ pend_walk)|]. intros []; first [apply (w_ret _ pend_walk)|apply (w_error _ pend_walk)].
  - intros r s1 t1 V1. apply (pend_close unit (match r with None => passloop n | Some _ => e <- mainfeof ;; if e : bool then ret tt else passloop n end)); [|exact V1].
    destruct r; [|apply (J_passloop _ pend_walk)]. apply (w_look _ pend_walk); [reflexivity|]. intros []; [apply (w_ret _ pend_walk)|apply (J_passloop _ pend_walk)].
Qed.
Section Pass.
Variables (L C name F B : str).
Hypothesis HL : include_line L name.
Hypothesis LL : (List.length L <= 248)%nat.
Hypothesis HC : idle_line C.
Hypothesis LC : (List.length C <= 248)%nat.
Notation X := (L ++ nl :: B).
Notation Y := (C ++ nl :: F ++ nl :: B).
Lemma loop_include : forall n s t, blur s = blur t -> dropped (map rough (srcs (inp s))) = [] -> dropped (map rough (srcs (inp t))) = [] ->
  mainrest (inp s) = X -> mainrest (inp t) = Y -> kept s -> files s name = Some F -> close0 pend (passloop n s) (passloop n t).
Proof.
  intros [|n] s t E Ds Dt Ms Mt K Fi; [exact Logic.I|]. cbn [passloop].
  pose proof (round_include L C name F B HL LL HC LC n s t E Ds Dt Ms Mt K Fi) as R. unfold bind, catch.
  destruct (passline n s) as [[u|b] s2]; destruct (passline n t) as [[v|b'] t2].
  - destruct R as (R1 & R2 & R3 & R4). unfold mainfeof. cbn [gets]. rewrite R3, R4. apply loop_bare; assumption.
  - destruct b'; try contradiction; cbn [gets mainfeof]; (destruct (maineof (inp s2)); [exact Logic.I|destruct (passloop n s2) as [[?|[]] ?]; exact Logic.I]).
  - destruct b; try contradiction; exact Logic.I.
  - destruct b; try contradiction; destruct b'; try contradiction; exact Logic.I.
Qed.

(** ** The rounds before *)
Definition world (s s' : state) : Prop := s'.(files) = s.(files) /\ s'.(maintext) = s.(maintext).
Lemma world_steps : steps (always world).
Proof.
  assert (T : forall s s', files s' = files s -> maintext s' = maintext s -> always world Fine s s') by (intros; split; assumption).
  assert (Ls : lsteps (always world)).
  { constructor; [constructor|..]; intros; try (apply T; reflexivity).
    - exact H.
    - destruct H, H0. split; congruence. }
  pose proof (p_order _ Ls) as O.
  assert (W : forall s w, always world Fine s (set_wr w s)) by (intros; apply T; reflexivity).
  assert (Fl : forall s v, flstep (fl s) v -> always world Fine s (set_fl v s)) by (intros; apply T; reflexivity).
  assert (Er : forall m, pres (always world) unit (error m)) by (apply error_parts; [exact Ls|exact Fl|intros; apply T; reflexivity]).
  constructor; [constructor; [exact Ls|exact Fl|..]|..]; try (intros; apply T; reflexivity).
  - intros s a. apply (setpc_free _ O W).
  - intros s m. apply Er.
  - intros s s' H. exact H.
  - intros s x. apply (insert8_free _ O W Ls); try assumption; intros; apply T; reflexivity.
  - intros s0 s c [H1 H2] _. split; assumption.
Qed.
Definition world_walk : walk (pres (always world)) := pres_walk _ world_steps.
Lemma rounds_steady : forall n s m s', rounds n s m s' -> zlen (mainrest (inp s')) <= zlen (mainrest (inp s)).
Proof.
  intros n s m s' R. induction R as [|n s r s1 m s2 E _ _ IH]; [lia|].
  pose proof (w_catch _ steady_walk _ _ (J_passline _ steady_walk n) s) as [Q _]. rewrite E in Q. cbn [snd] in Q. lia.
Qed.
Lemma before_include : forall n s m s', rounds n s m s' -> mainrest (inp s') = X -> Forall file_done (srcs (inp s')) ->
  forall t, blur s = blur t -> fore X Y (place_of s) (place_of t) -> kept s -> files s name = Some F ->
  close0 pend (passloop n s) (passloop n t).
Proof.
  intros n s m s' R Ms Ds. induction R as [n s|n s r s1 m s2 E Q R IH]; intros t V W K Fi.
  - destruct W as (l & a & Ps & Pt & _).
    assert (a = []) as ->.
    { injection Ps as _ Ps _. rewrite Ms in Ps. apply (f_equal (@List.length ascii)) in Ps. rewrite !app_length in Ps. destruct a; [reflexivity|cbn in Ps; lia]. }
    injection Ps as Ps1 Ps2 _. injection Pt as Pt1 Pt2 _. apply loop_include; auto; rewrite ?Pt1, <- ?Ps1; apply done_rough; exact Ds.
  - assert (NX : X <> []) by (destruct L; discriminate).
    pose proof (join_walk (fore X Y) (zlen X) (fore_fetch X Y NX) (fore_eof X Y) (fore_push X Y)) as JW.
    pose proof (proj1 (w_catch _ JW _ _ (J_passline _ JW n)) s t (conj V W)) as Cl. rewrite E in Cl.
    destruct Cl as [Sh|Cl].
    { exfalso. unfold JoinFacts.short in Sh. cbn [snd] in Sh. pose proof (rounds_steady _ _ _ _ R). rewrite Ms in *. lia. }
    assert (K1 : kept s1) by (pose proof (stays_pres _ _ (w_catch _ (pres_walk _ keeping_steps) _ _ (J_passline _ (pres_walk _ keeping_steps) n)) s K) as K1; rewrite E in K1; exact K1).
    assert (F1 : files s1 name = Some F).
    { pose proof (w_catch _ world_walk _ _ (J_passline _ world_walk n) s) as [Q1 _]. rewrite E in Q1. cbn [snd] in Q1. rewrite Q1. exact Fi. }
    cbn [passloop]. unfold bind at 1. rewrite E. unfold bind at 2.
    destruct (catch (passline n) t) as [[r'|b'] t1] eqn:Et; cbn [close0] in Cl.
    + destruct Cl as [<- [V1 W1]]. specialize (IH Ms Ds t1 V1 W1 K1 F1).
      assert (Ee : maineof (inp s1) = maineof (inp t1)) by exact (f_equal (fun x => maineof (inp x)) V1).
      destruct r as [u|]; [|exact IH]. destruct Q as [Q|Q]; [discriminate Q|]. unfold bind, mainfeof. cbn [gets]. rewrite <- Ee, Q. exact IH.
    + destruct b'; [contradiction|..]; match goal with |- close0 _ ?x _ => destruct x as [[?|[]] ?]; exact Logic.I end.
Qed.
End Pass.
