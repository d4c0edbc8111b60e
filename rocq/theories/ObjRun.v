(** The object file invariant over whole runs. *)
From Coq Require Import String Ascii ZArith List Bool Lia ZifyBool ZifyNat.
From Verif Require Import Base BaseFacts State Tree Filter Output Label Operator Parse Scode Tables Cpu6800 Pseudos Macro Xref Crasm.
From Verif Require Import Walk Frame Run SpecRecords RecordFacts ObjFacts SpecObject.
Import ListNotations.
Open Scope Z_scope.

(** What the invariant depends on. *)
Definition core (d : ending) (s s' : state) : Prop :=
  s'.(wr) = s.(wr) /\ s'.(emitted) = s.(emitted) /\
  s'.(ct).(passnumber) = s.(ct).(passnumber) /\ s'.(fl).(a_nocode) = s.(fl).(a_nocode).

Lemma core_lsteps : lsteps core.
Proof.
  constructor; [constructor|..]; unfold core; intros; cbn; try (repeat split; fail); intuition congruence.
Qed.

Lemma core_fl : forall s v, keepflags s.(fl) v -> core Fine s (set_fl v s).
Proof. intros s v K. unfold core. cbn. unfold keepflags in K. intuition congruence. Qed.

Section Holds.
Variables I D : state -> Prop.
Hypothesis ID : forall s, I s -> D s.
Hypothesis IC : forall s s', core Fine s s' -> I s -> I s'.
Hypothesis Ipc : forall s a, holds I I D (how (fst (setpc a s))) s (snd (setpc a s)).

Lemma holds_lsteps : lsteps (holds I I D).
Proof.
  constructor; [apply (holds_order I I D ID)|..].
  - intros s v E J. apply (IC s); [repeat split|exact J].
  - intros s t E J. apply (IC s); [repeat split|exact J].
  - intros s t J. apply ID. apply (IC s); [repeat split|exact J].
  - intros s v J. apply (IC s); [repeat split|exact J].
  - intros s _ J. apply (IC s); [repeat split|exact J].
Qed.

Lemma holds_bsteps : bsteps (holds I I D).
Proof.
  constructor; [apply holds_lsteps|..].
  - intros s v [K _] J. apply (IC s); [apply core_fl; exact K|exact J].
  - intros s v E J. apply (IC s); [repeat split|exact J].
  - intros s r e ol op on l E J. apply (IC s); [repeat split|exact J].
  - intros s J. apply (IC s); [repeat split|exact J].
  - exact Ipc.
  - intros s m. apply (error_parts _ holds_lsteps).
    + intros s' v [K _] J. apply (IC s'); [apply core_fl; exact K|exact J].
    + intros s' m' J. apply (IC s'); [repeat split|exact J].
  - intros s s' H J. apply (IC s'); [repeat split|exact (H J)].
Qed.

Hypothesis I8 : forall s x, holds I I D (how (fst (insert8 x s))) s (snd (insert8 x s)).

Lemma holds_steps : steps (holds I I D).
Proof.
  constructor.
  - apply holds_bsteps.
  - intros s v J. apply (IC s); [repeat split|exact J].
  - intros s v J. apply (IC s); [repeat split|exact J].
  - intros s v J. apply (IC s); [repeat split|exact J].
  - intros s t _ J. apply (IC s); [repeat split|exact J].
  - intros s k l _ _ J. apply (IC s); [repeat split|exact J].
  - exact I8.
  - intros s t _ J. apply (IC s); [repeat split|exact J].
  - intros s t a b _ J. apply (IC s); [repeat split|exact J].
  - intros s0 s c H _ J. apply (IC s); [repeat split|exact (H J)].
Qed.
End Holds.

Definition after (here : option Z) (l : list emission) : option Z :=
  fold_left (fun _ e => if em_code e then None else Some ((em_pc e + 1) mod 2 ^ 64)) l here.

Lemma moved_snoc : forall l here e,
  moved here (l ++ [e]) <->
  moved here l /\ (em_code e = true -> after here l <> Some (em_pc e)).
Proof.
  induction l as [|x l IH]; intros here e; cbn [app moved after fold_left].
  - tauto.
  - rewrite IH. unfold after. tauto.
Qed.

Lemma after_snoc : forall l here e,
  after here (l ++ [e]) = if em_code e then None else Some ((em_pc e + 1) mod 2 ^ 64).
Proof. intros l here e. unfold after. rewrite fold_left_app. reflexivity. Qed.

Lemma spread_app : forall a b start,
  spread start (a ++ b) = spread start a ++ spread (start + zlen a) b.
Proof.
  induction a as [|x a IH]; intros b start; cbn [app spread].
  - f_equal. unfold zlen. cbn. lia.
  - rewrite IH. do 3 f_equal. rewrite zlen_cons. lia.
Qed.

Lemma spread_mod : forall l start, spread (start mod 2 ^ 32) l = spread start l.
Proof.
  induction l as [|b l IH]; intros start; [reflexivity|]. cbn [spread]. f_equal.
  - rewrite Z.mod_mod by lia. reflexivity.
  - rewrite <- (IH (start mod 2 ^ 32 + 1)), <- (IH (start + 1)). f_equal.
    rewrite Z.add_mod_idemp_l by lia. reflexivity.
Qed.

Lemma data_app : forall a b, data (a ++ b) = data a ++ data b.
Proof. intros. unfold data. apply flat_map_app. Qed.

Lemma cells_app : forall a b, cells (a ++ b) = cells a ++ cells b.
Proof. intros. unfold cells. apply flat_map_app. Qed.

Lemma data_flushed : forall w r, data (flushed w r) = data (got r) ++ w.(raw).
Proof.
  intros w r. unfold flushed. destruct (raw w) as [|b l] eqn:E.
  - rewrite app_nil_r. reflexivity.
  - rewrite data_app. cbn. rewrite app_nil_r. reflexivity.
Qed.

Lemma cells_flushed : forall w r,
  cells (flushed w r) = cells (got r) ++ spread w.(rawstart) w.(raw).
Proof.
  intros w r. unfold flushed. destruct (raw w) as [|b l] eqn:E.
  - rewrite app_nil_r. reflexivity.
  - rewrite cells_app. unfold cells at 2. cbn [flat_map fst snd]. rewrite app_nil_r, spread_mod.
    reflexivity.
Qed.

Lemma code_bytes_snoc : forall l e,
  code_bytes (l ++ [e]) = code_bytes l ++ if em_code e then [em_byte e] else [].
Proof.
  intros l e. unfold code_bytes. rewrite filter_app, map_app. cbn [List.filter].
  destruct (em_code e); reflexivity.
Qed.

Lemma code_cells_snoc : forall l e,
  code_cells (l ++ [e]) = code_cells l ++ if em_code e then [(em_pc e mod 2 ^ 32, em_byte e)] else [].
Proof.
  intros l e. unfold code_cells. rewrite filter_app, map_app. cbn [List.filter].
  destruct (em_code e); reflexivity.
Qed.

Lemma second_pass_cons : forall e l, em_pass e = 2 ->
  second_pass (e :: l) = second_pass l ++ [e].
Proof.
  intros e l H. unfold second_pass. cbn [rev]. rewrite filter_app. cbn [List.filter].
  rewrite H. reflexivity.
Qed.

(** The invariant of the object writer during the second pass.  [p0] is the program
    counter at the start of the pass. *)
Record dinv (p0 : Z) (w : writer) (log : list emission) (r : reader) : Prop := {
  i_written : written w r;
  i_data : data (got r) ++ w.(raw) = code_bytes (second_pass log);
  i_cells : moved (Some p0) (second_pass log) ->
            cells (got r) ++ spread w.(rawstart) w.(raw) = code_cells (second_pass log);
  i_open : w.(scode) = None -> second_pass log = []
}.

Record inv (p0 : Z) (w : writer) (log : list emission) (r : reader) : Prop := {
  i_dinv : dinv p0 w log r;
  i_pc : 0 <= w.(pc) < 2 ^ 64;
  i_sync : moved (Some p0) (second_pass log) ->
           (w.(rawstart) + zlen w.(raw)) mod 2 ^ 64 = w.(pc) \/
           after (Some p0) (second_pass log) = Some w.(pc)
}.

Definition Inv (p0 : Z) (s : state) : Prop :=
  s.(ct).(passnumber) = 2 /\ s.(fl).(a_nocode) = false /\
  exists r, inv p0 s.(wr) s.(emitted) r.

(** What is left of it when the assembler stops in the middle of an operation. *)
Definition Broken (p0 : Z) (s : state) : Prop := exists r, dinv p0 s.(wr) s.(emitted) r.

Definition keep (p0 : Z) : relation := holds (Inv p0) (Inv p0) (Broken p0).

Lemma Inv_Broken : forall p0 s, Inv p0 s -> Broken p0 s.
Proof. intros p0 s (H1 & H2 & r & I). exists r. apply I. Qed.

Lemma Inv_core : forall p0 s s', core Fine s s' -> Inv p0 s -> Inv p0 s'.
Proof.
  intros p0 s s' (E1 & E2 & E3 & E4) (H1 & H2 & H3). unfold Inv.
  rewrite E1, E2, E3, E4. auto.
Qed.

(** Flushing keeps the invariant and leaves the buffer empty at [pc]. *)
Lemma inv_flush : forall p0 s r, inv p0 s.(wr) s.(emitted) r ->
  exists w' r', flushscoderaw s = (Ok tt, set_wr w' s) /\ inv p0 w' s.(emitted) r' /\
    w'.(raw) = [] /\ w'.(pc) = s.(wr).(pc) /\ (w'.(scode) = None <-> s.(wr).(scode) = None).
Proof.
  intros p0 s r [D P S]. pose proof (i_written _ _ _ _ D) as Hw.
  destruct (flush_written s r Hw) as (w' & r' & E & Hw' & Hg & Hp & Hs & Hr & Ho).
  exists w', r'. split; [exact E|]. split; [|repeat split; auto; tauto].
  constructor; [constructor|..].
  - exact Hw'.
  - rewrite Hg, Hr, app_nil_r, data_flushed. apply (i_data _ _ _ _ D).
  - intros Hm. rewrite Hg, Hr, cells_flushed, app_nil_r. apply (i_cells _ _ _ _ D Hm).
  - intros Hn. apply (i_open _ _ _ _ D). apply Ho. exact Hn.
  - rewrite Hp. exact P.
  - intros Hm. left. rewrite Hs, Hr, Hp. unfold zlen. cbn [List.length].
    rewrite Z.add_0_r. apply Z.mod_small. exact P.
Qed.

Lemma keep_setpc : forall p0 s a, keep p0 (how (fst (setpc a s))) s (snd (setpc a s)).
Proof.
  intros p0 s a (H1 & H2 & r & I). rewrite setpc_eq.
  destruct (u64 a =? pc (wr s)) eqn:E.
  - cbn [fst snd how]. split; [auto|split; [auto|]]. exists r. exact I.
  - destruct (inv_flush p0 s r I) as (w' & r' & Ef & [D P S] & Hraw & Hpc & Ho).
    unfold bind. rewrite Ef. unfold upd_wr, modify. cbn [fst snd how wr set_wr].
    split; [exact H1|split; [exact H2|]]. exists r'.
    cbn [wr emitted set_wr]. destruct D as [[W1 W2 W3] D C O].
    constructor; [constructor|..];
      cbn [raw rawstart pc scode set_pc set_rawstart set_raw rawextended].
    + constructor; cbn [raw rawstart pc scode set_pc set_rawstart set_raw rawextended].
      * constructor.
      * unfold zlen. cbn. lia.
      * destruct (scode w'); [exact W3|]. split; [reflexivity|apply W3].
    + rewrite <- D, Hraw. reflexivity.
    + intros Hm. specialize (C Hm). rewrite Hraw in C. exact C.
    + exact O.
    + unfold u64. lia.
    + intros Hm. left. unfold zlen, u64. cbn [List.length]. rewrite Z.add_0_r.
      rewrite Z.mod_mod by lia. reflexivity.
Qed.

(** One produced byte of a CODE section in an open file: the buffer is not full. *)
Lemma inv_append : forall p0 w log r x, inv p0 w log r -> byte x -> w.(scode) <> None ->
  zlen w.(raw) < 16 ->
  dinv p0 (set_raw (w.(raw) ++ [x]) w) (mkEm 2 w.(pc) x true :: log) r /\
  (moved (Some p0) (second_pass (mkEm 2 w.(pc) x true :: log)) ->
   (w.(rawstart) + zlen (w.(raw) ++ [x])) mod 2 ^ 64 = (w.(pc) + 1) mod 2 ^ 64).
Proof.
  intros p0 w log r x [[[W1 W2 W3] D C O] P S] Hx Hopen Hlen.
  rewrite second_pass_cons by reflexivity.
  assert (Sync : moved (Some p0) (second_pass log ++ [mkEm 2 (pc w) x true]) ->
                 moved (Some p0) (second_pass log) /\
                 (w.(rawstart) + zlen w.(raw)) mod 2 ^ 64 = w.(pc)).
  { rewrite moved_snoc. cbn [em_code em_pc]. intros [Hm Hn]. split; [exact Hm|].
    specialize (Hn eq_refl). destruct (S Hm) as [E|E]; [exact E|contradiction]. }
  split.
  - constructor; cbn [raw rawstart pc scode set_raw rawextended];
      rewrite ?second_pass_cons by reflexivity.
    + constructor; cbn [raw rawstart pc scode set_raw rawextended].
      * apply Forall_app. split; [exact W1|]. constructor; [exact Hx|constructor].
      * rewrite zlen_app, zlen_cons, zlen_nil. lia.
      * destruct (scode w); [exact W3|congruence].
    + rewrite code_bytes_snoc, <- D. cbn [em_code em_byte]. rewrite app_assoc. reflexivity.
    + intros Hm. destruct (Sync Hm) as [Hm' Es].
      rewrite code_cells_snoc, <- (C Hm'), spread_app. cbn [em_code em_byte em_pc spread].
      rewrite app_assoc. do 3 f_equal. rewrite <- Es.
      change (2 ^ 64) with (2 ^ 32 * 2 ^ 32). rewrite Z.rem_mul_r by lia.
      rewrite Z.mul_comm, Z.mod_add by lia. rewrite Z.mod_mod by lia. reflexivity.
    + intros E. congruence.
  - intros Hm. destruct (Sync Hm) as [_ Es]. rewrite zlen_app, zlen_cons, zlen_nil.
    rewrite <- Es. rewrite Z.add_mod_idemp_l by lia. f_equal. lia.
Qed.

(** Opening the file before the first byte of the pass. *)
Definition opened (w : writer) : writer :=
  match w.(scode) with
  | None => set_rawextended 0 (set_scode (Some []) w)
  | Some _ => w
  end.

Lemma inv_opened : forall p0 w log r, inv p0 w log r -> inv p0 (opened w) log r.
Proof.
  intros p0 w log r I. unfold opened. destruct (scode w) as [l|] eqn:E; [exact I|].
  destruct I as [[[W1 W2 W3] D C O] P S]. rewrite E in *. destruct W3 as [W3 W4].
  constructor; [constructor|..]; cbn [raw rawstart pc scode set_scode set_rawextended rawextended]; auto.
  - constructor; cbn [raw rawstart pc scode set_scode set_rawextended rawextended]; auto.
    rewrite W4. repeat split. constructor.
Qed.

Lemma inv_dummy : forall p0 w log r x, inv p0 w log r -> w.(scode) <> None ->
  inv p0 (set_pc (u64 (w.(pc) + 1)) w) (mkEm 2 w.(pc) x false :: log) r.
Proof.
  intros p0 w log r x [[[W1 W2 W3] D C O] P S] Ho.
  constructor; [constructor|..]; cbn [raw rawstart pc scode set_pc rawextended];
    rewrite ?second_pass_cons by reflexivity.
  - constructor; assumption.
  - rewrite code_bytes_snoc. cbn [em_code]. rewrite app_nil_r. exact D.
  - rewrite moved_snoc, code_cells_snoc. cbn [em_code]. rewrite app_nil_r. intros [Hm _]. auto.
  - congruence.
  - unfold u64. lia.
  - intros _. right. rewrite after_snoc. reflexivity.
Qed.

(** insert8 in one equation during the second pass. *)
Lemma insert8_eq : forall s x, s.(fl).(a_nocode) = false -> s.(fl).(a_org_gv) = true ->
  insert8 x s =
  (let s1 := set_wr (opened s.(wr)) (set_emitted
      (mkEm s.(ct).(passnumber) s.(wr).(pc) (u8 x) s.(fl).(a_code_on) :: s.(emitted)) s) in
   ((if s.(fl).(a_code_on) then
       when (16 <=? zlen s1.(wr).(raw)) flushscoderaw ;;;
       upd_wr (fun w => set_raw (w.(raw) ++ [u8 x]) w) ;;;
       upd_wr (fun w => set_codelen (u64 (w.(codelen) + 1)) w) ;;;
       outputbyte (u8 x)
     else ret tt) ;;;
    upd_ct (fun c => set_advance (c.(advance) + 1) c) ;;;
    upd_wr (fun w => set_pc (u64 (w.(pc) + 1)) w)) s1).
Proof.
  intros s x Hn Ho. unfold insert8. unfold bind at 1. cbn [gets]. rewrite Ho, Hn.
  cbn [negb when]. unfold bind at 1. cbn [ret]. unfold bind at 1. unfold modify.
  cbv zeta. unfold opened.
  destruct (scode (wr s)) as [l|] eqn:E.
  - unfold bind at 1. cbn [ret]. cbv zeta. destruct (a_code_on (fl s)); [|reflexivity].
    unfold bind at 1. unfold bind at 1. cbn [gets wr set_emitted set_wr]. rewrite E.
    change (set_wr (wr s) (set_emitted ?l s)) with (set_emitted l s).
    unfold bind, when. destruct (16 <=? zlen (raw (wr s))).
    + destruct (flushscoderaw _) as [[u|b] s']; reflexivity.
    + reflexivity.
  - unfold bind at 1. set (s0 := set_emitted _ s).
    change ((upd_wr (set_scode (Some [])) ;;; upd_wr (set_rawextended 0)) s0)
      with (@Ok unit tt, set_wr (set_rawextended 0 (set_scode (Some []) (wr s))) s0).
    cbv beta iota zeta. set (s1 := set_wr _ s0).
    destruct (a_code_on (fl s)); [|reflexivity].
    unfold bind at 1. unfold bind at 1. unfold gets at 1. cbv beta iota.
    change (scode (wr s1)) with (Some (@nil str)). cbv beta iota.
    unfold bind, when. destruct (16 <=? zlen (raw (wr s1))).
    + destruct (flushscoderaw s1) as [[u|b] s']; reflexivity.
    + reflexivity.
Qed.

(** Flushing does not look at the log. *)
Lemma flush_log : forall s e w, flushscoderaw s = (Ok tt, set_wr w s) ->
  flushscoderaw (set_emitted e s) = (Ok tt, set_wr w (set_emitted e s)).
Proof.
  intros s e w H. 
  assert (G : forall w', w' = w -> set_wr w' (set_emitted e s) = set_wr w (set_emitted e s))
    by (intros; congruence).
  revert H. unfold flushscoderaw, scwrite, bind, gets, upd_wr, modify, ret, stop. cbn [wr fl set_emitted].
  destruct (raw (wr s)); [intros [= H]; f_equal; apply G; exact H|].
  destruct (a_code_hex (fl s)); cbn [wr set_wr];
    [destruct (negb _); cbn [wr set_wr]|]; destruct (scode (wr s)) eqn:Es;
    cbn [wr set_wr set_emitted set_scode scode set_rawextended]; rewrite ?Es;
    cbn [wr set_wr set_emitted set_scode scode set_rawextended]; rewrite ?Es;
    try discriminate; intros [= H]; f_equal; apply G; exact H.
Qed.

Lemma keep_bsteps : forall p0, bsteps (keep p0).
Proof.
  intros p0. apply holds_bsteps.
  - apply Inv_Broken.
  - apply Inv_core.
  - apply keep_setpc.
Qed.

Lemma keep_insert8 : forall p0 s x, keep p0 (how (fst (insert8 x s))) s (snd (insert8 x s)).
Proof.
  intros p0 s x I0. pose proof I0 as (H1 & H2 & r & I).
  destruct (a_org_gv (fl s)) eqn:Horg.
  2:{ assert (E : insert8 x s = err "no org given" s).
      { unfold insert8. unfold bind at 1. cbn [gets]. rewrite Horg. cbn [negb when].
        unfold err. apply error_bind. }
      rewrite E. exact (pres_error _ (keep_bsteps p0) unit (s2l "no org given") s I0). }
  rewrite insert8_eq by assumption. cbv zeta. rewrite H1.
  pose proof (inv_opened _ _ _ _ I) as Io.
  assert (Hop : (opened (wr s)).(scode) <> None).
  { unfold opened. destruct (scode (wr s)) eqn:E; cbn; congruence. }
  assert (Hpc : (opened (wr s)).(pc) = s.(wr).(pc)).
  { unfold opened. destruct (scode (wr s)); reflexivity. }
  set (w1 := opened (wr s)) in *. clearbody w1. rewrite <- Hpc.
  destruct (a_code_on (fl s)).
  - set (s1 := set_wr w1 (set_emitted _ s)). cbn [wr set_wr] .
    assert (Hf : exists w2 r2, when (16 <=? zlen (raw w1)) flushscoderaw s1 = (Ok tt, set_wr w2 s1) /\
               inv p0 w2 s.(emitted) r2 /\ zlen w2.(raw) < 16 /\ w2.(pc) = w1.(pc) /\
               w2.(scode) <> None).
    { destruct (16 <=? zlen (raw w1)) eqn:E; cbn [when].
      - destruct (inv_flush p0 (set_wr w1 s) r Io) as (w2 & r2 & Ef & I2 & Hraw & Hp2 & Ho2).
        exists w2, r2. repeat split; try apply I2.
        + pose proof (flush_log _ (mkEm 2 (pc w1) (u8 x) true :: emitted s) _ Ef) as F. exact F.
        + rewrite Hraw. unfold zlen. cbn. lia.
        + exact Hp2.
        + intros En. apply Hop. apply Ho2. exact En.
      - exists w1, r. repeat split; try apply Io; [|assumption]. lia. }
    destruct Hf as (w2 & r2 & Ef & I2 & Hl2 & Hp2 & Ho2).
    destruct (inv_append p0 w2 (emitted s) r2 (u8 x) I2 (u8_byte x) Ho2 Hl2) as [Hd Hs].
    rewrite Hp2 in Hd, Hs.
    set (w3 := set_codelen (u64 (codelen w2 + 1)) (set_raw (raw w2 ++ [u8 x]) w2)).
    match goal with |- context [(?m ;;; ?k) s1] =>
      assert (E : (m ;;; k) s1 = (outputbyte (u8 x) ;;; k) (set_wr w3 s1)) end.
    { change (raw (wr s1)) with (raw w1). unfold bind. rewrite Ef. reflexivity. }
    rewrite E. clear E Ef.
    pose proof (pres_outputbyte core core_lsteps (u8 x) (set_wr w3 s1)) as K.
    match goal with |- context [(outputbyte ?a ;;; ?k) ?s] =>
      assert (E : (outputbyte a ;;; k) s =
        match outputbyte a s with (Ok u, s') => k s' | (Bad b, s') => (Bad b, s') end)
        by (unfold bind at 1; destruct (outputbyte a s) as [[u|b] s']; reflexivity) end.
    rewrite E. clear E.
    destruct (outputbyte (u8 x) (set_wr w3 s1)) as [[u|b] s4] eqn:Eo; cbn [fst snd] in K;
      destruct K as (K1 & K2 & K3 & K4); cbn [wr emitted ct fl set_wr set_emitted s1] in K1, K2, K3, K4.
    + unfold bind, upd_ct, upd_wr, modify. cbn [fst snd how wr emitted set_wr set_ct].
      split; [cbn; congruence|split; [cbn; congruence|]]. exists r2.
      cbn [wr emitted set_wr set_ct]. rewrite K1, K2.
      destruct Hd as [W D C O]. constructor; [constructor|..]; cbn; auto.
      * destruct W as [W1 W2 W3]. constructor; cbn; assumption.
      * unfold u64. lia.
      * intros Hm. left. rewrite Hp2. apply Hs. exact Hm.
    + assert (Dd : Broken p0 s4).
      { exists r2. rewrite K1, K2. destruct Hd as [W D C O]. constructor; cbn; auto.
        destruct W as [W1 W2 W3]. constructor; cbn; assumption. }
      pose proof (pres_outputbyte _ lsteps_unfailing (u8 x) (set_wr w3 s1)) as N. rewrite Eo in N.
      destruct b; [contradiction N; reflexivity|exact Dd..].
  - unfold bind, upd_ct, upd_wr, modify. cbn [ret fst snd how].
    split; [exact H1|split; [exact H2|]]. exists r.
    cbn [wr emitted set_wr set_ct set_emitted]. apply inv_dummy; assumption.
Qed.

Lemma keep_steps : forall p0, steps (keep p0).
Proof.
  intros p0. apply holds_steps.
  - apply Inv_Broken.
  - apply Inv_core.
  - apply keep_setpc.
  - apply keep_insert8.
Qed.

(** ** While no object file is wanted *)
Definition Off (k : Z) (s : state) : Prop :=
  s.(ct).(passnumber) = k /\ s.(fl).(a_nocode) = true /\ s.(wr).(scode) = None /\
  s.(wr).(raw) = [] /\ 0 <= s.(wr).(pc) < 2 ^ 64 /\
  (k <> 2 -> second_pass s.(emitted) = []).

Definition off (k : Z) : relation := holds (Off k) (Off k) (fun s => s.(wr).(scode) = None).

Lemma Off_core : forall k s s', core Fine s s' -> Off k s -> Off k s'.
Proof.
  intros k s s' (E1 & E2 & E3 & E4) H. unfold Off in *. rewrite E1, E2, E3, E4. exact H.
Qed.

Lemma off_setpc : forall k s a, off k (how (fst (setpc a s))) s (snd (setpc a s)).
Proof.
  intros k s a (H1 & H2 & H3 & H4 & H5 & H6). rewrite setpc_eq. destruct (u64 a =? _).
  - repeat split; auto; apply H5.
  - unfold flushscoderaw. unfold bind, gets, upd_wr. unfold modify. rewrite H4.
    cbn [fst snd how ret wr set_wr]. repeat split; cbn; auto; unfold u64; lia.
Qed.

Lemma off_bsteps : forall k, bsteps (off k).
Proof.
  intros k. apply holds_bsteps.
  - intros s J. apply J.
  - apply Off_core.
  - apply off_setpc.
Qed.

Lemma off_insert8 : forall k s x, off k (how (fst (insert8 x s))) s (snd (insert8 x s)).
Proof.
  intros k s x I0. pose proof I0 as (H1 & H2 & H3 & H4 & H5 & H6).
  destruct (a_org_gv (fl s)) eqn:Horg.
  2:{ assert (E : insert8 x s = err "no org given" s).
      { unfold insert8. unfold bind at 1. cbn [gets]. rewrite Horg. cbn [negb when].
        unfold err. apply error_bind. }
      rewrite E. exact (pres_error _ (off_bsteps k) unit (s2l "no org given") s I0). }
  set (s1 := set_emitted
      (mkEm s.(ct).(passnumber) s.(wr).(pc) (u8 x) s.(fl).(a_code_on) :: s.(emitted)) s).
  assert (E : insert8 x s =
   ((if s.(fl).(a_code_on) then
       upd_wr (fun w => set_codelen (u64 (w.(codelen) + 1)) w) ;;;
       outputbyte (u8 x)
     else ret tt) ;;;
    upd_ct (fun c => set_advance (c.(advance) + 1) c) ;;;
    upd_wr (fun w => set_pc (u64 (w.(pc) + 1)) w)) s1).
  { unfold insert8. unfold bind at 1. cbn [gets]. rewrite Horg, H2. cbn [negb when].
    unfold bind at 1. cbn [ret]. unfold bind at 1. unfold modify. fold s1. unfold bind at 1.
    cbn [ret]. destruct (a_code_on (fl s)); [|reflexivity].
    unfold bind at 1. unfold bind at 1. cbn [gets]. change (scode (wr s1)) with (scode (wr s)).
    rewrite H3. reflexivity. }
  rewrite E. clear E.
  assert (O1 : Off k s1).
  { repeat split; auto; try apply H5. intros Hk. unfold s1, second_pass. cbn [emitted set_emitted rev].
    rewrite filter_app. unfold second_pass in H6. rewrite H6 by exact Hk. cbn [List.filter em_pass].
    rewrite H1. destruct (Z.eqb_spec k 2); [contradiction|reflexivity]. }
  set (t := upd_ct _ ;;; _).
  assert (T : forall s2, Off k s2 -> off k (how (fst (t s2))) s2 (snd (t s2)) /\
                         how (fst (t s2)) = Fine).
  { intros s2 (G1 & G2 & G3 & G4 & G5 & G6). split; [intros _|reflexivity].
    repeat split; cbn; auto; unfold u64; lia. }
  destruct (a_code_on (fl s)).
  - assert (O2 : Off k (set_wr (set_codelen (u64 (codelen (wr s1) + 1)) (wr s1)) s1)) by exact O1.
    set (s2 := set_wr _ s1) in O2.
    pose proof (pres_outputbyte core core_lsteps (u8 x) s2) as K.
    match goal with |- context [(?m ;;; t) s1] =>
      assert (E : (m ;;; t) s1 =
        match outputbyte (u8 x) s2 with (Ok u, s') => t s' | (Bad b, s') => (Bad b, s') end)
        by (unfold bind at 1; unfold bind at 1; unfold upd_wr, modify; fold s2;
            destruct (outputbyte (u8 x) s2) as [[u|b] s']; reflexivity) end.
    rewrite E. clear E.
    destruct (outputbyte (u8 x) s2) as [[u|b] s3]; cbn [fst snd] in K.
    + apply T; apply (Off_core k s2 s3 K O2).
    + pose proof (Off_core k s2 s3 K O2) as O3. cbn [fst snd]. destruct (how _); [exact O3|exact O3|apply O3].
  - apply T; exact O1.
Qed.

Lemma off_steps : forall k, steps (off k).
Proof.
  intros k. apply holds_steps.
  - intros s J. apply J.
  - apply Off_core.
  - apply off_setpc.
  - apply off_insert8.
Qed.

(** ** The end of the run *)
Definition Final (p0 : Z) (s : state) : Prop :=
  match s.(wr).(scode) with
  | None => second_pass s.(emitted) = []
  | Some l => exists r, reading l = Some r /\ Forall oneline l /\ closed r = true /\
      data (got r) = code_bytes (second_pass s.(emitted)) /\
      (moved (Some p0) (second_pass s.(emitted)) ->
       cells (got r) = code_cells (second_pass s.(emitted)))
  end.

Lemma Final_core : forall p0 s s', core Fine s s' -> Final p0 s -> Final p0 s'.
Proof. intros p0 s s' (E1 & E2 & E3 & E4) H. unfold Final in *. rewrite E1, E2. exact H. Qed.

Lemma read_line_end : forall (hex : bool) r, closed r = false ->
  read_line (Some r) (if hex then s2l ":00000001FF" ++ [nl] else s2l "S9030000FC" ++ [nl]) =
  Some (mkReader (base r) (got r) true).
Proof. intros [] r H; unfold read_line; rewrite H; reflexivity. Qed.

Lemma end_oneline : forall hex : bool,
  oneline (if hex then s2l ":00000001FF" ++ [nl] else s2l "S9030000FC" ++ [nl]).
Proof.
  intros []; eexists; (split; [reflexivity|]); cbn; unfold nl; intros H;
    repeat match goal with H : _ \/ _ |- _ => destruct H as [H|H] end; try discriminate H; contradiction.
Qed.

Lemma closing : forall p0 s, Inv p0 s -> s.(wr).(scode) <> None ->
  exists w', closescodefile s = (Ok tt, set_wr w' s) /\ Final p0 (set_wr w' s).
Proof.
  intros p0 s (H1 & H2 & r & I) Hs.
  destruct (inv_flush p0 s r I) as (w' & r' & Ef & [[[W1 W2 W3] D C O] P S] & Hraw & Hpc & Ho).
  destruct (scode w') as [l|] eqn:El; [|exfalso; apply Hs, Ho; reflexivity].
  unfold closescodefile. unfold bind at 1. rewrite Ef.
  unfold scwrite, bind, gets, upd_wr, modify. cbn [wr set_wr fl]. rewrite El.
  eexists. split; [reflexivity|].
  unfold Final. cbn [wr set_wr scode set_scode emitted].
  destruct W3 as (Hr & Hone & Hc & _).
  exists (mkReader (base r') (got r') true). repeat split.
  - rewrite reading_cons, Hr. apply read_line_end. exact Hc.
  - constructor; [apply end_oneline|exact Hone].
  - cbn [got]. rewrite <- D, Hraw, app_nil_r. reflexivity.
  - cbn [got]. intros Hm. rewrite <- (C Hm), Hraw. cbn [spread]. rewrite app_nil_r. reflexivity.
Qed.

Lemma finishing : forall p0 s, Inv p0 s -> Final p0 (snd (finish s)).
Proof.
  intros p0 s I. unfold finish. unfold bind at 1. cbn [gets].
  assert (T : forall s1, Final p0 s1 ->
    Final p0 (snd ((upd_fl (set_a_list_on true) ;;; results) s1))).
  { intros s1 H1.
    assert (K : pres core unit (upd_fl (set_a_list_on true) ;;; results)).
    { apply (pres_bind core (p_order _ core_lsteps)); [intros s'; apply core_fl; repeat split; auto|intros _].
      apply (pres_results core core_lsteps). }
    apply (Final_core p0 s1); [|exact H1]. specialize (K s1). destruct (how _) in K; exact K. }
  destruct (scode (wr s)) as [l|] eqn:E.
  - destruct (closing p0 s I) as (w' & Ec & F); [congruence|].
    unfold bind at 1. rewrite Ec. apply T. exact F.
  - unfold bind at 1. cbn [ret]. apply T. unfold Final. rewrite E.
    destruct I as (_ & _ & r & [[_ _ _ O] _ _]). apply O. exact E.
Qed.

Lemma off_init : forall fs text, Off 0 (init_state fs text).
Proof. intros. repeat split; cbn; lia. Qed.

Lemma first_off : forall n fs text,
  match first n (init_state fs text) with
  | (Ok _, s) => Off 1 s
  | (Bad _, s) => s.(wr).(scode) = None
  end.
Proof.
  intros n fs text. 
  apply (first_holds (Off 0) (Off 0) (Off 1) (Off 1)); [apply off_steps|apply off_steps| |apply off_init].
  intros s A. unfold started. rewrite passstart_eq.
  destruct A as (H1 & H2 & H3 & H4 & H5 & H6). repeat split; cbn; auto; try apply H5.
  - destruct (a_nolist (fl s)); exact H2.
  - intros _. apply H6. lia.
Qed.

Theorem assemble_object : forall n o fs text r s, ogiven o.(o_scode) = true ->
  assemble n o (init_state fs text) = (r, s) ->
  match r with
  | Ok _ => exists sm, first n (init_state fs text) = (Ok tt, sm) /\ Final sm.(wr).(pc) s
  | Bad _ => s.(wr).(scode) = None \/ exists p0, Broken p0 s \/ Final p0 s
  end.
Proof.
  intros n o fs text r s Ho. rewrite assemble_split. unfold bind at 1.
  pose proof (first_off n fs text) as A.
  destruct (first n (init_state fs text)) as [[[]|b] s1].
  2:{ intros [= <- <-]. left. exact A. }
  unfold bind at 1. rewrite between_eq. cbv zeta. rewrite Ho. set (s2 := set_sy _ _).
  assert (B : s2.(wr) = s1.(wr) /\ s2.(emitted) = s1.(emitted) /\ s2.(fl).(a_nocode) = false).
  { repeat split. unfold s2. cbn. destruct (o_list o), (o_warn o); reflexivity. }
  clearbody s2. unfold bind at 1. unfold pass at 1. unfold bind at 1.
  rewrite passstart_eq. set (s3 := set_ct _ _).
  destruct A as (H1 & H2 & H3 & H4 & H5 & H6). destruct B as (B1 & B2 & B3).
  assert (I3 : Inv s1.(wr).(pc) s3).
  { split; [reflexivity|]. split.
    - unfold s3. cbn. destruct (a_nolist (fl s2)); exact B3.
    - exists (mkReader 0 [] false). 
      change (wr s3) with (wr s2). change (emitted s3) with (emitted s2). rewrite B1, B2.
      specialize (H6 ltac:(lia)).
      constructor; [constructor|..]; rewrite ?H6, ?H4, ?H3; cbn; auto.
      constructor; rewrite ?H3, ?H4; [constructor|unfold zlen; cbn; lia|split; reflexivity]. }
  pose proof (J_passloop _ (pres_walk _ (keep_steps s1.(wr).(pc))) n s3 I3) as C.
  destruct (passloop n s3) as [[u'|b] s4]; cbn [fst snd how] in C.
  - intros Ef. pose proof (finishing (pc (wr s1)) s4 C) as F. rewrite Ef in F. cbn [snd] in F.
    destruct r; [|right; exists s1.(wr).(pc); right; exact F].
    exists s1. split; [reflexivity|exact F].
  - intros [= <- <-]. right. exists s1.(wr).(pc). left.
    destruct b; try exact C; apply Inv_Broken; exact C.
Qed.

(** ** The statements used by the property files *)
Lemma final_file : forall p0 s, Final p0 s ->
  match objtext s.(wr) with
  | Written t => exists r, read_object t = Some r /\ closed r = true /\
      data (got r) = code_bytes (second_pass s.(emitted)) /\
      (moved (Some p0) (second_pass s.(emitted)) ->
       cells (got r) = code_cells (second_pass s.(emitted)))
  | _ => second_pass s.(emitted) = []
  end.
Proof.
  intros p0 s. unfold Final, objtext, pieces. destruct (scode (wr s)) as [l|]; [|auto].
  intros (r & H1 & H2 & H3 & H4 & H5). exists r. rewrite read_object_pieces; auto.
Qed.

Lemma dead_file : forall p0 s, Broken p0 s ->
  match objtext s.(wr) with
  | Written t => exists r rest, read_object t = Some r /\ closed r = false /\
      data (got r) ++ rest = code_bytes (second_pass s.(emitted))
  | _ => True
  end.
Proof.
  intros p0 s (r & [[W1 W2 W3] D C O]). unfold objtext, pieces.
  destruct (scode (wr s)) as [l|]; [|auto].
  destruct W3 as (H1 & H2 & H3 & _). exists r, s.(wr).(raw).
  rewrite read_object_pieces; auto.
Qed.

Lemma object_bytes : forall n o fs text s, ogiven o.(o_scode) = true ->
  assemble n o (init_state fs text) = (Ok tt, s) ->
  match objtext s.(wr) with
  | Written t => exists r, read_object t = Some r /\ closed r = true /\
      data (got r) = code_bytes (second_pass s.(emitted))
  | _ => second_pass s.(emitted) = []
  end.
Proof.
  intros n o fs text s Ho E.
  destruct (assemble_object n o fs text _ _ Ho E) as (sm & _ & F).
  pose proof (final_file _ _ F) as G. destruct (objtext (wr s)); auto.
  destruct G as (r & ? & ? & ? & _). exists r. auto.
Qed.

Lemma object_prefix : forall n o fs text x s, ogiven o.(o_scode) = true ->
  assemble n o (init_state fs text) = (x, s) ->
  match objtext s.(wr) with
  | Written t => exists r rest, read_object t = Some r /\
      data (got r) ++ rest = code_bytes (second_pass s.(emitted))
  | _ => True
  end.
Proof.
  intros n o fs text x s Ho E.
  pose proof (assemble_object n o fs text _ _ Ho E) as H.
  assert (F : forall p0, Final p0 s ->  match objtext s.(wr) with
  | Written t => exists r rest, read_object t = Some r /\
      data (got r) ++ rest = code_bytes (second_pass s.(emitted))
  | _ => True
  end).
  { intros p0 F. pose proof (final_file _ _ F) as G. destruct (objtext (wr s)); auto.
    destruct G as (r & ? & ? & ? & _). exists r, []. rewrite app_nil_r. auto. }
  destruct x as [u|b].
  - destruct H as (sm & _ & H). apply (F _ H).
  - destruct H as [H|(p0 & [H|H])].
    + unfold objtext. rewrite H. exact I.
    + pose proof (dead_file _ _ H) as G. destruct (objtext (wr s)); auto.
      destruct G as (r & rest & ? & ? & ?). exists r, rest. auto.
    + apply (F _ H).
Qed.

Lemma object_image : forall n o fs text sm s, ogiven o.(o_scode) = true ->
  (init_label_list pseudos ;;; pass n 1) (init_state fs text) = (Ok tt, sm) ->
  assemble n o (init_state fs text) = (Ok tt, s) ->
  moved (Some sm.(wr).(pc)) (second_pass s.(emitted)) ->
  match objtext s.(wr) with
  | Written t => exists r, read_object t = Some r /\
      cells (got r) = code_cells (second_pass s.(emitted))
  | _ => second_pass s.(emitted) = []
  end.
Proof.
  intros n o fs text sm s Ho Em E Hm.
  destruct (assemble_object n o fs text _ _ Ho E) as (sm' & Em' & F).
  rewrite first_eq, Em in Em'. injection Em' as <-.
  pose proof (final_file _ _ F) as G. destruct (objtext (wr s)); auto.
  destruct G as (r & ? & ? & ? & ?). exists r. auto.
Qed.

(** An object file is left behind only complete, whenever the second pass ends. *)
Lemma leftover_file : forall n o fs text s, ogiven o.(o_scode) = true ->
  assemble n o (init_state fs text) = (Ok tt, s) ->
  match leftover o s with
  | Removed => s.(ct).(errnumber) <> 0
  | Untouched => s.(ct).(errnumber) = 0 /\ second_pass s.(emitted) = []
  | Written t => s.(ct).(errnumber) = 0 /\
      exists r, read_object t = Some r /\ closed r = true
  end.
Proof.
  intros n o fs text s Ho E. unfold leftover. rewrite Ho, andb_true_r.
  destruct (Z.eqb_spec (errnumber (ct s)) 0) as [H|H]; cbn [negb]; [|exact H].
  pose proof (object_bytes n o fs text s Ho E) as G.
  unfold objtext in *. destruct (scode (wr s)).
  - destruct G as (r & ? & ? & _). split; [exact H|]. exists r. auto.
  - auto.
Qed.

Lemma program_leftover : forall n o s0 out code obj,
  observe n o s0 = Seen out code obj ->
  (exists s, assemble n o s0 = (Ok tt, s) /\ obj = leftover o s) \/
  (exists m s, assemble n o s0 = (Bad (Exit m), s) /\ code = 10 /\ obj = objtext s.(wr)).
Proof.
  intros n o s0 out code obj. unfold observe.
  destruct (assemble n o s0) as [[[]|b] s].
  - destruct (symbols o s) as [[u|b] s']; [|destruct b; try discriminate];
      intros [= _ _ <-]; left; exists s; auto.
  - destruct b; try discriminate. intros [= _ <- <-]. right. exists m, s. auto.
Qed.

Lemma exit0_file : forall n o fs text out obj, ogiven o.(o_scode) = true ->
  observe n o (init_state fs text) = Seen out 0 obj ->
  match obj with
  | Removed | Untouched => True
  | Written t => exists r, read_object t = Some r /\ closed r = true
  end.
Proof.
  intros n o fs text out obj Ho E.
  destruct (program_leftover _ _ _ _ _ _ E) as [(s & Ea & ->)|(m & s & _ & H & _)]; [|discriminate].
  pose proof (leftover_file n o fs text s Ho Ea) as L. destruct (leftover o s); auto. apply L.
Qed.

(** A byte of a DUMMY section. *)
Lemma dummy_byte : forall s x, s.(fl).(a_code_on) = false -> s.(fl).(a_org_gv) = true ->
  exists s', insert8 x s = (Ok tt, s') /\
    s'.(wr).(raw) = s.(wr).(raw) /\ s'.(wr).(rawstart) = s.(wr).(rawstart) /\
    pieces (match s'.(wr).(scode) with Some l => l | None => [] end) =
      pieces (match s.(wr).(scode) with Some l => l | None => [] end) /\
    s'.(wr).(codelen) = s.(wr).(codelen) /\ s'.(ls) = s.(ls) /\
    s'.(wr).(pc) = (s.(wr).(pc) + 1) mod 2 ^ 64 /\ s'.(ct).(advance) = s.(ct).(advance) + 1.
Proof.
  intros s x Hc Ho. unfold insert8. unfold bind at 1. cbn [gets]. rewrite Ho, Hc.
  cbn [negb when]. unfold bind, upd_wr, upd_ct, ret. unfold modify.
  destruct (negb (a_nocode (fl s))); [destruct (scode (wr s)) eqn:E|];
    eexists; (split; [reflexivity|]); cbn; rewrite ?E; repeat split.
Qed.
