(** Lemmas on the instructions of the Z80. *)
From Coq Require Import String Ascii ZArith List Bool Lia ZifyBool.
From Verif Require Import Base State Tree Filter Output Label Operator Parse Scode Tables Cpu6800 Cpu6502 CpuZ80 Crasm BaseFacts FilterFacts TreeFacts
  Frame Eval SpecEmit EmitFacts PseudoFacts SpecForms FormFacts SpecCpu CpuFacts SpecZ80 Z80Facts.
From Verif Require SpecSplit.
Import ListNotations.
Open Scope Z_scope.
Ltac Zify.zify_post_hook ::= Z.div_mod_to_equations.

Lemma emits_near : forall bs s s1 s2, close s s1 -> good bs s1 s2 -> emits bs s s2 /\ near s s2.
Proof.
  intros bs s s1 s2 (N & (W & A & Em) & _) [(E1 & E2 & E3) S]. split; [|eapply near_trans; [exact N|apply near_same; exact S]].
  unfold emits. destruct N as (F & _ & _ & _ & _ & P & _). cbn [set_cp fl ct] in F, P.
  rewrite W, A, Em, F, P in *. auto.
Qed.

(** * Storing *)
Definition docbytes (c : cpustate) (code : Z) : list Z :=
  (if (c.(z_indexflag) =? IX) || (c.(z_indexflag) =? IY) || c.(z_offsetflag) then [c.(z_indexflag) mod 256] else []) ++
  (if hashigh code then [Z.shiftr code 8 mod 256] else [code mod 256]) ++
  (if c.(z_offsetflag) then [c.(z_offset) mod 256] else []) ++
  (if hashigh code then [code mod 256] else []) ++
  (if c.(z_arg8flag) then [c.(z_arg) mod 256] else if c.(z_arg16flag) then low_high c.(z_arg) else []).

Lemma when_insert8 : forall (b : bool) x s u s', pcok s -> when b (insert8 x) s = (Ok u, s') -> good (if b then [x mod 256] else []) s s'.
Proof.
  intros b x s u s' R E. unfold when in E. destruct b; [eapply insert8_good; eassumption|].
  injection E as _ <-. apply good_nil; [exact R|apply same_refl|apply still_refl].
Qed.
Lemma warned : forall b m s u s' bs s0, good bs s0 s -> when b (warning m) s = (Ok u, s') -> good bs s0 s'.
Proof. intros b m s u s' bs s0 G E. apply when_warning in E. destruct E. eapply good_after; eassumption. Qed.
Lemma word_lh : forall v, word 2 true v = low_high v.
Proof. reflexivity. Qed.
Lemma good_lohi : forall bs s s', good bs s s' -> s.(fl).(a_lohi) = true -> s'.(fl).(a_lohi) = true.
Proof. intros bs s s' [_ S] L. rewrite (same_fl _ _ S). exact L. Qed.

Theorem docode_good : forall code s u s', pcok s -> s.(fl).(a_lohi) = true -> docode code s = (Ok u, s') ->
  good (docbytes s.(cp) code) s s'.
Proof.
  intros code s u s' R L E. unfold docode in E. step E c s1 E1. apply gets_ok in E1. destruct E1 as [-> ->].
  set (c := cp s) in *. unfold docbytes.
  step E u1 s1 E1. apply when_insert8 in E1; [|exact R]. pose proof (good_pc _ _ _ E1) as R1. pose proof (good_lohi _ _ _ E1 L) as L1.
  step E u2 s2 E2. assert (G2 : good (if hashigh code then [Z.shiftr code 8 mod 256] else [code mod 256]) s1 s2)
    by (destruct (hashigh code); eapply insert8_good; eassumption).
  clear E2. pose proof (good_pc _ _ _ G2) as R2. pose proof (good_lohi _ _ _ G2 L1) as L2.
  step E u3 s3 E3. assert (G3 : good (if z_offsetflag c then [z_offset c mod 256] else []) s2 s3).
  { destruct (z_offsetflag c).
    - step E3 u4 s4 E4. apply insert8_good in E4; [|exact R2]. eapply warned; eassumption.
    - injection E3 as _ <-. apply good_nil; [exact R2|apply same_refl|apply still_refl]. }
  clear E3. pose proof (good_pc _ _ _ G3) as R3. pose proof (good_lohi _ _ _ G3 L2) as L3.
  step E u4 s4 E4. apply when_insert8 in E4; [|exact R3]. pose proof (good_pc _ _ _ E4) as R4. pose proof (good_lohi _ _ _ E4 L3) as L4.
  assert (G5 : good (if z_arg8flag c then [z_arg c mod 256] else if z_arg16flag c then low_high (z_arg c) else []) s4 s').
  { destruct (z_arg8flag c).
    - step E u5 s5 E5. apply insert8_good in E5; [|exact R4]. eapply warned; eassumption.
    - destruct (z_arg16flag c).
      + apply insert16_good in E; [|exact R4]. rewrite L4 in E. exact E.
      + injection E as _ <-. apply good_nil; [exact R4|apply same_refl|apply still_refl]. }
  eapply good_app; [exact E1|]. eapply good_app; [exact G2|]. eapply good_app; [exact G3|]. eapply good_app; [exact E4|exact G5].
Qed.

(** What the theorem says of one instruction. *)
Definition result_z (n : string) (o : option text) (s s' : state) : Prop :=
  exists ops bs, operands s n o ops /\ emits bs s s' /\ near s s' /\ (zilog s.(wr).(pc) n ops = Some bs \/ stray s n o ops bs).
Lemma result_intro : forall n o s s1 s' ops bs, operands s n o ops -> close s s1 -> good bs s1 s' ->
  zilog s.(wr).(pc) n ops = Some bs \/ stray s n o ops bs -> result_z n o s s'.
Proof. intros n o s s1 s' ops bs O C G Z. destruct (emits_near _ _ _ _ C G) as [A B]. exists ops, bs. auto. Qed.

Definition clr (c : cpustate) : cpustate :=
  set_z_indexflag 0 (set_z_offsetflag false (set_z_arg8flag false (set_z_arg16flag false c))).
Lemma clrall_ok : forall s u s', clrall s = (Ok u, s') -> s' = set_cp (clr s.(cp)) s.
Proof. intros s u s' E. apply upd_cp_ok in E. exact E. Qed.
Definition set8 (b : bool) (c : cpustate) : cpustate := if b then set_z_arg8flag true c else c.

Lemma close_pc : forall s s', close s s' -> pcok s -> pcok s'.
Proof. intros s s' C R. eapply still_pc; [apply C|exact R]. Qed.
Lemma close_lohi : forall s s', close s s' -> s.(fl).(a_lohi) = true -> s'.(fl).(a_lohi) = true.
Proof. intros s s' C L. rewrite (near_fl _ _ (proj1 C)). exact L. Qed.
Lemma finish : forall n o s s1 s' u ops code, pcok s -> s.(fl).(a_lohi) = true -> operands s n o ops -> close s s1 ->
  docode code s1 = (Ok u, s') ->
  zilog s.(wr).(pc) n ops = Some (docbytes s1.(cp) code) \/ stray s n o ops (docbytes s1.(cp) code) -> result_z n o s s'.
Proof.
  intros n o s s1 s' u ops code R L O C E Z. eapply result_intro; [exact O|exact C| |exact Z].
  eapply docode_good; [eapply close_pc; eassumption|eapply close_lohi; eassumption|exact E].
Qed.

Ltac alive H := cbn [eff use] in H; unfold use in H; cbn [set_z_indexflag set_z_offsetflag set_z_arg8flag set_z_arg16flag set_z_offset set_z_arg z_indexflag z_offsetflag z_arg8flag z_arg16flag z_arg z_offset clr] in H.

(** ** LD *)
Lemma ld_pure : forall x y c c1 c2 k a8, eff x (clr c) = Some c1 -> eff y c1 = Some c2 -> ld_code (zcode x) (zcode y) = Some (k, a8) ->
  z_load x y = Some (docbytes (set8 a8 c2) k).
Proof.
  intros x y [cf of off i a a8 a16] c1 c2 k b E1 E2 L. unfold clr in E1. cbn in E1.
  destruct x as [[]|[]|[] d|m|v| | | |]; cbn in E1; try discriminate E1; injection E1 as <-;
  destruct y as [[]|[]|[] d'|m'|v'| | | |]; cbn in E2; try discriminate E2; injection E2 as <-;
  vm_compute in L; try discriminate L; injection L as <- <-; reflexivity.
Qed.
Ltac reading G N x R Ef Zc C := let K := fresh in
  destruct (getreg_ok _ _ _ _ N G) as (x & R & Ef & Zc & C); clear G.

Lemma cut_comma : forall t s r s', filter2 t "?_,_?" s = (Ok r, s') ->
  match r with Some (a, b) => SpecSplit.first_cut comma t a b | None => SpecSplit.uncut comma t end.
Proof. exact comma_sep. Qed.

Theorem ld_good : forall o s u s', named s -> pcok s -> s.(fl).(a_lohi) = true -> z_ld o s = (Ok u, s') -> result_z "ld" o s s'.
Proof.
  intros o s u s' N R L E. unfold z_ld in E. step E m s1 E1. destruct (close_filter2 _ _ _ _ _ E1) as [C1 P1]. apply cut_comma in E1.
  destruct m as [[a b]|]; [|elim (error_never _ _ _ _ _ E)].
  step E u1 s2 E2. apply clrall_ok in E2. step E g1 s3 E3. step E g2 s4 E4.
  assert (C2 : close s s2) by (subst s2; eapply close_trans; [exact C1|apply close_cp]).
  pose proof (proj2 (proj2 C2) N) as N2. reading E3 N2 x Rx Ex Zx C3. pose proof (close_trans _ _ _ C2 C3) as C3'.
  pose proof (proj2 (proj2 C3') N) as N3. reading E4 N3 y Ry Ey Zy C4. pose proof (close_trans _ _ _ C3' C4) as C4'. subst g1 g2 s2. cbn [cp set_cp] in Ex.
  destruct (ld_code (zcode x) (zcode y)) as [[k a8]|] eqn:K; [|elim (error_never _ _ _ _ _ E)].
  pose proof (ld_pure _ _ _ _ _ _ _ Ex Ey K) as Z.
  step E u2 s5 E5. assert (S5 : close s4 s5 /\ s5.(cp) = set8 a8 s4.(cp)).
  { apply when_fine in E5. destruct E5 as [[-> E5]|[-> ->]]; [|split; [apply close_refl|reflexivity]].
    apply upd_cp_ok in E5. subst s5. split; [apply close_cp|reflexivity]. }
  destruct S5 as [C5 P5]. rewrite <- P5 in Z.
  apply (finish "ld" o s s5 s' u [x; y] k); [exact R|exact L| |eapply close_trans; [exact C4'|exact C5]|exact E|left; exact Z].
  eapply op_two; [exact E1|eapply reads_near; [apply C2|exact Rx]|eapply reads_near; [apply C3'|exact Ry]].
Qed.

(** ** One operand *)
Definition of_entry (n : string) (h : handler) (c : Z) : Prop := In (mn TZ80 n h c) mz80.

Lemma first_read : forall t s u s1 g s2, named s -> clrall s = (Ok u, s1) -> getreg t s1 = (Ok g, s2) ->
  exists x, reads s t x /\ eff x (clr s.(cp)) = Some s2.(cp) /\ g = zcode x /\ close s s2.
Proof.
  intros t s u s1 g s2 N E1 E2. apply clrall_ok in E1. assert (C1 : close s s1) by (subst s1; apply close_cp).
  destruct (getreg_ok _ _ _ _ (proj2 (proj2 C1) N) E2) as (x & R & Ef & Zc & C). exists x.
  split; [eapply reads_near; [apply C1|exact R]|]. split; [subst s1; exact Ef|]. split; [exact Zc|]. eapply close_trans; eassumption.
Qed.

Ltac every x E := destruct x as [[]|[]|[] ?d|?m|?v| | | |]; cbn in E; try discriminate E; injection E as <-.

Lemma onreg8_pure : forall x c c1 code k, eff x (clr c) = Some c1 -> negb (isreg8 (zcode x)) = false -> In (code, k) [(-13536, 4); (-13528, 5); (-13512, 7); (-13552, 2); (-13544, 3); (-13568, 0); (-13560, 1)] ->
  on_r_cb (fun r => 8 * k + r) x = Some (docbytes c1 (code + zcode x)).
Proof.
  intros x [cf of off i a a8 a16] c1 code k E B I. unfold clr in E. cbn in E.
  every x E; vm_compute in B; try discriminate B;
  cbn [In] in I; repeat (destruct I as [I|I]; [injection I as <- <-; reflexivity|]); destruct I.
Qed.
Lemma incr_pure : forall x c c1 code, eff x (clr c) = Some c1 -> code = 1027 \/ code = 1291 ->
  (isreg8 (zcode x) = true -> zilog 0 (if code =? 1027 then "inc" else "dec") [x] = Some (docbytes c1 (zcode x * 8 + Z.shiftr code 8))) /\
  (isreg8 (zcode x) = false -> isreg16 (zcode x) = true -> zilog 0 (if code =? 1027 then "inc" else "dec") [x] = Some (docbytes c1 (Z.land code 255 + (zcode x - 8) * 16))).
Proof.
  intros x [cf of off i a a8 a16] c1 code E C. unfold clr in E. cbn in E.
  every x E; split; intros B; try (vm_compute in B; discriminate B); try (intros B'; try (vm_compute in B'; discriminate B'));
  destruct C as [->| ->]; reflexivity.
Qed.
Lemma stackop_pure : forall x c c1 code, eff x (clr c) = Some c1 -> code = 69 \/ code = 65 ->
  let reg := if zcode x =? 19 then 11 else if zcode x =? 11 then 19 else zcode x in
  negb (isreg16 reg) = false -> zilog 0 (if code =? 69 then "push" else "pop") [x] = Some (docbytes c1 (code + reg * 16)).
Proof.
  intros x [cf of off i a a8 a16] c1 code E C. unfold clr in E. cbn in E.
  every x E; intros reg B; try (vm_compute in B; discriminate B);
  destruct C as [->| ->]; reflexivity.
Qed.

(** Nothing but relative jumps depends on the address. *)
Lemma zilog_pc : forall p q n ops, ~ In n ["jr"; "djnz"]%string -> zilog p n ops = zilog q n ops.
Proof.
  intros p q n ops H. unfold zilog. destruct (assoc n alu); [reflexivity|]. destruct (String.eqb n "ld"); [reflexivity|].
  assert (A : String.eqb n "jr" = false) by (apply String.eqb_neq; intros ->; apply H; left; reflexivity).
  assert (B : String.eqb n "djnz" = false) by (apply String.eqb_neq; intros ->; apply H; right; left; reflexivity).
  unfold z_other. rewrite A, B. reflexivity.
Qed.
Ltac notrel := cbn [In]; intros [?H|[?H|[]]]; discriminate.

Theorem onreg8_good : forall n c k, assoc n rotations = Some k -> In (c, k) [(-13536, 4); (-13528, 5); (-13512, 7); (-13552, 2); (-13544, 3); (-13568, 0); (-13560, 1)] ->
  (forall x, zilog 0 n [x] = on_r_cb (fun r => 8 * k + r) x) -> ~ In n ["jr"; "djnz"]%string ->
  forall o s u s', named s -> pcok s -> s.(fl).(a_lohi) = true -> z_onreg8 c o s = (Ok u, s') -> result_z n o s s'.
Proof.
  intros n c k A I Zn J o s u s' N R L E. unfold z_onreg8 in E. step E u1 s1 E1. step E g s2 E2.
  destruct (first_read _ _ _ _ _ _ N E1 E2) as (x & Rx & Ex & -> & C). clear E1 E2.
  step E u2 s3 E3. apply when_err in E3. destruct E3 as [B ->].
  eapply finish; [exact R|exact L|eapply op_one; exact Rx|exact C|exact E|]. left.
  rewrite (zilog_pc _ 0 _ _ J), Zn. eapply onreg8_pure; eassumption.
Qed.
Theorem incr_good : forall n c, (n = "inc"%string /\ c = 1027) \/ (n = "dec"%string /\ c = 1291) ->
  forall o s u s', named s -> pcok s -> s.(fl).(a_lohi) = true -> z_incr c o s = (Ok u, s') -> result_z n o s s'.
Proof.
  intros n c H o s u s' N R L E. unfold z_incr in E. step E u1 s1 E1. step E g s2 E2.
  destruct (first_read _ _ _ _ _ _ N E1 E2) as (x & Rx & Ex & -> & C). clear E1 E2.
  assert (Hc : c = 1027 \/ c = 1291) by (destruct H as [[_ ->]|[_ ->]]; auto).
  destruct (incr_pure _ _ _ _ Ex Hc) as [A B].
  assert (Hn : (if c =? 1027 then "inc"%string else "dec"%string) = n) by (destruct H as [[-> ->]|[-> ->]]; reflexivity). rewrite Hn in A, B.
  assert (J : ~ In n ["jr"; "djnz"]%string) by (destruct H as [[-> _]|[-> _]]; notrel).
  destruct (isreg8 (zcode x)); [|destruct (isreg16 (zcode x)); [|elim (error_never _ _ _ _ _ E)]];
    (eapply finish; [exact R|exact L|eapply op_one; exact Rx|exact C|exact E|]; left; rewrite (zilog_pc _ 0 _ _ J)); auto.
Qed.
Theorem stackop_good : forall n c, (n = "push"%string /\ c = 69) \/ (n = "pop"%string /\ c = 65) ->
  forall o s u s', named s -> pcok s -> s.(fl).(a_lohi) = true -> z_stackop c o s = (Ok u, s') -> result_z n o s s'.
Proof.
  intros n c H o s u s' N R L E. unfold z_stackop in E. step E u1 s1 E1. step E g s2 E2.
  destruct (first_read _ _ _ _ _ _ N E1 E2) as (x & Rx & Ex & -> & C). clear E1 E2. cbv zeta in E.
  step E u2 s3 E3. apply when_err in E3. destruct E3 as [B ->].
  assert (Hc : c = 69 \/ c = 65) by (destruct H as [[_ ->]|[_ ->]]; auto).
  pose proof (stackop_pure _ _ _ _ Ex Hc B) as Z.
  assert (Hn : (if c =? 69 then "push"%string else "pop"%string) = n) by (destruct H as [[-> ->]|[-> ->]]; reflexivity). rewrite Hn in Z.
  assert (J : ~ In n ["jr"; "djnz"]%string) by (destruct H as [[-> _]|[-> _]]; notrel).
  eapply finish; [exact R|exact L|eapply op_one; exact Rx|exact C|exact E|]. left. rewrite (zilog_pc _ 0 _ _ J). exact Z.
Qed.

(** ** Bits *)
Lemma bit_pure : forall n code k x c c1 b, In (n, code, k) [("bit", -13504, 0x40); ("set", -13376, 0xC0); ("res", -13440, 0x80)]%string ->
  eff x (clr c) = Some c1 -> negb (isreg8 (zcode x)) = false -> 0 <= b <= 7 ->
  zilog 0 n [Num b; x] = Some (docbytes c1 (code + zcode x + b * 8)).
Proof.
  intros n code k x [cf of off i a a8 a16] c1 b I E B Hb. unfold clr in E. cbn in E.
  assert (H : b = 0 \/ b = 1 \/ b = 2 \/ b = 3 \/ b = 4 \/ b = 5 \/ b = 6 \/ b = 7) by lia.
  every x E; vm_compute in B; try discriminate B;
  cbn [In] in I; repeat (destruct I as [I|I]; [injection I as <- <- <-; repeat (destruct H as [->|H]; [reflexivity|]); subst b; reflexivity|]); destruct I.
Qed.
Theorem bitop_good : forall n code k, In (n, code, k) [("bit", -13504, 0x40); ("set", -13376, 0xC0); ("res", -13440, 0x80)]%string ->
  forall o s u s', named s -> pcok s -> s.(fl).(a_lohi) = true -> z_bitop code o s = (Ok u, s') -> result_z n o s s'.
Proof.
  intros n code k I o s u s' N R L E. unfold z_bitop in E. step E u1 s1 E1. apply clrall_ok in E1.
  assert (C1 : close s s1) by (subst s1; apply close_cp).
  step E m s2 E2. destruct (close_filter2 _ _ _ _ _ E2) as [C2 P2]. apply cut_comma in E2. apply (close_trans _ _ _ C1) in C2.
  destruct m as [[a b]|]; [|elim (error_never _ _ _ _ _ E)].
  step E r s3 E3. destruct (close_parse _ _ _ _ E3) as [C3 P3]. pose proof (close_trans _ _ _ C2 C3) as C3'.
  step E u2 s4 E4. apply checktype_ok in E4. destruct E4 as [T ->]. cbv zeta in E.
  step E u3 s4 E4. apply when_err in E4. destruct E4 as [B ->].
  step E g s4 E4. pose proof (proj2 (proj2 C3') N) as N3. reading E4 N3 x Rx Ex Zx C4. subst g.
  step E u4 s5 E5. apply when_err in E5. destruct E5 as [B2 ->].
  rewrite P3, P2 in Ex. subst s1. cbn [cp set_cp] in Ex.
  assert (J : ~ In n ["jr"; "djnz"]%string) by (cbn [In] in I; repeat (destruct I as [I|I]; [injection I as <- <- <-; notrel|]); destruct I).
  eapply finish; [exact R|exact L| |eapply close_trans; eassumption|exact E|].
  - apply (op_bit _ _ _ a b (s32 (r_value r))).
    + cbn [In] in I |- *. repeat (destruct I as [I|I]; [injection I as <- _ _; auto|]). destruct I.
    + exact E2.
    + eapply value_z_near; [apply C2|]. eapply value_z_here; eassumption.
    + eapply reads_near; [apply C3'|exact Rx].
  - left. rewrite (zilog_pc _ 0 _ _ J). eapply bit_pure; try eassumption. lia.
Qed.

(** ** Operations with the accumulator *)
Lemma alu_pure : forall x c c1 k, eff x (clr c) = Some c1 -> 0 <= k <= 7 ->
  with_a 0 x = None \/
  with_a k x = Some (if zcode x =? IMDATA then docbytes (set8 true c1) (128 + 8 * k + 70) else docbytes c1 (128 + 8 * k + zcode x)).
Proof.
  intros x [cf of off i a a8 a16] c1 k E Hk. unfold clr in E. cbn in E.
  assert (H : k = 0 \/ k = 1 \/ k = 2 \/ k = 3 \/ k = 4 \/ k = 5 \/ k = 6 \/ k = 7) by lia.
  every x E; try (left; reflexivity); right; repeat (destruct H as [->|H]; [reflexivity|]); subst k; reflexivity.
Qed.
Lemma is_acc : forall x, zcode x = ACCUMULATOR -> x = Reg rA.
Proof. intros x E. destruct x as [[]|[]|[] d|m|v| | | |]; try discriminate E. reflexivity. Qed.
Lemma is_hl : forall x, zcode x = HLREGISTER -> x = Reg rHL \/ x = Reg rIX \/ x = Reg rIY.
Proof. intros x E. destruct x as [[]|[]|[] d|m|v| | | |]; try discriminate E; auto. Qed.

Lemma logical_ok : forall k o s u s', 0 <= k <= 7 -> named s -> pcok s -> s.(fl).(a_lohi) = true -> z_logical (128 + 8 * k) o s = (Ok u, s') ->
  exists x s1 bs, close s s1 /\ good bs s1 s' /\ (with_a k x = Some bs \/ with_a 0 x = None) /\
    ((SpecSplit.uncut comma (otext o) /\ reads s (otext o) x) \/
     (exists a b, SpecSplit.first_cut comma (otext o) a b /\ reads s a (Reg rA) /\ reads s b x)).
Proof.
  intros k o s u s' Hk N R L E. unfold z_logical in E. step E u1 s1 E1. apply clrall_ok in E1.
  assert (C1 : close s s1) by (subst s1; apply close_cp).
  step E m s2 E2. destruct (close_filter2 _ _ _ _ _ E2) as [C2 P2]. apply cut_comma in E2. apply (close_trans _ _ _ C1) in C2.
  step E t s3 E3.
  assert (K : close s s3 /\ s3.(cp) = clr s.(cp) /\
    ((SpecSplit.uncut comma (otext o) /\ t = otext o) \/ (exists a, SpecSplit.first_cut comma (otext o) a t /\ reads s a (Reg rA)))).
  { destruct m as [[a b]|].
    - step E3 g s4 E4. pose proof (proj2 (proj2 C2) N) as N2. reading E4 N2 x Rx Ex Zx C4.
      step E3 u2 s5 E5. apply when_err in E5. destruct E5 as [B ->].
      step E3 u3 s5 E5. apply close_warning in E5. destruct E5 as [C5 P5]. injection E3 as <- <-.
      assert (zcode x = ACCUMULATOR) as Za by lia. apply is_acc in Za. subst x. cbn [eff] in Ex. injection Ex as Ex.
      split; [eapply close_trans; [exact C2|]; eapply close_trans; eassumption|]. split; [rewrite P5, <- Ex, P2; subst s1; reflexivity|].
      right. exists a. split; [exact E2|]. eapply reads_near; [apply C2|exact Rx].
    - injection E3 as <- <-. split; [exact C2|]. split; [rewrite P2; subst s1; reflexivity|]. left. split; [exact E2|reflexivity]. }
  destruct K as (C3 & P3 & Sp). clear E2 E3 C2 P2.
  step E g s4 E4. pose proof (proj2 (proj2 C3) N) as N3. reading E4 N3 x Rx Ex Zx C4. rewrite P3 in Ex. subst g.
  apply (close_trans _ _ _ C3) in C4. apply (reads_near _ _ _ _ (proj1 C3)) in Rx.
  step E g s5 E5.
  assert (K : close s s5 /\ (if zcode x =? IMDATA then g = 70 /\ s5.(cp) = set8 true s4.(cp) else g = zcode x /\ s5.(cp) = s4.(cp))).
  { destruct (zcode x =? IMDATA).
    - step E5 u2 s6 E6. apply upd_cp_ok in E6. subst s6. injection E5 as <- <-. split; [|auto].
      eapply close_trans; [exact C4|apply close_cp].
    - injection E5 as <- <-. auto. }
  destruct K as [C5 K].
  apply docode_good in E; [|eapply close_pc; eassumption|eapply close_lohi; eassumption].
  exists x, s5, (docbytes (cp s5) (128 + 8 * k + g)). split; [exact C5|]. split; [exact E|]. split.
  - destruct (alu_pure _ _ _ _ Ex Hk) as [A|A]; [right; exact A|left]. rewrite A.
    destruct (zcode x =? IMDATA); destruct K as [-> ->]; reflexivity.
  - destruct Sp as [[U ->]|(a & F & Ra)]; [left; auto|right]. exists a, t. auto.
Qed.

Theorem logical_good : forall n k, In (n, k) [("or", 6); ("and", 4); ("xor", 5); ("sub", 2); ("cp", 7)]%string ->
  forall o s u s', named s -> pcok s -> s.(fl).(a_lohi) = true -> z_logical (128 + 8 * k) o s = (Ok u, s') -> result_z n o s s'.
Proof.
  intros n k I o s u s' N R L E.
  assert (Hk : 0 <= k <= 7) by (cbn [In] in I; repeat (destruct I as [I|I]; [injection I as <- <-; lia|]); destruct I).
  assert (In1 : In n ["sub"; "and"; "xor"; "or"; "cp"]%string)
    by (cbn [In] in I |- *; repeat (destruct I as [I|I]; [injection I as <- _; auto 10|]); destruct I).
  assert (In2 : In n (map fst alu)) by (cbn [In alu map fst] in In1 |- *; intuition).
  assert (Z1 : forall x p, zilog p n [x] = with_a k x)
    by (intros [[]| | | | | | | |] p; cbn [In] in I; repeat (destruct I as [I|I]; [injection I as <- <-; reflexivity|]); destruct I).
  assert (Z2 : forall x p, zilog p n [Reg rA; x] = with_a k x) by (intros x p; cbn [In] in I; repeat (destruct I as [I|I]; [injection I as <- <-; reflexivity|]); destruct I).
  destruct (logical_ok _ _ _ _ _ Hk N R L E) as (x & s1 & bs & C & G & W & [[U Rx]|(a & b & F & Ra & Rx)]).
  - eapply result_intro; [eapply op_one; exact Rx|exact C|exact G|]. rewrite Z1. destruct W as [W|W]; [left; exact W|right].
    apply st_alu1; assumption.
  - eapply result_intro; [eapply op_two; [exact F|exact Ra|exact Rx]|exact C|exact G|]. rewrite Z2. destruct W as [W|W]; [left; exact W|right].
    apply st_alu2; assumption.
Qed.

Definition hl_code (code : Z) : Z :=
  if code =? 128 then 9 - 128 else if code =? 136 then 60746 - 128 else if code =? 152 then 60738 - 128 else code.
Lemma hl_pure : forall n k x y c c1 c2, In (n, k) [("add", 0); ("adc", 1); ("sbc", 3)]%string -> zcode x = HLREGISTER -> eff x (clr c) = Some c1 ->
  negb (z_indexflag c1 =? HL) && negb (128 + 8 * k =? 128) = false -> eff y c1 = Some c2 -> negb (isreg16 (zcode y)) = false ->
  with_hl n x y = Some (docbytes c2 (hl_code (128 + 8 * k) + zcode y * 16)).
Proof.
  intros n k x y [cf of off i a a8 a16] c1 c2 I Zx E1 B E2 B2. unfold clr in E1. cbn in E1.
  destruct (is_hl _ Zx) as [->|[->| ->]]; cbn in E1; injection E1 as <-; clear Zx;
  (destruct y as [[]|[]|[] d|m|v| | | |]; cbn in E2; try discriminate E2; injection E2 as <-; vm_compute in B2; try discriminate B2; clear B2);
  cbn [In] in I; (destruct I as [I|[I|[I|[]]]]; injection I as <- <-; vm_compute in B; try discriminate B; reflexivity).
Qed.

Theorem arith_good : forall n k, In (n, k) [("add", 0); ("adc", 1); ("sbc", 3)]%string ->
  forall o s u s', named s -> pcok s -> s.(fl).(a_lohi) = true -> z_arith (128 + 8 * k) o s = (Ok u, s') -> result_z n o s s'.
Proof.
  intros n k I o s u s' N R L E. unfold z_arith in E. step E u1 s1 E1. apply clrall_ok in E1.
  assert (C1 : close s s1) by (subst s1; apply close_cp).
  step E m s2 E2. destruct (close_filter2 _ _ _ _ _ E2) as [C2 P2]. apply cut_comma in E2. apply (close_trans _ _ _ C1) in C2.
  destruct m as [[a b]|]; [|elim (error_never _ _ _ _ _ E)].
  step E g s3 E3. pose proof (proj2 (proj2 C2) N) as N2. reading E3 N2 x Rx Ex Zx C3. rewrite P2 in Ex. subst g. subst s1. cbn [cp set_cp] in Ex.
  apply (close_trans _ _ _ C2) in C3. apply (reads_near _ _ _ _ (proj1 C2)) in Rx.
  assert (Hk : 0 <= k <= 7) by (cbn [In] in I; repeat (destruct I as [I|I]; [injection I as <- <-; lia|]); destruct I).
  assert (In1 : In n ["add"; "adc"; "sbc"]%string)
    by (cbn [In] in I |- *; repeat (destruct I as [I|I]; [injection I as <- _; auto 10|]); destruct I).
  assert (In2 : In n (map fst alu)) by (cbn [In alu map fst] in In1 |- *; intuition).
  assert (Z2 : forall x p, zilog p n [Reg rA; x] = with_a k x) by (intros y p; cbn [In] in I; repeat (destruct I as [I|I]; [injection I as <- <-; reflexivity|]); destruct I).
  assert (Z3 : forall x y p, zcode x = HLREGISTER -> zilog p n [x; y] = with_hl n x y).
  { intros x' y p H. cbn [In] in I; destruct (is_hl _ H) as [->|[->| ->]]; repeat (destruct I as [I|I]; [injection I as <- <-; reflexivity|]); destruct I. }
  destruct (zcode x =? ACCUMULATOR) eqn:Za.
  - apply Z.eqb_eq, is_acc in Za. subst x.
    apply logical_ok in E; [|exact Hk|apply C3; exact N|eapply close_pc; eassumption|eapply close_lohi; eassumption].
    destruct E as (x & s4 & bs & C & G & W & [[U Rx']|(a' & b' & F & Ra & Rx')]).
    + eapply result_intro; [eapply op_two; [exact E2|exact Rx|eapply reads_near; [apply C3|exact Rx']]|eapply close_trans; [exact C3|exact C]|exact G|].
      rewrite Z2. destruct W as [W|W]; [left; exact W|right]. apply st_alu2; assumption.
    + eapply result_intro; [eapply op_three; [exact E2|exact F|exact Rx|eapply reads_near; [apply C3|exact Ra]|eapply reads_near; [apply C3|exact Rx']]|eapply close_trans; [exact C3|exact C]|exact G|].
      right. apply st_alu3. exact In1.
  - destruct (zcode x =? HLREGISTER) eqn:Zh; [|elim (error_never _ _ _ _ _ E)]. apply Z.eqb_eq in Zh.
    step E c s4 E4. apply gets_ok in E4. destruct E4 as [-> ->].
    step E u2 s4 E4. apply when_err in E4. destruct E4 as [B ->]. cbv zeta in E.
    step E g s4 E4. pose proof (proj2 (proj2 C3) N) as N3. reading E4 N3 y Ry Ey Zy C4. subst g.
    step E u3 s5 E5. apply when_err in E5. destruct E5 as [B2 ->].
    eapply finish; [exact R|exact L|eapply op_two; [exact E2|exact Rx|eapply reads_near; [apply C3|exact Ry]]|eapply close_trans; eassumption|exact E|].
    left. rewrite Z3 by exact Zh. eapply hl_pure; eassumption.
Qed.

(** ** Instructions without operands *)
Theorem simple_good : forall n l c, In (n, l) mz80 -> l.(l_ptr) = PFun HZSimple -> l.(l_modifier) = c ->
  forall o s u s', named s -> pcok s -> s.(fl).(a_lohi) = true -> simple c o s = (Ok u, s') -> result_z n o s s'.
Proof.
  intros n l c I Hp Hm o s u s' N R L E. unfold simple in E. step E u1 s1 E1. apply when_insert8 in E1; [|exact R].
  pose proof (good_pc _ _ _ E1) as R1. step E u2 s2 E2. apply insert8_good in E2; [|exact R1].
  apply when_err in E. destruct E as [B ->]. destruct o; [discriminate B|].
  pose proof (good_app _ _ _ _ _ E1 E2) as G.
  eapply result_intro; [apply op_none; reflexivity|apply close_refl|exact G|]. clear -I Hp Hm.
  assert (K : forallb (fun e : entry => match l_ptr (snd e) with
    | PFun HZSimple => let c := l_modifier (snd e) in
        match zilog 0 (fst e) [] with
        | Some bs => (if list_eq_dec Z.eq_dec bs ((if hashigh c then [Z.shiftr c 8 mod 256] else []) ++ [c mod 256]) then true else false) ||
                     (String.eqb (fst e) "cpdr" && (c =? -4727))
        | None => false
        end && negb (existsb (String.eqb (fst e)) ["jr"; "djnz"]%string)
    | _ => true end) mz80 = true) by (vm_compute; reflexivity).
  rewrite forallb_forall in K. specialize (K _ I). cbn [fst snd] in K. rewrite Hp, Hm in K. cbv zeta in K.
  apply andb_prop in K. destruct K as [K J].
  assert (J' : ~ In n ["jr"; "djnz"]%string).
  { intros H. destruct (existsb (String.eqb n) ["jr"; "djnz"]%string) eqn:X; [discriminate J|].
    assert (existsb (String.eqb n) ["jr"; "djnz"]%string = true) by (apply existsb_exists; exists n; split; [exact H|apply String.eqb_refl]). congruence. }
  rewrite (zilog_pc _ 0 _ _ J'). destruct (zilog 0 n []) as [bs|]; [|discriminate K].
  destruct (list_eq_dec _ _ _) as [->|X]; [left; reflexivity|right]. cbn [orb] in K. apply andb_prop in K. destruct K as [K1 K2].
  apply String.eqb_eq in K1. apply Z.eqb_eq in K2. subst n. rewrite K2. apply st_cpdr.
Qed.

(** ** IM, RST *)
Theorem im_good : forall o s u s', named s -> pcok s -> s.(fl).(a_lohi) = true -> z_im o s = (Ok u, s') -> result_z "im" o s s'.
Proof.
  intros o s u s' N R L E. unfold z_im in E. step E r s1 E1. destruct (close_parse _ _ _ _ E1) as [C1 _].
  step E u1 s2 E2. apply checktype_ok in E2. destruct E2 as [T ->].
  pose proof (close_pc _ _ C1 R) as R1. pose proof (close_lohi _ _ C1 L) as L1.
  assert (O : operands s "im" o [Num (s32 (r_value r))]).
  { apply op_num; [left; reflexivity|]. eapply value_z_here; eassumption. }
  destruct (r_value r =? 0) eqn:B0.
  { apply Z.eqb_eq in B0. rewrite B0 in O. apply insert16_good in E; [|exact R1]. rewrite L1 in E. eapply result_intro; [exact O|exact C1|exact E|left; reflexivity]. }
  destruct (r_value r =? 1) eqn:B1.
  { apply Z.eqb_eq in B1. rewrite B1 in O. apply insert16_good in E; [|exact R1]. rewrite L1 in E. eapply result_intro; [exact O|exact C1|exact E|left; reflexivity]. }
  destruct (r_value r =? 2) eqn:B2.
  { apply Z.eqb_eq in B2. rewrite B2 in O. apply insert16_good in E; [|exact R1]. rewrite L1 in E. eapply result_intro; [exact O|exact C1|exact E|left; reflexivity]. }
  step E u2 s2 E2. elim (error_never _ _ _ _ _ E).
Qed.

Lemma land_fff8 : forall v, (Z.land v 65528 =? 0) = true <-> v mod 65536 <= 7.
Proof. intros v. change 65528 with (Z.shiftl (Z.ones 13) 3). rewrite land_field by lia. change (2 ^ 3) with 8. change (2 ^ 13) with 8192. lia. Qed.
Lemma land_ffc7 : forall v, Z.land v 65479 = 0 -> v mod 65536 <= 56 /\ v mod 8 = 0.
Proof.
  intros v H. assert (A : Z.land v (Z.lor (Z.shiftl (Z.ones 10) 6) (Z.ones 3)) = 0) by exact H.
  rewrite Z.land_lor_distr_r in A. apply Z.lor_eq_0_iff in A. destruct A as [A B].
  rewrite land_field in A by lia. rewrite Z.land_ones in B by lia. change (2 ^ 6) with 64 in A. change (2 ^ 10) with 1024 in A. change (2 ^ 3) with 8 in B. lia.
Qed.
Lemma lor_c7 : forall v, v mod 256 <= 56 -> v mod 8 = 0 -> Z.lor 199 v mod 256 = 199 + v mod 256.
Proof.
  intros v A B. change (Z.lor 199 v mod 256) with (Z.lor 199 v mod 2 ^ 8). rewrite <- Z.land_ones by lia.
  rewrite Z.land_lor_distr_l. rewrite (Z.land_ones v) by lia. change (2 ^ 8) with 256. change (Z.land 199 (Z.ones 8)) with 199.
  assert (H : v mod 256 = 0 \/ v mod 256 = 8 \/ v mod 256 = 16 \/ v mod 256 = 24 \/ v mod 256 = 32 \/ v mod 256 = 40 \/ v mod 256 = 48 \/ v mod 256 = 56) by lia.
  repeat (destruct H as [->|H]; [reflexivity|]). rewrite H. reflexivity.
Qed.

Theorem rst_good : forall o s u s', named s -> pcok s -> s.(fl).(a_lohi) = true -> z_rst o s = (Ok u, s') -> result_z "rst" o s s'.
Proof.
  intros o s u s' N R L E. unfold z_rst in E. step E r s1 E1. destruct (close_parse _ _ _ _ E1) as [C1 _].
  step E u1 s2 E2. apply checktype_ok in E2. destruct E2 as [T ->]. cbv zeta in E.
  pose proof (close_pc _ _ C1 R) as R1.
  assert (O : operands s "rst" o [Num (s32 (r_value r))]).
  { apply op_num; [right; left; reflexivity|]. eapply value_z_here; eassumption. }
  step E u2 s2 E2. apply insert8_good in E2; [|exact R1]. apply when_err in E. destruct E as [B ->].
  eapply result_intro; [exact O|exact C1|exact E2|]. left. change (restart (s32 (r_value r)) = Some [Z.lor 199 (if Z.land (r_value r) 65528 =? 0 then s64 (Z.shiftl (r_value r) 3) else r_value r) mod 256]).
  unfold restart. rewrite s32_16. change (2 ^ 16) with 65536.
  apply negb_false_iff, Z.eqb_eq, land_ffc7 in B. destruct B as [B1 B2].
  pose proof (land_fff8 (r_value r)) as Q. destruct (Z.land (r_value r) 65528 =? 0).
  - rewrite Z.shiftl_mul_pow2 in B1, B2 |- * by lia. change (2 ^ 3) with 8 in *. rewrite lor_c7 by lia.
    replace (r_value r mod 65536 <=? 7) with true by lia. f_equal. f_equal.
    assert (s64 (r_value r * 8) mod 65536 = (r_value r * 8) mod 65536) by (unfold s64; lia). lia.
  - rewrite lor_c7 by lia. replace (r_value r mod 65536 <=? 7) with false by lia.
    replace ((r_value r mod 65536 <=? 56) && (r_value r mod 65536 mod 8 =? 0)) with true by lia. f_equal. f_equal. lia.
Qed.

(** ** Jumps *)
Lemma findcond_ok : forall t l, forallb (fun c => match form_of (s2l c) with Some (Fixed p) => true | _ => false end) l = true ->
  forall i s r s', findcond t i l s = (Ok r, s') ->
  close s s' /\ match r with Some j => exists k n, nth_error l k = Some n /\ j = i + Z.of_nat k /\ spells (t_ n) t | None => True end.
Proof.
  intros t l. induction l as [|c l IH]; intros F i s r s' E; cbn [findcond] in E.
  { injection E as <- <-. split; [apply close_refl|exact I]. }
  cbn [forallb] in F. apply andb_prop in F. destruct F as [Fc F]. step E b s1 E1. destruct (close_filter0 _ _ _ _ _ E1) as [C1 _].
  destruct (form_of (s2l c)) as [f|] eqn:Fo; [|discriminate Fc]. apply (filter0_form _ _ _ _ _ _ Fo) in E1. destruct b.
  - injection E as <- <-. split; [exact C1|]. exists 0%nat, c. split; [reflexivity|]. split; [lia|].
    destruct E1 as (a & Fi). unfold form_of in Fo. destruct f as [p|]; [|discriminate Fc].
    assert (p = s2l c).
    { destruct (segments (s2l c)) as [h tl] eqn:Sg. destruct tl as [|p0 [|p1 tl]]; [|destruct (_ && _); discriminate Fo|discriminate Fo].
      destruct (forallb sign h); [|discriminate Fo]. injection Fo as <-. clear - Sg. revert h Sg. generalize (s2l c). intros w.
      induction w as [|x w IHw]; intros h Sg; cbn [segments] in Sg; [injection Sg as <-; reflexivity|].
      destruct (segments w) as [h' t']. destruct (zc x =? 63); [discriminate Sg|]. injection Sg as <- ->. f_equal. apply IHw. reflexivity. }
    subst p. inversion Fi. subst. assumption.
  - destruct (IH F _ _ _ _ E) as [C2 K]. split; [eapply close_trans; eassumption|]. destruct r as [j|]; [|exact I].
    destruct K as (k & n & Nt & -> & Sp). exists (S k), n. split; [exact Nt|]. split; [lia|exact Sp].
Qed.

Lemma conditions_ok : forall m, forallb (fun c => match form_of (s2l c) with Some (Fixed p) => true | _ => false end) (firstn m condcodes) = true.
Proof. intros m. do 9 (destruct m as [|m]; [reflexivity|]). reflexivity. Qed.
Lemma nth_firstn : forall A (l : list A) m k n, nth_error (firstn m l) k = Some n -> nth_error l k = Some n /\ (k < m)%nat.
Proof.
  intros A l. induction l as [|x l IH]; intros m k n H; destruct m; try (destruct k; discriminate H). cbn [firstn] in H.
  destruct k; [split; [exact H|lia]|]. cbn [nth_error] in *. apply IH in H. destruct H. split; [assumption|lia].
Qed.
Lemma condition_ok : forall m t s j s', findcond t 0 (firstn m condcodes) s = (Ok (Some j), s') -> condition t j /\ j < Z.of_nat m.
Proof.
  intros m t s j s' E. apply (findcond_ok _ _ (conditions_ok m)) in E. destruct E as (_ & k & n & Nt & -> & Sp).
  apply nth_firstn in Nt. destruct Nt as [Nt Lt]. split; [|lia]. exists n. rewrite Z.add_0_l, Nat2Z.id. split; [exact Nt|]. split; [|exact Sp].
  assert ((k < List.length condcodes)%nat) by (apply nth_error_Some; congruence). cbn [condcodes List.length] in H. lia.
Qed.

Lemma searchcond_ok : forall m t s cr s', searchcond m t s = (Ok cr, s') -> close s s' /\
  ((exists a c, SpecSplit.first_cut comma t a (snd cr) /\ condition a c /\ fst cr = c /\ c < Z.of_nat m) \/ cr = (-1, t)).
Proof.
  intros m t s cr s' E. unfold searchcond in E. step E f s1 E1. destruct (close_filter2 _ _ _ _ _ E1) as [C1 _]. apply cut_comma in E1.
  destruct f as [[a b]|].
  - step E c s2 E2. pose proof (findcond_ok _ _ (conditions_ok m) _ _ _ _ E2) as [C2 _].
    destruct c as [j|]; [|elim (error_never _ _ _ _ _ E)]. injection E as <- <-. split; [eapply close_trans; eassumption|].
    left. apply condition_ok in E2. destruct E2. exists a, j. auto.
  - injection E as <- <-. split; [exact C1|]. right. reflexivity.
Qed.

Lemma relative_ok : forall s s1 t bs op, close s s1 -> displaced s1 t bs -> exists v, value_z s t v /\ relative s.(wr).(pc) op v = Some (op :: bs).
Proof.
  intros s s1 t bs op C D. destruct D as [r d (s2 & s3 & S & P & T) Hd Hp]. exists (s32 (r_value r)). split.
  - exists s2, s3, r. split; [eapply near_trans; [apply C|apply near_same; exact S]|]. auto.
  - assert (W : wr s1 = wr s) by apply C. rewrite W in Hp. unfold relative. cbv zeta.
    assert (X : trunc32 (s32 (r_value r) - (pc (wr s) + 2)) = d).
    { rewrite trunc_s32. unfold s32. change (2 ^ 32) with 4294967296 in Hp. lia. }
    rewrite X. replace ((-128 <=? d) && (d <=? 127)) with true by lia. reflexivity.
Qed.

Theorem djnz_good : forall o s u s', named s -> pcok s -> s.(fl).(a_lohi) = true -> branch 16 o s = (Ok u, s') -> result_z "djnz" o s s'.
Proof.
  intros o s u s' N R L E. apply branch_good in E; [|exact R]. destruct E as (bs & D & G).
  destruct (relative_ok s s _ _ 16 (close_refl s) D) as (v & V & Z).
  eapply result_intro; [apply op_num; [|exact V]|apply close_refl|exact G|left; exact Z]. cbn [In]. auto.
Qed.

Theorem jr_good : forall o s u s', named s -> pcok s -> s.(fl).(a_lohi) = true -> z_jr o s = (Ok u, s') -> result_z "jr" o s s'.
Proof.
  intros o s u s' N R L E. unfold z_jr in E. step E cr s1 E1. apply searchcond_ok in E1. destruct E1 as [C1 K].
  apply branch_good in E; [|eapply close_pc; eassumption]. destruct E as (bs & D & G).
  destruct (relative_ok s s1 _ _ (32 + fst cr * 8) C1 D) as (v & V & Z). cbn [given] in V.
  destruct K as [(a & c & F & Co & Ec & Lc)|K].
  - rewrite Ec in *. assert (Hc : 0 <= c < 8) by (destruct Co as (? & _ & Hc & _); exact Hc).
    rewrite Z.mod_small in G by lia.
    eapply result_intro; [eapply op_cond2; [|exact F|exact Co|exact V]|exact C1|exact G|left]; [cbn [In]; auto|].
    change (zilog (pc (wr s)) "jr" [Cond c; Num v]) with (if c <=? 3 then relative (pc (wr s)) (0x20 + 8 * c) v else None).
    replace (c <=? 3) with true by lia. rewrite (Z.mul_comm 8 c). exact Z.
  - subst cr. cbn [fst snd] in *. eapply result_intro; [apply op_num; [|exact V]|exact C1|exact G|left; exact Z]. cbn [In]. auto.
Qed.

Lemma condjump_ok : forall base plain o s u s', named s -> pcok s -> s.(fl).(a_lohi) = true -> condjump base plain (otext o) s = (Ok u, s') ->
  exists s1 v, close s s1 /\
    ((exists a b c, SpecSplit.first_cut comma (otext o) a b /\ condition a c /\ value_z s b v /\ good ((base + 8 * c) mod 256 :: low_high v) s1 s') \/
     (value_z s (otext o) v /\ good (plain mod 256 :: low_high v) s1 s')).
Proof.
  intros base plain o s u s' N R L E. unfold condjump in E. step E cr s1 E1. apply searchcond_ok in E1. destruct E1 as [C1 K]. cbv zeta in E.
  step E r s2 E2. destruct (close_parse _ _ _ _ E2) as [C2 _]. step E u1 s3 E3. apply checktype_ok in E3. destruct E3 as [T ->].
  pose proof (close_trans _ _ _ C1 C2) as C. pose proof (close_pc _ _ C R) as R2. pose proof (close_lohi _ _ C L) as L2.
  step E u2 s3 E3. exists s2, (s32 (r_value r)). split; [exact C|].
  assert (V : value_z s (snd cr) (s32 (r_value r))).
  { eapply value_z_near; [apply C1|]. eapply value_z_here; eassumption. }
  assert (G : good ((if 0 <=? fst cr * 8 then base + fst cr * 8 else plain) mod 256 :: low_high (s32 (r_value r))) s2 s').
  { assert (G3 : good [(if 0 <=? fst cr * 8 then base + fst cr * 8 else plain) mod 256] s2 s3)
      by (destruct (0 <=? fst cr * 8); eapply insert8_good; eassumption).
    apply insert16_good in E; [|eapply good_pc; exact G3]. rewrite (good_lohi _ _ _ G3 L2) in E.
    assert (W : word 2 true (r_value r) = low_high (s32 (r_value r))).
    { unfold low_high. rewrite s32_high, s32_mod. reflexivity. }
    rewrite W in E. exact (good_app _ _ _ _ _ G3 E). }
  destruct K as [(a & c & F & Co & Ec & Lc)|K].
  - left. exists a, (snd cr), c. split; [exact F|]. split; [exact Co|]. split; [exact V|]. destruct Co as (? & _ & Hc & _). rewrite Ec in G.
    replace (0 <=? c * 8) with true in G by lia. rewrite (Z.mul_comm 8). exact G.
  - right. subst cr. cbn [fst snd] in *. split; [exact V|exact G].
Qed.

Theorem call_good : forall o s u s', named s -> pcok s -> s.(fl).(a_lohi) = true -> z_call o s = (Ok u, s') -> result_z "call" o s s'.
Proof.
  intros o s u s' N R L E. apply condjump_ok in E; [|assumption..].
  destruct E as (s1 & v & C & [(a & b & c & F & Co & V & G)|(V & G)]).
  - eapply result_intro; [eapply op_cond2; [|exact F|exact Co|exact V]|exact C|exact G|left]; [cbn [In]; auto|].
    destruct Co as (? & _ & Hc & _). rewrite Z.mod_small by lia. reflexivity.
  - eapply result_intro; [apply op_num; [|exact V]|exact C|exact G|left; reflexivity]. cbn [In]. auto 10.
Qed.

Theorem jp_good : forall o s u s', named s -> pcok s -> s.(fl).(a_lohi) = true -> z_jp o s = (Ok u, s') -> result_z "jp" o s s'.
Proof.
  intros o s u s' N R L E. unfold z_jp in E. step E u1 s1 E1. apply clrall_ok in E1.
  assert (C1 : close s s1) by (subst s1; apply close_cp).
  step E m s2 E2. destruct (close_filter1 _ _ _ _ _ E2) as [C2 P2]. apply (filter1_form _ (t_ "(_") (t_ "_)")) in E2; [|reflexivity].
  apply (close_trans _ _ _ C1) in C2. destruct m as [a|].
  - step E g s3 E3. pose proof (proj2 (proj2 C2) N) as N2. reading E3 N2 x Rx Ex Zx C3. rewrite P2 in Ex. subst g s1. cbn [cp set_cp] in Ex.
    destruct (zcode x =? HLREGISTER) eqn:Zh; [|elim (error_never _ _ _ _ _ E)]. apply Z.eqb_eq, is_hl in Zh.
    assert (Rx' : reads s a x) by (eapply reads_near; [apply C2|exact Rx]). clear Rx.
    assert (Pu : forall r, x = Reg r -> (r = rHL \/ r = rIX \/ r = rIY) -> zilog (pc (wr s)) "jp" [Ind r] = Some (docbytes (cp s3) 233)).
    { intros r -> H. destruct (cp s) as [cf of off i aa a8 a16]. unfold clr in Ex. cbn in Ex.
      destruct H as [->|[->| ->]]; cbn in Ex; injection Ex as <-; reflexivity. }
    destruct Zh as [->|[->| ->]];
      (eapply finish; [exact R|exact L|eapply op_jump; [exact E2|exact Rx']|eapply close_trans; eassumption|exact E|left; apply Pu; auto]).
  - apply condjump_ok in E; [|apply C2; exact N|eapply close_pc; eassumption|eapply close_lohi; eassumption].
    destruct E as (s3 & v & C & [(a & b & c & F & Co & V & G)|(V & G)]).
    + eapply result_intro; [eapply op_cond2; [|exact F|exact Co|eapply value_z_near; [apply C2|exact V]]|eapply close_trans; eassumption|exact G|left]; [cbn [In]; auto|].
      destruct Co as (? & _ & Hc & _). rewrite Z.mod_small by lia. reflexivity.
    + eapply result_intro; [apply op_num; [|eapply value_z_near; [apply C2|exact V]]|eapply close_trans; eassumption|exact G|left; reflexivity]. cbn [In]. auto 10.
Qed.

Theorem ret_good : forall o s u s', named s -> pcok s -> s.(fl).(a_lohi) = true -> z_ret o s = (Ok u, s') -> result_z "ret" o s s'.
Proof.
  intros o s u s' N R L E. unfold z_ret in E. destruct (otext o) as [|ch t] eqn:T.
  - apply insert8_good in E; [|exact R]. eapply result_intro; [apply op_ret; exact T|apply close_refl|exact E|left; reflexivity].
  - step E c s1 E1. pose proof (findcond_ok _ _ (conditions_ok 8) _ _ _ _ E1) as [C1 _].
    destruct c as [j|]; [|elim (error_never _ _ _ _ _ E)]. apply (condition_ok 8) in E1. destruct E1 as [Co _].
    apply insert8_good in E; [|eapply close_pc; eassumption].
    destruct o as [t'|]; [|discriminate T]. cbn [otext] in T. subst t'.
    eapply result_intro; [apply op_cond1; exact Co|exact C1|exact E|left].
    destruct Co as (? & _ & Hc & _). rewrite Z.mod_small by lia. rewrite (Z.mul_comm j). reflexivity.
Qed.

(** ** EX *)
Lemma fits_head : forall c p q t a, c <> "_"%char -> fits (Free (c :: p) q) t a -> exists d t', t = d :: t' /\ SpecSplit.upper c = SpecSplit.upper d.
Proof.
  intros c p q t a H F. inversion F as [|p' q' x a' y X Y O]; subst. inversion X as [|? w ? W Z E1|? ? d ? Nc U Z]; subst; [elim H; reflexivity|].
  eexists. eexists. split; [reflexivity|exact U].
Qed.

Lemma ex_af_ok : forall t s u s', z_ex_af t s = (Ok u, s') -> exists s1 p a, close s s1 /\ s1.(cp) = s.(cp) /\ docode 8 s1 = (Ok u, s') /\
  In p ["AF_,_AF'_"; "AF'_,_AF_"]%string /\ fits (Free (t_ p) []) t a /\ (a = [] \/ exists c, a = ";"%char :: c).
Proof.
  intros t s u s' E. unfold z_ex_af in E. step E m s1 E1. destruct (close_filter1 _ _ _ _ _ E1) as [C1 P1].
  apply (filter1_form _ (t_ "AF_,_AF'_") []) in E1; [|reflexivity].
  step E m2 s2 E2.
  assert (K : close s1 s2 /\ s2.(cp) = s1.(cp) /\ match m2 with Some a => exists p, In p ["AF_,_AF'_"; "AF'_,_AF_"]%string /\ fits (Free (t_ p) []) t a | None => True end).
  { destruct m as [a|].
    - injection E2 as <- <-. split; [apply close_refl|]. split; [reflexivity|]. exists "AF_,_AF'_"%string. split; [left; reflexivity|exact E1].
    - destruct (close_filter1 _ _ _ _ _ E2) as [C2 P2]. apply (filter1_form _ (t_ "AF'_,_AF_") []) in E2; [|reflexivity].
      split; [exact C2|]. split; [exact P2|]. destruct m2 as [a|]; [|exact I]. exists "AF'_,_AF_"%string. split; [right; left; reflexivity|exact E2]. }
  destruct K as (C2 & P2 & K). destruct m2 as [a|]; [|elim (error_never _ _ _ _ _ E)]. destruct K as (p & Ip & Fi).
  exists s2, p, a. split; [eapply close_trans; eassumption|]. split; [congruence|].
  destruct a as [|c a].
  - split; [exact E|]. auto.
  - destruct (zc c =? 59) eqn:Zc; [|elim (error_never _ _ _ _ _ E)]. split; [exact E|]. split; [exact Ip|]. split; [exact Fi|]. right. exists a.
    rewrite (SplitFacts.zc_eqb c 59 ";"%char eq_refl) in Zc. apply Ascii.eqb_eq in Zc. subst c. reflexivity.
Qed.

Theorem ex_good : forall o s u s', named s -> pcok s -> s.(fl).(a_lohi) = true -> z_ex o s = (Ok u, s') -> result_z "ex" o s s'.
Proof.
  intros o s u s' N R L E. unfold z_ex in E. cbv zeta in E. step E u1 s1 E1. apply clrall_ok in E1.
  assert (C1 : close s s1) by (subst s1; apply close_cp). assert (P1 : s1.(cp) = clr s.(cp)) by (subst s1; reflexivity). clear E1.
  assert (Zc : forall k, k <> IX -> docbytes (clr (cp s)) 235 = [235] /\ docbytes (clr (cp s)) 8 = [8]) by (intros; destruct (cp s); split; reflexivity).
  destruct (Zc 0 ltac:(discriminate)) as [Z235 Z8]. clear Zc.
  step E b s2 E2. destruct (close_filter0 _ _ _ _ _ E2) as [C2 P2]. apply (filter0_form _ (Fixed (t_ "DE_,_HL"))) in E2; [|reflexivity].
  apply (close_trans _ _ _ C1) in C2. rewrite P1 in P2. clear C1 P1.
  step E b2 s3 E3.
  assert (K : close s s3 /\ s3.(cp) = clr s.(cp) /\ if b2 then exists p, In p ["DE_,_HL"; "HL_,_DE"]%string /\ exists a, fits (Fixed (t_ p)) (otext o) a else True).
  { destruct b.
    - injection E3 as <- <-. split; [exact C2|]. split; [exact P2|]. exists "DE_,_HL"%string. split; [left; reflexivity|exact E2].
    - destruct (close_filter0 _ _ _ _ _ E3) as [C3 P3]. apply (filter0_form _ (Fixed (t_ "HL_,_DE"))) in E3; [|reflexivity].
      split; [eapply close_trans; eassumption|]. split; [congruence|]. destruct b2; [|exact I]. exists "HL_,_DE"%string. split; [right; left; reflexivity|exact E3]. }
  destruct K as (C3 & P3 & K). clear E2 E3 C2 P2. destruct b2.
  { destruct K as (p & Ip & a & Fi). assert (a = []) by (inversion Fi; reflexivity). subst a.
    eapply finish; [exact R|exact L|eapply op_ex_de; [exact Ip|exact Fi]|exact C3|exact E|]. left. rewrite P3, Z235. reflexivity. }
  step E m s4 E4. destruct (close_filter1 _ _ _ _ _ E4) as [C4 P4]. apply (filter1_form _ (t_ "(_SP_)_,_") []) in E4; [|reflexivity].
  apply (close_trans _ _ _ C3) in C4. rewrite P3 in P4. clear C3 P3 K.
  step E m2 s5 E5.
  assert (K : close s s5 /\ s5.(cp) = clr s.(cp) /\
    match m2 with
    | Some a => exists f, In f [Free (t_ "(_SP_)_,_") []; Free [] (t_ "_,_(_SP_)")] /\ fits f (otext o) a
    | None => True end).
  { destruct m as [a|].
    - injection E5 as <- <-. split; [exact C4|]. split; [exact P4|]. eexists. split; [left; reflexivity|exact E4].
    - destruct (close_filter1 _ _ _ _ _ E5) as [C5 P5]. apply (filter1_form _ [] (t_ "_,_(_SP_)")) in E5; [|reflexivity].
      split; [eapply close_trans; eassumption|]. split; [congruence|]. destruct m2 as [a|]; [|exact I]. eexists. split; [right; left; reflexivity|exact E5]. }
  destruct K as (C5 & P5 & K). clear E4 E5 C4 P4 m.
  destruct m2 as [a|].
  - destruct K as (f & If & Fi). step E g s6 E6. pose proof (proj2 (proj2 C5) N) as N5. reading E6 N5 x Rx Ex Zx C6. rewrite P5 in Ex. subst g.
    apply (reads_near _ _ _ _ (proj1 C5)) in Rx. apply (close_trans _ _ _ C5) in C6.
    destruct (zcode x =? HLREGISTER) eqn:Zh.
    + apply Z.eqb_eq, is_hl in Zh.
      assert (Pu : forall r, x = Reg r -> (r = rHL \/ r = rIX \/ r = rIY) -> zilog (pc (wr s)) "ex" [Ind rSP; Reg r] = Some (docbytes (cp s6) 227)).
      { intros r -> H. destruct (cp s) as [cf of off i aa a8 a16]. unfold clr in Ex. cbn in Ex.
        destruct H as [->|[->| ->]]; cbn in Ex; injection Ex as <-; reflexivity. }
      destruct Zh as [->|[->| ->]]; (eapply finish; [exact R|exact L|eapply op_ex_sp; [exact If|exact Fi|exact Rx]|exact C6|exact E|left; apply Pu; auto]).
    + apply ex_af_ok in E. destruct E as (s7 & p & a' & C7 & P7 & E & Ip & Fp & A).
      assert (Fi' : fits (Free [] (t_ "_,_(_SP_)")) (otext o) a).
      { destruct If as [<-|[<-|[]]]; [exfalso|exact Fi]. apply fits_head in Fi; [|discriminate]. destruct Fi as (d & t' & Ht & U). 
        assert (exists d' t'', otext o = d' :: t'' /\ SpecSplit.upper "A"%char = SpecSplit.upper d') as (d' & t'' & Ht' & U')
          by (destruct Ip as [<-|[<-|[]]]; eapply fits_head; [|exact Fp| |exact Fp]; discriminate).
        rewrite Ht in Ht'. injection Ht' as <- _. rewrite <- U in U'. discriminate U'. }
      eapply finish; [exact R|exact L|eapply op_ex_af; [exact Ip|exact Fp|exact A]|eapply close_trans; eassumption|exact E|].
      right. eapply st_ex. exact Fi'.
  - apply ex_af_ok in E. destruct E as (s7 & p & a' & C7 & P7 & E & Ip & Fp & A).
    eapply finish; [exact R|exact L|eapply op_ex_af; [exact Ip|exact Fp|exact A]|eapply close_trans; eassumption|exact E|].
    left. rewrite P7, P5, Z8. reflexivity.
Qed.

(** ** IN, OUT *)
Lemma mlit_quiet2 : forall seg s qt last r, (1 <= signs seg)%nat -> mlit qt last seg s = MOk r -> qt = true.
Proof.
  induction seg as [|f seg IH]; intros s qt last r S H; [cbn in S; lia|]. cbn [mlit] in H. unfold signs in S. cbn [List.filter] in S.
  destruct (zc f =? 95); cbn [negb] in S; [eapply IH; eassumption|].
  destruct s; [discriminate H|]. destruct qt; [reflexivity|discriminate H].
Qed.
Lemma wild_mid : forall k seg rem, forallb sign seg = true -> (1 <= signs seg)%nat -> forall starts q cap l,
  fr_caps (wildloop k seg false rem starts q cap) = Some l ->
  exists a y r l', starts = a ++ y ++ r /\ qzero (fold_left qstep a q) = true /\ spells seg y /\ l = (rev cap ++ a) :: l' /\
    fr_caps (k (fold_left qstep a q) r) = Some l'.
Proof.
  intros k seg rem S Sg. induction starts as [|c starts IH]; intros q cap l H; cbn [wildloop] in H.
  - destruct (mlit (qzero q) false seg []) as [r| |] eqn:M; cbn [fr_caps] in H; try discriminate H.
    pose proof (mlit_quiet2 _ _ _ _ _ Sg M) as Q. rewrite Q in M. destruct (mlit_sound _ _ _ _ S M) as (x & E & X & _).
    destruct (fr_caps (k q r)) as [l'|] eqn:K; [|discriminate H]. injection H as <-.
    exists [], x, r, l'. rewrite (app_nil_r (rev cap)). auto.
  - destruct (mlit (qzero q) false seg (c :: starts)) as [r| |] eqn:M; cbn [fr_caps] in H; try discriminate H.
    + pose proof (mlit_quiet2 _ _ _ _ _ Sg M) as Q. rewrite Q in M. destruct (mlit_sound _ _ _ _ S M) as (x & E & X & _).
      destruct (fr_caps (k q r)) as [l'|] eqn:K; [|discriminate H]. injection H as <-.
      exists [], x, r, l'. rewrite (app_nil_r (rev cap)). auto.
    + destruct (IH _ _ _ H) as (a & y & r & l' & -> & Q & X & -> & K). exists (c :: a), y, r, l'. cbn [rev fold_left]. rewrite <- app_assoc. auto.
Qed.
Lemma two_free : forall pat h p q t s r s', segments (s2l pat) = (h, [p; q]) -> forallb sign h = true -> forallb sign p = true -> forallb sign q = true ->
  (1 <= signs p)%nat -> q = [] \/ (1 <= signs q)%nat -> filter2 t pat s = (Ok r, s') ->
  match r with Some (a, b) => fits2 h p q t a b | None => True end.
Proof.
  intros pat h p q t s r s' Sg Sh Sp Sq Np Nq E. unfold filter2 in E. step E m s1 E1. injection E as <- _.
  destruct m as [[l n]|]; [|exact I]. destruct l as [|a [|b l]]; try exact I.
  assert (F : fr_caps (filter_pure t (s2l pat)) = Some (a :: b :: l)).
  { unfold filterc, bind in E1. cbn [gets] in E1. destruct (4000 <=? _); [discriminate E1|]. destruct (fr_caps _) as [l'|]; [|discriminate E1].
    injection E1 as -> _ _. reflexivity. }
  unfold filter_pure in F. rewrite Sg in F. cbn [lastseg] in F. destruct (mlit true false h t) as [r| |] eqn:M; try discriminate F.
  destruct (mlit_sound _ _ _ _ Sh M) as (x & -> & X & _).
  assert (F' : fr_caps (wildloop (fwild [q]) p false (zlen r) r q0 []) = Some (a :: b :: l)).
  { destruct p as [|p0 p]; [cbn in Np; lia|exact F]. }
  apply wild_mid in F'; [|exact Sp|exact Np]. destruct F' as (a' & y & r' & l' & -> & Q & Y & Hl & K).
  cbn [rev app] in Hl. injection Hl as <- <-. apply quiet_outside in Q.
  destruct Nq as [->|Nq].
  - cbn [fwild fr_caps] in K. injection K as <- _. exists x, y, []. rewrite app_nil_r. repeat split; [exact X|exact Y|constructor|exact Q].
  - assert (K' : fr_caps (wildloop (fwild []) q true (zlen r') r' (fold_left qstep a q0) []) = Some (b :: l)).
    { destruct q as [|z0 q]; [cbn in Nq; lia|exact K]. }
    pose proof (wild_last (fwild []) q (zlen r') Sq Nq r' (fold_left qstep a q0) []) as W. rewrite K' in W.
    destruct W as (a2 & y2 & -> & Hl & _ & Y2). cbn [rev app] in Hl. injection Hl as <- _.
    exists x, y, y2. repeat split; assumption.
Qed.

Lemma is_num : forall x, zcode x = IMDATA -> exists v, x = Num v.
Proof. intros x E. destruct x as [[]|[]|[] d|m|v| | | |]; try discriminate E. exists v. reflexivity. Qed.
Lemma is_c : forall x, zcode x = 1 -> x = Reg rC.
Proof. intros x E. destruct x as [[]|[]|[] d|m|v| | | |]; try discriminate E. reflexivity. Qed.

(** The second half of IN and OUT. *)
Lemma inout_ok : forall code a b s u s', code = 211 \/ code = 219 -> named s -> s.(cp) = clr s.(cp) ->
  (reg <- getreg a ;;
   if reg =? IMDATA then
     reg <- getreg b ;;
     when (negb (reg =? ACCUMULATOR)) (err needacc) ;;;
     upd_cp (set_z_arg8flag true) ;;;
     docode code
   else if reg =? 1 then
     reg <- getreg b ;;
     when (negb (isreg8 reg) || (reg =? 6)) (err "operates on reg8 only") ;;;
     let reg := reg * 8 in
     let reg := if Z.land code 8 =? 0 then reg + 1 else reg in
     docode (60736 + reg)
   else err "port is (C) or (nn)") s = (Ok u, s') ->
  exists x y s1 k, port s a x /\ reads s b y /\ close s s1 /\ docode k s1 = (Ok u, s') /\
    (if code =? 211 then zilog 0 "out" [x; y] else zilog 0 "in" [y; x]) = Some (docbytes s1.(cp) k).
Proof.
  intros code a b s u s' Hc N Pc E. step E g s1 E1. reading E1 N x Rx Ex Zx C1. subst g. rewrite Pc in Ex.
  pose proof (proj2 (proj2 C1) N) as N1.
  destruct (zcode x =? IMDATA) eqn:Zi.
  - apply Z.eqb_eq, is_num in Zi. destruct Zi as (v & ->).
    step E g s2 E2. reading E2 N1 y Ry Ey Zy C2. subst g. apply (reads_near _ _ _ _ (proj1 C1)) in Ry. apply (close_trans _ _ _ C1) in C2.
    step E u1 s3 E3. apply when_err in E3. destruct E3 as [B ->]. step E u2 s3 E3. apply upd_cp_ok in E3. subst s3.
    assert (Za : zcode y = ACCUMULATOR) by lia. apply is_acc in Za. subst y.
    exists (Port v), (Reg rA), (set_cp (set_z_arg8flag true (cp s2)) s2), code.
    split; [apply pt_n; exact Rx|]. split; [exact Ry|]. split; [eapply close_trans; [exact C2|apply close_cp]|]. split; [exact E|].
    clear - Hc Ex Ey. destruct (cp s) as [cf of off i aa a8 a16]. unfold clr in Ex. cbn in Ex. injection Ex as Ex. cbn [eff] in Ey. injection Ey as Ey.
    cbn [cp set_cp]. rewrite <- Ey, <- Ex. destruct Hc as [->| ->]; reflexivity.
  - destruct (zcode x =? 1) eqn:Z1; [|elim (error_never _ _ _ _ _ E)]. apply Z.eqb_eq, is_c in Z1. subst x.
    step E g s2 E2. reading E2 N1 y Ry Ey Zy C2. subst g. apply (reads_near _ _ _ _ (proj1 C1)) in Ry. apply (close_trans _ _ _ C1) in C2.
    step E u1 s3 E3. apply when_err in E3. destruct E3 as [B ->]. cbv zeta in E.
    eexists PortC, y, s2, _. split; [apply pt_c; exact Rx|]. split; [exact Ry|]. split; [exact C2|]. split; [exact E|].
    clear - Hc Ex Ey B. destruct (cp s) as [cf of off i aa a8 a16]. unfold clr in Ex. cbn in Ex. injection Ex as Ex. rewrite <- Ex in Ey.
    every y Ey; vm_compute in B; try discriminate B; destruct Hc as [->| ->]; reflexivity.
Qed.

Theorem in_good : forall o s u s', named s -> pcok s -> s.(fl).(a_lohi) = true -> z_inout 219 o s = (Ok u, s') -> result_z "in" o s s'.
Proof.
  intros o s u s' N R L E. unfold z_inout in E. cbv zeta in E. step E u1 s1 E1. apply clrall_ok in E1.
  assert (C1 : close s s1) by (subst s1; apply close_cp). assert (P1 : s1.(cp) = clr s.(cp)) by (subst s1; reflexivity). clear E1.
  change (Z.land 219 8 =? 0) with false in E. cbv iota in E. step E m0 s2 E2. step E2 m s3 E3. injection E2 as <- <-.
  destruct (close_filter2 _ _ _ _ _ E3) as [C2 P2]. apply (close_trans _ _ _ C1) in C2. rewrite P1 in P2.
  apply (two_free _ [] (t_ "_,_(") (t_ ")")) in E3; [|reflexivity..|cbn; lia|right; cbn; lia].
  destruct m as [[a b]|]; [|elim (error_never _ _ _ _ _ E)].
  apply (inout_ok 219 b a) in E; [|auto|apply C2; exact N|rewrite P2; reflexivity].
  destruct E as (x & y & s4 & k & Px & Ry & C4 & E & Z). change (219 =? 211) with false in Z. cbv iota in Z.
  eapply finish; [exact R|exact L|apply (op_in _ _ a b y x); [exact E3|eapply reads_near; [apply C2|exact Ry]|]|eapply close_trans; eassumption|exact E|left].
  - destruct Px as [Px|v Px]; constructor; (eapply reads_near; [apply C2|exact Px]).
  - rewrite (zilog_pc _ 0); [exact Z|notrel].
Qed.
Theorem out_good : forall o s u s', named s -> pcok s -> s.(fl).(a_lohi) = true -> z_inout 211 o s = (Ok u, s') -> result_z "out" o s s'.
Proof.
  intros o s u s' N R L E. unfold z_inout in E. cbv zeta in E. step E u1 s1 E1. apply clrall_ok in E1.
  assert (C1 : close s s1) by (subst s1; apply close_cp). assert (P1 : s1.(cp) = clr s.(cp)) by (subst s1; reflexivity). clear E1.
  change (Z.land 211 8 =? 0) with true in E. cbv iota in E. step E m s2 E3.
  destruct (close_filter2 _ _ _ _ _ E3) as [C2 P2]. apply (close_trans _ _ _ C1) in C2. rewrite P1 in P2.
  apply (two_free _ (t_ "(") (t_ ")_,_") []) in E3; [|reflexivity..|cbn; lia|left; reflexivity].
  destruct m as [[a b]|]; [|elim (error_never _ _ _ _ _ E)].
  apply (inout_ok 211 a b) in E; [|auto|apply C2; exact N|rewrite P2; reflexivity].
  destruct E as (x & y & s4 & k & Px & Ry & C4 & E & Z). change (211 =? 211) with true in Z. cbv iota in Z.
  eapply finish; [exact R|exact L|apply (op_out _ _ a b x y); [exact E3| |eapply reads_near; [apply C2|exact Ry]]|eapply close_trans; eassumption|exact E|left].
  - destruct Px as [Px|v Px]; constructor; (eapply reads_near; [apply C2|exact Px]).
  - rewrite (zilog_pc _ 0); [exact Z|notrel].
Qed.

(** ** All instructions *)
Ltac given_by T N R L E := eapply T; [exact N|exact R|exact L|exact E].
Ltac with_k T k N R L E := eapply (T _ k); [cbn [In]; auto 10|exact N|exact R|exact L|exact E].
Ltac case_of E Hs N R L :=
  cbn [exec mn l_modifier] in E;
  try (match type of E with context [s16 ?k] => let v := eval vm_compute in (s16 k) in change (s16 k) with v in E end);
  lazymatch type of E with
  | simple _ _ _ = _ => apply Hs; reflexivity
  | z_im _ _ = _ => given_by im_good N R L E
  | z_rst _ _ = _ => given_by rst_good N R L E
  | branch _ _ _ = _ => given_by djnz_good N R L E
  | z_jr _ _ = _ => given_by jr_good N R L E
  | z_jp _ _ = _ => given_by jp_good N R L E
  | z_call _ _ = _ => given_by call_good N R L E
  | z_ret _ _ = _ => given_by ret_good N R L E
  | z_ex _ _ = _ => given_by ex_good N R L E
  | z_inout 219 _ _ = _ => given_by in_good N R L E
  | z_inout 211 _ _ = _ => given_by out_good N R L E
  | z_ld _ _ = _ => given_by ld_good N R L E
  | z_stackop _ _ _ = _ => eapply stackop_good; [|exact N|exact R|exact L|exact E]; auto
  | z_incr _ _ _ = _ => eapply incr_good; [|exact N|exact R|exact L|exact E]; auto
  | z_onreg8 _ _ _ = _ => eapply onreg8_good; [reflexivity|cbn [In]; auto 10|intros [[]|[]|[] ?|?|?|?| | |]; reflexivity|notrel|exact N|exact R|exact L|exact E]
  | z_bitop (-13504) _ _ = _ => eapply (bitop_good _ _ 64); [cbn [In]; auto 10|exact N|exact R|exact L|exact E]
  | z_bitop (-13376) _ _ = _ => eapply (bitop_good _ _ 192); [cbn [In]; auto 10|exact N|exact R|exact L|exact E]
  | z_bitop (-13440) _ _ = _ => eapply (bitop_good _ _ 128); [cbn [In]; auto 10|exact N|exact R|exact L|exact E]
  | z_logical 176 _ _ = _ => with_k logical_good 6 N R L E
  | z_logical 160 _ _ = _ => with_k logical_good 4 N R L E
  | z_logical 168 _ _ = _ => with_k logical_good 5 N R L E
  | z_logical 144 _ _ = _ => with_k logical_good 2 N R L E
  | z_logical 184 _ _ = _ => with_k logical_good 7 N R L E
  | z_arith 136 _ _ = _ => with_k arith_good 1 N R L E
  | z_arith 152 _ _ = _ => with_k arith_good 3 N R L E
  | z_arith 128 _ _ = _ => with_k arith_good 0 N R L E
  end.
Theorem inst_z80_good : forall n l h, In (n, l) mz80 -> l.(l_ptr) = PFun h ->
  forall lb o s u s', named s -> pcok s -> s.(fl).(a_lohi) = true -> exec h l.(l_modifier) lb o s = (Ok u, s') -> result_z n o s s'.
Proof.
  intros n l h I Hp lb o s u s' N R L E.
  assert (Hs : h = HZSimple -> result_z n o s s').
  { intros ->. eapply simple_good; [exact I|exact Hp|reflexivity|exact N|exact R|exact L|exact E]. }
  unfold mz80 in I. cbn [In] in I.
  let rec go := lazymatch type of I with
    | False => destruct I
    | _ => destruct I as [I|I];
        [injection I as <- <-; cbn [mn rg l_ptr] in Hp; lazymatch type of Hp with PFun _ = PFun _ => injection Hp as <-; case_of E Hs N R L | _ => discriminate Hp end|go]
    end in go.
Qed.

(** * The registers *)
Definition fine_entry (e : entry) : Prop := (snd e).(l_type) = TRegs -> is_register (snd e).(l_modifier).
Lemma named_entry : forall e s u s', fine_entry e -> named s -> init_entry e s = (Ok u, s') -> named s'.
Proof.
  intros e s u s' F N E. unfold init_entry, searchlabel in E. unfold bind at 1 2 in E. cbn [gets ret] in E. set (k := lkey _ _) in E.
  destruct (tfind k (sy s)) as [l|] eqn:K.
  - destruct (_ && _).
    + injection E as _ <-. intros k' l' F' T. cbn [sy set_sy] in F'. destruct (str_dec k' k) as [->|D].
      * rewrite tfind_tupd_same, K in F'. injection F' as <-. exact (N k l K T).
      * rewrite tfind_tupd_other in F' by exact D. exact (N k' l' F' T).
    + apply close_warning in E. destruct E as [C _]. apply C. exact N.
  - injection E as _ <-. intros k' l' F' T. cbn [sy set_sy] in F'. destruct (str_dec k' k) as [->|D].
    + rewrite tfind_tins_same in F' by exact K. injection F' as <-. exact (F T).
    + rewrite tfind_tins_other in F' by exact D. exact (N k' l' F' T).
Qed.
Lemma named_inner : forall l, Forall fine_entry l -> forall n i incr s u s', named s -> init_inner n i incr l s = (Ok u, s') -> named s'.
Proof.
  intros l F. induction n as [|n IH]; intros i incr s u s' N E; cbn [init_inner] in E; [injection E as _ <-; exact N|].
  destruct i as [|j]; [injection E as _ <-; exact N|]. destruct (nth_error l j) as [e|] eqn:X; [|injection E as _ <-; exact N].
  step E u1 s1 E1. eapply IH; [|exact E]. eapply named_entry; [|exact N|exact E1].
  rewrite Forall_forall in F. apply F. eapply nth_error_In. exact X.
Qed.
Lemma named_list : forall l, Forall fine_entry l -> forall s u s', named s -> init_label_list l s = (Ok u, s') -> named s'.
Proof.
  intros l F. unfold init_label_list. generalize (init_incr 32 1 (List.length l)). generalize 32%nat.
  induction n as [|n IH]; intros incr s u s' N E; cbn [init_outer] in E; [injection E as _ <-; exact N|].
  destruct (Nat.leb incr 1); [injection E as _ <-; exact N|]. step E u1 s1 E1. eapply IH; [|exact E]. eapply named_inner; eassumption.
Qed.
Lemma fine_table : forall l, forallb (fun e : entry => negb (ltype_eqb (snd e).(l_type) TRegs) || existsb (fun r => number r =? (snd e).(l_modifier)) registers) l = true ->
  Forall fine_entry l.
Proof.
  intros l H. apply Forall_forall. intros e I T. rewrite forallb_forall in H. specialize (H e I). cbn beta in H. rewrite T in H. cbn [ltype_eqb negb orb] in H.
  apply existsb_exists in H. destruct H as (r & _ & H). exists r. apply Z.eqb_eq in H. congruence.
Qed.

Ltac skipped E := let u := fresh in let t := fresh in let K := fresh in step E u t K; injection K as _ <-; clear u.
Theorem tables_named : forall s u s', named s ->
  (initz80 0 s = (Ok u, s') \/ (exists c, init6502 c s = (Ok u, s')) \/ (exists c, init6800 c s = (Ok u, s'))) -> named s'.
Proof.
  assert (Fz : Forall fine_entry mz80) by (apply fine_table; vm_compute; reflexivity).
  assert (F6 : Forall fine_entry m6502) by (apply fine_table; vm_compute; reflexivity).
  assert (F6' : Forall fine_entry m65c02) by (apply fine_table; vm_compute; reflexivity).
  assert (F8 : Forall fine_entry m6800) by (apply fine_table; vm_compute; reflexivity).
  assert (F8' : Forall fine_entry m6801) by (apply fine_table; vm_compute; reflexivity).
  intros s u s' N [E|[(c & E)|(c & E)]].
  - unfold initz80 in E. repeat skipped E. eapply named_list; [exact Fz| |exact E]. exact N.
  - unfold init6502 in E. repeat skipped E. step E u1 s1 E1.
    assert (N1 : named s1) by (eapply named_list; [exact F6| |exact E1]; exact N).
    apply when_fine in E. destruct E as [[_ E]|[_ ->]]; [eapply named_list; [exact F6'| |exact E]|]; exact N1.
  - unfold init6800 in E. repeat skipped E. step E u1 s1 E1.
    assert (N1 : named s1) by (eapply named_list; [exact F8| |exact E1]; exact N).
    apply when_fine in E. destruct E as [[_ E]|[_ ->]]; [eapply named_list; [exact F8'| |exact E]|]; exact N1.
Qed.
Theorem start_named : forall fs text u s', init_label_list pseudos (init_state fs text) = (Ok u, s') -> named s'.
Proof.
  intros fs text u s' E. refine (named_list _ _ _ _ _ _ E); [apply fine_table; vm_compute; reflexivity|].
  intros k l F. discriminate F.
Qed.
Theorem selects_z80 : forall c s u s', initz80 c s = (Ok u, s') -> s'.(fl).(a_lohi) = true.
Proof.
  intros c s u s' E. unfold initz80 in E. repeat skipped E. apply settled_ok in E. destruct E as [_ ->]. reflexivity.
Qed.
Theorem registers_z80 : forall n l, In (n, l) mz80 /\ l.(l_type) = TRegs <-> exists r, (n, l) = rg TZ80 (name_of r) (number r).
Proof.
  assert (A : forallb (fun r => existsb (fun e : entry => String.eqb (fst e) (name_of r) && ((snd e).(l_modifier) =? number r) && ltype_eqb (snd e).(l_type) TRegs) mz80) registers = true) by (vm_compute; reflexivity).
  intros n l. split.
  - intros [I T]. unfold mz80 in I. cbn [In] in I.
    repeat (destruct I as [I|I]; [injection I as <- <-;
      first [discriminate T
            |exists rA; reflexivity|exists rB; reflexivity|exists rC; reflexivity|exists rD; reflexivity|exists rE; reflexivity|exists rH; reflexivity
            |exists rL; reflexivity|exists rBC; reflexivity|exists rDE; reflexivity|exists rHL; reflexivity|exists rSP; reflexivity|exists rIX; reflexivity
            |exists rIY; reflexivity|exists rF; reflexivity|exists rI; reflexivity|exists rR; reflexivity|exists rAF; reflexivity]|]).
    destruct I.
  - intros (r & E). split; [|injection E as _ ->; reflexivity]. rewrite E. unfold mz80. destruct r; cbn [name_of number In]; auto 120.
Qed.
(** ** Relative jumps *)
Theorem jr_displaced : forall m lb o s u s', pcok s -> exec HZJr m lb o s = (Ok u, s') ->
  exists t v c d, (t = given o \/ exists a, SpecSplit.first_cut comma (given o) a t) /\ value_z s t v /\ -128 <= d <= 127 /\
    (s.(wr).(pc) + 2 + d) mod 2 ^ 32 = v mod 2 ^ 32 /\ emits [c; d mod 256] s s'.
Proof.
  intros m lb o s u s' R E. cbn [exec] in E. unfold z_jr in E. step E cr s1 E1. apply searchcond_ok in E1. destruct E1 as [C1 K].
  apply branch_good in E; [|eapply close_pc; eassumption]. destruct E as (bs & D & G). destruct (emits_near _ _ _ _ C1 G) as [Em _].
  destruct D as [r d (s2 & s3 & S & P & T) Hd Hp]. exists (snd cr), (s32 (r_value r)), ((32 + fst cr * 8) mod 256), d. split; [|split; [|split; [exact Hd|split; [|exact Em]]]].
  - destruct K as [(a & c & F & _)|K]; [right; exists a; exact F|left; subst cr; reflexivity].
  - exists s2, s3, r. split; [eapply near_trans; [apply C1|apply near_same; exact S]|]. auto.
  - assert (W : wr s1 = wr s) by apply C1. rewrite W in Hp. rewrite Hp. unfold s32. change (2 ^ 32) with 4294967296. lia.
Qed.
Lemma named_ready : forall s, named s -> fst (initz80 0 s) = Ok tt -> named (snd (initz80 0 s)).
Proof. intros s N E. destruct (initz80 0 s) as [r s'] eqn:X. cbn [fst snd] in *. subst r. eapply tables_named; [exact N|]. left. exact X. Qed.
