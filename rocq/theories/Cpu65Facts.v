(** Lemmas on the instructions of the 6502 family. *)
From Coq Require Import String Ascii ZArith List Bool Lia ZifyBool.
From Verif Require Import Base State Tree Filter Output Label Operator Parse Scode Tables Cpu6800 Cpu6502 Crasm BaseFacts FilterFacts Frame Eval
  SpecEmit EmitFacts PseudoFacts SpecForms FormFacts SpecCpu CpuFacts.
Import ListNotations.
Open Scope Z_scope.
Ltac Zify.zify_post_hook ::= Z.div_mod_to_equations.

Definition num65 (w : written65) : Z :=
  match w with WPreX => 0 | WPostY => 2 | WInd => 4 | WX => 6 | WY => 8 | WPlain => 10 | WImm => 12 | WNothing => 14 end.

Lemma findmode65_ok : forall t l fs, Forall2 (fun p q => form_of (s2l (fst p)) = Some (fst q) /\ num65 (snd q) = snd p) l fs ->
  forall s x s', findmode65 t l s = (Ok x, s') ->
  same s s' /\ still s s' /\ exists w a, first_fit t fs w a /\ x = (num65 w, a).
Proof.
  intros t l fs F. induction F as [|[pat num] [f w] l fs (Fo & N) F IH]; intros s x s' E; cbn [findmode65 fst snd] in *.
  { elim (error_never _ _ _ _ _ E). }
  step E m s1 E1. destruct (filterc_ok _ _ _ _ _ E1) as [S1 T1]. apply (filterc_form _ _ _ _ _ _ Fo) in E1.
  destruct m as [[caps used]|].
  - destruct E1 as (a & Fi & C).
    assert (X : x = (num65 w, a) /\ s' = s1).
    { destruct f as [p|p q]; subst caps; injection E as <- <-; rewrite N; [|auto]. inversion Fi. auto. }
    destruct X as [-> ->]. split; [exact S1|]. split; [exact T1|]. exists w, a. split; [constructor; exact Fi|reflexivity].
  - destruct (IH _ _ _ E) as (S2 & T2 & w' & a & Fi & X).
    split; [eapply same_trans; eassumption|]. split; [eapply still_trans; eassumption|].
    exists w', a. split; [apply ff_there; assumption|exact X].
Qed.
Lemma modes65 : Forall2 (fun p q => form_of (s2l (fst p)) = Some (fst q) /\ num65 (snd q) = snd p) addmodes65 forms65.
Proof.
  unfold addmodes65, forms65. repeat (apply Forall2_cons; [split; [reflexivity|]; reflexivity|]). apply Forall2_nil.
Qed.

(** The final mode and opcode: [w] is the written form, [acc] tells that the operand is the
    accumulator, [wide] that it needs two bytes. *)
Definition illegal (code mode : Z) : bool :=
  (hasbit code F_noacc && (14 <=? mode)) || (hasbit code F_noimm && (mode =? 12))
  || (hasbit code F_noindx && (mode =? 6)) || (hasbit code F_noindy && (mode =? 8)).
Definition mode1 (w : Z) (acc wide : bool) : Z :=
  if w <? 14 then
    let m := if acc then 15 else w in
    if wide && negb (m =? 12) then Z.lor m 1 else m
  else w.
Definition mode2 (code m : Z) : Z := if m2_offset code m =? 0 then Z.lor m 1 else m.
Definition opcode65 (code m : Z) : Z := Z.land (Z.land code 255 + m2_offset code m) 255.
Definition late (cf code m : Z) : bool :=
  ((cf <? 1) && (code =? 96 + 256 + F_noimm + F_noindy)) ||
  ((cf <? 2) && ((m =? 4) || (opcode65 code m =? 124) || (opcode65 code m =? 137) || (opcode65 code m =? 26) || (opcode65 code m =? 58))).
Definition final65 (cf code w : Z) (acc wide : bool) : option (Z * Z) :=
  let m := mode2 code (mode1 w acc wide) in
  if illegal code w || (m2_offset code m =? 0) || late cf code m then None else Some (m, opcode65 code m).
Definition bytes65 (lohi : bool) (m v : Z) : list Z :=
  if m <? 14 then if Z.land m 1 =? 1 then word 2 lohi v else [v mod 256] else [].

(** What is known of the operand. *)
Inductive read65 (s : state) (o : option str) : Z -> bool -> bool -> Z -> Prop :=
| rd_none : o = None -> read65 s o 14 false false 0
| rd_nothing : forall t a, o = Some t -> first_fit t forms65 WNothing a -> read65 s o 14 false false 0
| rd_acc : forall t a v wide, o = Some t -> first_fit t forms65 WPlain a -> accumulator s a -> read65 s o 10 true wide v
| rd_value : forall t w a r, o = Some t -> first_fit t forms65 w a -> w <> WNothing -> value_at s a r ->
    read65 s o (num65 w) false (negb (tiny r)) (s32 r.(r_value)).

Lemma ltype_eqb_eq : forall a b, ltype_eqb a b = true -> a = b.
Proof. intros [] []; reflexivity || discriminate. Qed.

Theorem standard65_good : forall code o s u s', pcok s -> standard65 code o s = (Ok u, s') ->
  exists w acc wide v m op, read65 s o w acc wide v /\ final65 s.(cp).(cpuflag) code w acc wide = Some (m, op) /\
    good ([op mod 256] ++ bytes65 s.(fl).(a_lohi) m v) s s'.
Proof.
  intros code o s u s' R E. unfold standard65 in E. step E mt s1 E1.
  assert (K1 : same s s1 /\ still s s1 /\ ((mt = (14, []) /\ o = None) \/ exists t w a, o = Some t /\ first_fit t forms65 w a /\ mt = (num65 w, a))).
  { destruct o as [t|].
    - destruct (findmode65_ok _ _ _ modes65 _ _ _ E1) as (A & B & w & a & F & ->). split; [exact A|]. split; [exact B|].
      right. exists t, w, a. auto.
    - injection E1 as <- <-. split; [apply same_refl|]. split; [apply still_refl|]. left. auto. }
  clear E1. destruct K1 as (S1 & T1 & K1). destruct mt as [mode toparse].
  step E u1 s2 E1. apply when_err in E1. destruct E1 as [Il ->]. fold (illegal code mode) in Il.
  step E mv s2 E1.
  assert (K2 : same s1 s2 /\ still s1 s2 /\ exists acc wide v, mv = (mode1 mode acc wide, v) /\ read65 s o mode acc wide v).
  { destruct (mode <? 14) eqn:M14.
    - step E1 r s3 E2. destruct (parse_keeps _ _ _ _ E2) as [P1 P2].
      destruct K1 as [[Mt ->]|(t & w & a & -> & F & Mt)]; [injection Mt as -> ->; discriminate M14|]. injection Mt as -> ->.
      step E1 mode' s4 E3.
      assert (K3 : s4 = s3 /\ exists acc : bool, mode' = (if acc then 15 else num65 w) /\
        (if acc then w = WPlain /\ r_type r = TRegs /\ r_modifier r = 0 else r_type r = TAbs)).
      { destruct ((num65 w =? 10) && ltype_eqb (r_type r) TRegs && (r_modifier r =? 0)) eqn:A.
        - injection E3 as <- <-. split; [reflexivity|]. exists true. split; [reflexivity|].
          apply andb_prop in A. destruct A as [A A3]. apply andb_prop in A. destruct A as [A1 A2]. apply ltype_eqb_eq in A2.
          split; [destruct w; try discriminate A1; reflexivity|]. split; [exact A2|lia].
        - step E3 u3 s5 E4. apply checktype_ok in E4. destruct E4 as [Ty ->]. injection E3 as <- <-. split; [reflexivity|].
          exists false. auto. }
      destruct K3 as (-> & acc & -> & Ac).
      set (wide := negb (Z.land (s32 (r_value r)) 65280 =? 0) || f_forward (r_flags r)) in *.
      assert (K4 : same s3 s2 /\ still s3 s2 /\ mv = (mode1 (num65 w) acc wide, s32 (r_value r))).
      { unfold mode1. rewrite M14. destruct wide; cbn [andb]; [|injection E1 as <- <-; split; [apply same_refl|]; split; [apply still_refl|reflexivity]].
        destruct ((if acc then 15 else num65 w) =? 12); cbn [negb] in *.
        - step E1 u4 s5 E4. apply when_warning in E4. destruct E4 as [W1 W2]. injection E1 as <- <-. auto.
        - injection E1 as <- <-. split; [apply same_refl|]. split; [apply still_refl|reflexivity]. }
      destruct K4 as (S4 & T4 & ->).
      split; [eapply same_trans; eassumption|]. split; [eapply still_trans; eassumption|].
      exists acc, wide, (s32 (r_value r)). split; [reflexivity|]. destruct acc.
      + destruct Ac as (-> & Ty & Mo). apply (rd_acc s (Some t) t a); [reflexivity|exact F|]. exists s1, s3, r. auto.
      + replace wide with (negb (tiny r)).
        * apply (rd_value s (Some t) t w a); [reflexivity|exact F| |].
          -- intros ->. discriminate M14.
          -- exists s1, s3. auto.
        * unfold wide, tiny. rewrite high_s32. destruct (f_forward (r_flags r)), (Z.land (r_value r) 65280 =? 0); reflexivity.
    - injection E1 as <- <-. split; [apply same_refl|]. split; [apply still_refl|]. exists false, false, 0.
      unfold mode1. rewrite M14. split; [reflexivity|].
      destruct K1 as [[Mt ->]|(t & w & a & -> & F & Mt)]; injection Mt as -> ->; [apply rd_none; reflexivity|].
      destruct w; try discriminate M14. apply (rd_nothing s (Some t) t a); [reflexivity|exact F]. }
  clear E1 K1. destruct K2 as (S2 & T2 & acc & wide & v & -> & Rd).
  pose proof (same_trans _ _ _ S1 S2) as S3. pose proof (still_trans _ _ _ T1 T2) as T3.
  set (m1 := mode1 mode acc wide) in *. fold (mode2 code m1) in E. set (m := mode2 code m1) in *.
  step E u2 s3 E1. apply when_err in E1. destruct E1 as [Of ->].
  fold (opcode65 code m) in E. set (op := opcode65 code m) in *.
  step E u3 s3 E1. apply insert8_good in E1; [|eapply still_pc; eassumption].
  step E u4 s4 E2. step E cf s5 E3. apply gets_ok in E3. destruct E3 as [-> ->].
  step E u5 s5 E3. apply when_err in E3. destruct E3 as [L1 ->]. apply when_err in E. destruct E as [L2 ->].
  exists mode, acc, wide, v, m, op. split; [exact Rd|].
  assert (G2 : good (bytes65 s.(fl).(a_lohi) m v) s3 s4).
  { pose proof (good_pc _ _ _ E1) as R3. unfold bytes65. rewrite <- (same_fl _ _ S3), <- (same_fl _ _ (proj2 E1)).
    destruct (m <? 14).
    - destruct (Z.land m 1 =? 1); [eapply insert16_good; eassumption|eapply insert8_good; eassumption].
    - injection E2 as _ <-. apply good_nil; [exact R3|apply same_refl|apply still_refl]. }
  pose proof (good_app _ _ _ _ _ E1 G2) as G. apply (good_before _ _ _ _ S3 T3) in G. split; [|exact G].
  assert (Cf : cpuflag (cp s4) = cpuflag (cp s)).
  { destruct G as [_ (_ & _ & Cp & _)]. rewrite Cp. reflexivity. }
  rewrite Cf in L1, L2. unfold final65, late. fold m1 m op. rewrite Il, Of, L1, L2. reflexivity.
Qed.

(** What the tables contain, checked against the data sheets. *)
Definition mode_of65 (m : Z) : option mode65 :=
  match m with
  | 0 => Some IndX | 1 => Some AbsIndX | 2 => Some IndY | 4 => Some ZpInd | 5 => Some AbsInd | 6 => Some ZpX | 7 => Some AbsX
  | 8 => Some ZpY | 9 => Some AbsY | 10 => Some Zp | 11 => Some Abs | 12 => Some Imm | 15 => Some Acc | _ => None
  end.
Definition code65 (m : mode65) : Z :=
  match m with
  | Implied => 20 | Rel => 21 | Acc => 15 | Imm => 12 | Zp => 10 | ZpX => 6 | ZpY => 8 | Abs => 11 | AbsX => 7 | AbsY => 9
  | IndX => 0 | IndY => 2 | ZpInd => 4 | AbsInd => 5 | AbsIndX => 1
  end.
Definition eq65 (a b : mode65) : bool := code65 a =? code65 b.
Lemma eq65_eq : forall a b, eq65 a b = true -> a = b.
Proof. intros [] []; reflexivity || discriminate. Qed.
Definition in65 (sheet : list (string * mode65 * Z)) (n : string) (m : mode65) (op : Z) : bool :=
  existsb (fun e => String.eqb (fst (fst e)) n && eq65 (snd (fst e)) m && (snd e =? op)) sheet.
Definition has65 (sheet : list (string * mode65 * Z)) (n : string) (m : mode65) : bool :=
  existsb (fun e => String.eqb (fst (fst e)) n && eq65 (snd (fst e)) m) sheet.
Definition flag65 (c : cpu65) : Z := match c with C6500 => 0 | C6502 => 1 | C65C02 => 2 end.
Definition keys65 (c : cpu65) : list entry := match c with C65C02 => m6502 ++ m65c02 | _ => m6502 end.
Definition ways : list (written65 * bool * bool) :=
  flat_map (fun w => [(w, false, false); (w, false, true)]) [WPreX; WPostY; WInd; WNothing; WImm; WX; WY; WPlain] ++
  [(WPlain, true, false); (WPlain, true, true)].
Definition std65_ok (c : cpu65) (n : string) (code : Z) : bool :=
  forallb (fun q : written65 * bool * bool => let '(w, acc, wide) := q in
    match final65 (flag65 c) code (num65 w) acc wide with
    | None => true
    | Some (m, op) =>
        (op mod 256 =? op) &&
        match mode_of65 m with
        | Some k => (in65 (sheet65 c) n k op || in65 (strays65 c) n k op) &&
            (if acc || (num65 w =? 14) then m =? 15
             else if num65 w =? 12 then m =? 12
             else if m <? 14 then
               if Z.land m 1 =? 1 then
                 match absolute w with Some k' => eq65 k k' | None => false end &&
                 (wide || match zero_page w with Some z => negb (has65 (sheet65 c) n z) | None => true end)
               else negb wide && match zero_page w with Some k' => eq65 k k' | None => false end
             else false)
        | None => false
        end
    end) ways.
Definition entry_ok65 (c : cpu65) (e : entry) : bool :=
  let (n, l) := e in let code := l.(l_modifier) in
  match l.(l_ptr) with
  | PFun h =>
      match h with
      | H65Branch => in65 (sheet65 c) n Rel (code mod 256)
      | H65Single => in65 (sheet65 c) n Implied (code mod 256)
      | H65Std => std65_ok c n code
      | _ => false
      end
  | _ => true
  end.
Lemma table65 : forall c, forallb (entry_ok65 c) (keys65 c) = true.
Proof. intros []; vm_compute; reflexivity. Qed.
Lemma in65_in : forall sheet n m op, in65 sheet n m op = true -> In (n, m, op) sheet.
Proof.
  intros sheet n m op H. apply existsb_exists in H. destruct H as ([[n' m'] op'] & I & H). cbn [fst snd] in H.
  apply andb_prop in H. destruct H as [H H3]. apply andb_prop in H. destruct H as [H1 H2].
  apply String.eqb_eq in H1. apply eq65_eq in H2. apply Z.eqb_eq in H3. subst. exact I.
Qed.
Lemma has65_in : forall sheet n m op, In (n, m, op) sheet -> has65 sheet n m = true.
Proof.
  intros sheet n m op I. apply existsb_exists. exists (n, m, op). split; [exact I|]. cbn [fst snd]. unfold eq65.
  rewrite String.eqb_refl, Z.eqb_refl. reflexivity.
Qed.

Lemma read_way : forall s o k acc wide v, read65 s o k acc wide v -> exists w, k = num65 w /\ In (w, acc, wide) ways.
Proof.
  intros s o k acc wide v []; [exists WNothing|exists WNothing|exists WPlain|exists w]; (split; [reflexivity|]); unfold ways; cbn [flat_map app].
  1,2: cbn; auto 20.
  - destruct wide0; cbn; auto 20.
  - destruct w, (negb (tiny r)); cbn; auto 20.
Qed.

Theorem inst65_good : forall c n l h lb o s u s', In (n, l) (keys65 c) -> l.(l_ptr) = PFun h -> selected c s ->
  pcok s -> s.(fl).(a_lohi) = true -> exec h l.(l_modifier) lb o s = (Ok u, s') ->
  exists m op bs, (In (n, m, op) (sheet65 c) \/ In (n, m, op) (strays65 c)) /\ operand65 s o (has_mode c n) m bs /\ good (op :: bs) s s'.
Proof.
  intros c n l h lb o s u s' I P Se R Lo E. pose proof (table65 c) as T. rewrite forallb_forall in T. specialize (T _ I).
  clear I. unfold entry_ok65 in T. rewrite P in T. set (code := l_modifier l) in *.
  destruct h; try discriminate T; cbn [exec] in E.
  - apply branch_good in E; [|exact R]. destruct E as (bs & D & G). apply in65_in in T.
    exists Rel, (code mod 256), bs. split; [left; exact T|]. split; [constructor; exact D|exact G].
  - apply single_good in E; [|exact R]. destruct E as (-> & G). apply in65_in in T.
    exists Implied, (code mod 256), []. split; [left; exact T|]. split; [constructor; reflexivity|exact G].
  - apply standard65_good in E; [|exact R]. destruct E as (k & acc & wide & v & m & op & Rd & F & G).
    destruct (read_way _ _ _ _ _ _ Rd) as (w & -> & W). unfold std65_ok in T. rewrite forallb_forall in T. specialize (T _ W). cbv beta iota zeta in T.
    unfold selected in Se. change (cpuflag (cp s) = flag65 c) in Se. rewrite Se in F. rewrite F in T.
    apply andb_prop in T. destruct T as [To T]. apply Z.eqb_eq in To. rewrite To in G. rewrite Lo in G.
    destruct (mode_of65 m) as [k|] eqn:K; [|discriminate T]. apply andb_prop in T. destruct T as [T1 T2].
    exists k, op, (bytes65 true m v). split; [apply orb_prop in T1; destruct T1 as [T1|T1]; apply in65_in in T1; auto|].
    split; [|exact G].
    inversion Rd as [H1 H2 H3 H4 H5|t a Ho Ff H2 H3 H4 H5|t a v' wide' Ho Ff Ac H2 H3 H4 H5|t w' a r Ho Ff Nn V H2 H3 H4 H5]; subst.
    + rewrite <- H2 in T2. change (14 =? 14) with true in T2. cbn [orb] in T2. apply Z.eqb_eq in T2. subst m. injection K as <-.
      apply o65_acc0. reflexivity.
    + rewrite <- H2 in T2. change (14 =? 14) with true in T2. cbn [orb] in T2. apply Z.eqb_eq in T2. subst m. injection K as <-.
      eapply o65_acc1; [reflexivity|exact Ff].
    + cbn [orb] in T2. apply Z.eqb_eq in T2. subst m. injection K as <-.
      eapply o65_acc2; [reflexivity|exact Ff|exact Ac].
    + assert (w' = w) as -> by (destruct w, w'; try discriminate H2; reflexivity). clear H2. cbn [orb] in T2.
      destruct (num65 w =? 14) eqn:N14; [destruct w; try discriminate N14; elim Nn; reflexivity|].
      destruct (num65 w =? 12) eqn:N12.
      { apply Z.eqb_eq in T2. subst m. injection K as <-. destruct w; try discriminate N12. unfold bytes65. cbn [Z.ltb Z.compare Pos.compare Pos.compare_cont Z.land Pos.land Z.eqb].
        change (14 ?= 12) with Gt. rewrite s32_mod. eapply o65_imm; [reflexivity|exact Ff|exact V]. }
      unfold bytes65. destruct (m <? 14); [|discriminate T2]. destruct (Z.land m 1 =? 1).
      * apply andb_prop in T2. destruct T2 as [T2 T3]. destruct (absolute w) as [k'|] eqn:Ab; [|discriminate T2]. apply eq65_eq in T2. subst k'.
        rewrite word_s32l. eapply o65_long; [reflexivity|exact Ff|exact V| |exact Ab].
        intros z Zw [op' Hz] Sh. apply tiny_short in Sh. rewrite Sh in T3. cbn [negb orb] in T3. rewrite Zw in T3.
        apply has65_in in Hz. rewrite Hz in T3. discriminate T3.
      * apply andb_prop in T2. destruct T2 as [T2 T3]. destruct (zero_page w) as [k'|] eqn:Ab; [|discriminate T3]. apply eq65_eq in T3. subst k'.
        rewrite s32_mod. eapply o65_short; [reflexivity|exact Ff|exact V| |exact Ab]. apply tiny_short. destruct (tiny r); [reflexivity|discriminate T2].
Qed.

Lemma not_rel65 : forall c n op, In (n, Rel, op) (sheet65 c ++ strays65 c) -> forall m op', m <> Rel -> ~ In (n, m, op') (sheet65 c ++ strays65 c).
Proof.
  assert (K : forall c, forallb (fun e : string * mode65 * Z => if eq65 (snd (fst e)) Rel then
      forallb (fun f : string * mode65 * Z => negb (String.eqb (fst (fst e)) (fst (fst f))) || eq65 (snd (fst f)) Rel) (sheet65 c ++ strays65 c) else true)
      (sheet65 c ++ strays65 c) = true)
    by (intros []; vm_compute; reflexivity).
  intros c n op I m op' N J. specialize (K c). rewrite forallb_forall in K. specialize (K _ I). cbn [fst snd] in K.
  change (eq65 Rel Rel) with true in K. cbv iota in K. rewrite forallb_forall in K. specialize (K _ J). cbn [fst snd] in K.
  rewrite String.eqb_refl in K. cbn [negb orb] in K. apply eq65_eq in K. contradiction.
Qed.
Lemma zero_abs : forall w w' m, zero_page w = Some m -> absolute w' = Some m -> False.
Proof. intros [] [] m [= <-]; discriminate. Qed.

Theorem short65 : forall c n l h lb t w z b s u s', In (n, l) (keys65 c) -> l.(l_ptr) = PFun h -> selected c s ->
  pcok s -> s.(fl).(a_lohi) = true -> zero_page w = Some z -> has_mode c n z -> absolute w = Some b ->
  exec h l.(l_modifier) lb (Some t) s = (Ok u, s') -> forall a, first_fit t forms65 w a -> ~ (exists a', first_fit t forms65 w a' /\ accumulator s a') ->
  exists a' r op, first_fit t forms65 w a' /\ value_at s a' r /\
    ((short r /\ (In (n, z, op) (sheet65 c) \/ In (n, z, op) (strays65 c)) /\ emits [op; r.(r_value) mod 2 ^ 16] s s') \/
     (~ short r /\ (In (n, b, op) (sheet65 c) \/ In (n, b, op) (strays65 c)) /\ emits [op; r.(r_value) mod 256; r.(r_value) / 256 mod 256] s s')).
Proof.
  intros c n l h lb t w z b s u s' I P Se R Lo Zp0 Hz Ab E a F NA.
  destruct (inst65_good _ _ _ _ _ _ _ _ _ I P Se R Lo E) as (m & op & bs & S & O & G & _).
  destruct O as [O|bs O|O|t' a' [= <-] Ff|t' a' [= <-] Ff Ac|t' a' r [= <-] Ff V|t' w' m a' r [= <-] Ff V Sh Z0|t' w' m a' r [= <-] Ff V Sh Z0];
    try discriminate O; try (pose proof (first_fit_one _ _ _ _ _ F _ _ Ff) as X; subst w; try discriminate Zp0).
  - destruct Hz as [d D]. exfalso. apply (not_rel65 c n op ltac:(apply in_or_app; exact S) z d).
    + intros ->. destruct w; discriminate Zp0.
    + apply in_or_app. left. exact D.
  - elim NA. exists a'. auto.
  - rewrite Zp0 in Z0. injection Z0 as <-. exists a', r, op. split; [exact Ff|]. split; [exact V|]. left. split; [exact Sh|]. split; [exact S|].
    rewrite <- low16 by apply Sh. exact G.
  - rewrite Ab in Z0. injection Z0 as <-. exists a', r, op. split; [exact Ff|]. split; [exact V|]. right. split; [apply (Sh z); assumption|]. split; [exact S|exact G].
Qed.

Theorem selects65 : forall c s u s', init6502 (flag65 c) s = (Ok u, s') -> selected c s' /\ s'.(fl).(a_lohi) = true.
Proof.
  intros c s u s' E. unfold init6502 in E. step E u1 s1 E1. injection E1 as _ <-. step E u2 s1 E1. injection E1 as _ <-.
  step E u3 s1 E1. injection E1 as _ <-. step E u4 s1 E1. injection E1 as _ <-.
  step E u5 s1 E1. apply settled_ok in E1. destruct E1 as [K1 K2].
  assert (K' : cp s' = cp s1 /\ fl s' = fl s1).
  { unfold when in E. destruct (flag65 c =? 2); [|injection E as _ <-; auto].
    apply settled_ok in E. exact E. }
  destruct K' as [K3 K4]. unfold selected. rewrite K3, K4, K1, K2. destruct c; split; reflexivity.
Qed.

(** * Cases *)
Theorem branches : forall h c lb o s u s', h = H68Branch \/ h = H65Branch \/ h = HZRelbranch -> pcok s ->
  exec h c lb o s = (Ok u, s') -> exists d, displaced s (given o) [d] /\ emits [c mod 256; d] s s'.
Proof.
  intros h c lb o s u s' H R E. assert (E' : branch c o s = (Ok u, s')) by (destruct H as [->|[->| ->]]; exact E).
  apply branch_good in E'; [|exact R]. destruct E' as (bs & D & G & _). inversion D as [r d V B X Y]. subst.
  exists (d mod 256). split; [exact D|exact G].
Qed.

(** First forms, found by the matcher. *)
Lemma fit_by : forall pat f t, form_of pat = Some f ->
  match fr_caps (filter_pure t pat) with Some _ => exists a, fits f t a | None => forall b, ~ fits f t b end.
Proof.
  intros pat f t F. pose proof (filter_form pat f t F) as K. destruct (fr_caps _); [|exact K]. destruct K as (a & K & _). exists a. exact K.
Qed.
Ltac misses pat := apply ff_there; [match goal with |- forall b, ~ fits ?f ?t b => exact (fit_by (s2l pat) f t eq_refl) end|].
Lemma fits_255 : first_fit (s2l "255") forms68 WAddress (s2l "255").
Proof.
  misses "#_?"%string. misses ",_x"%string. misses "?_,_x"%string. apply ff_here.
  apply (fit_free [] [] [] (s2l "255") []); [constructor|constructor|congruence].
Qed.
Lemma fits_256 : first_fit (s2l "256,x") forms65 WX (s2l "256").
Proof.
  misses "(_?_,_X_)"%string. misses "@_?_,_X"%string. misses "(_?_)_,_Y"%string. misses "@_?_,_Y"%string. misses "(_?_)"%string.
  misses "@_?"%string. misses "_"%string. misses "#_?"%string. apply ff_here.
  apply (fit_free [] (t_ "_,_X") [] (s2l "256") (s2l ",x")); [constructor| |reflexivity].
  apply (sp_blanks (t_ ",_X") [] (s2l ",x")); [constructor|]. apply sp_char; [discriminate|reflexivity|].
  apply (sp_blanks (t_ "X") [] (s2l "x")); [constructor|]. apply sp_char; [discriminate|reflexivity|constructor].
Qed.
Lemma name_in : forall sheet n (m : mode65) (op : Z), In (n, m, op) sheet -> existsb (fun e => String.eqb (fst (fst e)) n) sheet = true.
Proof. intros sheet n m op I. apply existsb_exists. exists (n, m, op). split; [exact I|]. apply String.eqb_refl. Qed.
Ltac absent lem := let H := fresh in intros; intros H; apply lem in H; vm_compute in H; discriminate H.
