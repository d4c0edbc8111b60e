(** Lemmas on the instructions of the 6800 and 6502 families. *)
From Coq Require Import String Ascii ZArith List Bool Lia ZifyBool.
From Verif Require Import Base State Tree Filter Output Label Operator Parse Scode Tables Cpu6800 Cpu6502 Crasm BaseFacts FilterFacts Frame Eval
  SpecEmit EmitFacts PseudoFacts SpecForms FormFacts SpecCpu.
From Verif Require SpecExpr ExprEval ExprCases.
Import ListNotations.
Open Scope Z_scope.
Ltac Zify.zify_post_hook ::= Z.div_mod_to_equations.
Ltac step E x s E1 := apply seq_ok in E; destruct E as (x & s & E1 & E).

Lemma filterc_ok : forall t p s r s', filterc t p s = (Ok r, s') -> same s s' /\ still s s'.
Proof.
  intros t p s r s' E. pose proof (pres_filterc _ evaluating_osteps t p s) as K. rewrite E in K. exact K.
Qed.
Lemma good_nil : forall s s', pcok s -> same s s' -> still s s' -> good [] s s'.
Proof. intros s s' R A B. eapply good_after; [|exact A|exact B]. split; [apply emits_nil; exact R|apply same_refl]. Qed.
Lemma insert8_good : forall x s u s', pcok s -> insert8 x s = (Ok u, s') -> good [x mod 256] s s'.
Proof. intros x s u s' R E. eapply insert8_emits; eassumption. Qed.
Lemma good_pc : forall bs s s', good bs s s' -> pcok s'.
Proof. intros bs s s' [G _]. eapply emits_pc. exact G. Qed.
Lemma when_err : forall b m s u s', when b (err m) s = (Ok u, s') -> b = false /\ s' = s.
Proof.
  intros b m s u s' E. unfold when in E. destruct b; [elim (error_never _ _ _ _ _ E)|]. injection E as _ <-. auto.
Qed.
Lemma gets_ok : forall A (f : state -> A) s a s', gets f s = (Ok a, s') -> a = f s /\ s' = s.
Proof. intros A f s a s' E. injection E as <- <-. auto. Qed.
Lemma high_zero : forall v, (Z.land v 65280 =? 0) = true <-> v mod 2 ^ 16 < 256.
Proof. intros v. rewrite land_ff00. change (2 ^ 16) with 65536. lia. Qed.
Lemma s32_16 : forall v, s32 v mod 2 ^ 16 = v mod 2 ^ 16.
Proof. intros v. unfold s32. change (2 ^ 16) with 65536. lia. Qed.
Lemma high_s32 : forall v, Z.land (s32 v) 65280 = Z.land v 65280.
Proof. intros v. rewrite !land_ff00. unfold s32. lia. Qed.
Lemma s32_high : forall v, s32 v / 256 mod 256 = v / 256 mod 256.
Proof. intros v. unfold s32. lia. Qed.

(** * Branches *)
Theorem branch_good : forall c o s u s', pcok s -> branch c o s = (Ok u, s') ->
  exists bs, displaced s (given o) bs /\ good ([c mod 256] ++ bs) s s'.
Proof.
  intros c o s u s' R E. unfold branch in E. step E r s1 E1. destruct (parse_keeps _ _ _ _ E1) as [P1 P2].
  step E u1 s2 E2. apply checktype_ok in E2. destruct E2 as [Ty ->].
  step E p s2 E2. apply gets_ok in E2. destruct E2 as [-> ->].
  step E u2 s2 E2. step E u3 s3 E3. apply when_err in E. destruct E as [B ->].
  pose proof (still_pc _ _ P2 R) as R1.
  apply insert8_good in E2; [|exact R1]. apply insert8_good in E3; [|eapply good_pc; exact E2].
  set (d := s32 (r_value r - pc (wr s1) - 2)) in *.
  exists [d mod 256]. split.
  - change (otext o) with (given o) in E1. apply (disp s (given o) r d).
    + exists s, s1. split; [apply same_refl|]. split; assumption.
    + unfold s8 in B. lia.
    + destruct P2 as (W & _). subst d. rewrite W. unfold s32. change (2 ^ 32) with 4294967296. lia.
  - eapply good_before; [exact P1|exact P2|]. apply (good_app [c mod 256] [d mod 256] _ s2); assumption.
Qed.

Theorem single_good : forall c o s u s', pcok s -> single c o s = (Ok u, s') -> o = None /\ good [c mod 256] s s'.
Proof.
  intros c o s u s' R E. unfold single in E. step E u1 s1 E1. apply when_err in E. destruct E as [B ->].
  apply insert8_good in E1; [|exact R]. split; [|exact E1]. destruct o; [discriminate B|reflexivity].
Qed.

(** * 6800 *)
Definition num68 (w : written68) : Z :=
  match w with WImmediate => 0 | WIndex => 32 | WIndexed => 32 | WAddress => 48 end.
Definition txt68 (w : written68) (a : str) : str := match w with WIndex => s2l "0" | _ => a end.
Definition tiny (r : result) : bool := negb r.(r_flags).(f_forward) && (Z.land r.(r_value) 65280 =? 0).
Lemma tiny_short : forall r, tiny r = true <-> short r.
Proof.
  intros r. unfold tiny, short. rewrite andb_true_iff, high_zero, negb_true_iff. reflexivity.
Qed.
Definition add68 (w : written68) (r : result) : Z := if (num68 w =? 48) && tiny r then 16 else num68 w.
Definition wild (f : form) : bool := match f with Free _ _ => true | Fixed _ => false end.

Lemma findmode_loop_ok : forall t l fs, Forall2 (fun p q => form_of (s2l (fst p)) = Some (fst q) /\ num68 (snd q) = snd p /\
    (if wild (fst q) then snd q <> WIndex else snd q = WIndex)) l fs ->
  forall s x s', findmode_loop t l s = (Ok x, s') ->
  same s s' /\ still s s' /\ exists w a r, first_fit t fs w a /\ value_at s (txt68 w a) r /\ x = (add68 w r, s32 r.(r_value)).
Proof.
  intros t l fs F. induction F as [|[pat num] [f w] l fs (Fo & N & T) F IH]; intros s x s' E; cbn [findmode_loop fst snd] in *.
  { elim (error_never _ _ _ _ _ E). }
  step E m s1 E1. destruct (filterc_ok _ _ _ _ _ E1) as [S1 T1]. apply (filterc_form _ _ _ _ _ _ Fo) in E1.
  destruct m as [[caps used]|].
  - destruct E1 as (a & Fi & C). step E r s2 E2. destruct (parse_keeps _ _ _ _ E2) as [P1 P2].
    step E u s3 E3. apply checktype_ok in E3. destruct E3 as [Ty ->].
    assert (E' : x = (add68 w r, s32 (r_value r)) /\ s' = s2).
    { unfold add68, tiny. rewrite N. destruct (num =? 48); cbn [andb] in *; [|injection E as <- <-; auto].
      destruct (f_forward (r_flags r)); cbn [negb andb] in *; [injection E as <- <-; auto|].
      destruct (Z.land (r_value r) 65280 =? 0); injection E as <- <-; auto. }
    destruct E' as [-> ->]. split; [eapply same_trans; eassumption|]. split; [eapply still_trans; eassumption|].
    exists w, a, r. split; [constructor; exact Fi|]. split; [|reflexivity].
    assert (X : match caps with a :: _ => a | [] => s2l "0" end = txt68 w a).
    { destruct f as [p|p q]; cbn [wild] in T; subst caps.
      - subst w. reflexivity.
      - destruct w; try reflexivity. elim T. reflexivity. }
    rewrite <- X. exists s1, s2. split; [exact S1|]. split; assumption.
  - destruct (IH _ _ _ E) as (S2 & T2 & w' & a & r & Fi & V & X).
    split; [eapply same_trans; eassumption|]. split; [eapply still_trans; eassumption|].
    exists w', a, r. split; [apply ff_there; assumption|]. split; [eapply value_at_same; eassumption|exact X].
Qed.

Lemma modes68 : Forall2 (fun p q => form_of (s2l (fst p)) = Some (fst q) /\ num68 (snd q) = snd p /\
    (if wild (fst q) then snd q <> WIndex else snd q = WIndex)) addmodes68 forms68.
Proof.
  unfold addmodes68, forms68. repeat (apply Forall2_cons; [split; [reflexivity|]; split; [reflexivity|]; cbn [fst snd wild]; reflexivity || discriminate|]).
  apply Forall2_nil.
Qed.

Lemma findmode_ok : forall o s x s', findmode o s = (Ok x, s') -> same s s' /\ still s s' /\
  exists t w a r, o = Some t /\ first_fit t forms68 w a /\ value_at s (txt68 w a) r /\ x = (add68 w r, s32 r.(r_value)).
Proof.
  intros [t|] s x s' E; cbn [findmode] in E; [|elim (error_never _ _ _ _ _ E)].
  destruct (findmode_loop_ok _ _ _ modes68 _ _ _ E) as (S & T & w & a & r & F & V & X).
  split; [exact S|]. split; [exact T|]. exists t, w, a, r. auto.
Qed.

Lemma zero_text : forall s r s', parse (s2l "0") s = (Ok r, s') -> r.(r_value) = 0.
Proof.
  intros s r s' E. destruct (ExprEval.parse_value s (ExprCases.num "0") 0) as [(s1 & H)|(r1 & s1 & H & _ & V & _)].
  - ExprCases.worths.
  - ExprCases.grouped.
  - unfold ExprCases.num, SpecExpr.show in H. rewrite E in H. discriminate H.
  - unfold ExprCases.num, SpecExpr.show in H. rewrite E in H. injection H as -> _. exact V.
Qed.

Definition wide68 (c add : Z) : bool := ((add =? 0) && imm16 c) || (add =? 48).
Definition bytes68 (lohi : bool) (c add v : Z) : list Z := if wide68 c add then word 2 lohi v else [v mod 256].
Lemma codemode_good : forall c add v s u s', pcok s -> codemode c add v s = (Ok u, s') ->
  good ([(c + add) mod 256] ++ bytes68 s.(fl).(a_lohi) c add v) s s' /\ (add = 32 -> Z.land v 65280 = 0).
Proof.
  intros c add v s u s' R E. unfold codemode in E. step E u1 s1 E1. apply insert8_good in E1; [|exact R].
  pose proof (good_pc _ _ _ E1) as R1. unfold bytes68, wide68.
  assert (L : fl s1 = fl s) by (apply same_fl; apply E1).
  destruct ((add =? 0) && imm16 c) eqn:I; cbn [orb].
  { apply insert16_good in E; [|exact R1]. rewrite L in E. split; [eapply good_app; eassumption|lia]. }
  destruct (add =? 48) eqn:X.
  { apply insert16_good in E; [|exact R1]. rewrite L in E. split; [eapply good_app; eassumption|lia]. }
  step E u2 s2 E2. apply insert8_good in E2; [|exact R1].
  destruct (Z.land v 65280 =? 0) eqn:Z0; cbn [negb] in E.
  { injection E as _ <-. split; [eapply good_app; eassumption|lia]. }
  destruct (add =? 32) eqn:A; [elim (error_never _ _ _ _ _ E)|]. apply warning_ok in E. destruct E as [W1 W2].
  split; [|lia]. eapply good_app; [exact E1|]. eapply good_after; eassumption.
Qed.

Lemma word_s32 : forall v, word 2 false (s32 v) = [v / 256 mod 256; v mod 256].
Proof. intros v. unfold word. cbn [little rev app]. rewrite s32_high, s32_mod. reflexivity. Qed.
Lemma word_s32l : forall v, word 2 true (s32 v) = [v mod 256; v / 256 mod 256].
Proof. intros v. unfold word. cbn [little]. rewrite s32_high, s32_mod. reflexivity. Qed.

(** The mode and the opcode an entry of the table stands for. *)
Definition mode_of68 (c add : Z) : mode68 :=
  if add =? 0 then if imm16 c then Imm16 else Imm8 else if add =? 16 then Direct else if add =? 32 then Indexed else Extended.
Definition final68 (h : handler) (add : Z) : option Z :=
  match h with
  | H68Std => Some add
  | H68Std2 => if add =? 0 then None else Some add
  | H68Std3 => if add =? 0 then None else Some (if add =? 16 then 48 else add)
  | _ => None
  end.
Definition std68 (h : handler) : bool := match h with H68Std | H68Std2 | H68Std3 => true | _ => false end.

Lemma standard68_final : forall h c lb o s u s', std68 h = true -> pcok s -> exec h c lb o s = (Ok u, s') ->
  exists x add s1 u1 s2, findmode o s = (Ok x, s1) /\ final68 h (fst x) = Some add /\ codemode c add (snd x) s1 = (Ok u1, s2) /\ s' = s2.
Proof.
  intros h c lb o s u s' H R E. destruct h; try discriminate H; cbn [exec final68] in *.
  - unfold standard68 in E. step E x s1 E1. exists x, (fst x), s1, u, s'. auto.
  - unfold standard2 in E. step E x s1 E1. step E u1 s2 E2. apply when_err in E. destruct E as [B ->].
    exists x, (fst x), s1, u1, s2. rewrite B. auto.
  - unfold standard3 in E. step E x s1 E1. step E u1 s2 E2. apply when_err in E. destruct E as [B ->].
    exists x, (if fst x =? 16 then 48 else fst x), s1, u1, s2. destruct (fst x =? 16) eqn:X; [|replace (fst x =? 0) with false by lia; auto].
    replace (fst x =? 0) with false by lia. auto.
Qed.

(** What the tables contain, checked against the data sheet. *)
Definition eq68 (a b : mode68) : bool :=
  match a, b with
  | Inherent, Inherent | Relative, Relative | Imm8, Imm8 | Imm16, Imm16 | Direct, Direct | Indexed, Indexed | Extended, Extended => true
  | _, _ => false
  end.
Lemma eq68_eq : forall a b, eq68 a b = true -> a = b.
Proof. intros [] []; reflexivity || discriminate. Qed.
Definition in68 (sheet : list (string * mode68 * Z)) (n : string) (m : mode68) (op : Z) : bool :=
  existsb (fun e => String.eqb (fst (fst e)) n && eq68 (snd (fst e)) m && (snd e =? op)) sheet.
Lemma in68_in : forall sheet n m op, in68 sheet n m op = true -> In (n, m, op) sheet.
Proof.
  intros sheet n m op H. apply existsb_exists in H. destruct H as ([[n' m'] op'] & I & H). cbn [fst snd] in H.
  apply andb_prop in H. destruct H as [H H3]. apply andb_prop in H. destruct H as [H1 H2].
  apply String.eqb_eq in H1. apply eq68_eq in H2. apply Z.eqb_eq in H3. subst. exact I.
Qed.
Definition direct68 (sheet : list (string * mode68 * Z)) (n : string) : bool :=
  existsb (fun e => String.eqb (fst (fst e)) n && eq68 (snd (fst e)) Direct) sheet.
Definition entry_ok68 (sheet : list (string * mode68 * Z)) (e : entry) : bool :=
  let (n, l) := e in let c := l.(l_modifier) in
  match l.(l_ptr) with
  | PFun h =>
      match h with
      | H68Branch => in68 sheet n Relative (c mod 256)
      | H68Single => in68 sheet n Inherent (c mod 256)
      | H68Std | H68Std2 | H68Std3 =>
          forallb (fun add => match final68 h add with
                              | Some a => in68 sheet n (mode_of68 c a) ((c + a) mod 256) &&
                                  (if (add =? 16) && (a =? 48) then negb (direct68 sheet n) || String.eqb n "jsr" else true)
                              | None => true
                              end) [0; 16; 32; 48]
      | _ => false
      end
  | _ => true
  end.
Lemma table68 : forallb (entry_ok68 (sheet68 false)) m6800 = true /\ forallb (entry_ok68 (sheet68 true)) (m6800 ++ m6801) = true.
Proof. vm_compute. split; reflexivity. Qed.

Definition keys68 (m6801_too : bool) : list entry := if m6801_too then m6800 ++ m6801 else m6800.
Lemma direct68_in : forall sheet n op, In (n, Direct, op) sheet -> direct68 sheet n = true.
Proof.
  intros sheet n op I. apply existsb_exists. exists (n, Direct, op). split; [exact I|]. cbn [fst snd eq68]. rewrite String.eqb_refl. reflexivity.
Qed.
Lemma entry68 : forall x e, In e (keys68 x) -> entry_ok68 (sheet68 x) e = true.
Proof.
  intros x e I. destruct table68 as [A B]. destruct x; cbn [keys68] in I; [rewrite forallb_forall in B; apply B; exact I|rewrite forallb_forall in A; apply A; exact I].
Qed.

Theorem inst68_good : forall x n l h lb o s u s', In (n, l) (keys68 x) -> l.(l_ptr) = PFun h -> pcok s -> s.(fl).(a_lohi) = false ->
  exec h l.(l_modifier) lb o s = (Ok u, s') ->
  exists m op bs, In (n, m, op) (sheet68 x) /\ operand68 s o (has_direct x n) m bs /\ good (op :: bs) s s'.
Proof.
  intros x n l h lb o s u s' I P R Lo E. apply entry68 in I. unfold entry_ok68 in I. rewrite P in I.
  set (c := l_modifier l) in *.
  destruct (std68 h) eqn:S.
  - destruct (standard68_final _ _ _ _ _ _ _ S R E) as (y & add & s1 & u1 & s2 & F & Fi & C & ->).
    destruct (findmode_ok _ _ _ _ F) as (S1 & T1 & t & w & a & r & -> & Ff & V & ->). cbn [fst snd] in *.
    apply codemode_good in C; [|eapply still_pc; eassumption]. destruct C as [G B].
    rewrite (same_fl _ _ S1), Lo in G. apply (good_before _ _ _ _ S1 T1) in G.
    assert (K : forallb (fun add => match final68 h add with
                              | Some a => in68 (sheet68 x) n (mode_of68 c a) ((c + a) mod 256) &&
                                  (if (add =? 16) && (a =? 48) then negb (direct68 (sheet68 x) n) || String.eqb n "jsr" else true)
                              | None => true
                              end) [0; 16; 32; 48] = true) by (destruct h; try discriminate S; exact I).
    clear I. rename K into I. rewrite forallb_forall in I.
    assert (A : In (add68 w r) [0; 16; 32; 48]).
    { unfold add68. destruct w; cbn [num68]; cbn; auto 6. destruct (tiny r); cbn; auto 6. }
    specialize (I _ A). rewrite Fi in I. apply andb_prop in I. destruct I as [I J]. apply in68_in in I.
    exists (mode_of68 c add), ((c + add) mod 256), (bytes68 false c add (s32 (r_value r))).
    split; [exact I|]. split; [|exact G].
    destruct w; unfold add68 in Fi, J; cbn [num68 andb txt68] in Fi, J, V.
    + assert (add = 0) as -> by (destruct h; cbn in Fi; try discriminate Fi; injection Fi as <-; reflexivity).
      unfold mode_of68, bytes68, wide68. cbn [Z.eqb andb orb]. rewrite orb_false_r. destruct (imm16 c).
      * rewrite word_s32. eapply o68_imm16; [reflexivity|exact Ff|exact V].
      * rewrite s32_mod. eapply o68_imm8; [reflexivity|exact Ff|exact V].
    + assert (add = 32) as -> by (destruct h; cbn in Fi; try discriminate Fi; injection Fi as <-; reflexivity).
      unfold mode_of68, bytes68, wide68. cbn [Z.eqb andb orb].
      assert (Z0 : r_value r = 0) by (destruct V as (q1 & q2 & _ & V & _); eapply zero_text; exact V).
      rewrite Z0. change (s32 0 mod 256) with 0. eapply o68_index; [reflexivity|exact Ff|exact V|exact Z0].
    + assert (add = 32) as -> by (destruct h; cbn in Fi; try discriminate Fi; injection Fi as <-; reflexivity).
      unfold mode_of68, bytes68, wide68. cbn [Z.eqb andb orb]. rewrite s32_mod.
      eapply o68_indexed; [reflexivity|exact Ff|exact V|]. apply high_zero. rewrite <- high_s32. rewrite B by reflexivity. reflexivity.
    + change (48 =? 48) with true in *. cbn [andb] in Fi, J. destruct (tiny r) eqn:Ti.
      * apply tiny_short in Ti. change (16 =? 16) with true in J. cbn [andb] in J.
        assert (Ad : add = 16 \/ add = 48) by (destruct h; cbn in Fi; try discriminate Fi; injection Fi as <-; auto).
        destruct Ad as [->| ->].
        -- unfold mode_of68, bytes68, wide68. cbn [Z.eqb andb orb]. rewrite s32_mod. eapply o68_direct; [reflexivity|exact Ff|exact V|exact Ti].
        -- change (48 =? 48) with true in J. cbv iota in J. unfold mode_of68, bytes68, wide68. cbn [Z.eqb Pos.eqb andb orb].
           rewrite word_s32. eapply o68_extended; [reflexivity|exact Ff|exact V|].
           intros [N (op & D)]. apply direct68_in in D. rewrite D in J. cbn [negb orb] in J. apply String.eqb_eq in J. contradiction.
      * assert (add = 48) as -> by (destruct h; cbn in Fi; try discriminate Fi; injection Fi as <-; reflexivity).
        unfold mode_of68, bytes68, wide68. cbn [Z.eqb Pos.eqb andb orb]. rewrite word_s32.
        eapply o68_extended; [reflexivity|exact Ff|exact V|]. intros _ Sh. apply tiny_short in Sh. congruence.
  - destruct h; try discriminate S; try discriminate I; cbn [exec] in E.
    + apply branch_good in E; [|exact R]. destruct E as (bs & D & G). apply in68_in in I.
      exists Relative, (c mod 256), bs. split; [exact I|]. split; [constructor; exact D|exact G].
    + apply single_good in E; [|exact R]. destruct E as (-> & G). apply in68_in in I.
      exists Inherent, (c mod 256), []. split; [exact I|]. split; [constructor; reflexivity|exact G].
Qed.

(** * The choice of the short form *)
Lemma first_fit_one : forall A t (fs : list (form * A)) w a, first_fit t fs w a -> forall w' a', first_fit t fs w' a' -> w = w'.
Proof.
  intros A t fs w a F. induction F as [f x l a F|f x l y a N F IH]; intros w' a' G; inversion G; subst.
  - reflexivity.
  - exfalso. match goal with H : forall b, ~ fits _ _ b |- _ => eapply H; exact F end.
  - exfalso. eapply N. eassumption.
  - eapply IH. eassumption.
Qed.
Lemma not_relative : forall x n op, In (n, Relative, op) (sheet68 x) -> forall op', ~ In (n, Direct, op') (sheet68 x).
Proof.
  assert (K : forall x, forallb (fun e : string * mode68 * Z => if eq68 (snd (fst e)) Relative then negb (direct68 (sheet68 x) (fst (fst e))) else true) (sheet68 x) = true)
    by (intros []; vm_compute; reflexivity).
  intros x n op I op' J. specialize (K x). rewrite forallb_forall in K. specialize (K _ I). cbn [fst snd eq68] in K.
  rewrite (direct68_in _ _ _ J) in K. discriminate K.
Qed.
Lemma low16 : forall v, v mod 2 ^ 16 < 256 -> v mod 256 = v mod 2 ^ 16.
Proof. intros v. change (2 ^ 16) with 65536. lia. Qed.
Theorem short68 : forall x n l h lb t a s u s', In (n, l) (keys68 x) -> l.(l_ptr) = PFun h -> pcok s -> s.(fl).(a_lohi) = false ->
  has_direct x n -> first_fit t forms68 WAddress a -> exec h l.(l_modifier) lb (Some t) s = (Ok u, s') ->
  exists r op, value_at s a r /\
    ((short r /\ In (n, Direct, op) (sheet68 x) /\ emits [op; r.(r_value) mod 2 ^ 16] s s') \/
     (~ short r /\ In (n, Extended, op) (sheet68 x) /\ emits [op; r.(r_value) / 256 mod 256; r.(r_value) mod 256] s s')).
Proof.
  intros x n l h lb t a s u s' I P R Lo D F E. destruct (inst68_good _ _ _ _ _ _ _ _ _ I P R Lo E) as (m & op & bs & S & O & G & _).
  assert (A : forall b, first_fit t forms68 WAddress b -> b = a).
  { assert (W : forall b, first_fit t forms68 WAddress b -> b = t).
    { intros b H. unfold forms68 in H.
      repeat match goal with H : first_fit _ (_ :: _) _ _ |- _ => inversion H; subst; clear H end.
      - match goal with H : fits _ _ _ |- _ => inversion H; subst; clear H end.
        match goal with H : spells [] ?x, K : spells [] ?y |- _ => inversion H; inversion K; subst end. cbn [app]. rewrite app_nil_r. reflexivity.
      - match goal with H : first_fit _ [] _ _ |- _ => inversion H end. }
    intros b H. rewrite (W b H). symmetry. apply W. exact F. }
  destruct O as [O|bs O|t' b r [= <-] Ff V|t' b r [= <-] Ff V|t' b r [= <-] Ff V|t' b r [= <-] Ff V|t' b r [= <-] Ff V Sh|t' b r [= <-] Ff V Sh];
    try discriminate O; try (pose proof (first_fit_one _ _ _ _ _ F _ _ Ff) as X; discriminate X).
  - destruct D as [_ (d & D)]. elim (not_relative _ _ _ S _ D).
  - rewrite (A _ Ff) in V. exists r, op. split; [exact V|]. left. split; [exact Sh|]. split; [exact S|].
    rewrite <- low16 by apply Sh. exact G.
  - rewrite (A _ Ff) in V. exists r, op. split; [exact V|]. right. split; [apply Sh; exact D|]. split; [exact S|exact G].
Qed.

Definition settled : relation := always (fun s s' => s'.(cp) = s.(cp) /\ s'.(fl) = s.(fl)).
Lemma settled_list : forall l, pres settled _ (init_label_list l).
Proof.
  intros l. apply (init_pres_label_list settled) with (Good := fun _ _ => True);
    [|unfold settled, always; intros; auto|unfold settled, always; intros; auto|unfold fine_list; auto].
  constructor; [constructor|..]; unfold settled, always; intros; auto. destruct H, H0. split; congruence.
Qed.
Lemma settled_ok : forall l s u s', init_label_list l s = (Ok u, s') -> s'.(cp) = s.(cp) /\ s'.(fl) = s.(fl).
Proof. intros l s u s' E. pose proof (settled_list l s) as K. rewrite E in K. exact K. Qed.
Theorem selects68 : forall c s u s', init6800 c s = (Ok u, s') -> s'.(fl).(a_lohi) = false.
Proof.
  intros c s u s' E. unfold init6800 in E. step E u1 s1 E1. injection E1 as _ <-. step E u2 s1 E1. injection E1 as _ <-.
  step E u3 s1 E1. injection E1 as _ <-. step E u4 s1 E1.
  apply settled_ok in E1. destruct E1 as [_ K].
  assert (K' : fl s' = fl s1).
  { unfold when in E. destruct (c =? 1); [|injection E as _ <-; reflexivity].
    apply settled_ok in E. apply E. }
  rewrite K', K. reflexivity.
Qed.
