(** Lemmas on the reasons why an instruction is refused. *)
From Coq Require Import String Ascii ZArith List Bool Lia ZifyBool.
From Verif Require Import Base State Tree Filter Output Label Operator Parse Scode Tables Cpu6800 Cpu6502 Crasm BaseFacts FilterFacts Frame Eval
  SpecEmit EmitFacts PseudoFacts Run SpecForms FormFacts SpecCpu CpuFacts Cpu65Facts SpecAccept.
From Verif Require SpecExpr ExprEval ExprCases.
Import ListNotations.
Open Scope Z_scope.
Ltac Zify.zify_post_hook ::= Z.div_mod_to_equations.

(** [m] does not fail in [s]. *)
Definition calm {A} (m : M A) (s : state) : Prop := forall e s', m s <> (Bad (Err e), s').

Lemma seq_bad : forall A B (m : M A) (k : A -> M B) s e s', bind m k s = (Bad (Err e), s') ->
  m s = (Bad (Err e), s') \/ exists a s1, m s = (Ok a, s1) /\ k a s1 = (Bad (Err e), s').
Proof.
  intros A B m k s e s' H. unfold bind in H. destruct (m s) as [[a|x] s1]; [right; exists a, s1; auto|]. injection H as -> ->. left. reflexivity.
Qed.
Lemma calm_pres : forall A (m : M A), pres unfailing A m -> forall s, calm m s.
Proof. intros A m H s e s' E. specialize (H s). rewrite E in H. apply H. reflexivity. Qed.
Lemma calm_bind : forall A B (m : M A) (k : A -> M B) s, calm m s -> (forall a s1, m s = (Ok a, s1) -> calm (k a) s1) -> calm (bind m k) s.
Proof.
  intros A B m k s H K e s' E. destruct (seq_bad _ _ _ _ _ _ _ E) as [F|(a & s1 & F & G)]; [exact (H _ _ F)|exact (K _ _ F _ _ G)].
Qed.
Lemma calm_any : forall A B (m : M A) (k : A -> M B) s, calm m s -> (forall a s1, calm (k a) s1) -> calm (bind m k) s.
Proof. intros A B m k s H K. apply calm_bind; [exact H|]. intros a s1 _. apply K. Qed.
Lemma calm_modify : forall g s, calm (modify g) s.
Proof. intros g s e s' E. discriminate E. Qed.
Lemma calm_gets : forall A (g : state -> A) s, calm (gets g) s.
Proof. intros A g s e s' E. discriminate E. Qed.
Lemma calm_ret : forall A (a : A) s, calm (ret a) s.
Proof. intros A a s e s' E. discriminate E. Qed.
Lemma calm_filterc : forall t p s, calm (filterc t p) s.
Proof. intros t p. apply calm_pres. apply (pres_filterc _ lsteps_unfailing). Qed.
Lemma calm_warning : forall m s, calm (warning m) s.
Proof. intros m. apply calm_pres. apply (pres_warning _ lsteps_unfailing). Qed.
Lemma calm_outputbyte : forall b s, calm (outputbyte b) s.
Proof. intros b. apply calm_pres. apply (pres_outputbyte _ lsteps_unfailing). Qed.
#[export] Hint Resolve calm_modify calm_gets calm_ret calm_filterc calm_warning calm_outputbyte : calmdb.
Ltac calmly := repeat first
  [ progress auto with calmdb nocore
  | apply calm_any; [|intros]
  | match goal with |- calm (when ?b _) _ => unfold when; destruct b end
  | match goal with |- calm (if ?b then _ else _) _ => destruct b end
  | match goal with |- calm (match ?b with _ => _ end) _ => destruct b end
  | match goal with |- calm (upd_wr _) _ => unfold upd_wr end
  | match goal with |- calm (upd_ct _) _ => unfold upd_ct end ].
Lemma calm_flush : forall s, calm flushscoderaw s.
Proof. apply calm_pres. apply flush_free; [apply (p_order _ lsteps_unfailing)|intros; discriminate]. Qed.
#[export] Hint Resolve calm_flush : calmdb.
Lemma calm_insert8 : forall x s, s.(fl).(a_org_gv) = true -> calm (insert8 x) s.
Proof.
  intros x s O. unfold insert8. apply calm_bind; [apply calm_gets|]. intros a s1 E. injection E as <- <-. rewrite O. cbn [negb when].
  calmly.
Qed.
Lemma good_org : forall bs s s', good bs s s' -> s.(fl).(a_org_gv) = true -> s'.(fl).(a_org_gv) = true.
Proof. intros bs s s' [_ G] H. rewrite (same_fl _ _ G). exact H. Qed.
Lemma same_org : forall s s', same s s' -> s.(fl).(a_org_gv) = true -> s'.(fl).(a_org_gv) = true.
Proof. intros s s' G H. rewrite (same_fl _ _ G). exact H. Qed.
Lemma insert8_org : forall x s u s', insert8 x s = (Ok u, s') -> s.(fl).(a_org_gv) = true -> s'.(fl).(a_org_gv) = true.
Proof. intros x s u s' E. apply same_org. eapply insert8_keeps. exact E. Qed.
Lemma calm_insert16 : forall x s, s.(fl).(a_org_gv) = true -> calm (insert16 x) s.
Proof.
  intros x s O. unfold insert16. apply calm_bind; [apply calm_gets|]. intros a s1 E. injection E as <- <-.
  destruct (a_lohi (fl s)); (apply calm_bind; [apply calm_insert8; exact O|]; intros u s1 E; apply calm_insert8; eapply insert8_org; eassumption).
Qed.
Lemma checktype_bad : forall r ty s e s', checktype r ty s = (Bad (Err e), s') -> r.(r_type) <> ty.
Proof. intros r ty s e s' E Q. unfold checktype in E. rewrite Q in E. destruct ty; discriminate E. Qed.
Ltac fails E x s E1 := apply seq_bad in E; destruct E as [E|(x & s & E1 & E)].
Lemma unusable_same : forall s s1 t, same s s1 -> unusable s1 t -> unusable s t.
Proof.
  intros s s1 t S [q1 q2 m A B|q1 q2 r A B C]; [apply (un_error _ _ q1 q2 m)|apply (un_type _ _ q1 q2 r)]; try assumption; eapply same_trans; eassumption.
Qed.

Theorem branch_bad : forall c o s e s', s.(fl).(a_org_gv) = true -> branch c o s = (Bad (Err e), s') -> distant s (given o).
Proof.
  intros c o s e s' O E. unfold branch in E. change (otext o) with (given o) in E.
  fails E r s1 E1; [left; eapply un_error; [apply same_refl|exact E]|]. destruct (parse_keeps _ _ _ _ E1) as [P1 P2].
  fails E u s2 E2; [left; apply checktype_bad in E; eapply un_type; [apply same_refl|exact E1|exact E]|].
  apply checktype_ok in E2. destruct E2 as [Ty ->].
  fails E p s2 E2; [discriminate E|]. apply gets_ok in E2. destruct E2 as [-> ->].
  pose proof (same_org _ _ P1 O) as O1.
  fails E u2 s2 E2; [elim (calm_insert8 _ _ O1 _ _ E)|]. pose proof (insert8_org _ _ _ _ E2 O1) as O2.
  fails E u3 s3 E3; [elim (calm_insert8 _ _ O2 _ _ E)|].
  right. exists r. split; [exists s, s1; split; [apply same_refl|]; split; assumption|].
  intros d D H. assert (W : pc (wr s1) = pc (wr s)) by (destruct P2 as (W & _); rewrite W; reflexivity). rewrite W in E.
  destruct (negb (s8 (s32 (r_value r - pc (wr s) - 2)) =? s32 (r_value r - pc (wr s) - 2))) eqn:B; [|discriminate E].
  assert (Q : s32 (r_value r - pc (wr s) - 2) = d).
  { unfold s32. change (2 ^ 32) with 4294967296 in H. lia. }
  rewrite Q in B. unfold s8 in B. lia.
Qed.
Theorem single_bad : forall c o s e s', s.(fl).(a_org_gv) = true -> single c o s = (Bad (Err e), s') -> o <> None.
Proof.
  intros c o s e s' O E ->. unfold single in E. fails E u s1 E1; [elim (calm_insert8 _ _ O _ _ E)|discriminate E].
Qed.

(** * 6800 *)
Lemma findmode_loop_bad : forall t l fs, Forall2 (fun p q => form_of (s2l (fst p)) = Some (fst q) /\ num68 (snd q) = snd p /\
    (if wild (fst q) then snd q <> WIndex else snd q = WIndex)) l fs ->
  forall s e s' w a, findmode_loop t l s = (Bad (Err e), s') -> first_fit t fs w a -> exists b, first_fit t fs w b /\ unusable s (txt68 w b).
Proof.
  intros t l fs F. induction F as [|[pat num] [f v] l fs (Fo & N & T) F IH]; intros s e s' w a E Ff; cbn [findmode_loop fst snd] in *.
  { inversion Ff. }
  fails E m s1 E1; [elim (calm_filterc _ _ _ _ _ E)|].
  destruct (filterc_ok _ _ _ _ _ E1) as [S1 T1]. apply (filterc_form _ _ _ _ _ _ Fo) in E1.
  destruct m as [[caps used]|].
  - destruct E1 as (b & Fi & C). assert (w = v) as -> by (eapply first_fit_one; [exact Ff|constructor; exact Fi]).
    exists b. split; [constructor; exact Fi|].
    assert (X : match caps with a :: _ => a | [] => s2l "0" end = txt68 v b).
    { destruct f as [p|p q]; cbn [wild] in T; subst caps.
      - subst v. reflexivity.
      - destruct v; try reflexivity. elim T. reflexivity. }
    rewrite X in E. fails E r s2 E2; [eapply un_error; eassumption|].
    fails E u s3 E3; [apply checktype_bad in E; eapply un_type; eassumption|].
    destruct (_ && _) in E; discriminate E.
  - inversion Ff as [? ? ? ? Fi|? ? ? ? ? No Ff']; subst.
    + exfalso. eapply E1. eassumption.
    + destruct (IH _ _ _ _ _ E Ff') as (b & Fb & U). exists b. split; [apply ff_there; assumption|eapply unusable_same; eassumption].
Qed.
Lemma zero_usable : forall s, unusable s (s2l "0") -> False.
Proof.
  assert (K : forall s r s', parse (s2l "0") s = (r, s') -> (exists v, r = Ok v /\ r_type v = TAbs) \/ exists w, r = Bad (UB w)).
  { intros s r s' E. destruct (ExprEval.parse_value s (ExprCases.num "0") 0) as [(s1 & H)|(r1 & s1 & H & Ty & _)].
    - ExprCases.worths.
    - ExprCases.grouped.
    - unfold ExprCases.num, SpecExpr.show in H. rewrite E in H. injection H as -> _. right. eexists. reflexivity.
    - unfold ExprCases.num, SpecExpr.show in H. rewrite E in H. injection H as -> _. left. exists r1. auto. }
  intros s [s1 s2 m A B|s1 s2 r A B C]; destruct (K _ _ _ B) as [(v & X & Y)|(w & X)]; try discriminate X. injection X as ->. contradiction.
Qed.
Lemma codemode_bad : forall c add v s e s', s.(fl).(a_org_gv) = true -> codemode c add v s = (Bad (Err e), s') -> add = 32 /\ Z.land v 65280 <> 0.
Proof.
  intros c add v s e s' O E. unfold codemode in E. fails E u s1 E1; [elim (calm_insert8 _ _ O _ _ E)|].
  pose proof (insert8_org _ _ _ _ E1 O) as O1.
  destruct (_ && _) in E; [elim (calm_insert16 _ _ O1 _ _ E)|]. destruct (add =? 48) in E; [elim (calm_insert16 _ _ O1 _ _ E)|].
  fails E u2 s2 E2; [elim (calm_insert8 _ _ O1 _ _ E)|].
  destruct (Z.land v 65280 =? 0) eqn:B; cbn [negb] in E; [discriminate E|].
  destruct (add =? 32) eqn:A; [lia|elim (calm_warning _ _ _ _ E)].
Qed.
Lemma standard68_bad : forall h c lb t w a s e s', std68 h = true -> s.(fl).(a_org_gv) = true -> first_fit t forms68 w a ->
  (h <> H68Std -> w <> WImmediate) ->
  exec h c lb (Some t) s = (Bad (Err e), s') ->
  (exists b, first_fit t forms68 w b /\ unusable s (txt68 w b)) \/
  (num68 w = 32 /\ exists b r, first_fit t forms68 w b /\ value_at s (txt68 w b) r /\ 256 <= r.(r_value) mod 2 ^ 16).
Proof.
  intros h c lb t w a s e s' H O Ff Im E.
  assert (A : forall x s1, findmode (Some t) s = (Ok x, s1) -> exists b r, first_fit t forms68 w b /\ value_at s (txt68 w b) r /\ x = (add68 w r, s32 (r_value r)) /\ same s s1).
  { intros x s1 F. apply findmode_ok in F. destruct F as (S1 & T1 & t' & v & b & r & [= <-] & Fb & V & ->).
    assert (v = w) as -> by (eapply first_fit_one; eassumption). exists b, r. auto. }
  assert (B : findmode (Some t) s = (Bad (Err e), s') -> exists b, first_fit t forms68 w b /\ unusable s (txt68 w b)).
  { intros F. cbn [findmode] in F. eapply findmode_loop_bad; [exact modes68|exact F|exact Ff]. }
  assert (C : forall add r s1 b, add = add68 w r \/ (add68 w r = 16 /\ add = 48) -> same s s1 -> first_fit t forms68 w b -> value_at s (txt68 w b) r ->
    codemode c add (s32 (r_value r)) s1 = (Bad (Err e), s') ->
    num68 w = 32 /\ exists b r, first_fit t forms68 w b /\ value_at s (txt68 w b) r /\ 256 <= r.(r_value) mod 2 ^ 16).
  { intros add r s1 b Ad S1 Fb V F. apply codemode_bad in F; [|eapply same_org; eassumption]. destruct F as [A1 A2]. rewrite high_s32 in A2.
    assert (N : num68 w = 32) by (unfold add68 in Ad; destruct w; cbn [num68] in *; try reflexivity; destruct (_ && _) in Ad; lia).
    split; [exact N|]. exists b, r. split; [exact Fb|]. split; [exact V|].
    destruct (Z.lt_ge_cases (r_value r mod 2 ^ 16) 256) as [L|L]; [|exact L]. apply high_zero in L. lia. }
  assert (Nz : forall r, w <> WImmediate -> add68 w r <> 0).
  { intros r N. unfold add68. destruct w; cbn [num68]; try (cbn; lia); [congruence|]. destruct (_ && _); lia. }
  destruct h; try discriminate H; cbn [exec] in E.
  - unfold standard68 in E. fails E x s1 E1; [left; apply B; exact E|]. destruct (A _ _ E1) as (b & r & Fb & V & -> & S1). cbn [fst snd] in E.
    right. eapply C; try eassumption. left. reflexivity.
  - unfold standard2 in E. fails E x s1 E1; [left; apply B; exact E|]. destruct (A _ _ E1) as (b & r & Fb & V & -> & S1). cbn [fst snd] in E.
    fails E u s2 E2; [right; eapply C; try eassumption; left; reflexivity|].
    specialize (Nz r (Im ltac:(discriminate))). replace (add68 w r =? 0) with false in E by lia. discriminate E.
  - unfold standard3 in E. fails E x s1 E1; [left; apply B; exact E|]. destruct (A _ _ E1) as (b & r & Fb & V & -> & S1). cbn [fst snd] in E.
    specialize (Nz r (Im ltac:(discriminate))).
    fails E u s2 E2; [right; eapply C; try eassumption; destruct (add68 w r =? 16) eqn:X; lia|].
    assert (Q : (if add68 w r =? 16 then 48 else add68 w r) <=? 16 = false).
    { unfold add68 in *. destruct w; cbn [num68] in *; try (cbn in *; lia). destruct (_ && _); reflexivity. }
    rewrite Q in E. discriminate E.
Qed.

(** Every line of the sheet has its entries in the table. *)
Definition served68 (x : bool) (q : string * mode68 * Z) : bool :=
  let '(n, m, op) := q in
  existsb (fun e : entry => String.eqb (fst e) n && match l_ptr (snd e) with PFun _ => true | _ => false end) (keys68 x) &&
  forallb (fun e : entry => if String.eqb (fst e) n then
      match l_ptr (snd e), m with
      | PFun H68Branch, Relative | PFun H68Single, Inherent => true
      | PFun H68Std, (Imm8 | Imm16 | Direct | Indexed | Extended) => true
      | PFun (H68Std2 | H68Std3), (Direct | Indexed | Extended) => true
      | _, _ => false
      end else true) (keys68 x).
Lemma sheet68_served : forall x, forallb (served68 x) (sheet68 x) = true.
Proof. intros []; vm_compute; reflexivity. Qed.
Theorem inst68_accept : forall x n o s P, s.(fl).(a_org_gv) = true -> allowed68 (sheet68 x) n s o P ->
  (exists l, In (n, l) (keys68 x)) /\
  forall l, In (n, l) (keys68 x) -> exists h, l.(l_ptr) = PFun h /\
    forall lb e s', exec h l.(l_modifier) lb o s = (Bad (Err e), s') -> P.
Proof.
  intros x n o s P O Al.
  assert (K : forall m op, In (n, m, op) (sheet68 x) -> served68 x (n, m, op) = true).
  { intros m op I. pose proof (sheet68_served x) as T. rewrite forallb_forall in T. apply T. exact I. }
  assert (Q : forall m op, In (n, m, op) (sheet68 x) -> (exists l, In (n, l) (keys68 x)) /\
    forall l, In (n, l) (keys68 x) -> exists h, l.(l_ptr) = PFun h /\
      match h, m with
      | H68Branch, Relative | H68Single, Inherent => True
      | H68Std, (Imm8 | Imm16 | Direct | Indexed | Extended) => True
      | (H68Std2 | H68Std3), (Direct | Indexed | Extended) => True
      | _, _ => False
      end).
  { intros m op I. apply K in I. unfold served68 in I. apply andb_prop in I. destruct I as [I J]. split.
    - apply existsb_exists in I. destruct I as ((n' & l) & I & H). cbn [fst snd] in H. apply andb_prop in H. destruct H as [H _].
      apply String.eqb_eq in H. subst n'. exists l. exact I.
    - intros l L. rewrite forallb_forall in J. specialize (J _ L). cbn [fst snd] in J. rewrite String.eqb_refl in J.
      destruct (l_ptr l) as [|h|]; try discriminate J. exists h. split; [reflexivity|].
      destruct h; try discriminate J; destruct m; try discriminate J; exact Logic.I. }
  clear K.
  assert (Z : forall h c lb t w a e s', exec h c lb (Some t) s = (Bad (Err e), s') -> first_fit t forms68 w a ->
     (if match w with WImmediate => false | _ => true end then std68 h = true else h = H68Std) ->
     (exists b, first_fit t forms68 w b /\ unusable s (txt68 w b)) \/
     (num68 w = 32 /\ exists b r, first_fit t forms68 w b /\ value_at s (txt68 w b) r /\ 256 <= r.(r_value) mod 2 ^ 16)).
  { intros h c lb t w a e s' E Ff Hh. eapply standard68_bad; try eassumption.
    - destruct w; try exact Hh. subst h. reflexivity.
    - intros N ->. contradiction. }
  destruct Al as [op I|op o I|op t a I Ff|op t a I Ff|w m op t a W M I Ff]; destruct (Q _ _ I) as [Q1 Q2]; (split; [exact Q1|]);
    intros l L; destruct (Q2 l L) as (h & Hp & Hh); exists h; (split; [exact Hp|]); intros lb e s' E.
  - destruct h; try contradiction; cbn [exec] in E. apply single_bad in E; [|exact O]. apply E. reflexivity.
  - destruct h; try contradiction; cbn [exec] in E. apply branch_bad in E; [|exact O]. exact E.
  - destruct (Z _ _ _ _ _ _ _ _ E Ff) as [(b & Fb & U)|(N & b & r & Fb & V & B)].
    + destruct h; try contradiction; reflexivity.
    + eapply zero_usable. exact U.
    + destruct V as (q1 & q2 & _ & V & _). apply zero_text in V. rewrite V in B. apply B. reflexivity.
  - destruct (Z _ _ _ _ _ _ _ _ E Ff) as [(b & Fb & U)|(N & b & r & Fb & V & B)].
    + destruct h; try contradiction; reflexivity.
    + exists b. auto.
    + exists b. split; [exact Fb|]. right. exists r. auto.
  - destruct (Z _ _ _ _ _ _ _ _ E Ff) as [(b & Fb & U)|(N & b & r & Fb & V & B)].
    + destruct W as [->| ->]; cbn in M; destruct h; try contradiction; try reflexivity; destruct m; try contradiction; intuition discriminate.
    + exists b. split; [exact Fb|]. destruct W as [->| ->]; exact U.
    + destruct W as [->| ->]; discriminate N.
Qed.

(** * 6502 *)
Lemma findmode65_bad : forall t l fs, Forall2 (fun p q => form_of (s2l (fst p)) = Some (fst q) /\ num65 (snd q) = snd p) l fs ->
  forall s e s' w a, findmode65 t l s = (Bad (Err e), s') -> first_fit t fs w a -> False.
Proof.
  intros t l fs F. induction F as [|[pat num] [f v] l fs (Fo & N) F IH]; intros s e s' w a E Ff; cbn [findmode65 fst snd] in *.
  { inversion Ff. }
  fails E m s1 E1; [elim (calm_filterc _ _ _ _ _ E)|]. apply (filterc_form _ _ _ _ _ _ Fo) in E1.
  destruct m as [[caps used]|]; [destruct caps; discriminate E|].
  inversion Ff as [? ? ? ? Fi|? ? ? ? ? No Ff']; subst; [eapply E1; eassumption|eapply IH; eassumption].
Qed.
Lemma when_bad : forall b m s e s', when b (err m) s = (Bad (Err e), s') -> b = true.
Proof. intros [] m s e s' E; [reflexivity|discriminate E]. Qed.

Theorem standard65_bad : forall code t w a s e s', s.(fl).(a_org_gv) = true -> first_fit t forms65 w a ->
  standard65 code (Some t) s = (Bad (Err e), s') ->
  illegal code (num65 w) = true \/
  (w <> WNothing /\ exists b, first_fit t forms65 w b /\ unusable65 s b (w = WPlain)) \/
  (w = WNothing /\ final65 s.(cp).(cpuflag) code 14 false false = None) \/
  (w = WPlain /\ exists b wide, first_fit t forms65 w b /\ accumulator s b /\ final65 s.(cp).(cpuflag) code 10 true wide = None) \/
  (w <> WNothing /\ exists b r, first_fit t forms65 w b /\ value_at s b r /\ final65 s.(cp).(cpuflag) code (num65 w) false (negb (tiny r)) = None).
Proof.
  intros code t w a s e s' O Ff E. unfold standard65 in E.
  fails E mt s1 E1; [elim (findmode65_bad _ _ _ modes65 _ _ _ _ _ E Ff)|].
  destruct (findmode65_ok _ _ _ modes65 _ _ _ E1) as (S1 & T1 & w' & b & Fb & ->). clear E1.
  assert (w' = w) as -> by (eapply first_fit_one; eassumption).
  fails E u1 s2 E1; [left; exact (when_bad _ _ _ _ _ E)|]. apply when_err in E1. destruct E1 as [Il ->].
  right. fold (illegal code (num65 w)) in Il.
  set (rest := fun mv : Z * Z => let (mode, value) := mv in
     let mode := if m2_offset code mode =? 0 then Z.lor mode 1 else mode in
     let offset := m2_offset code mode in
     when (offset =? 0) (err "illegal addressing mode") ;;;
     let opcode := Z.land (Z.land code 255 + offset) 255 in
     insert8 opcode ;;;
     (if mode <? 14 then
        if Z.land mode 1 =? 1 then insert16 value else insert8 value
      else ret tt) ;;;
     cf <- gets (fun s => s.(cp).(cpuflag)) ;;
     when ((cf <? 1) && (code =? 96 + 256 + F_noimm + F_noindy))
          (err "no ROR instruction on 6500") ;;;
     when ((cf <? 2) && ((mode =? 4) || (opcode =? 124) || (opcode =? 137)
                         || (opcode =? 26) || (opcode =? 58)))
          (err "illegal use of 65C02 addressing mode")) in E.
  assert (R : forall acc wide v s2, same s s2 -> rest (mode1 (num65 w) acc wide, v) s2 = (Bad (Err e), s') ->
    final65 s.(cp).(cpuflag) code (num65 w) acc wide = None).
  { clear E. intros acc wide v s2 S2 E. unfold rest in E. set (m1 := mode1 (num65 w) acc wide) in *. fold (mode2 code m1) in E.
    set (m := mode2 code m1) in *. cbv zeta in E. unfold final65. fold m1 m. rewrite Il. cbn [orb].
    pose proof (same_org _ _ S2 O) as O2.
    assert (Cf : cpuflag (cp s2) = cpuflag (cp s)) by (destruct S2 as (_ & _ & S2 & _); rewrite S2; reflexivity).
    fails E u2 s3 E1; [apply when_bad in E; rewrite E; reflexivity|]. apply when_err in E1. destruct E1 as [Of ->]. rewrite Of. cbn [orb].
    fold (opcode65 code m) in E. fails E u3 s3 E1; [elim (calm_insert8 _ _ O2 _ _ E)|].
    pose proof (insert8_org _ _ _ _ E1 O2) as O3. pose proof (insert8_keeps _ _ _ _ E1) as S3.
    fails E u4 s4 E2.
    { exfalso. destruct (m <? 14); [|discriminate E]. destruct (Z.land m 1 =? 1); [elim (calm_insert16 _ _ O3 _ _ E)|elim (calm_insert8 _ _ O3 _ _ E)]. }
    assert (S4 : cp s4 = cp s3).
    { destruct (m <? 14); [|injection E2 as _ <-; reflexivity]. destruct (Z.land m 1 =? 1).
      - unfold insert16 in E2. apply seq_ok in E2. destruct E2 as (f & s5 & E3 & E2). injection E3 as <- <-.
        destruct (a_lohi (fl s3)); apply seq_ok in E2; destruct E2 as (u5 & s5 & E3 & E2);
          apply insert8_keeps in E3; apply insert8_keeps in E2; destruct E3 as (_ & _ & E3 & _); destruct E2 as (_ & _ & E2 & _); congruence.
      - apply insert8_keeps in E2. apply E2. }
    assert (Cf4 : cpuflag (cp s4) = cpuflag (cp s)) by (destruct S3 as (_ & _ & S3 & _); congruence).
    fails E cf s5 E3; [discriminate E|]. apply gets_ok in E3. destruct E3 as [-> ->]. rewrite Cf4 in E. unfold late.
    fails E u5 s5 E3; [apply when_bad in E; rewrite E; reflexivity|]. apply when_err in E3. destruct E3 as [L1 ->]. rewrite L1. cbn [orb].
    apply when_bad in E. rewrite E. reflexivity. }
  clearbody rest.
  destruct (num65 w <? 14) eqn:M14.
  - assert (Nw : w <> WNothing) by (intros ->; discriminate M14). fails E mv s2 E1.
    + left. split; [exact Nw|]. fails E r s3 E2; [exists b; split; [exact Fb|]; eapply un65_error; eassumption|].
      exists b. split; [exact Fb|]. fails E mode' s4 E3.
      * destruct ((num65 w =? 10) && ltype_eqb (r_type r) TRegs && (r_modifier r =? 0)) eqn:A; [discriminate E|].
        fails E u2 s4 E3; [|discriminate E]. apply checktype_bad in E. eapply un65_type; [exact S1|exact E2|exact E|].
        intros (-> & Ty & Mo). rewrite Ty, Mo in A. discriminate A.
      * exfalso. destruct (_ || _) in E; [|discriminate E]. destruct (negb _) in E; [discriminate E|].
        fails E u5 s5 E5; [|discriminate E]. unfold when in E. destruct (negb _) in E; [elim (calm_warning _ _ _ _ E)|discriminate E].
    + step E1 r s3 E2. destruct (parse_keeps _ _ _ _ E2) as [P1 P2]. step E1 mode' s4 E3.
      assert (K3 : s4 = s3 /\ exists acc : bool, mode' = (if acc then 15 else num65 w) /\
        (if acc then w = WPlain /\ r_type r = TRegs /\ r_modifier r = 0 else r_type r = TAbs)).
      { destruct ((num65 w =? 10) && ltype_eqb (r_type r) TRegs && (r_modifier r =? 0)) eqn:A.
        - injection E3 as <- <-. split; [reflexivity|]. exists true. split; [reflexivity|].
          apply andb_prop in A. destruct A as [A A3]. apply andb_prop in A. destruct A as [A1 A2]. apply ltype_eqb_eq in A2.
          split; [destruct w; try discriminate A1; reflexivity|]. split; [exact A2|lia].
        - step E3 u3 s5 E4. apply checktype_ok in E4. destruct E4 as [Ty ->]. injection E3 as <- <-. split; [reflexivity|].
          exists false. auto. }
      destruct K3 as (-> & acc & -> & Ac).
      set (wide := negb (Z.land (s32 (r_value r)) 65280 =? 0) || f_forward (r_flags r)) in *.
      assert (K4 : same s3 s2 /\ mv = (mode1 (num65 w) acc wide, s32 (r_value r))).
      { unfold mode1. rewrite M14. destruct wide; cbn [andb]; [|injection E1 as <- <-; split; [apply same_refl|reflexivity]].
        destruct ((if acc then 15 else num65 w) =? 12); cbn [negb] in *.
        - step E1 u4 s5 E4. apply when_warning in E4. destruct E4 as [W1 W2]. injection E1 as <- <-. auto.
        - injection E1 as <- <-. split; [apply same_refl|reflexivity]. }
      destruct K4 as (S4 & ->).
      apply R in E; [|eapply same_trans; [exact S1|eapply same_trans; eassumption]]. right. right. destruct acc.
      * left. destruct Ac as (-> & Ty & Mo). split; [reflexivity|]. exists b, wide. split; [exact Fb|]. split; [|exact E].
        exists s1, s3, r. auto.
      * right. split; [exact Nw|]. exists b, r. split; [exact Fb|]. split; [exists s1, s3; auto|]. rewrite <- E. f_equal.
        unfold wide, tiny. rewrite high_s32. destruct (f_forward (r_flags r)), (Z.land (r_value r) 65280 =? 0); reflexivity.
  - fails E mv s2 E1; [discriminate E|]. injection E1 as <- <-.
    right. left. assert (w = WNothing) as -> by (destruct w; try discriminate M14; reflexivity). split; [reflexivity|].
    apply (R false false 0 s1 S1). exact E.
Qed.
Theorem standard65_bad0 : forall code s e s', s.(fl).(a_org_gv) = true -> standard65 code None s = (Bad (Err e), s') ->
  illegal code 14 = true \/ final65 s.(cp).(cpuflag) code 14 false false = None.
Proof.
  intros code s e s' O E. unfold standard65 in E. fails E mt s1 E1; [discriminate E|]. injection E1 as <- <-.
  fails E u1 s2 E1; [left; exact (when_bad _ _ _ _ _ E)|]. apply when_err in E1. destruct E1 as [Il ->]. fold (illegal code 14) in Il. right.
  fails E mv s2 E1; [discriminate E|]. injection E1 as <- <-.
  unfold final65. change (mode1 14 false false) with 14. rewrite Il. cbn [orb]. fold (mode2 code 14) in E. set (m := mode2 code 14) in *. cbv zeta in E.
  fails E u2 s3 E1; [apply when_bad in E; rewrite E; reflexivity|]. apply when_err in E1. destruct E1 as [Of ->]. rewrite Of. cbn [orb].
  fold (opcode65 code m) in E. fails E u3 s3 E1; [elim (calm_insert8 _ _ O _ _ E)|].
  pose proof (insert8_org _ _ _ _ E1 O) as O3. pose proof (insert8_keeps _ _ _ _ E1) as S3.
  assert (M : (m <? 14) = false).
  { unfold m, mode2. destruct (m2_offset code 14 =? 0); reflexivity. }
  rewrite M in E. fails E u4 s4 E2; [discriminate E|]. injection E2 as _ <-.
  assert (Cf : cpuflag (cp s3) = cpuflag (cp s)) by (destruct S3 as (_ & _ & S3 & _); rewrite S3; reflexivity).
  fails E cf s5 E3; [discriminate E|]. apply gets_ok in E3. destruct E3 as [-> ->]. rewrite Cf in E. unfold late.
  fails E u5 s5 E3; [apply when_bad in E; rewrite E; reflexivity|]. apply when_err in E3. destruct E3 as [L1 ->]. rewrite L1. cbn [orb].
  apply when_bad in E. rewrite E. reflexivity.
Qed.

Definition some {A} (o : option A) : bool := match o with Some _ => true | None => false end.
Definition writes : list written65 := [WPreX; WPostY; WInd; WNothing; WImm; WX; WY; WPlain].
Definition takes (c : cpu65) (code : Z) (m : mode65) : bool :=
  let fin := final65 (flag65 c) code in
  match m with
  | Acc => negb (illegal code 14) && some (fin 14 false false) && some (fin 10 true false) && some (fin 10 true true)
  | Imm => negb (illegal code 12) && some (fin 12 false false) && some (fin 12 false true)
  | _ => forallb (fun w =>
      (if match absolute w with Some k => eq65 k m | None => false end then
         negb (illegal code (num65 w)) && some (fin (num65 w) false false) && some (fin (num65 w) false true) else true) &&
      (if match zero_page w with Some k => eq65 k m | None => false end then
         negb (illegal code (num65 w)) && some (fin (num65 w) false false) else true)) writes
  end.
Definition served65 (c : cpu65) (q : string * mode65 * Z) : bool :=
  let '(n, m, op) := q in
  existsb (fun e : entry => String.eqb (fst e) n && match l_ptr (snd e) with PFun _ => true | _ => false end) (keys65 c) &&
  forallb (fun e : entry => if String.eqb (fst e) n then
      match l_ptr (snd e), m with
      | PFun H65Branch, Rel | PFun H65Single, Implied => true
      | PFun H65Std, (Rel | Implied) => false
      | PFun H65Std, _ => takes c (l_modifier (snd e)) m
      | _, _ => false
      end else true) (keys65 c).
Lemma sheet65_served : forall c, forallb (served65 c) (sheet65 c) = true.
Proof. intros []; vm_compute; reflexivity. Qed.
Lemma some_none : forall A (o : option A), some o = true -> o = None -> False.
Proof. intros A [a|]; discriminate. Qed.
Lemma writes_all : forall w, In w writes.
Proof. intros []; cbn; auto 12. Qed.
Lemma eq65_refl : forall m, eq65 m m = true.
Proof. intros []; reflexivity. Qed.
Lemma takes_long : forall c code w m, takes c code m = true -> absolute w = Some m ->
  illegal code (num65 w) = false /\ forall wide, final65 (flag65 c) code (num65 w) false wide <> None.
Proof.
  intros c code w m T A. assert (K : forall P : written65 -> bool, forallb P writes = true -> P w = true).
  { intros P H. rewrite forallb_forall in H. apply H. apply writes_all. }
  unfold takes in T. cbv zeta in T. destruct w; try discriminate A; injection A as <-; apply K in T; cbn [absolute zero_page] in T;
    rewrite eq65_refl in T; apply andb_prop in T; destruct T as [T _]; apply andb_prop in T; destruct T as [T T3];
    apply andb_prop in T; destruct T as [T1 T2]; apply negb_true_iff in T1; (split; [exact T1|]);
    intros []; intros N; (exact (some_none _ _ T3 N) || exact (some_none _ _ T2 N)).
Qed.
Lemma takes_short : forall c code w m, takes c code m = true -> zero_page w = Some m ->
  illegal code (num65 w) = false /\ final65 (flag65 c) code (num65 w) false false <> None.
Proof.
  intros c code w m T A. assert (K : forall P : written65 -> bool, forallb P writes = true -> P w = true).
  { intros P H. rewrite forallb_forall in H. apply H. apply writes_all. }
  unfold takes in T. cbv zeta in T. destruct w; try discriminate A; injection A as <-; apply K in T; cbn [absolute zero_page] in T;
    rewrite eq65_refl in T; apply andb_prop in T; destruct T as [_ T];
    apply andb_prop in T; destruct T as [T1 T2]; apply negb_true_iff in T1; (split; [exact T1|]);
    intros N; exact (some_none _ _ T2 N).
Qed.
Lemma unusable65_weak : forall s t acc, unusable65 s t acc -> unusable s t.
Proof. intros s t acc [s1 s2 m A B|s1 s2 r A B C _]; [eapply un_error|eapply un_type]; eassumption. Qed.
Lemma unusable65_more : forall s t (p q : Prop), (q -> p) -> unusable65 s t p -> unusable65 s t q.
Proof.
  intros s t p q I [s1 s2 m A B|s1 s2 r A B C D]; [eapply un65_error|eapply un65_type]; try eassumption.
  intros (Q & R). apply D. auto.
Qed.

Theorem inst65_accept : forall c n o s P, s.(fl).(a_org_gv) = true -> selected c s -> allowed65 (sheet65 c) n s o P ->
  (exists l, In (n, l) (keys65 c)) /\
  forall l, In (n, l) (keys65 c) -> exists h, l.(l_ptr) = PFun h /\
    forall lb e s', exec h l.(l_modifier) lb o s = (Bad (Err e), s') -> P.
Proof.
  intros c n o s P O Se Al. assert (Sf : cpuflag (cp s) = flag65 c) by exact Se.
  assert (Q : forall m op, In (n, m, op) (sheet65 c) -> (exists l, In (n, l) (keys65 c)) /\
    forall l, In (n, l) (keys65 c) -> exists h, l.(l_ptr) = PFun h /\
      match h, m with
      | H65Branch, Rel | H65Single, Implied => True
      | H65Std, (Rel | Implied) => False
      | H65Std, _ => takes c (l_modifier l) m = true
      | _, _ => False
      end).
  { intros m op I. pose proof (sheet65_served c) as T. rewrite forallb_forall in T. apply T in I. clear T.
    unfold served65 in I. apply andb_prop in I. destruct I as [I J]. split.
    - apply existsb_exists in I. destruct I as ((n' & l) & I & H). cbn [fst snd] in H. apply andb_prop in H. destruct H as [H _].
      apply String.eqb_eq in H. subst n'. exists l. exact I.
    - intros l L. rewrite forallb_forall in J. specialize (J _ L). cbn [fst snd] in J. rewrite String.eqb_refl in J.
      destruct (l_ptr l) as [|h|]; try discriminate J. exists h. split; [reflexivity|].
      destruct h; try discriminate J; destruct m; try discriminate J; exact Logic.I || exact J. }
  destruct Al as [op I|op o I|op I|op t a I Ff|op t a I Ff|w m op t a W I Ff|w m op t a W I Ff]; destruct (Q _ _ I) as [Q1 Q2]; (split; [exact Q1|]);
    intros l L; destruct (Q2 l L) as (h & Hp & Hh); exists h; (split; [exact Hp|]); intros lb e s' E.
  - destruct h; try contradiction; cbn [exec] in E. apply single_bad in E; [|exact O]. apply E. reflexivity.
  - destruct h; try contradiction; cbn [exec] in E. apply branch_bad in E; [|exact O]. exact E.
  - destruct h; try contradiction; cbn [exec] in E. unfold takes in Hh. cbv zeta in Hh. repeat (apply andb_prop in Hh; destruct Hh as [Hh ?]).
    apply negb_true_iff in Hh.
    apply standard65_bad0 in E; [|exact O]. rewrite Sf in E. destruct E as [E|E]; [congruence|].
    match goal with H : some (final65 _ _ 14 _ _) = true |- _ => exact (some_none _ _ H E) end.
  - destruct h; try contradiction; cbn [exec] in E. unfold takes in Hh. cbv zeta in Hh. apply andb_prop in Hh. destruct Hh as [Hh _].
    apply andb_prop in Hh. destruct Hh as [Hh _]. apply andb_prop in Hh. destruct Hh as [T1 T2]. apply negb_true_iff in T1.
    apply (standard65_bad _ _ _ _ _ _ _ O Ff) in E. rewrite Sf in E.
    destruct E as [E|[(N & _)|[(_ & E)|[(E & _)|(N & _)]]]]; [cbn [num65] in E; congruence|congruence|exact (some_none _ _ T2 E)|discriminate E|congruence].
  - destruct h; try contradiction; cbn [exec] in E. unfold takes in Hh. cbv zeta in Hh.
    apply andb_prop in Hh. destruct Hh as [Hh T3]. apply andb_prop in Hh. destruct Hh as [T1 T2]. apply negb_true_iff in T1.
    apply (standard65_bad _ _ _ _ _ _ _ O Ff) in E. rewrite Sf in E.
    destruct E as [E|[(N & b & Fb & U)|[(E & _)|[(E & _)|(N & b & r & Fb & V & E)]]]]; try discriminate E.
    + cbn [num65] in E. congruence.
    + exists b. split; [exact Fb|]. eapply unusable65_weak. exact U.
    + exfalso. cbn [num65] in E. destruct (negb (tiny r)); [exact (some_none _ _ T3 E)|exact (some_none _ _ T2 E)].
  - assert (Hk : h = H65Std /\ takes c (l_modifier l) m = true) by (destruct h; try contradiction; destruct m; try contradiction; auto; destruct w; discriminate W).
    destruct Hk as [-> Tk]. destruct (takes_long _ _ _ _ Tk W) as [T1 T2]. cbn [exec] in E.
    apply (standard65_bad _ _ _ _ _ _ _ O Ff) in E. rewrite Sf in E.
    destruct E as [E|[(N & b & Fb & U)|[(E & _)|[(-> & b & wide & Fb & A & E)|(N & b & r & Fb & V & E)]]]].
    + congruence.
    + exists b. split; [exact Fb|]. eapply unusable65_more; [|exact U]. intros [H _]. exact H.
    + subst w. discriminate W.
    + exists b. split; [exact Fb|]. destruct A as (s1 & s2 & r & A1 & A2 & A3 & A4). eapply un65_type; [exact A1|exact A2|congruence|].
      intros ((_ & op' & I') & _). destruct (Q _ _ I') as [_ Q']. destruct (Q' l L) as (h' & Hp' & Hh'). rewrite Hp in Hp'. injection Hp' as <-.
      unfold takes in Hh'. cbv zeta in Hh'. apply andb_prop in Hh'. destruct Hh' as [Hh' X2]. apply andb_prop in Hh'. destruct Hh' as [_ X1].
      destruct wide; [exact (some_none _ _ X2 E)|exact (some_none _ _ X1 E)].
    + exfalso. exact (T2 _ E).
  - assert (Hk : h = H65Std /\ takes c (l_modifier l) m = true) by (destruct h; try contradiction; destruct m; try contradiction; auto; destruct w; discriminate W).
    destruct Hk as [-> Tk]. destruct (takes_short _ _ _ _ Tk W) as [T1 T2]. cbn [exec] in E.
    apply (standard65_bad _ _ _ _ _ _ _ O Ff) in E. rewrite Sf in E.
    destruct E as [E|[(N & b & Fb & U)|[(E & _)|[(-> & b & wide & Fb & A & E)|(N & b & r & Fb & V & E)]]]].
    + congruence.
    + exists b. split; [exact Fb|]. left. eapply unusable65_weak. exact U.
    + subst w. discriminate W.
    + exists b. split; [exact Fb|]. left. destruct A as (s1 & s2 & r & A1 & A2 & A3 & A4). eapply un_type; [exact A1|exact A2|congruence].
    + exists b. split; [exact Fb|]. right. exists r. split; [exact V|]. intros Sh. apply tiny_short in Sh. rewrite Sh in E. exact (T2 E).
Qed.
