(** The lines of a block that is not executed (property C67). *)
From Coq Require Import String Ascii ZArith List Bool Lia.
From Verif Require Import Base State Tree Filter Output Label Parse Scode Pseudos Macro Crasm Walk TreeFacts LineFacts Frame Eval.
From Verif Require Import Cpu6800.
From Verif Require Import SpecStar SpecSkip SpecMacro SkipFacts InputFacts MacroFacts SpecBlock.
From Verif Require SpecInput SymFacts LayoutRun LineText SpecForms SpecSplit.
Import ListNotations.
Open Scope Z_scope.

Ltac step E x s1 E1 := apply seq_inv in E; destruct E as (x & s1 & E1 & E).

(** ** The parts of a line depend on its text and the symbols only *)
Definition pf (t : str) (pat : string) : option (str * str) :=
  match fr_caps (filter_pure t (s2l pat)) with Some (a :: b :: _) => Some (a, b) | _ => None end.
Definition pmn (T : tree) (seg : Z) (m : str) : option (str * label) :=
  match tfind (lkey seg m) T with
  | Some l => usable (lkey seg m, l)
  | None => match pf m "?.?" with
            | None => None
            | Some (a, _) => match tfind (lkey seg a) T with
                             | Some l => if 0 <=? l.(l_modifier) then None else usable (lkey seg a, l)
                             | None => None
                             end
            end
  end.
Definition psm (T : tree) (seg : Z) (s : str) : str * option (str * label) * option str :=
  match pf s "? _?" with
  | Some ((_ :: _) as m, (_ :: _) as o) => (m, pmn T seg m, Some o)
  | _ => (s, pmn T seg s, None)
  end.
Definition psr (T : tree) (seg : Z) (s : str) : fields :=
  let '(m, l, o) := psm T seg s in
  match l, o with
  | None, Some o => let '(m2, l2, o2) := psm T seg o in mkFields l2 (Some m) m2 o2
  | _, _ => mkFields l None m o
  end.
Definition psl (T : tree) (seg : Z) (s : str) : fields :=
  match pf s "?_=_?" with
  | Some (a, o) => if nospacein a then mkFields (pmn T seg (s2l "equ")) (Some a) (s2l "equ") (Some o) else psr T seg s
  | None => psr T seg s
  end.
Definition pst (c : str) : str := match pf c "_?_;?" with Some (t, _) => t | None => skipblanks (trimblanks c) end.

Definition stays (s s' : state) : Prop := s'.(sy) = s.(sy) /\ s'.(inp) = s.(inp).
Lemma stays_refl : forall s, stays s s.
Proof. split; reflexivity. Qed.
Lemma stays_trans : forall a b c, stays a b -> stays b c -> stays a c.
Proof. intros a b c [A B] [C D]. split; congruence. Qed.
Lemma f2 : forall t p s r s', filter2 t p s = (Ok r, s') -> r = pf t p /\ stays s s'.
Proof. intros t p s r s' E. apply filter2_eq in E. destruct E as [(_ & _ & A & B & _) ->]. split; [reflexivity|split; assumption]. Qed.
Lemma fm : forall m s r s', findmnemo m s = (Ok r, s') -> r = pmn s.(sy) s.(inp).(segment) m /\ stays s s'.
Proof.
  intros m s r s' E. unfold findmnemo, searchlabel in E. step E kq s1 E1. step E1 x s0 E0. cbn [gets] in E0. injection E0 as <- <-. injection E1 as <- <-.
  unfold pmn. destruct (tfind (lkey (segment (inp s)) m) (sy s)) as [l|]; [injection E as <- <-; split; [reflexivity|apply stays_refl]|].
  step E x s1 E1. apply f2 in E1. destruct E1 as [-> S1]. destruct (pf m "?.?") as [[a b]|]; [|injection E as <- <-; split; [reflexivity|exact S1]].
  step E kq s2 E2. step E2 x s0 E0. cbn [gets] in E0. injection E0 as <- <-. injection E2 as <- <-. destruct S1 as [S1 I1]. rewrite S1, I1 in E.
  destruct (tfind (lkey (segment (inp s)) a) (sy s)) as [l|]; injection E as <- <-; (split; [reflexivity|split; assumption]).
Qed.
Lemma sm : forall t s r s', splitmnemo t s = (Ok r, s') -> r = psm s.(sy) s.(inp).(segment) t /\ stays s s'.
Proof.
  intros t s r s' E. unfold splitmnemo in E. step E x s1 E1. apply f2 in E1. destruct E1 as [-> S1]. pose proof S1 as [Y1 I1]. unfold psm.
  destruct (pf t "? _?") as [[[|a1 a] [|b1 b]]|]; step E y s2 E2; apply fm in E2; destruct E2 as [-> S2]; rewrite Y1, I1 in E;
    injection E as <- <-; (split; [reflexivity|exact (stays_trans _ _ _ S1 S2)]).
Qed.
Lemma sr : forall t s r s', splitrest t s = (Ok r, s') -> r = psr s.(sy) s.(inp).(segment) t /\ stays s s'.
Proof.
  intros t s r s' E. unfold splitrest in E. step E x s1 E1. apply sm in E1. destruct E1 as [-> S1]. pose proof S1 as [Y1 I1]. unfold psr.
  destruct (psm (sy s) (segment (inp s)) t) as [[m l] o].
  destruct l as [l|]; [injection E as <- <-; split; [reflexivity|exact S1]|].
  destruct o as [o|]; [|injection E as <- <-; split; [reflexivity|exact S1]].
  step E u s2 E2. destruct (negb (checklabel m)); [cbn [when] in E2; unfold err in E2; apply error_never in E2; contradiction|]. cbn [when] in E2. injection E2 as <- <-.
  step E y s2 E2. apply sm in E2. destruct E2 as [-> S2]. rewrite Y1, I1 in E. destruct (psm (sy s) (segment (inp s)) o) as [[m2 l2] o2].
  injection E as <- <-. split; [reflexivity|exact (stays_trans _ _ _ S1 S2)].
Qed.
Lemma sl : forall t s r s', splitline t s = (Ok r, s') -> r = psl s.(sy) s.(inp).(segment) t /\ stays s s'.
Proof.
  intros t s r s' E. unfold splitline in E. step E x s1 E1. apply f2 in E1. destruct E1 as [-> S1]. pose proof S1 as [Y1 I1]. unfold psl.
  destruct (pf t "?_=_?") as [[a o]|].
  - destruct (nospacein a).
    + step E y s2 E2. apply fm in E2. destruct E2 as [-> S2]. rewrite Y1, I1 in E. step E u s3 E3.
      destruct (negb (checklabel a)); [cbn [when] in E3; unfold err in E3; apply error_never in E3; contradiction|]. cbn [when] in E3. injection E3 as <- <-.
      injection E as <- <-. split; [reflexivity|exact (stays_trans _ _ _ S1 S2)].
    + apply sr in E. destruct E as [-> S2]. rewrite Y1, I1. split; [reflexivity|exact (stays_trans _ _ _ S1 S2)].
  - apply sr in E. destruct E as [-> S2]. rewrite Y1, I1. split; [reflexivity|exact (stays_trans _ _ _ S1 S2)].
Qed.
(** The reader's place. *)
Definition spot (s s' : state) : Prop := s'.(inp).(srcs) = s.(inp).(srcs) /\ s'.(inp).(mainrest) = s.(inp).(mainrest).
Lemma st : forall s t s', stripline s = (Ok t, s') -> t = pst s.(inp).(curline) /\ sy s' = sy s /\ segment (inp s') = segment (inp s) /\ spot s s'.
Proof.
  intros s t s' E. unfold stripline in E. step E c s1 E1. cbn [gets] in E1. injection E1 as <- <-. step E x s1 E1. apply f2 in E1. destruct E1 as [-> [Y I]]. unfold pst.
  destruct (pf (curline (inp s)) "_?_;?") as [[a b]|].
  - injection E as <- <-. unfold spot. rewrite I. repeat split; assumption.
  - step E u s2 E2. unfold upd_inp, modify in E2. injection E2 as <- <-. injection E as <- <-. unfold spot. cbn. rewrite I. repeat split; assumption.
Qed.
Lemma ls : forall s u s', linestart s = (Ok u, s') -> stays s s'.
Proof.
  intros s u s' E. unfold linestart in E. step E a s1 E1. injection E1 as <- <-. step E b s1 E1. cbn [gets] in E1. injection E1 as <- <-.
  step E c s2 E2. unfold zerobuffer, upd_ct, modify in E. injection E as <- <-.
  destruct (starundef _); [unfold upd_fl, modify in E2; injection E2 as <- <-; split; reflexivity|].
  step E2 d s3 E3. unfold upd_fl, modify in E3. injection E3 as <- <-.
  match type of E2 with setpc ?v ?x = _ => destruct (setpc_keeps v x) as (A & _ & _ & B & _) end. rewrite E2 in A, B. cbn [snd] in A, B. split; [exact A|exact B].
Qed.
Lemma apart_is : forall s q, taken_apart s q -> pst s.(inp).(curline) <> [] /\ q = psl s.(sy) s.(inp).(segment) (pst s.(inp).(curline)).
Proof.
  intros s q (s1 & t & s2 & s3 & A & B & N & C). apply ls in A. destruct A as [Y1 I1]. apply st in B. destruct B as (-> & Y2 & I2 & _). apply sl in C. destruct C as [-> _].
  rewrite Y2, I2, Y1, I1. rewrite I1 in N. split; [exact N|reflexivity].
Qed.
Lemma one_way : forall s c q q', line_in s c q -> line_in s c q' -> q' = q.
Proof.
  intros s c q q' (a & U & C & A) (b & V & D & B). apply apart_is in A. apply apart_is in B.
  destruct A as [_ ->], B as [_ ->]. rewrite (u_symbols _ _ U), (u_symbols _ _ V), (proj1 (u_scope _ _ U)), (proj1 (u_scope _ _ V)), C, D. reflexivity.
Qed.

(** ** The lines that are passed over *)
Lemma passed_trans : forall a b c l l', passed_over a b l -> passed_over b c l' -> passed_over a c (l ++ l').
Proof.
  intros a b c l l' (p & P1 & P2 & -> & P4) (q & Q1 & Q2 & -> & Q4). exists (p ++ q).
  rewrite P1, Q1, concat_app, app_assoc, map_app. repeat split; [apply Forall_app; split; assumption|congruence].
Qed.
Lemma passed_spot : forall a b, spot a b -> passed_over a b [].
Proof. intros a b [A B]. exists []. rewrite B. repeat split; [constructor|exact A]. Qed.
Lemma spot_refl : forall a, spot a a.
Proof. split; reflexivity. Qed.
Lemma spot_trans : forall a b c, spot a b -> spot b c -> spot a c.
Proof. intros a b c [A B] [C D]. split; congruence. Qed.
Lemma stays_spot : forall a b, stays a b -> spot a b.
Proof. intros a b [_ E]. unfold spot. rewrite E. split; reflexivity. Qed.
Lemma list_spot : forall b s u s', when b outputline s = (Ok u, s') -> spot s s'.
Proof.
  intros b s u s' E. destruct b; cbn [when] in E; [|injection E as <- <-; apply spot_refl].
  apply fixed_outputline in E. destruct E as [_ E]. unfold spot. rewrite E. split; reflexivity.
Qed.
Definition main (s : state) : Prop := s.(inp).(srcs) = [] /\ ~ List.In SpecInput.nul s.(inp).(mainrest).
Lemma main_passed : forall a b l, passed_over a b l -> main a -> main b.
Proof.
  intros a b l (p & P1 & _ & _ & P4) [M N]. split; [congruence|]. intros H. apply N. rewrite P1. apply in_or_app. right. exact H.
Qed.

Definition CS : qsteps LayoutRun.climbs := bsteps_qsteps _ (p_bsteps _ LayoutRun.climbs_steps).
Definition errs (s : state) : Z := s.(ct).(errnumber).
Lemma climb_use : forall A (m : M A) s r s', pres LayoutRun.climbs A m -> m s = (r, s') -> errs s <= errs s'.
Proof. intros A m s r s' P E. specialize (P s). rewrite E in P. exact P. Qed.
Lemma climb_list : forall b s u s', when b outputline s = (Ok u, s') -> errs s <= errs s'.
Proof.
  intros b s u s' E. destruct b; cbn [when] in E; [|injection E as <- <-; lia].
  exact (climb_use _ _ _ _ _ (pres_outputline _ LayoutRun.climbs_lsteps) E).
Qed.
Lemma climb_run : forall n k li s r s', run n k li false s = (r, s') -> errs s <= errs s'.
Proof. intros n k li s r s' E. exact (climb_use _ _ _ _ _ (skip_run _ CS n k li) E). Qed.
Lemma line_held : forall n li s r s', run (S n) KLine li false s = (r, s') -> s'.(ct).(advance) = 0.
Proof.
  intros n li s r s' E. set (s0 := set_ct (set_advance 0 s.(ct)) s).
  assert (E0 : run (S n) KLine li false s0 = (r, s')) by (rewrite <- E; reflexivity).
  exact (proj2 (idle_use _ _ _ _ _ (skip_run _ QI (S n) KLine li) E0 eq_refl)).
Qed.

Section Line.
Variable n : nat.
Variable s0 : state.
Hypothesis H : forall li s f s', main s -> s.(ct).(advance) = 0 -> run n KIf li false s = (Ok f, s') -> errs s' = errs s -> untouched s0 s ->
  exists e l, f = (if e : bool then FElse else FEndc) /\ block s0 l e /\ passed_over s s' l.

Lemma skipped_if : forall li o s f s', main s -> s.(ct).(advance) = 0 -> Xif (run n) li false o s = (Ok f, s') -> errs s' = errs s -> untouched s0 s ->
  f = FNone /\ ((exists l, block s0 l false /\ passed_over s s' l) \/
                exists l l', block s0 l true /\ block s0 l' false /\ passed_over s s' (l ++ l')).
Proof.
  intros li o s f s' M A E C U. unfold Xif, iflist in E. cbn [andb] in E.
  step E bv s1 E1. injection E1 as <- <-. step E il s1 E1. injection E1 as <- <-.
  step E u1 s1 E1. destruct (standing_list _ _ _ _ A E1) as [(U1 & _) A1]. pose proof (list_spot _ _ _ _ E1) as P1. pose proof (climb_list _ _ _ _ E1) as C1.
  step E op s2 E2. injection E2 as <- <-. step E u2 s2 E2. cbn [when] in E2. injection E2 as <- <-.
  step E g s2 E2. pose proof (climb_run _ _ _ _ _ _ E2) as C2. step E u3 s3 E3. unfold upd_inp, modify in E3. injection E3 as <- <-.
  set (s3 := set_inp _ s2) in *. assert (P3 : spot s2 s3) by (split; reflexivity). assert (C3 : errs s3 = errs s2) by reflexivity.
  assert (A3 : advance (ct s2) = 0 -> advance (ct s3) = 0) by (intros; assumption).
  assert (V3 : untouched s2 s3) by (constructor; try reflexivity; [split; reflexivity|destruct s2 as [[]]; reflexivity]). clearbody s3.
  pose proof (main_passed _ _ _ (passed_spot _ _ P1) M) as M1. pose proof (untouched_trans _ _ _ U U1) as W1.
  destruct (idle_use _ _ _ _ _ (skip_run _ QI _ _ _) E2 A1) as [V2 A2].
  assert (K : errs s2 = errs s1 -> exists e l, g = (if e : bool then FElse else FEndc) /\ block s0 l e /\ passed_over s1 s2 l)
    by (intros Q; exact (H _ _ _ _ M1 A1 E2 Q W1)).
  destruct g; try (exfalso; exact (error_never _ _ _ _ _ E)).
  - step E il3 s4 E4. injection E4 as <- <-. step E u4 s4 E4. pose proof (climb_list _ _ _ _ E4) as C4. injection E as <- <-.
    exfalso. destruct K as ([] & l & K & _); [lia|discriminate K..].
  - step E il3 s4 E4. injection E4 as <- <-. step E u4 s4 E4. pose proof (climb_list _ _ _ _ E4) as C4. pose proof (list_spot _ _ _ _ E4) as P4. injection E as <- <-.
    destruct K as ([] & l & K & B & P); [lia|discriminate K|]. split; [reflexivity|]. left. exists l. split; [exact B|].
    pose proof (passed_trans _ _ _ _ _ (passed_spot _ _ P1) (passed_trans _ _ _ _ _ P (passed_spot _ _ (spot_trans _ _ _ P3 P4)))) as R. rewrite app_nil_r in R. exact R.
  - step E il3 s4 E4. injection E4 as <- <-. step E u4 s4 E4. pose proof (climb_list _ _ _ _ E4) as C4. pose proof (list_spot _ _ _ _ E4) as P4.
    destruct (standing_list _ _ _ _ (A3 A2) E4) as [(V4 & _) A4].
    step E il4 s5 E5. injection E5 as <- <-. step E u5 s5 E5. cbn [when] in E5. injection E5 as <- <-.
    step E g s6 E6. pose proof (climb_run _ _ _ _ _ _ E6) as C6. step E u7 s7 E7. unfold upd_inp, modify in E7. injection E7 as <- <-.
    set (s7 := set_inp _ s6) in *. assert (P7 : spot s6 s7) by (split; reflexivity). assert (C7 : errs s7 = errs s6) by reflexivity. clearbody s7.
    assert (X : g <> FEndm -> g <> FElse -> exists b u, when b outputline s7 = (Ok u, s') /\ f = match g with FExitm => FExitm | _ => FNone end).
    { intros N1 N2. destruct g; try congruence; step E ix x8 E8; injection E8 as <- <-; step E y9 x9 E9; injection E as <- <-; eexists _, _; split; first [exact E9|reflexivity]. }
    assert (Y : g <> FEndm /\ g <> FElse) by (destruct g; split; try discriminate; exfalso; exact (error_never _ _ _ _ _ E)). clear E.
    destruct (X (proj1 Y) (proj2 Y)) as (b & u & E8 & ->). pose proof (climb_list _ _ _ _ E8) as C8. pose proof (list_spot _ _ _ _ E8) as P8. clear X.
    destruct K as ([] & l & K & B & P); [lia| |discriminate K].
    pose proof (passed_trans _ _ _ _ _ (passed_spot _ _ P1) (passed_trans _ _ _ _ _ P (passed_spot _ _ (spot_trans _ _ _ P3 P4)))) as R. rewrite app_nil_r in R. cbn [app] in R.
    pose proof (main_passed _ _ _ R M) as M4.
    destruct (H _ _ _ _ M4 A4 E6) as ([] & l' & G & B' & P'); [lia|exact (untouched_trans _ _ _ W1 (untouched_trans _ _ _ V2 (untouched_trans _ _ _ V3 V4)))| |].
    + exfalso. apply (proj2 Y). exact G.
    + subst g. split; [reflexivity|]. right. exists l, l'. split; [exact B|]. split; [exact B'|].
      apply (passed_trans _ _ _ _ _ R). pose proof (passed_trans _ _ _ _ _ P' (passed_spot _ _ (spot_trans _ _ _ P7 P8))) as Q. rewrite app_nil_r in Q. exact Q.
  - step E il3 s4 E4. injection E4 as <- <-. step E u4 s4 E4. pose proof (climb_list _ _ _ _ E4) as C4. injection E as <- <-.
    exfalso. destruct K as ([] & l & K & _); [lia|discriminate K..].
Qed.

(** What a line that is not executed does. *)
Inductive line_does (c : str) (a a' : state) : flag -> Prop :=
| ld_other : other s0 c -> spot a a' -> line_does c a a' FNone
| ld_else : word s0 c HElse -> spot a a' -> line_does c a a' FElse
| ld_endc : word s0 c HEndc -> spot a a' -> line_does c a a' FEndc
| ld_if : forall l, word s0 c HIf -> block s0 l false -> passed_over a a' l -> line_does c a a' FNone
| ld_if_else : forall l l', word s0 c HIf -> block s0 l true -> block s0 l' false -> passed_over a a' (l ++ l') -> line_does c a a' FNone
| ld_macro : forall m ls, word s0 c HMacro -> Forall2 uncommented m ls -> body ls -> passed_over a a' m -> line_does c a a' FNone.

Lemma other_apart : forall c q, line_in s0 c q ->
  (forall k l h, q.(q_mnemo) = Some (k, l) -> l.(l_flags).(f_defcond) = true \/ l.(l_flags).(f_defmacro) = true -> l.(l_ptr) = PFun h ->
     h <> HIf /\ h <> HElse /\ h <> HEndc /\ h <> HMacro) -> other s0 c.
Proof.
  intros c q L N. repeat split; intros (q' & k & l & L' & Q & F & P); rewrite (one_way _ _ _ _ L L') in Q; destruct (N _ _ _ Q F P) as (A & B & C & D); congruence.
Qed.

Lemma sameinp_star : forall s u s', star_advance s = (Ok u, s') -> inp s' = inp s.
Proof. intros s u s' E. pose proof (pres_star_advance _ SymFacts.lsteps_sameinp s) as K. rewrite E in K. exact K. Qed.

Lemma skipped_macro : forall k li lb o s f s', main s -> Xmacro k li false lb o s = (Ok f, s') ->
  f = FNone /\ exists m ls, Forall2 uncommented m ls /\ body ls /\ passed_over s s' m.
Proof.
  intros k li lb o s f s' M E. unfold Xmacro in E.
  step E u1 s1 E1. destruct (ogiven o); [cbn [when] in E1; unfold err in E1; apply error_never in E1; contradiction|]. cbn [when] in E1. injection E1 as <- <-.
  step E ml s1 E1. cbn [gets] in E1. injection E1 as <- <-.
  step E u2 s2 E2. destruct (negb _); [cbn [when] in E2; unfold err in E2; apply error_never in E2; contradiction|]. cbn [when] in E2. injection E2 as <- <-.
  step E u3 s3 E3. pose proof (list_spot _ _ _ _ E3) as P3. step E kk s4 E4. injection E4 as <- <-.
  step E x s5 E5. destruct x as [[ls a] b]. destruct (main_passed _ _ _ (passed_spot _ _ P3) M) as [M3 N3].
  apply macrolines_ok in E5; [|exact M3|exact N3]. destruct E5 as (ps & rest & init & last & (L1 & L2 & L3) & El & B1 & B2 & _ & c & Ic). cbn [rev app] in El.
  destruct a; [|apply error_never in E; contradiction]. destruct b; [|apply error_never in E; contradiction].
  step E u6 s6 E6. injection E6 as <- <-. injection E as <- <-. split; [reflexivity|].
  exists (map SpecInput.visible ps), (init ++ [last]). split; [|split].
  - clear - L3. induction L3; constructor; assumption.
  - exists init, last. split; [reflexivity|]. split; [apply endm_alone; exact B2|exact B1].
  - apply (passed_trans _ _ _ [] _ (passed_spot _ _ P3)). exists ps. rewrite Ic. cbn. repeat split; assumption.
Qed.

Lemma skipped_leave : forall f li s g s', leave f li false s = (Ok g, s') -> g = FNone /\ spot s s'.
Proof.
  intros f li s g s' E. unfold leave in E. step E m s1 E1. cbn [gets] in E1. injection E1 as <- <-. step E u s2 E2. apply list_spot in E2.
  rewrite andb_false_r in E. injection E as <- <-. split; [reflexivity|exact E2].
Qed.

Lemma skipped_line : forall li a f a', main a -> untouched s0 a -> run (S n) KLine li false a = (Ok f, a') -> errs a' = errs a ->
  line_does a.(inp).(curline) a a' f.
Proof.
  intros li a f a' M U E C. cbn [run] in E.
  set (a0 := set_ct (set_advance 0 a.(ct)) a).
  assert (Q : asmline (run n) n li false a0 = (Ok f, a')) by (rewrite <- E; reflexivity). clear E.
  assert (V0 : untouched a a0) by (constructor; try reflexivity; [split; reflexivity|destruct a as [[]]; reflexivity]).
  assert (M0 : main a0) by exact M. assert (C0 : errs a0 = errs a) by reflexivity. assert (P0 : spot a a0) by (split; reflexivity).
  assert (K0 : curline (inp a0) = curline (inp a)) by reflexivity. assert (A0 : advance (ct a0) = 0) by reflexivity.
  rewrite <- K0. pose proof (untouched_trans _ _ _ U V0) as U0. clearbody a0. rename Q into E.
  assert (Z : forall g, line_does (curline (inp a0)) a0 a' g -> line_does (curline (inp a0)) a a' g).
  { intros g D. pose proof (passed_spot _ _ P0) as R.
    destruct D; [apply ld_other|apply ld_else|apply ld_endc|eapply ld_if|eapply ld_if_else|eapply ld_macro]; eauto;
      try (eapply spot_trans; eassumption); match goal with B : passed_over a0 a' _ |- _ => exact (passed_trans _ _ _ [] _ R B) end. }
  apply Z. clear Z P0 K0 V0. rewrite <- C0 in C. clear C0 M U a. rename M0 into M. rename U0 into U. rename A0 into A.
  unfold asmline in E.
  step E u1 s1 E1. pose proof (ls _ _ _ E1) as S1. destruct (idle_use _ _ _ _ _ (pres_linestart _ QI) E1 A) as [U1 A1]. pose proof (climb_use _ _ _ _ _ (pres_linestart _ CS) E1) as C1.
  step E col s2 E2. cbn [gets] in E2. injection E2 as <- <-.
  step E t s2 E2. pose proof (st _ _ _ E2) as (T2 & _ & _ & P2). destruct (idle_use _ _ _ _ _ (skip_stripline _ QI) E2 A1) as [U2 A2]. pose proof (climb_use _ _ _ _ _ (skip_stripline _ CS) E2) as C2.
  assert (I1 : inp s1 = inp a0) by apply S1. rewrite I1 in T2.
  pose proof (spot_trans _ _ _ (stays_spot _ _ S1) P2) as P.
  destruct t as [|ch t].
  { step E u3 s3 E3. apply list_spot in E3. injection E as <- <-. apply ld_other; [|exact (spot_trans _ _ _ P E3)].
    repeat split; intros (q & k & l & (b & Ub & Cb & T) & _); apply apart_is in T; destruct T as [T _]; rewrite Cb in T; congruence. }
  step E q s3 E3. pose proof (sl _ _ _ _ E3) as (_ & S3). destruct (idle_use _ _ _ _ _ (skip_splitline _ QI _) E3 A2) as [U3 A3]. pose proof (climb_use _ _ _ _ _ (skip_splitline _ CS _) E3) as C3.
  assert (L : line_in s0 (curline (inp a0)) q).
  { exists a0. split; [exact U|]. split; [reflexivity|]. destruct u1. exists s1, (ch :: t), s2, s3. split; [exact E1|]. split; [exact E2|]. split; [discriminate|exact E3]. }
  pose proof (spot_trans _ _ _ P (stays_spot _ _ S3)) as P3. clear P P2.
  pose proof (main_passed _ _ _ (passed_spot _ _ P3) M) as M3.
  pose proof (untouched_trans _ _ _ U (untouched_trans _ _ _ U1 (untouched_trans _ _ _ U2 U3))) as W3.
  clear E1 E2 E3 T2 S1 S3 I1 U1 U2 U3 A1 A2.
  destruct (q_mnemo q) as [[key l]|] eqn:Qm.
  2: { assert (O : other s0 (curline (inp a0))) by (apply (other_apart _ _ L); intros; congruence).
    destruct (_ && _ && _); [|apply error_never in E; contradiction]. step E u4 s4 E4. cbn [when] in E4. injection E4 as <- <-.
    step E u5 s5 E5. apply list_spot in E5. injection E as <- <-. apply ld_other; [exact O|exact (spot_trans _ _ _ P3 E5)]. }
  unfold dispatch in E. cbv zeta in E.
  step E u4 s4 E4. destruct (_ && ogiven (q_label q)); [cbn [when] in E4; unfold err in E4; apply error_never in E4; contradiction|]. cbn [when] in E4. injection E4 as <- <-.
  step E u5 s5 E5. assert (s5 = s3).
  { destruct (f_deflabel (l_flags l)); [destruct (negb _); [cbn [when] in E5; unfold err in E5; apply error_never in E5; contradiction|cbn [when] in E5; injection E5 as <- <-; reflexivity]|].
    destruct (q_label q); cbn [when] in E5; injection E5 as <- <-; reflexivity. }
  subst s5. clear E5.
  destruct (f_defcond (l_flags l) || f_defmacro (l_flags l)) eqn:D.
  - apply orb_true_iff in D. destruct (l_ptr l) as [|h|ml] eqn:Pt; try discriminate E.
    assert (W : word s0 (curline (inp a0)) h) by (exists q, key, l; auto).
    assert (O : h <> HIf -> h <> HElse -> h <> HEndc -> h <> HMacro -> other s0 (curline (inp a0))).
    { intros. apply (other_apart _ _ L). intros k0 l0 h0 X Y Z. rewrite Qm in X. injection X as <- <-. rewrite Pt in Z. injection Z as <-. auto. }
    destruct h; cbn [execblock] in E; try discriminate E.
    all: lazymatch type of W with
      | word _ _ HElse => unfold Xelse in E; step E u6 s6 E6; destruct (ogiven (q_oper q)); [cbn [when] in E6; unfold err in E6; apply error_never in E6; contradiction|];
          cbn [when] in E6; injection E6 as <- <-; injection E as <- <-; exact (ld_else _ _ _ W P3)
      | word _ _ HEndc => unfold Xendc in E; step E u6 s6 E6; destruct (ogiven (q_oper q)); [cbn [when] in E6; unfold err in E6; apply error_never in E6; contradiction|];
          cbn [when] in E6; injection E6 as <- <-; injection E as <- <-; exact (ld_endc _ _ _ W P3)
      | word _ _ HIf => pose proof (climb_use _ _ _ _ _ (skip_Xif _ CS _ (skip_run _ CS n) _ _) E) as C4;
          apply skipped_if in E; [|exact M3|exact A3|lia|exact W3]; destruct E as [-> [(l1 & B & R)|(l1 & l2 & B & B' & R)]];
          pose proof (passed_trans _ _ _ [] _ (passed_spot _ _ P3) R) as R3; [exact (ld_if _ _ _ _ W B R3)|exact (ld_if_else _ _ _ _ _ W B B' R3)]
      | word _ _ HMacro => destruct (q_label q); [|discriminate E]; apply skipped_macro in E; [|exact M3]; destruct E as [-> (m & ml & F & B & R)];
          exact (ld_macro _ _ _ _ _ W F B (passed_trans _ _ _ [] _ (passed_spot _ _ P3) R))
      | _ => first [unfold Xexitm in E|unfold Xendm in E]; step E u6 s6 E6; destruct (ogiven (q_oper q)); [cbn [when] in E6; unfold err in E6; apply error_never in E6; contradiction|];
          cbn [when] in E6; injection E6 as <- <-; apply skipped_leave in E; destruct E as [-> P4];
          apply ld_other; [apply O; discriminate|exact (spot_trans _ _ _ P3 P4)]
      end.
  - assert (O : other s0 (curline (inp a0))).
    { apply (other_apart _ _ L). intros k0 l0 h0 X Y _. rewrite Qm in X. injection X as <- <-. apply orb_false_iff in D. destruct D, Y; congruence. }
    destruct (l_type l); try discriminate E.
    + step E u6 s6 E6. injection E6 as <- <-. step E u7 s7 E7. apply sameinp_star in E7. step E u9 s9 E9. apply list_spot in E9. injection E as <- <-.
      apply ld_other; [exact O|]. apply (spot_trans _ _ _ P3). refine (spot_trans _ _ _ _ E9). unfold spot. rewrite E7. split; reflexivity.
    + step E u6 s6 E6. destruct (_ && _); [cbn [when] in E6; unfold err in E6; apply error_never in E6; contradiction|]. cbn [when] in E6. injection E6 as <- <-.
      step E u7 s7 E7. apply list_spot in E7. injection E as <- <-. apply ld_other; [exact O|exact (spot_trans _ _ _ P3 E7)].
Qed.
End Line.

Lemma listed_untouched : forall s s', listed s s' -> untouched s s'.
Proof.
  intros s s' (A & B & C & D & E & F & G & I & J & K). constructor; try assumption.
  - rewrite D. split; reflexivity.
  - rewrite A. destruct (fl s); reflexivity.
  - rewrite E. reflexivity.
Qed.

Theorem skipped_lines : forall n s0 li s f s', main s -> s.(ct).(advance) = 0 -> run n KIf li false s = (Ok f, s') -> errs s' = errs s -> untouched s0 s ->
  exists e l, f = (if e : bool then FElse else FEndc) /\ block s0 l e /\ passed_over s s' l.
Proof.
  intros n. induction n as [n IH] using lt_wf_ind. intros s0 li s f s' M A E C U. destruct n as [|n]; [discriminate E|].
  cbn [run] in E. unfold ifround in E. destruct M as [M N].
  destruct (linegets_main s M N) as (p & rest & ended & s1 & [P1 P2] & L & G).
  unfold bind at 1 in E. rewrite G in E. set (s2 := set_inp _ s1) in *.
  step E e s3 E3. unfold mainfeof in E3. cbn [gets] in E3. injection E3 as <- <-. change (maineof (inp s2)) with ended in E.
  destruct ended; [apply error_never in E; contradiction|].
  assert (R : passed_over s s2 [SpecInput.visible p]).
  { exists [p]. cbn. rewrite app_nil_r. repeat split; [exact P1|constructor; [exact P2|constructor]]. }
  assert (U2 : untouched s s2).
  { apply (untouched_trans _ s1); [apply listed_untouched; exact L|]. destruct L as (_ & _ & _ & D & _).
    constructor; try reflexivity; [rewrite D; split; reflexivity|destruct s1 as [[]]; reflexivity]. }
  assert (C2 : errs s2 = errs s) by (destruct L as (_ & _ & _ & _ & D & _); unfold errs, s2; cbn; rewrite D; reflexivity).
  assert (K2 : curline (inp s2) = SpecInput.visible p) by reflexivity.
  pose proof (main_passed _ _ _ R (conj M N)) as M2. clearbody s2. clear G.
  step E g s4 E4. unfold catch in E4.
  destruct (run n KLine li false s2) as [[g0|[]] t] eqn:E5; try discriminate E4; injection E4 as <- <-.
  2: { exfalso. pose proof (climb_run _ _ _ _ _ _ E5) as Q. pose proof (climb_run _ _ _ _ _ _ E) as Q'. unfold errs in *. cbn in Q'. lia. }
  pose proof (climb_run _ _ _ _ _ _ E5) as Q5.
  assert (Q : errs t <= errs s').
  { destruct g0; try (injection E as <- <-; lia); exact (climb_run _ _ _ _ _ _ E). }
  destruct n as [|n]; [discriminate E5|]. pose proof (line_held _ _ _ _ _ E5) as A5. pose proof (skip_line _ _ _ _ _ E5) as U5.
  pose proof (skipped_line n s0 (fun li s f s' => IH n ltac:(lia) s0 li s f s') li s2 g0 t M2 (untouched_trans _ _ _ U U2) E5 ltac:(lia)) as D. rewrite K2 in D.
  assert (W : untouched s0 t) by exact (untouched_trans _ _ _ U (untouched_trans _ _ _ U2 U5)).
  assert (X : g0 = FNone -> forall l, passed_over s2 t l -> exists e k, f = (if e : bool then FElse else FEndc) /\ block s0 k e /\ passed_over s s' (SpecInput.visible p :: l ++ k)).
  { intros -> l Pl. pose proof (passed_trans _ _ _ _ _ R Pl) as R2.
    destruct (IH (S n) ltac:(lia) s0 li t f s' (main_passed _ _ _ R2 (conj M N)) A5 E ltac:(lia) W) as (e & k & Hf & B & Pk).
    exists e, k. split; [exact Hf|]. split; [exact B|]. exact (passed_trans _ _ _ _ _ R2 Pk). }
  destruct D as [O S|Wd S|Wd S|l Wd B S|l l' Wd B B' S|m ls Wd F B S].
  - destruct (X eq_refl [] (passed_spot _ _ S)) as (e & k & Hf & Bk & Pk). exists e, (SpecInput.visible p :: k). split; [exact Hf|]. split; [apply bl_other; assumption|exact Pk].
  - injection E as <- <-. exists true, [SpecInput.visible p]. split; [reflexivity|]. split; [apply bl_else; exact Wd|exact (passed_trans _ _ _ _ [] R (passed_spot _ _ S))].
  - injection E as <- <-. exists false, [SpecInput.visible p]. split; [reflexivity|]. split; [apply bl_endc; exact Wd|exact (passed_trans _ _ _ _ [] R (passed_spot _ _ S))].
  - destruct (X eq_refl l S) as (e & k & Hf & Bk & Pk). exists e, (SpecInput.visible p :: l ++ k). split; [exact Hf|]. split; [apply bl_if; assumption|exact Pk].
  - destruct (X eq_refl (l ++ l') S) as (e & k & Hf & Bk & Pk). exists e, (SpecInput.visible p :: l ++ l' ++ k). split; [exact Hf|].
    split; [apply bl_if_else; assumption|]. rewrite <- app_assoc in Pk. exact Pk.
  - destruct (X eq_refl m S) as (e & k & Hf & Bk & Pk). exists e, (SpecInput.visible p :: m ++ k). split; [exact Hf|]. split; [eapply bl_macro; eassumption|exact Pk].
Qed.

(** ** No block is the beginning of another one *)
Lemma keyword_endm : forall t, SpecSplit.keyword (s2l "ENDM") t -> endm_in t [] [].
Proof.
  intros t (w1 & e & w2 & -> & B1 & B2 & M). exists w1, (e ++ w2). rewrite app_nil_r. split; [reflexivity|]. split; [exact B1|]. split; [|vm_compute; auto].
  destruct e as [|c1 [|c2 [|c3 [|c4 [|c5 e]]]]]; try discriminate M. injection M as M1 M2 M3 M4.
  apply (SpecForms.sp_blanks _ [] _ (Forall_nil _)). apply SpecForms.sp_char; [discriminate|rewrite M1; reflexivity|]. apply SpecForms.sp_char; [discriminate|rewrite M2; reflexivity|].
  apply SpecForms.sp_char; [discriminate|rewrite M3; reflexivity|]. apply SpecForms.sp_char; [discriminate|rewrite M4; reflexivity|].
  rewrite <- (app_nil_r w2). apply SpecForms.sp_blanks; [exact B2|constructor].
Qed.
Definition ender (c : str) : Prop := exists l, uncommented c l /\ endm_in l [] [].
Definition going (c : str) : Prop := exists l, uncommented c l /\ forall a b, ~ endm_in l a b.
Lemma ender_going : forall c, ender c -> going c -> False.
Proof. intros c (l & U & E) (l' & U' & N). rewrite (LineText.uncommented_unique _ _ _ U U') in E. exact (N _ _ E). Qed.
Lemma macro_cut : forall m ls, Forall2 uncommented m ls -> body ls -> exists i e, m = i ++ [e] /\ Forall going i /\ ender e.
Proof.
  intros m ls F (init & last & -> & K & N). apply Forall2_app_inv_r in F. destruct F as (i & j & F1 & F2 & ->).
  inversion F2 as [|e l j' l' U F3]; subst. inversion F3; subst. exists i, e. split; [reflexivity|]. split.
  - clear - F1 N. induction F1; inversion N; subst; constructor; [eexists; split; eassumption|auto].
  - exists last. split; [exact U|apply keyword_endm; exact K].
Qed.
Lemma cut_once : forall i e i' e' x y, Forall going i -> ender e -> Forall going i' -> ender e' -> i ++ e :: x = i' ++ e' :: y -> i = i' /\ e = e' /\ x = y.
Proof.
  induction i as [|c i IH]; intros e [|c' i'] e' x y F E F' E' Q; cbn [app] in Q; injection Q as Q1 Q2.
  - auto.
  - subst. inversion F'; subst. elim (ender_going c'); assumption.
  - subst. inversion F; subst. elim (ender_going e'); assumption.
  - subst. inversion F; inversion F'; subst. destruct (IH _ _ _ _ _ H2 E H6 E' Q2) as (-> & -> & ->). auto.
Qed.
Lemma one_word : forall s c h h', word s c h -> word s c h' -> h = h'.
Proof.
  intros s c h h' (q & k & l & L & Q & _ & P) (q' & k' & l' & L' & Q' & _ & P'). rewrite (one_way _ _ _ _ L L') in Q'. congruence.
Qed.
Lemma cons_in : forall (c c' : str) l l', c :: l = c' :: l' -> c = c' /\ l = l'.
Proof. intros c c' l l' E. injection E as <- <-. auto. Qed.

Theorem own_end : forall s l e, block s l e -> forall l' e' x y, block s l' e' -> l ++ x = l' ++ y -> l = l' /\ e = e'.
Proof.
  intros s l e B. induction B as [c W|c W|c l e O B IH|c l1 l2 e W B1 IH1 B2 IH2|c l1 l2 l3 e W B1 IH1 B2 IH2 B3 IH3|c m ls l e W F Bd B IH];
    intros l' e' x y B' Q; destruct B' as [c' W'|c' W'|c' l' e' O' B'|c' l1' l2' e' W' B1' B2'|c' l1' l2' l3' e' W' B1' B2' B3'|c' m' ls' l' e' W' F' Bd' B'];
    cbn [app] in Q; apply cons_in in Q; destruct Q as [-> Q];
    try (exfalso; match goal with W : word _ _ ?h, W' : word _ _ ?h' |- _ => assert (h = h') by exact (one_word _ _ _ _ W W'); discriminate end);
    try (exfalso; match goal with W : word _ _ ?h, O : other _ _ |- _ => destruct O as (O1 & O2 & O3 & O4); first [exact (O1 W)|exact (O2 W)|exact (O3 W)|exact (O4 W)] end);
    rewrite <- ?app_assoc in Q.
  - auto.
  - auto.
  - destruct (IH _ _ _ _ B' Q) as [-> ->]. auto.
  - destruct (IH1 _ _ _ _ B1' Q) as [-> _]. apply app_inv_head in Q. destruct (IH2 _ _ _ _ B2' Q) as [-> ->]. auto.
  - destruct (IH1 _ _ _ _ B1' Q) as [_ Z]. discriminate Z.
  - destruct (IH1 _ _ _ _ B1' Q) as [_ Z]. discriminate Z.
  - destruct (IH1 _ _ _ _ B1' Q) as [-> _]. apply app_inv_head in Q. destruct (IH2 _ _ _ _ B2' Q) as [-> _]. apply app_inv_head in Q.
    destruct (IH3 _ _ _ _ B3' Q) as [-> ->]. auto.
  - destruct (macro_cut _ _ F Bd) as (i & d & -> & G & D), (macro_cut _ _ F' Bd') as (i' & d' & -> & G' & D'). rewrite <- !app_assoc in Q.
    destruct (cut_once _ _ _ _ _ _ G D G' D' Q) as (-> & -> & Q'). destruct (IH _ _ _ _ B' Q') as [-> ->]. auto.
Qed.

(** ** Reading a line in a given state *)
Definition reads_as (s : state) (c : str) : option handler :=
  match linestart (set_inp (set_curline c s.(inp)) s) with
  | (Ok _, s1) => match stripline s1 with
    | (Ok ((_ :: _) as t), s2) => match splitline t s2 with
      | (Ok q, _) => match q.(q_mnemo) with
        | Some (_, l) => if f_defcond l.(l_flags) || f_defmacro l.(l_flags) then match l.(l_ptr) with PFun h => Some h | _ => None end else None
        | None => None
        end
      | _ => None end
    | _ => None end
  | _ => None end.
Lemma read_word : forall s c h, reads_as s c = Some h -> word s c h.
Proof.
  intros s c h. unfold reads_as. destruct (linestart _) as [[[]|] s1] eqn:E1; [|discriminate]. destruct (stripline s1) as [[[|x t]|] s2] eqn:E2; try discriminate.
  destruct (splitline (x :: t) s2) as [[q|] s3] eqn:E3; [|discriminate]. destruct (q_mnemo q) as [[k l]|] eqn:Q; [|discriminate].
  destruct (f_defcond _ || f_defmacro _) eqn:F; [|discriminate]. destruct (l_ptr l) eqn:P; intro X; try discriminate X. injection X as <-.
  exists q, k, l. split; [|split; [exact Q|split; [apply orb_true_iff; exact F|exact P]]].
  exists (set_inp (set_curline c s.(inp)) s). split; [|split; [reflexivity|]].
  - constructor; try reflexivity; [split; reflexivity|destruct s as [[]]; reflexivity].
  - exists s1, (x :: t), s2, s3. split; [exact E1|]. split; [exact E2|]. split; [discriminate|exact E3].
Qed.
