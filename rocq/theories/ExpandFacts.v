(** Macro calls, line by line (property C69). *)
From Coq Require Import String Ascii ZArith List Bool Lia.
From Verif Require Import Base State Tree Filter Output Label Parse Scode Cpu6800 Pseudos Macro Crasm Walk Frame Eval.
From Verif Require Import SpecInput InputFacts SpecStar PlaceFacts SpecExpand.
From Verif Require LineFacts MacroFacts CallFacts EmitFacts PseudoFacts SpecSplit.
Import ListNotations.
Open Scope Z_scope.

Ltac step E x s1 E1 := apply EmitFacts.seq_ok in E; destruct E as (x & s1 & E1 & E).

Lemma mac_lines : forall n li s f s', run n KMac li true s = (Ok f, s') ->
  exists m t a, assembles li n s (Datatypes.S m) t /\ linegets t = (Ok tt, a) /\ run m KLine li true a = (Ok f, s') /\ f <> FNone.
Proof.
  induction n as [|n IH]; intros li s f s' E; [discriminate E|]. cbn [run] in E. unfold macround in E.
  step E u a E1. destruct u. step E g b E3. unfold catch in E3.
  destruct (run n KLine li true a) as [[h|[]] c] eqn:R; try discriminate E3; injection E3 as <- <-.
  - destruct h; try (injection E as <- <-; exists n, s, a; split; [apply as_none|]; split; [exact E1|]; split; [exact R|discriminate]).
    destruct (IH _ _ _ _ E) as (m & t & a' & Rn & G & K & N). exists m, t, a'. split; [|auto].
    apply (as_line li n s a c); [exact E1|left; exact R|exact Rn].
  - destruct (IH _ _ _ _ E) as (m' & t & a' & Rn & G & K & N). exists m', t, a'. split; [|auto].
    eapply as_line; [exact E1|right; exists m, c; split; [exact R|reflexivity]|exact Rn].
Qed.

Lemma out_listed : forall b s u s', when b outputline s = (Ok u, s') -> listed s s'.
Proof.
  intros b s u s' E. destruct b; cbn [when] in E; [|injection E as <- <-; apply listed_refl].
  pose proof (pres_outputline _ listed_osteps s) as K. rewrite E in K. exact K.
Qed.

Lemma args_listed : forall n o acc s x s', macroargs n o acc s = (Ok x, s') -> listed s s'.
Proof.
  induction n as [|n IH]; intros [|c o] acc s x s' E; cbn [macroargs] in E; try discriminate; try (injection E as <- <-; apply listed_refl).
  step E u s1 E1. unfold when in E1. destruct (8 <? zlen acc); [unfold err in E1; elim (error_never _ _ _ _ _ E1)|]. injection E1 as <- <-.
  step E m s2 E2. apply MacroFacts.filter2_eq in E2. destruct E2 as [L _].
  destruct m as [[a b]|]; [exact (listed_trans _ _ _ L (IH _ _ _ _ _ E))|injection E as <- <-; exact L].
Qed.

Theorem call_lines : forall n key lines li o s u s', macrocall (run n) key (PMac lines) li o s = (Ok u, s') ->
  exists s1 m t a f s2, begins key lines (otext o) s s1 /\
    assembles (li && s.(fl).(a_macrolist_on)) n s1 (Datatypes.S m) t /\ linegets t = (Ok tt, a) /\
    run m KLine (li && s.(fl).(a_macrolist_on)) true a = (Ok f, s2) /\ (f = FEndm \/ f = FExitm) /\ ends s s2 s'.
Proof.
  intros n key lines li o s u s' E. unfold macrocall in E.
  step E x0 s1 E0. unfold upd_sy, modify in E0. injection E0 as <- <-.
  step E x1 s2 E1. cbn [gets] in E1. injection E1 as <- <-.
  step E x2 s2 E2. apply CallFacts.fixed_checkdepth in E2. subst s2.
  step E args s3 E3. pose proof (args_listed _ _ _ _ _ _ E3) as L3. apply CallFacts.macroargs_ok in E3; [|cbn; lia].
  destruct E3 as (ts & I & -> & L). cbn [rev app] in *. rewrite map_length in L.
  step E ml s4 E4. cbn [gets] in E4. injection E4 as <- <-.
  step E x5 s5 E5. pose proof (listed_trans _ _ _ L3 (out_listed _ _ _ _ E5)) as L5. clear E5 L3.
  destruct L5 as (Lf & Lw & Ls & Li & Lc & Lp & _ & _ & Le & Lr). cbn [fl wr sy inp ct cp emitted reported set_sy] in *.
  step E x6 s6 E6. unfold upd_inp, modify in E6. injection E6 as <- <-.
  step E x7 s7 E7. unfold Pseudos.newsegment, upd_inp, modify in E7. injection E7 as <- <-.
  step E x8 t8 E8. cbn [gets] in E8. injection E8 as <- <-.
  step E f t9 E9. cbn [fl set_inp] in E9. rewrite Lf in E9.
  match type of E9 with run _ KMac _ true ?r8 = _ => set (t := r8) in *; assert (B : begins key lines (otext o) s t) end.
  { exists ts. split; [exact I|]. split; [exact L|]. unfold t. cbn [inp set_inp sy fl wr cp emitted reported ct]. rewrite Li, Lf, Lc. repeat split; assumption. }
  clearbody t. destruct (mac_lines _ _ _ _ _ E9) as (m & t' & a & As & G & K & N).
  exists t, m, t', a, f, t9. split; [exact B|]. split; [exact As|]. split; [exact G|]. split; [exact K|].
  step E x9 s10 E10. unfold upd_inp, modify in E10. injection E10 as <- <-.
  step E x11 s11 E11. unfold upd_fl, modify in E11. injection E11 as <- <-.
  match type of E with _ ?a = _ => set (v := a) in * end.
  assert (X : forall b, (when (negb b) (upd_inp (set_curline (curline (inp s))) ;;; when li outputline)) v = (Ok u, s') -> ends s t9 s').
  { intros b Y. destruct b; cbn [negb when] in Y.
    - injection Y as <- <-. unfold ends, v. cbn. repeat split. destruct t9 as [? ? ? ? ? [] ? ? ? ? ?]. reflexivity.
    - step Y y1 w1 Y1. unfold upd_inp, modify in Y1. injection Y1 as <- <-. apply out_listed in Y.
      destruct Y as (Kf & Kw & Ks & Ki & Kc & Kp & _ & _ & Ke & Kr). unfold ends. rewrite Ki, Kf, Ks, Kw, Kp, Ke, Kr. unfold v in *. cbn in *. repeat split. exact Kc. }
  destruct f; try (apply error_never in E; contradiction); (split; [auto|]);
    step E b s12 E12; cbn [gets] in E12; injection E12 as <- <-; exact (X _ E).
Qed.

(** ** Ordinary lines *)
Lemma S_leave : forall f li ex, pres S _ (leave f li ex).
Proof. intros. unfold leave. r. Qed.
Lemma S_Xendm : forall li ex o, pres S _ (Xendm li ex o).
Proof. intros. unfold Xendm. apply (pres_bind S S_order); [r|intros _; apply S_leave]. Qed.
Lemma S_Xexitm : forall li ex o, pres S _ (Xexitm li ex o).
Proof. intros. unfold Xexitm. apply (pres_bind S S_order); [r|intros _; apply S_leave]. Qed.

Lemma ordinary_line : forall self n li ex s r s', (forall q, taken_apart s q -> ordinary q) ->
  asmline self n li ex s = (r, s') -> S (how r) s s'.
Proof.
  intros self n li ex s r s' Q E. pose proof S_order as O.
  assert (G : forall A (m : M A) s1 x s2, S Fine s s1 -> pres S A m -> m s1 = (x, s2) -> S (how x) s s2).
  { intros A m s1 x s2 H K X. specialize (K s1). rewrite X in K. exact (p_trans S O _ _ _ _ H K). }
  unfold asmline in E. unfold bind at 1 in E. destruct (linestart s) as [[u|b] s1] eqn:E1.
  2:{ injection E as <- <-. exact (G _ _ _ _ _ (p_refl S O s) S_linestart E1). }
  pose proof (G _ _ _ _ _ (p_refl S O s) S_linestart E1) as H1. cbn [how] in H1.
  unfold bind at 1 in E. cbn [gets] in E. unfold bind at 1 in E.
  destruct (stripline s1) as [[t|b] s2] eqn:E2; pose proof (G _ _ _ _ _ H1 S_stripline E2) as H2; cbn [how] in H2.
  2:{ injection E as <- <-. exact H2. }
  destruct t as [|c0 t].
  { assert (K : pres S _ (when li outputline ;;; ret FNone)) by r. exact (G _ _ _ _ _ H2 K E). }
  unfold bind at 1 in E. destruct (splitline (c0 :: t) s2) as [[q|b] s3] eqn:E3; pose proof (G _ _ _ _ _ H2 (S_splitline _) E3) as H3; cbn [how] in H3.
  2:{ injection E as <- <-. exact H3. }
  assert (W : ordinary q).
  { apply Q. destruct u. exists s1, (c0 :: t), s2, s3. repeat split; auto. discriminate. }
  unfold ordinary in W. destruct (q_mnemo q) as [[key l]|] eqn:Mn.
  2:{ match type of E with ?m s3 = _ => assert (K : pres S _ m) by (r; apply S_herelabel) end. exact (G _ _ _ _ _ H3 K E). }
  destruct W as (W1 & W2).
  assert (K : pres S _ (dispatch self n li ex key l (q_label q) (q_oper q))); [|exact (G _ _ _ _ _ H3 K E)].
  unfold dispatch. cbv zeta. apply (pres_bind S O); [r|intros _]. apply (pres_bind S O); [r; apply S_herelabel|intros _].
  destruct (f_defcond (l_flags l) || f_defmacro (l_flags l)) eqn:D.
  - apply orb_true_iff in D. destruct W2 as [(W2 & W3 & _)|[W2|W2]]; [destruct D; congruence| |]; rewrite W2; cbn [execblock]; [apply S_Xendm|apply S_Xexitm].
  - assert (N : l_ptr l <> PFun HInclude) by (destruct W2 as [(_ & _ & W2)|[W2|W2]]; [exact W2|rewrite W2; discriminate..]).
    destruct (l_type l); try (r; fail); [|elim W1; reflexivity].
    apply (pres_bind S O); [|intros _; r]. destruct ex; [|r]. destruct (l_ptr l) as [|h|ls]; try (r; fail).
    apply S_exec. intros ->. apply N. reflexivity.
Qed.

Lemma ordinary_srcs : forall n li a s1, (forall q, taken_apart a q -> ordinary q) -> goes_on n li a s1 -> s1.(inp).(srcs) = a.(inp).(srcs).
Proof.
  intros n li a s1 Q [R|(e & b & R & ->)]; (destruct n as [|n]; [discriminate R|]); cbn [run] in R;
    pose proof (ordinary_line _ _ _ _ _ _ _ Q R) as K; cbn in K; destruct K as [K _]; unfold spot in K; injection K; auto.
Qed.

Lemma next_line : forall s a ls args all ol op on r, s.(inp).(srcs) = SMac (map shaped ls) args all ol op on :: r ->
  (List.length args <= 9)%nat -> Forall readable ls -> linegets s = (Ok tt, a) ->
  exists l ls', ls = l :: ls' /\ puts_in l s a /\ a.(inp).(srcs) = SMac (map shaped ls') args all ol op on :: r.
Proof.
  intros s a ls args all ol op on r Q N R E. destruct ls as [|l ls].
  - exfalso. cbn [map] in Q. unfold linegets in E. unfold bind, gets in E. rewrite Q in E. cbn [popended ret] in E. rewrite Q in E. discriminate E.
  - inversion R as [|x y R1 R2]; subst. cbn [map] in Q. destruct (linegets_macro _ _ _ _ _ _ _ _ _ Q R1 N) as (s1 & (Lf & Lw & Ls & Li & Lc & Lp & _ & _ & Le & Lr) & G).
    rewrite G in E. injection E as <-. exists l, ls. split; [reflexivity|]. split; [|reflexivity].
    exists (map shaped ls), args, all, ol, op, on, r. cbn [inp set_inp sy fl wr cp emitted reported ct]. repeat split; assumption.
Qed.

Theorem worked_off : forall li n s m t, assembles li n s m t -> all_ordinary li n s -> forall ls args all ol op on r,
  s.(inp).(srcs) = SMac (map shaped ls) args all ol op on :: r -> (List.length args <= 9)%nat -> Forall readable ls ->
  exists done rest, ls = done ++ rest /\ works_off li n done s m t /\ t.(inp).(srcs) = SMac (map shaped rest) args all ol op on :: r /\
    forall a, linegets t = (Ok tt, a) -> exists l rest', rest = l :: rest' /\ puts_in l t a.
Proof.
  intros li n s m t A. induction A as [n s|n s a s1 m s2 E1 E2 A IH]; intros H ls args all ol op on r Q N R.
  - exists [], ls. split; [reflexivity|]. split; [apply wo_none|]. split; [exact Q|].
    intros a G. destruct (next_line _ _ _ _ _ _ _ _ _ Q N R G) as (l & rest' & E & P & _). exists l, rest'. auto.
  - destruct (next_line _ _ _ _ _ _ _ _ _ Q N R E1) as (l & ls' & -> & P & Qa).
    assert (Q1 : s1.(inp).(srcs) = SMac (map shaped ls') args all ol op on :: r).
    { rewrite <- Qa. apply (ordinary_srcs n li); [|exact E2]. intros q T. exact (H _ _ _ _ (as_none _ _ _) E1 T). }
    inversion R as [|x y R1 R2]; subst.
    destruct (IH ltac:(intros m' t' a' q A' G T; exact (H _ _ _ _ (as_line _ _ _ _ _ _ _ E1 E2 A') G T)) _ _ _ _ _ _ _ Q1 N R2) as (done & rest & -> & W & Qt & Z).
    exists (l :: done), rest. split; [reflexivity|]. split; [exact (wo_line _ _ _ _ _ _ _ _ _ P E2 W)|]. split; [exact Qt|exact Z].
Qed.

(** ** A check for the examples *)
Definition ordinaryb (q : fields) : bool :=
  match q.(q_mnemo) with
  | Some (_, l) => negb (match l.(l_type) with TMacro => true | _ => false end) &&
      match l.(l_ptr) with
      | PFun HEndm | PFun HExitm => true
      | PFun HInclude => false
      | _ => negb l.(l_flags).(f_defcond) && negb l.(l_flags).(f_defmacro)
      end
  | None => true
  end.
Lemma ordinaryb_ok : forall q, ordinaryb q = true -> ordinary q.
Proof.
  intros q. unfold ordinaryb, ordinary. destruct (q_mnemo q) as [[k l]|]; [|auto]. intros H. apply andb_true_iff in H. destruct H as [H1 H2].
  split; [intros X; rewrite X in H1; discriminate H1|].
  destruct (l_ptr l) as [|h|ls]; [..|destruct h|]; auto; try discriminate H2; left; apply andb_true_iff in H2; destruct H2 as [A B]; apply negb_true_iff in A, B;
    (split; [exact A|]; split; [exact B|discriminate]).
Qed.
Definition apartb (a : state) : bool :=
  match linestart a with
  | (Ok _, s1) => match stripline s1 with
                  | (Ok (c :: t), s2) => match splitline (c :: t) s2 with (Ok q, _) => ordinaryb q | _ => true end
                  | _ => true
                  end
  | _ => true
  end.
Lemma apartb_ok : forall a q, apartb a = true -> taken_apart a q -> ordinary q.
Proof.
  intros a q H (s1 & t & s2 & s3 & E1 & E2 & N & E3). unfold apartb in H. rewrite E1, E2 in H. destruct t as [|c t]; [contradiction|].
  rewrite E3 in H. apply ordinaryb_ok. exact H.
Qed.
Fixpoint linesb (li : bool) (n : nat) (s : state) : bool :=
  match n with
  | O => true
  | Datatypes.S n' =>
      match linegets s with
      | (Ok _, a) => apartb a && match run n' KLine li true a with
          | (Ok FNone, s1) => linesb li n' s1
          | (Bad (Err _), b) => linesb li n' (set_ct (set_errnumber (b.(ct).(errnumber) + 1) b.(ct)) b)
          | _ => true
          end
      | _ => true
      end
  end.
Lemma linesb_ok : forall n li s, linesb li n s = true -> all_ordinary li n s.
Proof.
  induction n as [|n IH]; intros li s H m t a q A G T; inversion A as [|n' s' a' s1 m' s2 E1 E2 A']; subst.
  - cbn [linesb] in H. rewrite G in H. apply andb_true_iff in H. exact (apartb_ok _ _ (proj1 H) T).
  - cbn [linesb] in H. rewrite E1 in H. apply andb_true_iff in H. destruct H as [_ H].
    destruct E2 as [E2|(e & b & E2 & ->)]; rewrite E2 in H; exact (IH _ _ H _ _ _ _ A' G T).
Qed.
