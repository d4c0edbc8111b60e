(** Macro calls, and lines without instruction. *)
From Coq Require Import String Ascii ZArith List Bool Lia ZifyBool ZifyNat.
From Verif Require Import Base BaseFacts State Tree Filter Output Label Scode Cpu6800 Pseudos Macro Crasm.
From Verif Require Import Walk TreeFacts LineFacts Frame Run FilterFacts SpecInput InputFacts.
From Verif Require SpecSplit SplitFacts SpecEmit Eval EmitFacts PseudoFacts.
Import ListNotations.
Open Scope Z_scope.
Ltac Zify.zify_post_hook ::= Z.div_mod_to_equations.

Lemma passed_cons : forall a ts, ts <> [] -> passed (a :: ts) = a :: passed ts.
Proof.
  intros a ts N. unfold passed. cbn [rev]. destruct (rev ts) as [|x r] eqn:E.
  - apply (f_equal (@rev _)) in E. rewrite rev_involutive in E. contradiction.
  - cbn [app]. destruct x; [|reflexivity]. rewrite rev_app_distr. reflexivity.
Qed.

Lemma items_some : forall sep t ts, SpecSplit.items sep t ts -> ts <> [].
Proof. intros sep t ts [] ; discriminate. Qed.

Lemma macroargs_ok : forall n t acc s args s', (List.length acc <= 9)%nat -> macroargs n t acc s = (Ok args, s') ->
  exists ts, SpecSplit.items PseudoFacts.comma t ts /\ args = rev acc ++ map (firstn 59) (passed ts) /\
    (List.length args <= 9)%nat.
Proof.
  induction n as [|n IH]; intros t acc s args s' L E; destruct t as [|c t]; cbn [macroargs] in E; try discriminate.
  1,2: injection E as <- <-; exists [[]]; split;
       [apply SpecSplit.it_last; intros a b (w1 & w2 & K & _); destruct a, w1; discriminate|];
       split; [cbn; rewrite app_nil_r; reflexivity|rewrite rev_length; exact L].
  set (u := c :: t) in *. apply EmitFacts.seq_ok in E. destruct E as (x & s1 & E1 & E).
  unfold when in E1. destruct (8 <? zlen acc) eqn:M; [unfold err in E1; elim (Eval.error_never _ _ _ _ _ E1)|].
  unfold zlen in M.
  apply EmitFacts.seq_ok in E. destruct E as (m & s2 & E2 & E).
  pose proof (PseudoFacts.comma_sep _ _ _ _ E2) as C. destruct m as [[a b]|].
  - apply IH in E; [|cbn [List.length]; lia]. destruct E as (ts & I & A & N).
    exists (a :: ts). split; [eapply SpecSplit.it_more; eassumption|]. split; [|exact N].
    rewrite passed_cons by (eapply items_some; exact I). cbn [map]. rewrite A. cbn [rev]. rewrite <- app_assoc. reflexivity.
  - injection E as <- <-. exists [u]. split; [apply SpecSplit.it_last; exact C|]. split.
    + unfold u, passed. cbn [rev app map]. reflexivity.
    + rewrite app_length, rev_length. cbn [List.length]. unfold str in *. lia.
Qed.

Lemma fixed_checkdepth : forall s u s', checkdepth s = (Ok u, s') -> s' = s.
Proof. intros s u s' E. apply checkdepth_ok in E. tauto. Qed.

Theorem macrocall_runs : forall self key lines li o s u s',
  macrocall self key (PMac lines) li o s = (Ok u, s') ->
  let t := otext o in
  exists ts s1 f s2 b, SpecSplit.items PseudoFacts.comma t ts /\ (List.length (passed ts) <= 9)%nat /\
    self KMac b true s1 = (Ok f, s2) /\
    s1.(inp).(srcs) = SMac lines (map (firstn 59) (passed ts)) (firstn 59 t) s.(fl).(a_list_on)
                           s.(inp).(lineprefix) s.(inp).(linenumber) :: s.(inp).(srcs).
Proof.
  intros self key lines li o s u s' E. unfold macrocall in E.
  apply EmitFacts.seq_ok in E. destruct E as (x0 & s1 & E0 & E). unfold upd_sy, modify in E0. injection E0 as <- <-.
  apply EmitFacts.seq_ok in E. destruct E as (x1 & s2 & E1 & E). cbn [gets] in E1. injection E1 as <- <-.
  apply EmitFacts.seq_ok in E. destruct E as (x2 & s2 & E2 & E). apply fixed_checkdepth in E2. subst s2.
  apply EmitFacts.seq_ok in E. destruct E as (args & s3 & E3 & E).
  pose proof (fixed_macroargs _ _ _ _ _ _ E3) as F3. cbn [otext] in E3.
  apply macroargs_ok in E3; [|cbn; lia]. destruct E3 as (ts & I & -> & L). cbn [rev app] in *.
  rewrite map_length in L.
  apply EmitFacts.seq_ok in E. destruct E as (ml & s4 & E4 & E). cbn [gets] in E4. injection E4 as <- <-.
  apply EmitFacts.seq_ok in E. destruct E as (x5 & s5 & E5 & E).
  assert (F5 : s5.(inp).(srcs) = s.(inp).(srcs)).
  { destruct F3 as [_ F3]. unfold when in E5. destruct (_ && li).
    - apply fixed_outputline in E5. destruct E5 as [_ E5]. rewrite E5, F3. reflexivity.
    - injection E5 as <- <-. rewrite F3. reflexivity. }
  apply EmitFacts.seq_ok in E. destruct E as (x6 & s6 & E6 & E). unfold upd_inp, modify in E6. injection E6 as <- <-.
  apply EmitFacts.seq_ok in E. destruct E as (x7 & s7 & E7 & E). unfold newsegment, upd_inp, modify in E7. injection E7 as <- <-.
  apply EmitFacts.seq_ok in E. destruct E as (x8 & s8 & E8 & E). cbn [gets] in E8. injection E8 as <- <-.
  apply EmitFacts.seq_ok in E. destruct E as (f & s9 & E9 & E).
  exists ts. eexists. exists f, s9. eexists. split; [exact I|]. split; [exact L|]. split; [exact E9|].
  cbn [inp set_inp srcs set_srcs set_segment set_thiscall set_lineprefix set_macrolevel]. rewrite F5. reflexivity.
Qed.

(** ** Lines without instruction *)
Definition neutral (s s' : state) : Prop :=
  s'.(sy) = s.(sy) /\ s'.(emitted) = s.(emitted) /\ s'.(cp) = s.(cp) /\ s'.(files) = s.(files) /\
  s'.(maintext) = s.(maintext) /\ s'.(reported) = s.(reported) /\
  (exists g, s'.(fl) = set_a_org_gv g s.(fl)) /\
  (exists a b, s'.(ct) = set_advance a (set_bufferpos b s.(ct)) /\ (a = 0 \/ a = s.(ct).(advance))) /\
  (exists c, s'.(inp) = set_curline c s.(inp)).

Lemma neutral_refl : forall s, neutral s s.
Proof.
  intros s. unfold neutral. do 6 (split; [reflexivity|]). split; [|split].
  - exists (a_org_gv (fl s)). destruct s as [[] ? ? ? ? ? ? ? ? ? ?]; reflexivity.
  - exists (advance (ct s)), (bufferpos (ct s)). split; [|right; reflexivity]. destruct s as [? ? ? ? ? [] ? ? ? ? ?]; reflexivity.
  - exists (curline (inp s)). destruct s as [? ? ? ? [] ? ? ? ? ? ?]; reflexivity.
Qed.
Lemma neutral_trans : forall a b c, neutral a b -> neutral b c -> neutral a c.
Proof.
  unfold neutral. intros a b c (A1 & A2 & A3 & A4 & A5 & A6 & (g & A7) & (x & y & A8 & A10) & (z & A9))
    (B1 & B2 & B3 & B4 & B5 & B6 & (g' & B7) & (x' & y' & B8 & B10) & (z' & B9)).
  do 6 (split; [congruence|]). split; [|split].
  - exists g'. rewrite B7, A7. reflexivity.
  - exists x', y'. rewrite B8, A8. split; [reflexivity|]. rewrite A8 in B10. cbn [advance set_advance] in B10. destruct B10 as [->| ->]; [left; reflexivity|exact A10].
  - exists z'. rewrite B9, A9. reflexivity.
Qed.

Definition quietly : relation := fun d s s' => d <> Failed /\ neutral s s'.

Lemma quietly_osteps : osteps quietly.
Proof.
  constructor.
  - constructor; unfold quietly.
    + intros s. split; [discriminate|apply neutral_refl].
    + intros a b [_ H]. split; [discriminate|exact H].
    + intros d a b c [_ H] [D K]. split; [exact D|eapply neutral_trans; eassumption].
  - intros s v _. split; [discriminate|]. apply (neutral_refl s).
  - intros s v _. split; [discriminate|]. apply (neutral_refl s).
  - intros s v. split; [discriminate|]. apply (neutral_refl s).
  - intros s v. split; [discriminate|]. unfold neutral. do 6 (split; [reflexivity|]). split; [|split].
    + exists (a_org_gv (fl s)). destruct s as [[] ? ? ? ? ? ? ? ? ? ?]; reflexivity.
    + exists (advance (ct s)), v. split; [|right; reflexivity]. destruct s as [? ? ? ? ? [] ? ? ? ? ?]; reflexivity.
    + exists (curline (inp s)). destruct s as [? ? ? ? [] ? ? ? ? ? ?]; reflexivity.
Qed.

Lemma quietly_wr : forall s w, quietly Fine s (set_wr w s).
Proof. intros s w. split; [discriminate|]. apply (neutral_refl s). Qed.

Lemma quietly_linestart : pres quietly _ linestart.
Proof.
  pose proof (o_order _ quietly_osteps) as O. unfold linestart.
  assert (FL : forall g, pres quietly _ (upd_fl (set_a_org_gv g))).
  { intros g s. split; [discriminate|]. unfold neutral. do 6 (split; [reflexivity|]). split; [|split].
    - exists g. reflexivity.
    - exists (advance (ct s)), (bufferpos (ct s)). split; [|right; reflexivity]. destruct s as [? ? ? ? ? [] ? ? ? ? ?]; reflexivity.
    - exists (curline (inp s)). destruct s as [? ? ? ? [] ? ? ? ? ? ?]; reflexivity. }
  apply (pres_bind _ O); [|intros _].
  { intros s. split; [discriminate|]. unfold neutral. do 6 (split; [reflexivity|]). split; [|split].
    - exists (a_org_gv (fl s)). destruct s as [[] ? ? ? ? ? ? ? ? ? ?]; reflexivity.
    - exists 0, (bufferpos (ct s)). split; [|left; reflexivity]. destruct s as [? ? ? ? ? [] ? ? ? ? ?]; reflexivity.
    - exists (curline (inp s)). destruct s as [? ? ? ? [] ? ? ? ? ? ?]; reflexivity. }
  apply (pres_bind _ O); [apply (pres_gets _ O)|intros s0].
  apply (pres_bind _ O); [|intros _; apply (pres_bufferpos _ quietly_osteps)].
  destruct (starundef s0); [apply FL|].
  apply (pres_bind _ O); [apply FL|intros _]. apply (setpc_free _ O quietly_wr).
Qed.

Lemma linestart_zero : forall s u s', linestart s = (Ok u, s') ->
  s'.(ct).(bufferpos) = 0 /\ s'.(inp).(curline) = s.(inp).(curline).
Proof.
  intros s u s' E. split.
  - unfold linestart in E. apply EmitFacts.seq_ok in E. destruct E as (? & ? & _ & E).
    apply EmitFacts.seq_ok in E. destruct E as (? & ? & _ & E).
    apply EmitFacts.seq_ok in E. destruct E as (? & ? & _ & E). injection E as <- <-. reflexivity.
  - assert (K : pres (always (fun s s' => s'.(inp).(curline) = s.(inp).(curline))) _ linestart).
    { clear. set (P := always _).
      assert (O : order P) by (constructor; unfold P, always; congruence).
      unfold linestart. apply (pres_bind _ O); [intros s; reflexivity|intros _].
      apply (pres_bind _ O); [apply (pres_gets _ O)|intros s0].
      apply (pres_bind _ O); [|intros _ s; reflexivity].
      destruct (starundef s0); [intros s; reflexivity|].
      apply (pres_bind _ O); [intros s; reflexivity|intros _]. apply (setpc_free _ O). intros s w. reflexivity. }
    specialize (K s). rewrite E in K. exact K.
Qed.

Lemma setline_neutral : forall c s, neutral s (set_inp (set_curline c s.(inp)) s).
Proof.
  intros c s. unfold neutral. do 6 (split; [reflexivity|]). split; [|split].
  - exists (a_org_gv (fl s)). destruct s as [[] ? ? ? ? ? ? ? ? ? ?]; reflexivity.
  - exists (advance (ct s)), (bufferpos (ct s)). split; [|right; reflexivity]. destruct s as [? ? ? ? ? [] ? ? ? ? ?]; reflexivity.
  - exists c. reflexivity.
Qed.

Lemma comment_cut : forall w r, Forall SpecSplit.blank w ->
  fr_caps (filter_pure (w ++ ";"%char :: r) (s2l "_?_;?")) = Some [[]; r].
Proof.
  intros w r B. unfold filter_pure. cbn. rewrite SplitFacts.skipblanks_app by exact B. reflexivity.
Qed.

Theorem blank_line : forall self n li ex s w,
  Forall SpecSplit.blank w -> s.(inp).(curline) = w \/ (exists r, s.(inp).(curline) = w ++ ";"%char :: r) ->
  zlen s.(inp).(curline) <= 249 ->
  (fst (asmline self n li ex s) = Ok FNone \/ how (fst (asmline self n li ex s)) = Dead) /\
  neutral s (snd (asmline self n li ex s)).
Proof.
  intros self n li ex s w B C L. pose proof (o_order _ quietly_osteps) as O.
  assert (G : exists x, asmline self n li ex s = x /\
    (fst x = Ok FNone \/ how (fst x) = Dead) /\ neutral s (snd x)).
  2:{ destruct G as (x & -> & G). exact G. }
  unfold asmline. unfold bind at 1.
  pose proof (quietly_linestart s) as Q. pose proof (linestart_zero s) as Z.
  destruct (linestart s) as [[u|b] s1]; cbn [fst snd how] in Q.
  2:{ destruct Q as [D N]. eexists. split; [reflexivity|]. cbn [fst snd how]. split; [|exact N]. right. destruct b; try reflexivity. contradiction D. reflexivity. }
  destruct Q as [_ N1]. destruct (Z u s1 eq_refl) as [Z1 Z2].
  unfold bind at 1. cbn [gets]. unfold bind at 1.
  assert (Rm : room s1 s1.(inp).(curline)) by (unfold room; rewrite Z1, Z2; unfold zlen in *; lia).
  assert (exists s2, stripline s1 = (Ok [], s2) /\ neutral s1 s2) as (s2 & E2 & N2).
  { unfold stripline. unfold bind, gets. destruct C as [C|[r C]].
    - rewrite filter2_lacks; [|exact Rm|vm_compute; discriminate|].
      + unfold upd_inp, modify, ret. rewrite Z2, C.
        assert (T : trimblanks w = []).
        { unfold trimblanks. rewrite (proj2 (SplitFacts.all_blank (rev w))); [reflexivity|].
          apply Forall_forall. intros c Hc. rewrite Forall_forall in B. apply B. apply in_rev. exact Hc. }
        rewrite T. eexists. split; [reflexivity|]. apply setline_neutral.
      + rewrite Z2, C. unfold lacks. cbn [s2l list_ascii_of_string existsb].
        assert (K : existsb (charmatch ";") w = false).
        { clear - B. induction B as [|c w Hc _ IH]; [reflexivity|]. cbn [existsb]. rewrite IH.
          destruct Hc as [-> | ->]; reflexivity. }
        rewrite K. reflexivity.
    - pose proof (comment_cut w r B) as K. rewrite <- C, <- Z2 in K.
      unfold filter2, bind. rewrite (filterc_some s1 _ _ [[]; r]); [|exact Rm|vm_compute; discriminate|exact K].
      cbn [ret].
      eexists. split; [reflexivity|]. apply (o_bufferpos _ quietly_osteps s1). }
  rewrite E2. eexists. split; [reflexivity|]. pose proof (neutral_trans _ _ _ N1 N2) as N. clear - N O.
  assert (K : pres quietly _ (when li outputline ;;; ret FNone)).
  { apply (pres_bind _ O); [|intros _; apply (pres_ret _ O)].
    unfold when. destruct li; [apply (pres_outputline _ quietly_osteps)|apply (pres_ret _ O)]. }
  specialize (K s2). destruct K as [D K]. split; [|eapply neutral_trans; eassumption].
  unfold bind in *. destruct (when li outputline s2) as [[u|b] s3]; cbn [fst snd how ret] in *; [left; reflexivity|].
  right. destruct b; try reflexivity. contradiction D. reflexivity.
Qed.

(** The line starts with an advance of 0 and keeps it. *)
Lemma asmline_zero : forall self n li ex s,
  asmline self n li ex s = asmline self n li ex (set_ct (set_advance 0 s.(ct)) s).
Proof. reflexivity. Qed.

Theorem blank_still : forall self n li ex s w,
  Forall SpecSplit.blank w -> s.(inp).(curline) = w \/ (exists r, s.(inp).(curline) = w ++ ";"%char :: r) ->
  zlen s.(inp).(curline) <= 249 ->
  (snd (asmline self n li ex s)).(ct).(advance) = 0.
Proof.
  intros self n li ex s w B C L. rewrite asmline_zero.
  destruct (blank_line self n li ex (set_ct (set_advance 0 s.(ct)) s) w B C L) as [_ N].
  destruct N as (_ & _ & _ & _ & _ & _ & _ & (a & b & N & Z) & _). rewrite N.
  cbn [advance set_advance]. destruct Z as [Z|Z]; rewrite Z; reflexivity.
Qed.
