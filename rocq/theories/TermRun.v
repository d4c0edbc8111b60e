(** Every line, block, macro and pass ends (C34).  Nothing here is part of the model. *)
From Coq Require Import String Ascii ZArith List Bool Lia.
From Verif Require Import Base State Tree Filter Output Label Operator Parse Scode Tables.
From Verif Require Import Cpu6800 Cpu6502 CpuZ80 Pseudos Macro Xref Crasm.
From Verif Require Import EndFacts ParseEnd SpecEnd LineEnd OrderFacts TermFacts.
From Verif Require Local Eval.
Import ListNotations.
Open Scope Z_scope.

(** The outcome is settled, as seen from [s0]. *)
Definition finpq {A} (q : bool) (s0 : state) (F : nat -> M A) (s : state) : Prop :=
  exists n r s', (forall m, (n <= m)%nat -> F m s = (r, s')) /\ postq q s0 r s'.
Notation finp := (finpq false).
Lemma fin_finp : forall q A (F : nat -> M A) s0 s, within s0 s -> dle (D s) (D s0) -> finq q F s -> finpq q s0 F s.
Proof.
  intros q A F s0 s W K (n & r & s' & H & P). exists n, r, s'. split; [exact H|exact (post_trans _ _ _ _ _ _ W K P)].
Qed.
Lemma finp_shift : forall A (F G : nat -> M A) s0 s, (forall n, F (S n) s = G n s) -> finp s0 G s -> finp s0 F s.
Proof.
  intros A F G s0 s E (n & r & s' & H & P). exists (S n), r, s'. split; [|exact P].
  intros [|m] Le; [lia|]. rewrite E. apply H. lia.
Qed.

Lemma fin_read : forall q A (K : nat -> M A) s, Inv s ->
  (forall s1, within s s1 -> dlt (D s1) (D s) -> finq q K s1) ->
  (forall s1, within s s1 -> over s1 -> s1.(inp).(curline) = [] -> finpq q s K s1) ->
  finq q (fun n => linegets ;;; K n) s.
Proof.
  intros q A K s I H O. pose proof (linegets_end s I) as R.
  destruct (linegets s) as [[v|b] s1] eqn:E.
  - destruct R as [W [R|[R C]]].
    + destruct (H s1 W R) as (n & r & s' & X & P). exists n, r, s'.
      split; [|exact (post_trans _ _ _ _ _ _ W (or_intror R) P)]. intros m Le. unfold bind. rewrite E. apply X. exact Le.
    + destruct (O s1 W R C) as (n & r & s' & X & P). exists n, r, s'. split; [|exact P].
      intros m Le. unfold bind. rewrite E. apply X. exact Le.
  - exists 0%nat, (Bad b), s1. split; [intros m _; unfold bind; rewrite E; reflexivity|]. rewrite R. cbn [postq run_ends]. cbn. tauto.
Qed.

Lemma fin_catch : forall q A B (F : nat -> M A) (G : nat -> option A -> M B) s, fin F s ->
  (forall a s1, within s s1 -> dle (D s1) (D s) -> finq q (fun n => G n (Some a)) s1) ->
  (forall s1, within s s1 -> dle (D s1) (D s) -> finq q (fun n => G n None) s1) ->
  (forall s1, within s s1 -> over s1 -> finpq q s (fun n => G n None) s1) ->
  finq q (fun n => bind (catch (F n)) (G n)) s.
Proof.
  intros q A B F G s (n1 & r & s1 & H & P) K1 K2 K3.
  assert (R : (exists a, r = Ok a) \/ (exists m, r = Bad (Err m)) \/ (exists b, r = Bad b /\ (forall m, b <> Err m) /\ run_ends b s1)).
  { destruct r as [a|b]; [left; eauto|right]. destruct b as [m|m|w| |]; [left; eauto| | | | ]; right; eexists; (split; [reflexivity|split; [intros; discriminate|exact P]]). }
  destruct R as [[a ->]|[[m ->]|(b & -> & N1 & N2)]].
  - destruct P as [P1 P2]. destruct (K1 a s1 P1 P2) as (n2 & r2 & s2 & H2 & P3).
    exists (Nat.max n1 n2), r2, s2. split; [|exact (post_trans _ _ _ _ _ _ P1 P2 P3)].
    intros k Le. unfold bind, catch. rewrite H by lia. apply H2. lia.
  - set (sc := set_ct (set_errnumber (errnumber (ct s1) + 1) (ct s1)) s1).
    assert (X : finpq q s (fun n => G n None) sc).
    { destruct P as (_ & P1 & [P2|P2]); [|exact (K3 sc P1 P2)]. apply fin_finp; [exact P1|exact P2|exact (K2 sc P1 P2)]. }
    destruct X as (n2 & r2 & s2 & H2 & P3). exists (Nat.max n1 n2), r2, s2. split; [|exact P3].
    intros k Le. unfold bind, catch. rewrite H by lia. apply H2. lia.
  - exists n1, (Bad b), s1. split.
    + intros k Le. unfold bind, catch. rewrite H by lia. destruct b as [m|m|w| |]; try reflexivity. exfalso; exact (N1 m eq_refl).
    + destruct b as [m|m|w| |]; cbn [postq]; auto. exfalso; exact (N1 m eq_refl).
Qed.

Lemma kept_over : forall s s', kept s s' -> over s -> over s'.
Proof. intros s s' (K1 & K2 & K3 & _) (O1 & O2 & O3). unfold over. rewrite K1, K2, K3. auto. Qed.
Lemma over_err : forall A m s0 s, zlen (s2l m) <=? 64 = true -> within s0 s -> over s -> finp s0 (fun _ => @err A m) s.
Proof.
  intros A m s0 s B W O. pose proof (l_err A m B s (proj1 (proj1 W))) as H.
  destruct (err m s) as [[v|b] s'] eqn:E; [exfalso; exact (Eval.error_never _ _ _ _ _ E)|].
  destruct H as [H K]. exists 0%nat, (Bad b), s'. split; [intros n _; exact E|].
  apply line_run in K. destruct (after_in _ _ (proj1 W) H) as [X _]. destruct b as [e|e|w| |]; cbn [postq]; auto.
  split; [reflexivity|]. split; [exact (within_trans _ _ _ W X)|]. right. exact (kept_over _ _ (proj2 H) O).
Qed.

(** Reading at the end. *)
Lemma linegets_over : forall s, Inv s -> over s ->
  exists s', linegets s = (Ok tt, s') /\ within s s' /\ over s' /\ s'.(inp).(curline) = [].
Proof.
  intros s I (O1 & O2 & O3). pose proof (linegets_end s I) as R. unfold linegets in *. unfold bind at 1 in R. unfold bind at 1.
  cbn [gets] in *. rewrite O1 in *. cbn [popended] in *. unfold bind at 1 in R. unfold bind at 1. cbn [ret] in *.
  unfold bind at 1 in R. unfold bind at 1. cbn [gets] in *. rewrite O1 in *. unfold bind in *.
  destruct (readline_end (mainrest (inp s)) s (proj1 I)) as (rest & e & s2 & E & W2 & K1 & K2 & K3 & Q1 & Q2 & Q3).
  rewrite E in *. cbn [upd_inp modify] in *. destruct (Q3 O2) as (-> & -> & Q5).
  eexists. split; [reflexivity|]. split; [exact (proj1 R)|]. split; [|exact Q5]. split; [cbn; congruence|]. split; reflexivity.
Qed.

Lemma if_over : forall li ex s0 s, within s0 s -> over s -> finp s0 (fun n => run n KIf li ex) s.
Proof.
  intros li ex s0 s W O. apply (finp_shift _ _ (fun n => ifround (run n) li ex)); [reflexivity|].
  destruct (linegets_over s (proj1 W) O) as (s1 & E & W1 & O1 & C).
  destruct (over_err flag "Unexpected End of File" s0 s1 eq_refl (within_trans _ _ _ W W1) O1) as (n & r & s' & H & P).
  exists n, r, s'. split; [|exact P]. intros m Le. unfold ifround, bind. rewrite E. unfold mainfeof. cbn [gets].
  destruct O1 as (_ & _ & ->). apply (H m Le).
Qed.

(** The body of a macro is read. *)
Lemma D_len : forall s, Inv s -> (List.length (D s) <= 10)%nat.
Proof.
  intros s [_ I]. unfold D, levels. rewrite tok_len. cbn [List.length]. rewrite rev_length, map_length. unfold zlen in I. lia.
Qed.
Lemma D_ind : forall (P : state -> Prop),
  (forall s, Inv s -> (forall s', Inv s' -> dlt (D s') (D s) -> P s') -> P s) -> forall s, Inv s -> P s.
Proof.
  intros P H s I. assert (A : Acc (short 10) (D s)) by (apply short_wf; apply D_len; exact I).
  remember (D s) as d eqn:E. revert s I E. induction A as [d _ K]. intros s I ->. apply H; [exact I|].
  intros s' I' L'. apply (K (D s')); [split; [apply D_len; exact I'|exact L']|exact I'|reflexivity].
Qed.

Lemma lines_fin : forall li s, Inv s -> forall acc, fin (fun n => macrolines n li acc) s.
Proof.
  intros li. apply (D_ind (fun s => forall acc, fin (fun n => macrolines n li acc) s)). intros s I IH acc.
  eapply (fin_shift _ _ _ (fun n => zerobuffer ;;; (linegets ;;; (e <- mainfeof ;;
      if e : bool then err "Unexpected End of File"
      else
        c <- gets (fun s => s.(inp).(curline)) ;;
        m <- filter2 c "?_;?" ;;
        let s1 := match m with Some (a, _) => a | None => c end in
        when li outputline ;;;
        m <- filter2 s1 "_?_ENDM_?" ;;
        match m with
        | Some (a, b) => ret (rev (s1 :: acc), a, b)
        | None => macrolines n li (s1 :: acc)
        end)))); [reflexivity|].
  apply fin_bind; [apply fin_local; [exact (ends_zerobuffer _)|exact I]|]. intros _ s0 W0 L0. apply fin_read; [apply W0| |].
  - intros s1 W1 L1. apply fin_bind; [apply fin_local; [apply ends_gets|apply W1]|]. intros e s2 W2 L2. destruct e.
    { apply fin_local; [apply l_err; reflexivity|apply W2]. }
    apply fin_bind; [apply fin_local; [apply ends_gets|apply W2]|]. intros c s3 W3 L3.
    apply fin_bind; [apply fin_local; [apply l_filter2|apply W3]|]. intros m s4 W4 L4. cbv zeta.
    apply fin_bind; [apply fin_local; [unfold when; destruct li; [apply l_outputline|apply ends_ret]|apply W4]|]. intros _ s5 W5 L5.
    apply fin_bind; [apply fin_local; [apply l_filter2|apply W5]|]. intros m2 s6 W6 L6. destruct m2 as [[a b]|].
    { apply fin_local; [apply ends_ret|apply W6]. }
    apply IH; [apply W6|]. repeat (eapply dle_dlt; [eassumption|]). eapply dlt_dle; [exact L1|exact L0].
  - intros s1 W1 O1 C.
    destruct (over_err (list str * str * str) "Unexpected End of File" s0 s1 eq_refl W1 O1) as (n & r & s' & H & P).
    exists n, r, s'. split; [|exact P]. intros m Le. unfold mainfeof, bind. cbn [gets].
    destruct O1 as (_ & _ & ->). apply (H m Le).
Qed.

(** INCLUDE and FAIL. *)
Lemma ends_post_any : forall (Q : bad -> state -> Prop) A (m : M A) s,
  (forall b s', m s = (Bad b, s') -> after s s' -> Q b s' -> run_ends b s') ->
  ends Q A m -> Inv s -> let (r, s') := m s in post s r s'.
Proof.
  intros Q A m s N H I. specialize (H s (proj1 I)). destruct (m s) as [[a|b] s'].
  - destruct (after_in _ _ I H) as [X Y]. split; [exact X|left; exact Y].
  - destruct H as [H K]. destruct (after_in _ _ I H) as [X Y]. apply (N _ _ eq_refl H) in K. destruct b; cbn [postq]; auto.
    split; [reflexivity|]. split; [exact X|left; left; exact Y].
Qed.
(** The operand is part of the line. *)
Definition inline (o : option str) (s : state) : Prop :=
  match o with Some t => (List.length t <= List.length s.(inp).(curline))%nat | None => True end.
Lemma fail_fin : forall o s, Inv s -> inline o s -> fin (fun _ => Xfail o) s.
Proof.
  intros o s I F. unfold Xfail. destruct o as [[|c t]|]; try (apply fin_local; [apply l_err; reflexivity|exact I]).
  assert (B : zlen (c :: t) <= 64 \/ 64 < zlen (c :: t)) by lia. destruct B as [B|B].
  - apply fin_local; [|exact I]. exact (ends_error _ lbL lbF lbX lbE lbM lbS _ _ B).
  - apply fin_const. apply (ends_post_any (fun b s => line_bad b s \/ b = UB "error: message buffer overflow")); [| |exact I].
    + intros b s' _ [_ (_ & _ & _ & C & _)] [H|H]; [exact (line_run _ _ H)|]. subst b. unfold inline in F. cbn. rewrite C.
      right; right; right; right; right; right; left. split; [reflexivity|]. right. apply inj_le in F. exact (Z.lt_le_trans _ _ _ B F).
    + apply ends_error_any; auto using lbL, lbF, lbX, lbE, lbS.
Qed.
Lemma depth_fin : forall s A (K : nat -> M A), Inv s ->
  (zlen s.(inp).(srcs) < 9 -> fin K s) ->
  fin (fun n => checkdepth ;;; K n) s.
Proof.
  intros s A K I H. destruct (MAXSOURCEDEEP <=? zlen (srcs (inp s)) + 1) eqn:E.
  - pose proof (ends_fatal line_bad lbX unit "too many nested INCLUDEs and MACROs" s (proj1 I)) as F.
    assert (X : checkdepth s = fatal "too many nested INCLUDEs and MACROs" s).
    { unfold checkdepth, bind. cbn [gets]. unfold when. rewrite E. reflexivity. }
    destruct (fatal "too many nested INCLUDEs and MACROs" s) as [[v|b] s'] eqn:Y; [discriminate Y|].
    exists 0%nat, (Bad b), s'. split; [intros n _; unfold bind; rewrite X; reflexivity|].
    unfold fatal, bind, print, upd_ls, modify, stop in Y. injection Y as <- _. exact Logic.I.
  - destruct H as (n & r & s' & R & P).
    + unfold MAXSOURCEDEEP in E. lia.
    + exists n, r, s'. split; [|exact P]. intros m Le. unfold bind at 1, checkdepth, bind at 1. cbn [gets]. unfold when. rewrite E.
      apply R. exact Le.
Qed.

(** One more level. *)
Lemma push_post : forall s s' x, Inv s -> wide s' -> zlen s.(inp).(srcs) < 9 ->
  s'.(inp).(srcs) = x :: s.(inp).(srcs) -> s'.(inp).(mainrest) = s.(inp).(mainrest) -> s'.(inp).(maineof) = s.(inp).(maineof) ->
  Inv s' /\ hasmac s' = ismac x || hasmac s /\ dlt (D s') (D s).
Proof.
  intros s s' x I W Z E1 E2 E3. split; [|split].
  - split; [exact W|]. rewrite E1. unfold zlen in *. cbn [List.length]. lia.
  - unfold hasmac. rewrite E1. reflexivity.
  - unfold D, levels, mainw. rewrite E1, E2, E3. cbn [map rev]. rewrite app_comm_cons. apply tok_push. discriminate.
Qed.
Lemma include_fin : forall o s, Inv s -> fin (fun _ => Xinclude o) s.
Proof.
  intros o s I. unfold Xinclude. destruct o as [name|]; [|apply fin_local; [apply l_err; reflexivity|exact I]].
  apply fin_bind; [apply fin_local; [apply ends_gets|exact I]|]. intros st s1 W1 L1.
  destruct (files st name) as [text|]; [|apply fin_local; [apply l_err; reflexivity|apply W1]].
  apply depth_fin; [apply W1|]. intros Z2. rename s1 into s2, W1 into W2.
  assert (H : forall m : M unit, L _ m -> forall s3, m s2 = (Ok tt, s3) -> zlen s3.(inp).(srcs) < 9).
  { intros m Hm s3 E. specialize (Hm s2 (proj1 (proj1 W2))). rewrite E in Hm. destruct Hm as [_ K]. apply kept_D in K. lia. }
  set (m1 := when (a_list_on (fl st)) outputline).
  assert (H1 : L _ m1) by (unfold m1, when; destruct (a_list_on (fl st)); [apply l_outputline|apply ends_ret]).
  specialize (H m1 H1). pose proof (ends_post _ m1 s2 H1 (proj1 W2)) as P. clearbody m1.
  destruct (m1 s2) as [[[]|b] s3] eqn:E.
  2:{ exists 0%nat, (Bad b), s3. split; [intros n _; unfold bind at 1; rewrite E; reflexivity|destruct b; exact P]. }
  specialize (H s3 eq_refl). destruct P as [P1 P2].
  set (x := SFile false text false (a_list_on (fl st)) (lineprefix (inp st)) (linenumber (inp st))).
  apply (fin_ext _ (fun _ => m1 ;;; (upd_inp (fun i => set_srcs (x :: i.(srcs))
     (set_linenumber 0 (set_includelevel (i.(includelevel) + 1) i))) ;;;
     f <- gets fl ;; when (negb f.(a_includelist_on)) (upd_fl (set_a_list_on false))))); [reflexivity|].
  set (k := upd_inp _ ;;; _).
  apply (fin_ext _ (fun _ st => k s3)); [intros n; unfold bind at 1; rewrite E; reflexivity|].
  assert (F : fin (fun _ => k) s3).
  { apply fin_const. unfold k, bind, upd_inp, modify, gets, when, upd_fl, ret. 
    match goal with |- context [if ?c then _ else _] => destruct c end; unfold modify; cbv beta iota;
      (lazymatch goal with |- post _ _ ?sx => destruct (push_post s3 sx x (proj1 P1) (proj1 (proj1 P1)) H eq_refl eq_refl eq_refl) as (Q1 & Q2 & Q3) end;
       split; [split; [exact Q1|exact Q2]|right; exact Q3]). }
  destruct F as (n & r & s' & X & Y). exists n, r, s'. split; [exact X|exact (post_trans _ _ _ _ _ _ P1 P2 Y)].
Qed.
Lemma strip_fin : forall s, Inv s -> fin (fun _ => stripline) s.
Proof.
  intros s I. unfold stripline. apply fin_bind; [apply fin_local; [apply ends_gets|exact I]|]. intros c s1 W1 L1.
  apply fin_bind; [apply fin_local; [apply l_filter2|apply W1]|]. intros m s2 W2 L2. destruct m as [[a b]|].
  - apply fin_local; [apply ends_ret|apply W2].
  - apply fin_const. unfold bind, upd_inp, modify, ret. cbn [postq]. split; [exact (conj (proj1 W2) eq_refl)|]. left. reflexivity.
Qed.

(** ** What is below a given amount of text *)
Section Below.
Variable d : list nat.
Hypothesis IH : forall s k, dlt (D s) d -> Inv s -> (k = KMac -> hasmac s = true) ->
  forall li ex, finq (match k with KMac => true | _ => false end) (fun n => run n k li ex) s.

Lemma below_if : forall s li ex, Inv s -> dle (D s) d -> fin (fun n => run n KIf li ex) s.
Proof.
  intros s li ex I B. apply (fin_shift _ _ _ (fun n => ifround (run n) li ex)); [reflexivity|]. unfold ifround.
  apply fin_read; [exact I| |].
  - intros s1 W1 L1. apply fin_bind; [apply fin_local; [apply ends_gets|apply W1]|]. intros e s2 W2 L2. destruct e.
    { apply fin_local; [apply l_err; reflexivity|apply W2]. }
    assert (B2 : dlt (D s2) d) by exact (dlt_dle _ _ _ (dle_dlt _ _ _ L2 L1) B).
    apply fin_catch.
    + apply IH; [exact B2|apply W2|discriminate].
    + intros f s3 W3 L3. assert (B3 : dlt (D s3) d) by exact (dle_dlt _ _ _ L3 B2).
      destruct f; try (apply fin_local; [apply ends_ret|apply W3]); try (destruct ex; try (apply fin_local; [apply ends_ret|apply W3]));
        (apply IH; [exact B3|apply W3|discriminate]).
    + intros s3 W3 L3. apply IH; [exact (dle_dlt _ _ _ L3 B2)|apply W3|discriminate].
    + intros s3 W3 O3. apply if_over; assumption.
  - intros s1 W1 O1 C.
    destruct (over_err flag "Unexpected End of File" s s1 eq_refl W1 O1) as (n & r & s' & H & P).
    exists n, r, s'. split; [|exact P]. intros m Le. unfold mainfeof, bind. cbn [gets].
    destruct O1 as (_ & _ & ->). apply (H m Le).
Qed.

Lemma over_nomac : forall s, over s -> hasmac s = false.
Proof. intros s (O & _). unfold hasmac. rewrite O. reflexivity. Qed.
Lemma fin_true : forall q A (a : A) s, Inv s -> finq q (fun _ => ret a) s.
Proof. intros q A a s I. exists 0%nat, (Ok a), s. split; [reflexivity|]. split; [split; [exact I|reflexivity]|apply dle_refl]. Qed.
Lemma below_mac : forall s li ex, Inv s -> hasmac s = true -> dle (D s) d -> finq true (fun n => run n KMac li ex) s.
Proof.
  intros s li ex I M B. apply (fin_shift _ _ _ (fun n => macround (run n) li ex)); [reflexivity|]. unfold macround.
  apply fin_read; [exact I| |].
  - intros s1 W1 L1. assert (B1 : dlt (D s1) d) by exact (dlt_dle _ _ _ L1 B).
    assert (M1 : hasmac s1 = true) by (rewrite (proj2 W1); exact M).
    apply fin_catch.
    + apply IH; [exact B1|apply W1|discriminate].
    + intros f s3 W3 L3. destruct f; try (apply fin_true; apply W3).
      apply IH; [exact (dle_dlt _ _ _ L3 B1)|apply W3|]. intros _. rewrite (proj2 W3). exact M1.
    + intros s3 W3 L3. apply IH; [exact (dle_dlt _ _ _ L3 B1)|apply W3|]. intros _. rewrite (proj2 W3). exact M1.
    + intros s3 W3 O3. exfalso. apply over_nomac in O3. rewrite (proj2 W3) in O3. congruence.
  - intros s1 W1 O1 C. exfalso. apply over_nomac in O1. rewrite (proj2 W1) in O1. congruence.
Qed.

Ltac loc := solve [l | exact (Local.J_testtrue _ l_local _) | unfold when; l; exact (Local.J_leave _ l_local _ _ _)].
Ltac nx I B :=
  let a := fresh "a" in let s1 := fresh "s1" in let W := fresh "W" in let K := fresh "K" in
  intros a s1 W K; let I1 := fresh "I1" in let B1 := fresh "B1" in
  assert (I1 : Inv s1) by exact (proj1 W);
  assert (B1 : dle (D s1) d) by exact (dle_trans _ _ _ K B);
  clear K; clear W; clear I B; rename I1 into I; rename B1 into B.
Ltac go I B := apply fin_bind; [apply fin_local; [loc|exact I]|nx I B].

Lemma below_xif : forall s li ex o, Inv s -> dle (D s) d -> fin (fun n => Xif (run n) li ex o) s.
Proof.
  intros s li ex o I B. unfold Xif, iflist.
  apply fin_bind; [apply fin_local; [destruct ex; [exact (Local.J_testtrue _ l_local _)|apply ends_ret]|exact I]|nx I B].
  go I B. go I B. go I B. go I B.
  apply fin_bind; [apply below_if; assumption|nx I B]. go I B.
  destruct a4; try (apply fin_local; [loc|exact I]);
    (go I B; go I B; try (apply fin_local; [loc|exact I])).
  go I B. go I B. apply fin_bind; [apply below_if; assumption|nx I B]. go I B.
  destruct a10; apply fin_local; try exact I; loc.
Qed.

Lemma fin_gets : forall q A B (f : state -> A) (G : nat -> A -> M B) s, finq q (fun n => G n (f s)) s ->
  finq q (fun n => bind (gets f) (G n)) s.
Proof. intros q A B f G s (n & r & s' & H & P). exists n, r, s'. split; [exact H|exact P]. Qed.
Lemma fin_step : forall A B (m : M A) (G : nat -> A -> M B) s, L A m -> Inv s ->
  (forall a s1, after s s1 -> fin (fun n => G n a) s1) -> fin (fun n => bind m (G n)) s.
Proof.
  intros A B m G s H I K. pose proof (ends_post _ m s H I) as P. specialize (H s (proj1 I)).
  destruct (m s) as [[a|b] s1] eqn:E.
  - destruct (K a s1 H) as (n & r & s' & X & Y). destruct P as [P1 P2]. exists n, r, s'.
    split; [|exact (post_trans _ _ _ _ _ _ P1 P2 Y)]. intros k Le. unfold bind. rewrite E. apply X. exact Le.
  - exists 0%nat, (Bad b), s1. split; [intros k _; unfold bind; rewrite E; reflexivity|destruct b; exact P].
Qed.
Lemma l_macroargs : forall n o acc, (11 <= n + List.length acc)%nat -> (List.length acc <= 9)%nat -> L _ (macroargs n o acc).
Proof.
  induction n as [|n IHn]; intros o acc H1 H2; [lia|]. cbn [macroargs]. destruct o as [|c o]; [apply ends_ret|].
  destruct (8 <? zlen acc) eqn:E.
  - intros s W. unfold when. unfold bind at 1. pose proof (l_err unit "Too many arguments in a macro call" eq_refl s W) as H.
    destruct (err "Too many arguments in a macro call" s) as [[v|x] s'] eqn:F; [exfalso; exact (Eval.error_never _ _ _ _ _ F)|exact H].
  - unfold when. apply ends_bind; [apply ends_ret|intros _]. apply ends_bind; [apply l_filter2|intros m].
    destruct m as [[a b]|]; [|apply ends_ret]. unfold zlen in E. apply IHn; cbn [List.length]; lia.
Qed.

Lemma below_call : forall s k p li o, Inv s -> dle (D s) d -> fin (fun n => macrocall (run n) k p li o) s.
Proof.
  intros s k p li o I B. unfold macrocall. go I B. apply fin_gets. apply depth_fin; [exact I|]. intros Z1.
  apply fin_step; [apply l_macroargs; cbn; lia|exact I|]. intros args s2 A2.
  assert (I2 : Inv s2) by (apply (after_in _ _ I A2)). apply fin_gets.
  apply fin_step; [l|exact I2|]. intros _ s3 A3.
  assert (I3 : Inv s3) by (apply (after_in _ _ I2 A3)).
  pose proof (after_trans _ _ _ A2 A3) as A. clear A2 A3 I2 s2. destruct A as [W3 K3].
  set (x := SMac _ args _ _ _ _).
  set (s5 := snd ((upd_inp (fun i => set_srcs (x :: i.(srcs))
              (set_lineprefix (cz 77) (set_macrolevel (i.(macrolevel) + 1) i))) ;;; newsegment) s3)).
  assert (Z3 : zlen (srcs (inp s3)) < 9) by (apply kept_D in K3; lia).
  destruct (push_post s3 s5 x I3 W3 Z3 eq_refl eq_refl eq_refl) as (I5 & M5 & L5).
  assert (B5 : dlt (D s5) d).
  { eapply dlt_dle; [exact L5|]. destruct (kept_D _ _ K3) as [-> _]. exact B. }
  cbn [ismac orb] in M5. change (ismac x || hasmac s3) with true in M5.
  destruct (IH s5 KMac B5 I5 (fun _ => M5) (li && a_macrolist_on (fl s5)) true) as (n & r & s6 & R & P).
  set (T := fun f => upd_inp (fun i => set_macrolevel (i.(macrolevel) - 1)
              (set_linenumber s1.(inp).(linenumber)
                 (set_lineprefix s1.(inp).(lineprefix)
                    (set_srcs s1.(inp).(srcs) (set_segment s1.(inp).(segment) i))))) ;;;
    upd_fl (set_a_list_on s1.(fl).(a_list_on)) ;;;
    match f with
    | FEndm | FExitm =>
      ml <- gets (fun s => s.(fl).(a_macrolist_on)) ;;
      when (negb ml) (upd_inp (set_curline s1.(inp).(curline)) ;;; when li outputline)
    | _ => err "ELSE or ENDC illegal here"
    end).
  apply (fin_ext _ (fun n _ => bind (run n KMac (li && a_macrolist_on (fl s5)) true) T s5)); [reflexivity|].
  destruct r as [f|b].
  2:{ exists n, (Bad b), s6. split.
      - intros m Le. specialize (R m Le). unfold bind. rewrite R. reflexivity.
      - destruct b; cbn [postq] in *; auto. destruct P as [P _]. discriminate P. }
  destruct P as [[I6 M6] L6]. rewrite M5 in M6.
  set (s7 := set_inp (set_macrolevel (macrolevel (inp s6) - 1) (set_linenumber (linenumber (inp s1)) (set_lineprefix (lineprefix (inp s1))
                    (set_srcs (srcs (inp s1)) (set_segment (segment (inp s1)) (inp s6)))))) s6).
  assert (S3 : srcs (inp s3) = srcs (inp s1)) by apply K3.
  assert (S7 : srcs (inp s7) = srcs (inp s3)) by (rewrite S3; reflexivity).
  assert (I7 : Inv s7) by (split; [exact (proj1 I6)|rewrite S7; exact (proj2 I3)]).
  assert (W7 : within s3 s7) by (split; [exact I7|unfold hasmac; rewrite S7; reflexivity]).
  assert (L7 : dle (D s7) (D s3)).
  { unfold D, levels. rewrite S7. change (mainw s7) with (mainw s6). change (mainw s3) with (mainw s5).
    apply (tok_outer _ _ (rev (map weight (srcs (inp s6)))) (rev (map weight (srcs (inp s5))))); [exact L6| |].
    - unfold hasmac in M6. destruct (srcs (inp s6)) as [|y t]; [discriminate M6|]. cbn [map rev]. destruct (rev (map weight t)); discriminate.
    - change (srcs (inp s5)) with (x :: srcs (inp s3)). cbn [map rev]. destruct (rev (map weight (srcs (inp s3)))); discriminate. }
  set (K := upd_fl (set_a_list_on (a_list_on (fl s1))) ;;;
    match f with
    | FEndm | FExitm =>
      ml <- gets (fun s => s.(fl).(a_macrolist_on)) ;;
      when (negb ml) (upd_inp (set_curline s1.(inp).(curline)) ;;; when li outputline)
    | _ => err "ELSE or ENDC illegal here"
    end).
  assert (F : fin (fun _ => K) s7).
  { unfold K. apply fin_bind; [apply fin_local; [l|exact I7]|]. intros _ s8x W8 L8.
    destruct f; try solve [apply fin_local; [l|apply W8]].
    all: apply fin_bind; [apply fin_local; [l|apply W8]|]; intros ml s9 W9 L9; unfold when; destruct (negb ml);
      [|apply fin_local; [l|apply W9]].
    all: apply fin_bind; [apply fin_const; cbn [upd_inp modify]; split; [exact (conj (proj1 W9) eq_refl)|left; reflexivity]|];
      intros _ s10 W10 L10; apply fin_local; [l|apply W10]. }
  destruct F as (n2 & r2 & s8x & R2 & P2). exists (Nat.max n n2), r2, s8x. split.
  - intros m Le. assert (R' := R m ltac:(lia)). specialize (R2 m ltac:(lia)).
    unfold bind at 1. rewrite R'. rewrite <- R2. reflexivity.
  - exact (post_trans _ _ _ _ _ _ W7 L7 P2).
Qed.

Lemma below_macro : forall s li ex lab o, Inv s -> fin (fun n => Xmacro n li ex lab o) s.
Proof.
  intros s li ex lab o I. unfold Xmacro.
  apply fin_bind; [apply fin_local; [l|exact I]|]. intros _ s1 W1 _.
  apply fin_bind; [apply fin_local; [l|apply W1]|]. intros m s2 W2 _.
  apply fin_bind; [apply fin_local; [l|apply W2]|]. intros _ s3 W3 _.
  apply fin_bind; [apply fin_local; [l|apply W3]|]. intros _ s4 W4 _.
  apply fin_bind; [apply fin_local; [l; apply l_deflabel|apply W4]|]. intros k s5 W5 _.
  apply fin_bind; [apply lines_fin; apply W5|]. intros [[lines a] b] s6 W6 _.
  apply fin_local; [l|apply W6].
Qed.

Lemma after_inline : forall o s s', after s s' -> inline o s -> inline o s'.
Proof. intros [t|] s s' [_ (_ & _ & _ & C & _)] H; [|exact H]. unfold inline in *. rewrite C. exact H. Qed.
Lemma fin_stop : forall A w s, existsb (String.eqb w) other_reasons = true -> fin (fun _ => @stop A (UB w)) s.
Proof.
  intros A w s H. apply fin_const. cbn [stop postq run_ends]. apply existsb_exists in H. destruct H as (x & H1 & H2).
  apply String.eqb_eq in H2. subst x. do 7 right. exact H1.
Qed.
Lemma below_dispatch : forall s li ex k lb lab o, Inv s -> inline o s -> dle (D s) d ->
  fin (fun n => dispatch (run n) n li ex k lb lab o) s.
Proof.
  intros s li ex k lb lab o I F B. unfold dispatch. cbv zeta.
  apply fin_step; [loc|exact I|]. intros _ s1 A1. assert (I1 : Inv s1) by (apply (after_in _ _ I A1)).
  apply fin_step; [l; apply l_herelabel|exact I1|]. intros _ s2 A2. pose proof (after_trans _ _ _ A1 A2) as A.
  assert (I2 : Inv s2) by (apply (after_in _ _ I A)). assert (F2 := after_inline _ _ _ A F).
  assert (B2 : dle (D s2) d) by (rewrite (proj2 (after_in _ _ I A)); exact B). clear s s1 I F B A1 A2 A I1.
  rename s2 into s, I2 into I, F2 into F, B2 into B.
  destruct (f_defcond (l_flags lb) || f_defmacro (l_flags lb)).
  - destruct (l_ptr lb) as [|h|];
      try (apply fin_stop; reflexivity).
    destruct h; cbn [execblock]; try (apply fin_stop; reflexivity).
    all: try (apply below_xif; assumption).
    all: try (apply fin_local; [first [exact (Local.J_Xelse _ l_local _)|exact (Local.J_Xendc _ l_local _)
      |exact (Local.J_Xendm _ l_local _ _ _)|exact (Local.J_Xexitm _ l_local _ _ _)]|exact I]).
    destruct lab; [apply below_macro; exact I|apply fin_stop; reflexivity].
  - destruct (l_type lb);
      try (apply fin_const; unfold fatal, bind, print, upd_ls, modify, stop; exact Logic.I).
    + apply fin_bind; [|intros _ s2 W2 _; apply fin_local; [l|apply W2]].
      destruct ex; [|apply fin_local; [l|exact I]].
      destruct (l_ptr lb) as [|h|]; try (apply fin_stop; reflexivity).
      destruct (match h with HFail => 1 | HInclude => 2 | _ => 0 end =? 0) eqn:E.
      * apply fin_local; [|exact I]. apply (Local.J_exec _ l_local); try (intros ->; discriminate E); [intros _ t _; apply l_Xequ|intros _; apply l_Xds].
      * destruct h; try discriminate E; cbn [exec]; [apply fail_fin; assumption|apply include_fin; exact I].
    + go I B. apply fin_bind; [|intros _ s3 W3 _; apply fin_local; [l|apply W3]].
      destruct ex; [apply below_call; assumption|apply fin_local; [l|exact I]].
Qed.

Lemma skip_len : forall t, (List.length (skipblanks t) <= List.length t)%nat.
Proof. induction t as [|c t IHt]; cbn [skipblanks List.length]; [lia|]. destruct (isblank c); cbn [List.length]; lia. Qed.
Lemma strip_inline : forall s t s', stripline s = (Ok t, s') -> (List.length t <= List.length s'.(inp).(curline))%nat.
Proof.
  intros s t s' E. unfold stripline in E. unfold bind at 1 in E. cbn [gets] in E. unfold bind at 1 in E.
  pose proof (e_filter2 line_bad lbF (curline (inp s)) "_?_;?") as K.
  destruct (filter2 (curline (inp s)) "_?_;?" s) as [[[[a b]|]|x] s1] eqn:F; try discriminate E.
  - unfold ret in E. injection E as <- <-. 
    assert (C : inp s1 = inp s).
    { unfold filter2, bind in F. destruct (filterc _ _ s) as [[[[l n]|]|y] s2] eqn:X; try discriminate F.
      destruct l as [|l1 [|l2 ll]]; try discriminate F. unfold ret in F. injection F as _ _ <-.
      unfold filterc, bind in X. cbn [gets] in X. destruct (4000 <=? _); [discriminate X|]. destruct (fr_caps _); [|discriminate X].
      unfold upd_ct, modify, ret in X. injection X as _ _ <-. reflexivity. }
    rewrite C. apply filter2_len in F. lia.
  - unfold bind, upd_inp, modify, ret in E. injection E as <- <-. cbn. apply skip_len.
Qed.
Lemma mnemo_len : forall t s r s', splitmnemo t s = (Ok r, s') ->
  match r with (_, _, Some o) => (List.length o <= List.length t)%nat | _ => True end.
Proof.
  intros t s r s' E. unfold splitmnemo in E. unfold bind at 1 in E.
  destruct (filter2 t "? _?" s) as [[[[a b]|]|x] s1] eqn:F; try discriminate E.
  - apply filter2_len in F. destruct a as [|a1 a], b as [|b1 b]; unfold bind in E; destruct (findmnemo _ s1) as [[y|y] s2]; try discriminate E;
      unfold ret in E; injection E as <- <-; try exact Logic.I. cbn [List.length] in *. lia.
  - unfold bind in E; destruct (findmnemo _ s1) as [[y|y] s2]; try discriminate E; unfold ret in E; injection E as <- <-; exact Logic.I.
Qed.
Lemma split_len : forall t s f s', splitline t s = (Ok f, s') ->
  match q_oper f with Some o => (List.length o <= List.length t)%nat | None => True end.
Proof.
  intros t.
  assert (R : forall s f s', splitrest t s = (Ok f, s') ->
    match q_oper f with Some o => (List.length o <= List.length t)%nat | None => True end).
  { intros s f s' E. unfold splitrest in E. unfold bind at 1 in E. destruct (splitmnemo t s) as [[[[m lb] o]|x] s1] eqn:F; [|discriminate E].
    apply mnemo_len in F. assert (Z : match q_oper (mkFields lb None m o) with Some o => (List.length o <= List.length t)%nat | None => True end) by exact F.
    destruct lb as [y|]; [unfold ret in E; injection E as <- <-; exact Z|].
    destruct o as [o|]; [|unfold ret in E; injection E as <- <-; exact Z].
    unfold bind at 1 in E. destruct (when _ _ s1) as [[u|x] s2]; [|discriminate E]. unfold bind in E.
    destruct (splitmnemo o s2) as [[[[m2 lb2] o2]|x] s3] eqn:G; [|discriminate E]. apply mnemo_len in G.
    unfold ret in E. injection E as <- <-. cbn [q_oper]. destruct o2; [lia|exact Logic.I]. }
  intros s f s' E. unfold splitline in E. unfold bind at 1 in E.
  destruct (filter2 t "?_=_?" s) as [[[[a b]|]|x] s1] eqn:F; [|exact (R _ _ _ E)|discriminate E].
  destruct (nospacein a); [|exact (R _ _ _ E)]. apply filter2_len in F. unfold bind in E.
  destruct (findmnemo _ s1) as [[y|y] s2]; [|discriminate E]. destruct (when _ _ s2) as [[u|x] s3]; [|discriminate E].
  unfold ret in E. injection E as <- <-. cbn [q_oper]. lia.
Qed.

Lemma fin_case : forall A B (m : M A) (G : nat -> A -> M B) s, (let (r, s') := m s in post s r s') ->
  (forall a s1, m s = (Ok a, s1) -> within s s1 -> dle (D s1) (D s) -> fin (fun n => G n a) s1) -> fin (fun n => bind m (G n)) s.
Proof.
  intros A B m G s P K. destruct (m s) as [[a|b] s1] eqn:E.
  - destruct P as [P1 P2]. destruct (K a s1 eq_refl P1 P2) as (n & r & s' & X & Y). exists n, r, s'.
    split; [|exact (post_trans _ _ _ _ _ _ P1 P2 Y)]. intros k Le. unfold bind. rewrite E. apply X. exact Le.
  - exists 0%nat, (Bad b), s1. split; [intros k _; unfold bind; rewrite E; reflexivity|destruct b; exact P].
Qed.
Lemma fin_now : forall A (m : M A) s, fin (fun _ => m) s -> let (r, s') := m s in post s r s'.
Proof. intros A m s (n & r & s' & H & P). rewrite (H n (le_n n)). exact P. Qed.

Lemma below_line : forall s li ex, Inv s -> dle (D s) d -> fin (fun n => run n KLine li ex) s.
Proof.
  intros s li ex I B. apply (fin_shift _ _ _ (fun n => asmline (run n) n li ex)); [reflexivity|]. unfold asmline.
  apply fin_bind; [apply fin_local; [apply l_linestart|exact I]|nx I B]. go I B.
  apply fin_case; [apply fin_now, strip_fin; exact I|]. intros t s2 E2 W2 L2. apply strip_inline in E2.
  assert (I2 : Inv s2) by apply W2. assert (B2 : dle (D s2) d) by exact (dle_trans _ _ _ L2 B). destruct t as [|c t].
  - apply fin_local; [l|exact I2].
  - apply fin_case; [apply ends_post; [exact (Local.J_splitline _ l_local _)|exact I2]|].
    intros f s3 E3 W3 L3. assert (I3 : Inv s3) by apply W3.
    assert (C : curline (inp s3) = curline (inp s2)).
    { pose proof (Local.J_splitline _ l_local (c :: t) s2 (proj1 I2)) as K. rewrite E3 in K. apply K. }
    apply split_len in E3. 
    destruct (q_mnemo f) as [[key lb]|].
    + apply below_dispatch; [exact I3| |exact (dle_trans _ _ _ L3 B2)]. unfold inline. destruct (q_oper f); [|exact Logic.I].
      rewrite C; lia.
    + apply fin_local; [l; apply l_herelabel|exact I3].
Qed.
End Below.

Theorem run_fin : forall s, Inv s -> forall k, (k = KMac -> hasmac s = true) ->
  forall li ex, finq (match k with KMac => true | _ => false end) (fun n => run n k li ex) s.
Proof.
  apply (D_ind (fun s => forall k, (k = KMac -> hasmac s = true) ->
    forall li ex, finq (match k with KMac => true | _ => false end) (fun n => run n k li ex) s)).
  intros s I IH k H li ex.
  assert (IH' : forall s' k', dlt (D s') (D s) -> Inv s' -> (k' = KMac -> hasmac s' = true) ->
    forall li ex, finq (match k' with KMac => true | _ => false end) (fun n => run n k' li ex) s') by (intros; apply IH; assumption).
  destruct k.
  - apply (below_line (D s) IH'); [exact I|apply dle_refl].
  - apply (below_if (D s) IH'); [exact I|apply dle_refl].
  - apply (below_mac (D s) IH'); [exact I|apply H; reflexivity|apply dle_refl].
Qed.

(** ** The passes *)
Definition calm (b : bad) (s : state) : Prop := run_ends b s /\ forall m, b <> Err m.
Lemma caL : forall s, s.(ls).(llen) = 1000 -> calm (UB "linebuffer overflow") s.
Proof. intros s H. split; [cbn; tauto|intros; discriminate]. Qed.
Lemma caF : forall s, calm (UB "filter: buffer overflow") s.
Proof. intros s. split; [cbn; tauto|intros; discriminate]. Qed.
Lemma caX : forall m s, calm (Exit m) s.
Proof. intros m s. split; [exact Logic.I|intros; discriminate]. Qed.
Lemma calm_line : forall n li ex s, wide s -> s.(inp).(curline) = [] ->
  match run (S n) KLine li ex s with (Ok f, s') => after s s' /\ f = FNone | (Bad b, s') => calm b s' end.
Proof.
  intros n li ex s W C.
  assert (S1 : ends calm _ linestart).
  { unfold linestart, zerobuffer.
    assert (SC : forall t, ends calm _ (scwrite t)).
    { intros t. unfold scwrite. apply ends_bind; [apply ends_gets|intros w]. destruct (scode w).
      - apply ends_modify; [auto|intro; apply kept_inp; reflexivity].
      - apply ends_stop. intros x. split; [cbn; tauto|intros; discriminate]. }
    assert (FL : ends calm _ flushscoderaw).
    { unfold flushscoderaw. apply ends_bind; [apply ends_gets|intros st]. cbv zeta.
      apply ends_bind.
      - destruct (raw (wr st)); [apply ends_ret|]. destruct (a_code_hex _); [|apply SC].
        apply ends_bind; [|intros; apply SC]. destruct (negb _); [|apply ends_ret].
        apply ends_bind; [apply SC|intros]. apply ends_modify; [auto|intro; apply kept_inp; reflexivity].
      - intros. apply ends_bind; [|intros]; (apply ends_modify; [auto|intro; apply kept_inp; reflexivity]). }
    assert (SP : forall a, ends calm _ (setpc a)).
    { intros a. unfold setpc. cbv zeta. apply ends_bind; [apply ends_gets|intros p]. destruct (_ =? _); [apply ends_ret|].
      apply ends_bind; [apply FL|intros]. repeat (apply ends_bind; [|intros]); (apply ends_modify; [auto|intro; apply kept_inp; reflexivity]). }
    apply ends_bind; [apply ends_modify; [auto|intro; apply kept_inp; reflexivity]|intros].
    apply ends_bind; [apply ends_gets|intros st]. apply ends_bind.
    - destruct (starundef st); [apply ends_modify; [auto|intro; apply kept_inp; reflexivity]|].
      apply ends_bind; [apply ends_modify; [auto|intro; apply kept_inp; reflexivity]|intros; apply SP].
    - intros. apply ends_modify; [auto|intro; apply kept_inp; reflexivity]. }
  cbn [run]. unfold asmline. unfold bind at 1. specialize (S1 s W). destruct (linestart s) as [[[]|b] s1]; [|exact (proj2 S1)].
  unfold bind at 1. cbn [gets]. unfold bind at 1. unfold stripline at 1. unfold bind at 1. cbn [gets].
  destruct S1 as [W1 K1]. assert (C1 : curline (inp s1) = []) by (destruct K1 as (_ & _ & _ & -> & _); exact C). rewrite C1.
  assert (F1 : ends calm _ (filter2 [] "_?_;?")) by exact (e_filter2 _ caF _ _). specialize (F1 s1 W1).
  unfold bind at 1. 
  assert (N : forall s2, filter2 [] "_?_;?" s1 <> (Ok (Some s2), snd (filter2 [] "_?_;?" s1))).
  { intros [u v] E. apply filter2_len in E. cbn in E. lia. }
  destruct (filter2 [] "_?_;?" s1) as [[m|b] s2]; [|exact (proj2 F1)].
  destruct m as [p|]; [exfalso; exact (N p eq_refl)|]. clear N.
  unfold bind at 1. cbn [upd_inp modify]. cbn [ret]. set (s3 := set_inp _ s2).
  change (skipblanks (trimblanks [])) with (@nil ascii). cbv iota.
  assert (A3 : after s s3).
  { apply (after_trans _ s1); [split; assumption|]. destruct F1 as [W2 (Q1 & Q2 & Q3 & Q4 & Q5)].
    split; [exact W2|]. unfold kept. repeat split; try assumption. rewrite C1. reflexivity. }
  assert (O : ends calm _ (when li outputline)).
  { unfold when. destruct li; [exact (ends_outputline _ caL caF caX)|apply ends_ret]. }
  unfold bind. specialize (O s3 (proj1 A3)). destruct (when li outputline s3) as [[[]|b] s4].
  - split; [exact (after_trans _ _ _ A3 O)|reflexivity].
  - exact (proj2 O).
Qed.

(** A pass ends; afterwards the page format is still one that PAGE can select. *)
Definition settled {A} (F : nat -> M A) (s : state) : Prop :=
  exists n r s', (forall m, (n <= m)%nat -> F m s = (r, s')) /\
    match r with Ok _ => Inv s' | Bad b => run_ends b s' end.

Lemma settled_bind : forall A B (F : nat -> M A) (G : nat -> A -> M B) s, settled F s ->
  (forall a s1, Inv s1 -> settled (fun n => G n a) s1) -> settled (fun n => bind (F n) (G n)) s.
Proof.
  intros A B F G s (n1 & r & s1 & H & P) K. destruct r as [a|b].
  - destruct (K a s1 P) as (n2 & r2 & s2 & H2 & P3).
    exists (Nat.max n1 n2), r2, s2. split; [|exact P3].
    intros m Le. unfold bind. rewrite H by lia. apply H2. lia.
  - exists n1, (Bad b), s1. split; [|exact P]. intros m Le. unfold bind. rewrite H by lia. reflexivity.
Qed.
Lemma settled_const : forall A (m : M A) s, (let (r, s') := m s in match r with Ok _ => Inv s' | Bad b => run_ends b s' end) ->
  settled (fun _ => m) s.
Proof. intros A m s H. destruct (m s) as [r s'] eqn:E. exists 0%nat, r, s'. auto. Qed.
Lemma settled_shift : forall A (F G : nat -> M A) s, (forall n, F (S n) s = G n s) -> settled G s -> settled F s.
Proof.
  intros A F G s E (n & r & s' & H & P). exists (S n), r, s'. split; [|exact P].
  intros [|m] Le; [lia|]. rewrite E. apply H. lia.
Qed.
Lemma settled_local : forall (Q : bad -> state -> Prop) A (m : M A) s, (forall b s, Q b s -> run_ends b s) ->
  ends Q A m -> Inv s -> settled (fun _ => m) s.
Proof.
  intros Q A m s N H I. apply settled_const. specialize (H s (proj1 I)). destruct (m s) as [[a|b] s'].
  - apply (after_in _ _ I H).
  - exact (N _ _ (proj2 H)).
Qed.

Definition passround (n : nat) (r : option unit) : M unit :=
  match r with
  | None => passloop n
  | Some _ => e <- mainfeof ;; if e : bool then ret tt else passloop n
  end.
Lemma passloop_eq : forall n s, passloop (S n) s = bind (catch (passline n)) (passround n) s.
Proof. reflexivity. Qed.

Lemma empty_round : forall s0 s1, linegets s0 = (Ok tt, s1) -> Inv s1 -> over s1 -> s1.(inp).(curline) = [] ->
  settled (fun n => bind (catch (passline n)) (passround n)) s0.
Proof.
  intros s0 s1 E I O C. destruct (run_fin s1 I KLine ltac:(discriminate) true true) as (n & r & s' & H & P).
  pose proof (calm_line n true true s1 (proj1 I) C) as R. rewrite (H (S n) ltac:(lia)) in R.
  assert (X : forall m, (n <= m)%nat -> passline m s0 = bind (run m KLine true true) (fun f => match f with
     | FNone => ret tt | _ => err "ELSE, ENDC, ENDM, EXITM illegal here" end) s1).
  { intros m _. unfold passline. unfold bind at 1. rewrite E. reflexivity. }
  destruct r as [f|b].
  - destruct R as [R ->]. exists n, (Ok tt), s'. split.
    + intros m Le. unfold bind, catch. rewrite (X m Le). unfold bind. rewrite (H m Le). cbn [ret passround].
      unfold bind, mainfeof. cbn [gets]. destruct R as [_ (_ & _ & -> & _)]. destruct O as (_ & _ & ->). reflexivity.
    + apply (after_in _ _ I R).
  - exists n, (Bad b), s'. destruct R as [R1 R2]. split.
    + intros m Le. unfold bind, catch. rewrite (X m Le). unfold bind. rewrite (H m Le).
      destruct b as [e|e|w| |]; try reflexivity. exfalso; exact (R2 e eq_refl).
    + exact R1.
Qed.
Lemma passloop_over : forall s, Inv s -> over s -> settled (fun n => passloop n) s.
Proof.
  intros s I O. apply (settled_shift _ _ (fun n => bind (catch (passline n)) (passround n))); [intros n; apply passloop_eq|].
  destruct (linegets_over s I O) as (s1 & E & W & O1 & C). apply (empty_round s s1 E (proj1 W) O1 C).
Qed.

Theorem passloop_settled : forall s, Inv s -> settled (fun n => passloop n) s.
Proof.
  apply (D_ind (fun s => settled (fun n => passloop n) s)). intros s I IH.
  apply (settled_shift _ _ (fun n => bind (catch (passline n)) (passround n))); [intros n; apply passloop_eq|].
  pose proof (linegets_end s I) as R. destruct (linegets s) as [[[]|b] s1] eqn:E.
  2:{ subst b. exists 0%nat, (Bad (UB "linegets: null macro line")), s1. split; [|cbn; tauto].
      intros m _. unfold bind, catch, passline, bind. rewrite E. reflexivity. }
  destruct R as [W1 [L1|[O1 C1]]]; [|exact (empty_round s s1 E (proj1 W1) O1 C1)].
  assert (F : fin (fun n => f <- run n KLine true true ;; match f with
     | FNone => ret tt | _ => err "ELSE, ENDC, ENDM, EXITM illegal here" end) s1).
  { apply fin_bind; [apply (run_fin s1 (proj1 W1) KLine); discriminate|]. intros f s2 W2 L2.
    apply fin_local; [destruct f; l|apply W2]. }
  destruct F as (n & r & s2 & H & P).
  assert (X : forall m, (n <= m)%nat -> passline m s = (r, s2)).
  { intros m Le. unfold passline. unfold bind at 1. rewrite E. exact (H m Le). }
  assert (G : forall s3, Inv s3 -> dle (D s3) (D s1) \/ over s3 -> settled (fun n => passloop n) s3).
  { intros s3 I3 [L3|O3]; [apply IH; [exact I3|exact (dle_dlt _ _ _ L3 L1)]|apply passloop_over; assumption]. }
  assert (Y : forall m, (n <= m)%nat -> catch (passline m) s = match r with
     | Ok a => (Ok (Some a), s2) | Bad (Err _) => (Ok None, set_ct (set_errnumber (errnumber (ct s2) + 1) (ct s2)) s2) | Bad b => (Bad b, s2) end).
  { intros m Le. unfold catch. rewrite (X m Le). destruct r as [a|[e|e|w| |]]; reflexivity. }
  assert (Z : forall o s3, match r with
     | Ok a => (Ok (Some a), s2) | Bad (Err _) => (Ok None, set_ct (set_errnumber (errnumber (ct s2) + 1) (ct s2)) s2) | Bad b => (Bad b, s2) end = (Ok o, s3) ->
     settled (fun n => passround n o) s3 -> settled (fun n => bind (catch (passline n)) (passround n)) s).
  { intros o s3 R (n2 & r2 & s4 & H2 & P2). rewrite R in Y. exists (Nat.max n n2), r2, s4. split; [|exact P2].
    intros m Le. unfold bind. rewrite Y by lia. apply H2. lia. }
  destruct r as [v|b].
  - destruct P as [P1 P2]. apply (Z _ _ eq_refl). cbn [passround]. unfold mainfeof.
    destruct (maineof (inp s2)) eqn:Q.
    + exists 0%nat, (Ok tt), s2. split; [|apply P1]. intros m _. unfold bind. cbn [gets]. rewrite Q. reflexivity.
    + destruct (G s2 (proj1 P1) (or_introl P2)) as (n2 & r2 & s4 & H2 & P3). exists n2, r2, s4. split; [|exact P3].
      intros m Le. unfold bind. cbn [gets]. rewrite Q. apply H2. exact Le.
  - destruct b as [e|e|w| |].
    + destruct P as (_ & P1 & P2). apply (Z _ _ eq_refl). cbn [passround]. apply G; [exact (proj1 P1)|exact P2].
    + exists n, (Bad (Exit e)), s2. split; [|exact P]. intros m Le. unfold bind. rewrite Y by exact Le. reflexivity.
    + exists n, (Bad (UB w)), s2. split; [|exact P]. intros m Le. unfold bind. rewrite Y by exact Le. reflexivity.
    + exists n, (Bad Hang), s2. split; [|exact P]. intros m Le. unfold bind. rewrite Y by exact Le. reflexivity.
    + destruct P.
Qed.
