(** Assembly ends: with enough steps nothing changes any more (C34).  Nothing here is part
    of the model. *)
From Coq Require Import String Ascii ZArith List Bool Lia.
From Verif Require Import Base State Tree Filter Output Label Operator Parse Scode Tables.
From Verif Require Import Cpu6800 Cpu6502 CpuZ80 Pseudos Macro Xref Crasm.
From Verif Require Import EndFacts ParseEnd SpecEnd LineEnd OrderFacts.
From Verif Require Local Eval.
Import ListNotations.
Open Scope Z_scope.

(** ** The text that is left *)
Definition weight (x : source) : nat :=
  match x with
  | SFile ended rest _ _ _ _ => 2 * List.length rest + (if ended then 0 else 1)
  | SMac lines _ _ _ _ _ => List.length lines
  end%nat.
Definition mainw (s : state) : nat :=
  (2 * List.length s.(inp).(mainrest) + (if s.(inp).(maineof) then 0 else 1))%nat.
Definition levels (s : state) : list nat := mainw s :: rev (map weight s.(inp).(srcs)).
Definition D (s : state) : list nat := tok (levels s).
Definition ismac (x : source) : bool := match x with SMac _ _ _ _ _ _ => true | _ => false end.
Definition hasmac (s : state) : bool := existsb ismac s.(inp).(srcs).
Definition Inv (s : state) : Prop := wide s /\ zlen s.(inp).(srcs) <= 9.
(** The main file is read to its end. *)
Definition over (s : state) : Prop :=
  s.(inp).(srcs) = [] /\ s.(inp).(mainrest) = [] /\ s.(inp).(maineof) = true.

Definition within (s s' : state) : Prop := Inv s' /\ hasmac s' = hasmac s.
(** The outcome [r] in [s'] of what began in [s]; with [q] no error is left. *)
Definition postq {A} (q : bool) (s : state) (r : res A) (s' : state) : Prop :=
  match r with
  | Ok _ => within s s' /\ dle (D s') (D s)
  | Bad (Err _) => q = false /\ within s s' /\ (dle (D s') (D s) \/ over s')
  | Bad b => run_ends b s'
  end.
Notation post := (postq false).

Lemma within_trans : forall a b c, within a b -> within b c -> within a c.
Proof. intros a b c [_ H] [I K]. split; [exact I|congruence]. Qed.
Lemma post_trans : forall q A s s1 (r : res A) s2, within s s1 -> dle (D s1) (D s) -> postq q s1 r s2 -> postq q s r s2.
Proof.
  intros q A s s1 r s2 W H K. destruct r as [a|[m|m|w| |]]; cbn [postq] in *; auto.
  - destruct K as [K1 K2]. split; [exact (within_trans _ _ _ W K1)|exact (dle_trans _ _ _ K2 H)].
  - destruct K as (K0 & K1 & [K2|K2]); (split; [exact K0|]; split; [exact (within_trans _ _ _ W K1)|]).
    + left. exact (dle_trans _ _ _ K2 H).
    + right. exact K2.
Qed.

(** ** Computations that end *)
Definition finq {A} (q : bool) (F : nat -> M A) (s : state) : Prop :=
  exists n r s', (forall m, (n <= m)%nat -> F m s = (r, s')) /\ postq q s r s'.
Notation fin := (finq false).

Lemma fin_bind : forall A B (F : nat -> M A) (G : nat -> A -> M B) s, fin F s ->
  (forall a s1, within s s1 -> dle (D s1) (D s) -> fin (fun n => G n a) s1) ->
  fin (fun n => bind (F n) (G n)) s.
Proof.
  intros A B F G s (n1 & r & s1 & H & P) K. destruct r as [a|b].
  - destruct P as [P1 P2]. destruct (K a s1 P1 P2) as (n2 & r2 & s2 & H2 & P3).
    exists (Nat.max n1 n2), r2, s2. split; [|exact (post_trans _ _ _ _ _ _ P1 P2 P3)].
    intros m L. unfold bind. rewrite H by lia. apply H2. lia.
  - exists n1, (Bad b), s1. split; [|destruct b; exact P]. intros m L. unfold bind. rewrite H by lia. reflexivity.
Qed.
Lemma fin_ext : forall A (F G : nat -> M A) s, (forall n, F n s = G n s) -> fin F s -> fin G s.
Proof.
  intros A F G s E (n & r & s' & H & P). exists n, r, s'. split; [|exact P]. intros m L. rewrite <- E. auto.
Qed.
Lemma fin_const : forall A (m : M A) s, (let (r, s') := m s in post s r s') -> fin (fun _ => m) s.
Proof. intros A m s H. destruct (m s) as [r s'] eqn:E. exists 0%nat, r, s'. auto. Qed.
Lemma fin_shift : forall q A (F G : nat -> M A) s, (forall n, F (S n) s = G n s) -> finq q G s -> finq q F s.
Proof.
  intros q A F G s E (n & r & s' & H & P). exists (S n), r, s'. split; [|exact P].
  intros [|m] L; [lia|]. rewrite E. apply H. lia.
Qed.

Lemma kept_D : forall s s', kept s s' -> D s' = D s /\ hasmac s' = hasmac s /\ zlen s'.(inp).(srcs) = zlen s.(inp).(srcs).
Proof.
  intros s s' (A1 & A2 & A3 & _). unfold D, levels, mainw, hasmac. rewrite A1, A2, A3. auto.
Qed.
Lemma after_in : forall s s', Inv s -> after s s' -> within s s' /\ D s' = D s.
Proof.
  intros s s' [_ I] [W K]. destruct (kept_D _ _ K) as (E1 & E2 & E3). split; [|exact E1]. split; [|exact E2].
  split; [exact W|lia].
Qed.
Lemma line_run : forall b s, line_bad b s -> run_ends b s.
Proof.
  intros b s [[H R]|[->|(w & H & ->)]].
  - destruct b as [m|m|w| |]; cbn in *; auto; [|apply R; left; reflexivity].
    destruct H as [H|[H|[H|[H|[H|[H|H]]]]]]; try tauto.
    right; right; right; right; left. split; [exact H|]. apply R. right. rewrite H. reflexivity.
  - cbn. tauto.
  - cbn. unfold Local.local_ub in H. cbn in H. intuition.
Qed.
Lemma ends_post : forall A (m : M A) s, L A m -> Inv s -> let (r, s') := m s in post s r s'.
Proof.
  intros A m s H I. specialize (H s (proj1 I)). destruct (m s) as [[a|b] s'].
  - destruct (after_in _ _ I H) as [X Y]. split; [exact X|left; exact Y].
  - destruct H as [H K]. destruct (after_in _ _ I H) as [X Y]. apply line_run in K. destruct b; cbn [postq]; auto.
    split; [reflexivity|]. split; [exact X|left; left; exact Y].
Qed.
Lemma fin_local : forall A (m : M A) s, L A m -> Inv s -> fin (fun _ => m) s.
Proof. intros. apply fin_const. apply ends_post; assumption. Qed.

(** ** Reading a line *)
Lemma calm_warning : forall m s, wide s -> exists s', warning m s = (Ok tt, s') /\ after s s'.
Proof.
  intros m s W. pose proof (ends_warning (fun _ _ => False) m s W) as H.
  destruct (warning m s) as [[[]|b] s']; [exists s'; auto|destruct H as [_ []]].
Qed.
Lemma fgets_len : forall n t a r e, fgets n t = (a, r, e) ->
  (List.length r <= List.length t)%nat /\ (e = true -> r = []) /\
  ((0 < n)%nat -> t <> [] -> (List.length r < List.length t)%nat) /\ (t = [] -> (0 < n)%nat -> a = [] /\ e = true).
Proof.
  induction n as [|n IH]; intros t a r e E; cbn [fgets] in E.
  - injection E as <- <- <-. repeat split; intros; try lia; discriminate.
  - destruct t as [|c t].
    + injection E as <- <- <-. repeat split; intros; try lia; auto. contradiction.
    + destruct (zc c =? 10).
      * injection E as <- <- <-. cbn [List.length]. repeat split; intros; try lia; try discriminate.
      * destruct (fgets n t) as [[a1 r1] e1] eqn:E1. injection E as <- <- <-. specialize (IH _ _ _ _ E1).
        destruct IH as (I1 & I2 & I3 & I4). cbn [List.length]. repeat split; intros; try lia; try discriminate; auto.
Qed.
Lemma readline_end : forall t s, wide s ->
  exists rest e s', readline t s = (Ok (rest, e), s') /\ wide s' /\
    s'.(inp).(srcs) = s.(inp).(srcs) /\ s'.(inp).(mainrest) = s.(inp).(mainrest) /\ s'.(inp).(maineof) = s.(inp).(maineof) /\
    (e = true -> rest = []) /\ (t <> [] -> (List.length rest < List.length t)%nat) /\
    (t = [] -> rest = [] /\ e = true /\ s'.(inp).(curline) = []).
Proof.
  intros t s W. unfold readline. destruct (fgets 249 t) as [[a r] e] eqn:E. pose proof (fgets_len _ _ _ _ _ E) as (I1 & I2 & I3 & I4).
  set (u := uptonl a). set (v := List.filter keepchar u).
  assert (U : exists s1, when (negb (zlen u =? zlen v)) (warning "Unprintable characters removed") s = (Ok tt, s1) /\ after s s1).
  { unfold when. destruct (negb _); [apply calm_warning; exact W|]. exists s. split; [reflexivity|apply after_refl; exact W]. }
  destruct U as (s1 & U & [W1 (K1 & K2 & K3 & _)]).
  cbv zeta. unfold bind. rewrite U. unfold upd_inp, modify, ret. eexists r, e, _. split; [reflexivity|].
  split; [exact W1|]. split; [exact K1|]. split; [exact K2|]. split; [exact K3|]. split; [exact I2|].
  split; [intros N; apply I3; [lia|exact N]|]. intros ->. destruct (I4 eq_refl ltac:(lia)) as [-> ->].
  split; [apply I2; reflexivity|]. split; [reflexivity|]. reflexivity.
Qed.

Lemma popended_end : forall l s, wide s -> s.(inp).(srcs) = l ->
  exists s' top, popended l s = (Ok tt, s') /\ wide s' /\ l = top ++ s'.(inp).(srcs) /\
    existsb ismac top = false /\
    s'.(inp).(mainrest) = s.(inp).(mainrest) /\ s'.(inp).(maineof) = s.(inp).(maineof) /\
    (forall rest e o p q l', s'.(inp).(srcs) <> SFile true rest e o p q :: l').
Proof.
  induction l as [|x l IH]; intros s W E; cbn [popended].
  - exists s, []. repeat split; try apply W; auto. intros. rewrite E. discriminate.
  - destruct x as [ended rest e o p q|lines a al o p q].
    + destruct ended.
      * unfold bind. cbn [upd_inp upd_fl modify]. set (s1 := set_fl _ _).
        destruct (IH s1 W eq_refl) as (s' & top & P & W' & T & M & R1 & R2 & R3).
        exists s', (SFile true rest e o p q :: top). split; [exact P|]. split; [exact W'|].
        split; [cbn [app]; rewrite <- T; reflexivity|]. split; [exact M|]. split; [exact R1|]. split; [exact R2|exact R3].
      * exists s, []. repeat split; try apply W; auto. intros. rewrite E. discriminate.
    + exists s, []. repeat split; try apply W; auto. intros. rewrite E. discriminate.
Qed.

Lemma existsb_tail : forall (a b : list source), existsb ismac a = false -> existsb ismac (a ++ b) = existsb ismac b.
Proof. intros a b H. rewrite existsb_app, H. reflexivity. Qed.

(** A line is read: the text left has become less, or the main file is at its end. *)
Lemma linegets_end : forall s, Inv s ->
  match linegets s with
  | (Ok _, s') => within s s' /\ (dlt (D s') (D s) \/ over s' /\ s'.(inp).(curline) = [])
  | (Bad b, _) => b = UB "linegets: null macro line"
  end.
Proof.
  intros s [W I]. unfold linegets. unfold bind at 1. cbn [gets]. unfold bind at 1.
  destruct (popended_end _ s W eq_refl) as (s1 & top & P & W1 & T & M & R1 & R2 & R3). rewrite P.
  unfold bind at 1. cbn [gets].
  assert (H1 : hasmac s1 = hasmac s) by (unfold hasmac; rewrite T, existsb_tail by exact M; reflexivity).
  assert (Z1 : zlen (srcs (inp s1)) <= 9).
  { unfold zlen in *. rewrite T in I. rewrite app_length in I. lia. }
  assert (M1 : mainw s1 = mainw s) by (unfold mainw; rewrite R1, R2; reflexivity).
  destruct (srcs (inp s1)) as [|x l] eqn:X.
  - unfold bind. destruct (readline_end (mainrest (inp s1)) s1 W1) as (rest & e & s2 & E & W2 & K1 & K2 & K3 & Q1 & Q2 & Q3).
    rewrite E. cbn [upd_inp modify].
    set (s3 := set_inp _ s2).
    assert (S3 : srcs (inp s3) = []) by (change (srcs (inp s3)) with (srcs (inp s2)); congruence).
    assert (H3 : within s s3).
    { split; [split; [exact W2|rewrite S3; unfold zlen; cbn; lia]|]. unfold hasmac. rewrite S3.
      unfold hasmac in H1. rewrite X in H1. exact H1. }
    split; [exact H3|].
    assert (C : (exists c t, mainrest (inp s1) = c :: t) \/ mainrest (inp s1) = []) by (destruct (mainrest (inp s1)); eauto).
    destruct C as [(c & t & C)|C].
    + left. unfold D, levels. rewrite S3, T. cbn [map rev]. rewrite map_app, rev_app_distr. cbn [map rev app].
      apply (tok_read [] _ _ _). rewrite <- M1. unfold mainw. change (mainrest (inp s3)) with rest. change (maineof (inp s3)) with e.
      specialize (Q2 ltac:(rewrite C; discriminate)). destruct e; lia.
    + right. destruct (Q3 C) as (-> & -> & Q5). split; [|exact Q5]. split; [exact S3|]. split; reflexivity.
  - destruct x as [ended rest e o p q|[|ln lines] a al o p q].
    + destruct ended; [exfalso; exact (R3 _ _ _ _ _ _ eq_refl)|]. unfold bind.
      destruct (readline_end rest s1 W1) as (rest' & e' & s2 & E & W2 & K1 & K2 & K3 & Q1 & Q2 & Q3).
      rewrite E. cbn [upd_inp modify]. set (s3 := set_inp _ s2).
      assert (S3 : srcs (inp s3) = SFile e' rest' e' o p q :: l) by reflexivity.
      assert (M3 : mainw s3 = mainw s).
      { unfold mainw. change (mainrest (inp s3)) with (mainrest (inp s2)). change (maineof (inp s3)) with (maineof (inp s2)).
        rewrite K2, K3, R1, R2. reflexivity. }
      split.
      * split; [split; [exact W2|rewrite S3; unfold zlen in *; cbn [List.length] in *; lia]|].
        unfold hasmac in *. rewrite S3, <- H1, X. reflexivity.
      * left. unfold D, levels. rewrite S3, T, M3. cbn [map]. rewrite map_app, rev_app_distr. cbn [map rev].
        rewrite <- app_assoc. apply (tok_read (mainw s :: rev (map weight l))).
        cbn [weight]. destruct rest as [|c t].
        -- destruct (Q3 eq_refl) as (-> & -> & _). cbn. lia.
        -- specialize (Q2 ltac:(discriminate)). destruct e'; lia.
    + reflexivity.
    + unfold bind at 1. cbn [upd_inp modify]. set (s2 := set_inp _ s1). destruct (msubst a al 0 ln) as [t long].
      unfold bind.
      assert (U : exists s3, when long (warning "Too long line") s2 = (Ok tt, s3) /\ after s2 s3).
      { unfold when. destruct long; [apply calm_warning; exact W1|]. exists s2. split; [reflexivity|apply after_refl; exact W1]. }
      destruct U as (s3 & U & [W3 (K1 & K2 & K3 & _)]). rewrite U. cbn [upd_inp modify]. set (s4 := set_inp _ s3).
      assert (S4 : srcs (inp s4) = SMac lines a al o p q :: l) by exact K1.
      assert (M4 : mainw s4 = mainw s).
      { unfold mainw. change (mainrest (inp s4)) with (mainrest (inp s3)). change (maineof (inp s4)) with (maineof (inp s3)).
        rewrite K2, K3. change (mainrest (inp s2)) with (mainrest (inp s1)). change (maineof (inp s2)) with (maineof (inp s1)).
        rewrite R1, R2. reflexivity. }
      split.
      * split; [split; [exact W3|rewrite S4; unfold zlen in *; cbn [List.length] in *; lia]|].
        unfold hasmac in *. rewrite S4, <- H1, X. reflexivity.
      * left. unfold D, levels. rewrite S4, T, M4. cbn [map]. rewrite map_app, rev_app_distr. cbn [map rev].
        rewrite <- app_assoc. apply (tok_read (mainw s :: rev (map weight l))). cbn [weight List.length]. lia.
Qed.
