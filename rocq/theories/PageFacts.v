(** The layout of the listing (C46).  Nothing here is part of the model. *)
From Coq Require Import String Ascii ZArith List Bool Lia ZifyBool ZifyNat.
From Verif Require Import Base BaseFacts State Tree Filter Output Label SpecPage.
Import ListNotations.
Open Scope Z_scope.

(** ** Pages *)
Definition isline (x : sheet) : Prop := match x with PLine _ _ => True | _ => False end.
Lemma below_nohead : forall p l, Forall (below_title p) l -> Forall nohead l.
Proof. intros p l H. eapply Forall_impl; [|exact H]. intros [] K; cbn in *; auto. Qed.
Lemma line_nohead : forall l, Forall isline l -> Forall nohead l.
Proof. intros l H. eapply Forall_impl; [|exact H]. intros [] K; cbn in *; auto. Qed.

Lemma last_head : forall a b p c d q, Forall nohead b -> Forall nohead d ->
  a ++ PHead p :: b = c ++ PHead q :: d -> p = q /\ b = d.
Proof.
  induction a as [|x a IH]; intros b p [|y c] d q B D E; cbn [app] in E; injection E as E1 E2.
  - auto.
  - subst. exfalso. rewrite Forall_app in B. destruct B as [_ B]. inversion B. auto.
  - subst. exfalso. rewrite Forall_app in D. destruct D as [_ D]. inversion D. auto.
  - apply (IH b p c d q B D E2).
Qed.
Lemma total_app : forall a b, total (a ++ b) = total a + total b.
Proof. induction a as [|x a IH]; intros b; [reflexivity|].
  change (height x + total (a ++ b) = height x + total a + total b). rewrite IH. lia.
Qed.
Lemma total_cons : forall x l, total (x :: l) = height x + total l.
Proof. reflexivity. Qed.
Lemma total_one : forall x, total [x] = height x.
Proof. intros x. cbn. lia. Qed.
Lemma total_lines : forall l, Forall isline l -> total l = zlen l.
Proof.
  intros l H. induction H as [|x l H K IH]; [reflexivity|]. rewrite total_cons. destruct x; try contradiction. cbn [height].
  unfold zlen in *. cbn [List.length]. lia.
Qed.
Lemma zlen_rev : forall A (l : list A), zlen (rev l) = zlen l.
Proof. intros. unfold zlen. rewrite rev_length. reflexivity. Qed.

Lemma fit_snoc : forall log x, pages_fit log ->
  (forall p m, x = PHead p -> within m x -> 2 <= m) ->
  (forall before p page m, log = before ++ PHead p :: page -> Forall nohead page -> nohead x ->
     Forall (within m) (PHead p :: page) -> within m x ->
     total (PHead p :: page) + height x <= m) -> pages_fit (log ++ [x]).
Proof.
  intros log x H H1 H2 before p page after m E F N.
  destruct after as [|z l] eqn:EA.
  - rewrite app_nil_r in E. destruct page as [|z l] eqn:EP.
    + apply app_inj_tail in E. destruct E as [_ E]. cbn. inversion N; subst. specialize (H1 p m eq_refl H4). lia.
    + destruct (exists_last (l := z :: l) ltac:(discriminate)) as (page' & y & E'). rewrite E' in *.
      rewrite app_comm_cons, app_assoc in E. apply app_inj_tail in E. destruct E as [E <-].
      apply Forall_app in F. destruct F as [F1 F2]. inversion F2; subst.
      rewrite app_comm_cons in N. apply Forall_app in N. destruct N as [N1 N2]. inversion N2; subst.
      rewrite app_comm_cons, total_app, total_one. exact (H2 _ _ _ m eq_refl F1 H4 N1 H6).
  - destruct (exists_last (l := z :: l) ltac:(discriminate)) as (after' & y & E'). rewrite E' in *.
    rewrite app_assoc, app_comm_cons, app_assoc in E. apply app_inj_tail in E. destruct E as [E _].
    exact (H _ _ _ _ m E F N).
Qed.
Lemma full_snoc : forall log x, pages_full log ->
  (forall before p page, log = before ++ PHead p :: page -> Forall (below_title p) page -> x = PFoot p -> p <> 0 ->
     total (PHead p :: page) + 2 = p) -> pages_full (log ++ [x]).
Proof.
  intros log x H H2 before p page after E F N.
  destruct after as [|z l] eqn:EA.
  - rewrite app_comm_cons, app_assoc in E. apply app_inj_tail in E. destruct E as [E ->].
    rewrite app_comm_cons, total_app, total_one. exact (H2 _ _ _ E F eq_refl N).
  - destruct (exists_last (l := z :: l) ltac:(discriminate)) as (after' & y & E'). rewrite E' in *.
    rewrite (app_comm_cons after'), app_assoc, app_comm_cons, app_assoc in E. apply app_inj_tail in E. destruct E as [E _].
    exact (H _ _ _ _ E F N).
Qed.

Lemma within_rev : forall m p l, Forall (within m) (PHead p :: rev l) -> Forall (within m) (PHead p :: l).
Proof.
  intros m p l H. inversion H; subst. constructor; [assumption|]. rewrite <- (rev_involutive l). apply Forall_rev. assumption.
Qed.
Lemma below_within : forall p l, p <> 0 -> Forall (below_title p) l -> Forall (within p) (PHead p :: l).
Proof.
  intros p l N H. constructor; [cbn; lia|]. eapply Forall_impl; [|exact H]. intros [q|q t|q] K; cbn in *; [contradiction| |]; subst; lia.
Qed.

(** The open page: its title, then [mid] lines. *)
Definition openpage (slack : Z) (l : listing) : Prop := exists mid p pre,
  l.(sheets) = mid ++ PHead p :: pre /\ Forall isline mid /\ l.(ppos) = 2 + zlen mid /\
  (forall m, Forall (within m) (PHead p :: mid) -> l.(ppos) + slack <= m - 2).
Definition closedpage (l : listing) : Prop := l.(ppos) = 0.
Definition printing (l : listing) : Prop :=
  (l.(plen) = 0 \/ 10 <= l.(plen)) /\ pages_fit (rev l.(sheets)) /\ pages_full (rev l.(sheets)) /\
  printed (rev l.(sheets)) (rev l.(stdout)).
Definition pageinv (l : listing) : Prop := printing l /\ (closedpage l \/ openpage 1 l).

Lemma head_step : forall l t w n, printing l ->
  let l' := set_sheets (PHead l.(plen) :: l.(sheets)) (set_ppos 2 (set_pagenumber n (set_stdout
     ((s2l "Crasm 1.11:   " ++ padl 30 t ++ repeat (cz 32) (Z.to_nat (w - 58))
              ++ s2l "page" ++ padl 3 (dec n) ++ [nl; nl]) :: l.(stdout)) l))) in
  printing l' /\ openpage 1 l'.
Proof.
  intros l t w n (A & B & C & D) l'. split.
  - split; [exact A|]. split; [|split]; cbn [sheets set_sheets stdout set_ppos set_pagenumber set_stdout l' rev].
    + apply fit_snoc; [exact B| |].
      * intros p m _ [K N]. lia.
      * intros before p page m E F K. contradiction.
    + apply full_snoc; [exact C|]. intros. discriminate.
    + apply (pr_head _ _ _ t w n). exact D.
  - exists [], (plen l), (sheets l). repeat split; [constructor|]. intros m N. inversion N as [|x y K K3]. cbn in K |- *. lia.
Qed.

Lemma line_step : forall l t, printing l -> openpage 1 l ->
  let l' := set_sheets (PLine l.(plen) t :: l.(sheets)) (set_ppos (l.(ppos) + 1) (set_stdout ((t ++ [nl]) :: l.(stdout)) l)) in
  printing l' /\ openpage 0 l' /\
  ((l.(plen) - 2 <=? l.(ppos) + 1) && negb (l.(plen) =? 0) = false -> openpage 1 l').
Proof.
  intros l t (A & B & C & D) (mid & p & pre & E & I & P & S) l'.
  assert (R : rev (sheets l) = rev pre ++ PHead p :: rev mid).
  { rewrite E, rev_app_distr. cbn [rev]. rewrite <- app_assoc. reflexivity. }
  split; [|split].
  - split; [exact A|]. split; [|split]; cbn [sheets set_sheets stdout set_ppos set_stdout l' rev].
    + apply fit_snoc; [exact B| |].
      * intros q m Q. discriminate Q.
      * intros before q page m X F K N N'. rewrite X in R.
        apply last_head in R; [|exact F|apply Forall_rev; apply line_nohead; exact I].
        destruct R as [-> ->]. specialize (S m (within_rev _ _ _ N)). rewrite total_cons, total_lines by (apply Forall_rev; exact I). rewrite zlen_rev. cbn [height]. lia.
    + apply full_snoc; [exact C|]. intros. discriminate.
    + apply pr_line. exact D.
  - exists (PLine (plen l) t :: mid), p, pre. cbn [sheets set_sheets ppos set_ppos l']. rewrite E. split; [reflexivity|].
    split; [constructor; [exact Logic.I|exact I]|]. split; [unfold zlen in *; cbn [List.length]; lia|].
    intros m F. inversion F as [|x y F1 F2]; subst. inversion F2; subst. specialize (S m (Forall_cons _ F1 H2)). lia.
  - intros T. exists (PLine (plen l) t :: mid), p, pre. cbn [sheets set_sheets ppos set_ppos l']. rewrite E. split; [reflexivity|].
    split; [constructor; [exact Logic.I|exact I]|]. split; [unfold zlen in *; cbn [List.length]; lia|].
    intros m F. inversion F as [|x y F1 F2]; subst. inversion F2; subst. cbn in H1. lia.
Qed.

Lemma foot_step : forall l, printing l -> openpage 0 l -> l.(plen) - 2 <= l.(ppos) -> l.(plen) <> 0 ->
  printing (set_sheets (PFoot l.(plen) :: l.(sheets)) (set_ppos 0 (set_stdout ([nl; nl] :: l.(stdout)) l))).
Proof.
  intros l (A & B & C & D) (mid & p & pre & E & I & P & S) G Z.
  assert (R : rev (sheets l) = rev pre ++ PHead p :: rev mid).
  { rewrite E, rev_app_distr. cbn [rev]. rewrite <- app_assoc. reflexivity. }
  split; [exact A|]. split; [|split]; cbn [sheets set_sheets stdout set_ppos set_stdout rev].
  - apply fit_snoc; [exact B| |].
    + intros q m Q. discriminate Q.
    + intros before q page m X F K N N'. rewrite X in R.
      apply last_head in R; [|exact F|apply Forall_rev; apply line_nohead; exact I].
      destruct R as [-> ->]. specialize (S m (within_rev _ _ _ N)). rewrite total_cons, total_lines by (apply Forall_rev; exact I). rewrite zlen_rev. cbn [height]. lia.
  - apply full_snoc; [exact C|]. intros before q page X F [= K] N. rewrite X in R.
    apply last_head in R; [|exact (below_nohead _ _ F)|apply Forall_rev; apply line_nohead; exact I].
    destruct R as [-> ->]. specialize (S p (within_rev _ _ _ (below_within _ _ N F))). rewrite total_cons, total_lines by (apply Forall_rev; exact I). rewrite zlen_rev. cbn [height]. lia.
  - apply pr_foot. exact D.
Qed.

(** What a line of output changes. *)
Record rawstep (t : str) (l l' : listing) : Prop := {
  rs_page : pageinv l';
  rs_lpos : l'.(lpos) = l.(lpos);
  rs_llen : l'.(llen) = l.(llen);
  rs_buffer : l'.(linebuffer) = l.(linebuffer);
  rs_composed : l'.(composed) = l.(composed);
  rs_new : forall p x, In (PLine p x) l'.(sheets) -> In (PLine p x) l.(sheets) \/ x = t
}.
Lemma outputraw_step : forall t s, pageinv s.(ls) ->
  exists l', outputraw t s = (Ok tt, set_ls l' s) /\ rawstep t s.(ls) l'.
Proof.
  intros t s [G H]. unfold outputraw, bind at 1. cbn [gets]. destruct (a_list_on (fl s)).
  2:{ exists (ls s). split; [destruct s; reflexivity|]. constructor; auto. split; assumption. }
  match goal with |- exists l', (?m ;;; _) s = _ /\ _ => set (hd := m) end.
  assert (K : exists l1, hd s = (Ok tt, set_ls l1 s) /\ printing l1 /\ openpage 1 l1 /\ lpos l1 = lpos (ls s) /\ llen l1 = llen (ls s) /\
    linebuffer l1 = linebuffer (ls s) /\ composed l1 = composed (ls s) /\
    (forall p x, In (PLine p x) l1.(sheets) -> In (PLine p x) s.(ls).(sheets))).
  { unfold hd. destruct (ppos (ls s) =? 0) eqn:Z.
    - pose proof (head_step (ls s) (title (ls s)) (llen (ls s)) (pagenumber (ls s) + 1) G) as K.
      eexists. split; [unfold bind, print, upd_ls, modify; reflexivity|]. destruct K as [K1 K2].
      split; [exact K1|]. split; [exact K2|]. repeat split; try reflexivity.
      intros p x [X|X]; [discriminate X|exact X].
    - exists (ls s). split; [destruct s; reflexivity|]. split; [exact G|]. destruct H as [H|H]; [unfold closedpage in H; lia|].
      repeat split; auto. }
  clearbody hd. destruct K as (l1 & E1 & P1 & O1 & X1 & X2 & X3 & X4 & X5). unfold bind at 1. rewrite E1. clear E1 hd.
  destruct (line_step l1 t P1 O1) as (P2 & O2 & O3).
  set (l2 := set_sheets _ _) in *.
  match goal with |- exists l', (_ ;;; _ ;;; ?k) _ = ?r /\ ?z =>
    change (exists l', k (set_ls l2 s) = (Ok tt, set_ls l' s) /\ rawstep t s.(ls) l') end.
  unfold bind at 1. cbn [gets ls set_ls].
  assert (Y : lpos l2 = lpos (ls s) /\ llen l2 = llen (ls s) /\ linebuffer l2 = linebuffer (ls s) /\ composed l2 = composed (ls s) /\
    (forall p x, In (PLine p x) l2.(sheets) -> In (PLine p x) s.(ls).(sheets) \/ x = t)).
  { split; [exact X1|]. split; [exact X2|]. split; [exact X3|]. split; [exact X4|].
    intros p x [X|X]; [injection X as _ <-; auto|]. left. exact (X5 p x X). }
  assert (V : plen l2 = plen l1 /\ ppos l2 = ppos l1 + 1) by (split; reflexivity). destruct V as [V1 V2].
  clearbody l2. destruct Y as (Y1 & Y2 & Y3 & Y4 & Y5). rewrite V1, V2.
  destruct ((plen l1 - 2 <=? ppos l1 + 1) && negb (plen l1 =? 0)) eqn:T.
  - eexists. split; [reflexivity|]. constructor; auto.
    + split; [|left; reflexivity]. pose proof (foot_step l2 P2 O2 ltac:(lia) ltac:(lia)) as F. rewrite V1 in F. rewrite <- V1 in *. exact F.
    + intros p x [X|X]; [discriminate X|exact (Y5 p x X)].
  - exists l2. split; [reflexivity|]. constructor; auto. split; [exact P2|]. right. exact (O3 eq_refl).
Qed.
