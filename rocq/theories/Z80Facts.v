(** Lemmas on the operands of the Z80. *)
From Coq Require Import String Ascii ZArith List Bool Lia ZifyBool.
From Verif Require Import Base State Tree Filter Output Label Operator Parse Scode Tables Cpu6800 CpuZ80 Crasm BaseFacts FilterFacts TreeFacts
  Frame Eval SpecEmit EmitFacts PseudoFacts SpecForms FormFacts SpecCpu CpuFacts SpecZ80.
From Verif Require SpecSplit.
Import ListNotations.
Open Scope Z_scope.
Ltac Zify.zify_post_hook ::= Z.div_mod_to_equations.

(** * Registers *)
Definition naming : relation := fun d s s' => match d with Fine => named s -> named s' | _ => True end.

Lemma naming_osteps : osteps naming.
Proof.
  constructor; [constructor|..]; unfold naming; intros; auto. destruct d; auto.
Qed.
Lemma named_used : forall k s, named s -> named (set_sy (tupd k (fun l => set_l_flags (set_f_used true l.(l_flags)) l) s.(sy)) s).
Proof.
  intros k s H k' l F T. cbn [sy set_sy] in F. destruct (str_dec k' k) as [->|N].
  - rewrite tfind_tupd_same in F. destruct (tfind k (sy s)) as [l0|] eqn:E; [|discriminate F]. injection F as <-. exact (H k l0 E T).
  - rewrite tfind_tupd_other in F by exact N. exact (H k' l F T).
Qed.
Lemma naming_steps : esteps naming.
Proof.
  constructor; [apply naming_osteps|..]; unfold naming.
  - intros s v H. exact H.
  - intros s k. apply named_used.
  - intros s k ty E H k' l F T. cbn [sy set_sy] in F. destruct (str_dec k' k) as [->|N].
    + rewrite tfind_tins_same in F by exact E. injection F as <-. exists rB. reflexivity.
    + rewrite tfind_tins_other in F by exact N. exact (H k' l F T).
  - intros s k l _ _ H. exact H.
  - intros m s. destruct (error m s) as [[u|b] s'] eqn:X; [elim (error_never _ _ _ _ _ X)|].
    destruct b; exact I.
Qed.

Definition listed (r : result) : Prop := r.(r_type) = TRegs -> is_register r.(r_modifier).
Lemma putres_val : forall t r s x s', putres t r s = (Ok x, s') -> x = r.
Proof. intros t r s x s' E. unfold putres in E. step E u s1 E1. injection E as <- _. reflexivity. Qed.
Lemma constant_listed : forall t r v s x s', constant t r v s = (Ok x, s') -> listed x.
Proof.
  intros t r [z|m] s x s' E; cbn [constant] in E; [|elim (error_never _ _ _ _ _ E)].
  apply putres_val in E. subst x. discriminate.
Qed.
Lemma cstlabel_listed : forall t n s x s', named s -> cstlabel t n s = (Ok x, s') -> listed x.
Proof.
  intros t n s x s' H E. unfold cstlabel in E. step E k s1 E1.
  pose proof (pe_findlabel _ naming_steps n s) as K. rewrite E1 in K. cbn [how naming fst snd] in K. specialize (K H).
  step E q s2 E2. apply gets_ok in E2. destruct E2 as [-> ->]. destruct (tfind k (sy s1)) as [l|] eqn:F; [|discriminate E].
  step E r s2 E2. apply putres_val in E2. subst r.
  destruct (_ && _); [elim (error_never _ _ _ _ _ E)|]. injection E as <- _. intros T. exact (K k l F T).
Qed.
Lemma chk64_ok : forall v s x s', chk64 v s = (Ok x, s') -> x = v /\ s' = s.
Proof. intros v s x s' E. unfold chk64 in E. destruct (in_s64 v); [injection E as <- <-; auto|discriminate E]. Qed.
Lemma apply1_listed : forall t o a s x s', apply1 t o a s = (Ok x, s') -> listed x.
Proof.
  intros t o a s x s' E. destruct o; cbn [apply1] in E; step E u s1 E1; apply checktype_ok in E1; destruct E1 as [T ->];
    try (apply putres_val in E); [step E v s1 E1; apply putres_val in E|..]; subst x; unfold listed; cbn [r_type set_r_value]; try rewrite T; discriminate.
Qed.
Lemma apply2_listed : forall t o a b s x s', listed a -> apply2 t o a b s = (Ok x, s') -> listed x.
Proof.
  intros t o a b s x s' La E. unfold apply2 in E. cbv zeta in E. destruct o.
  - step E u s1 E1. step E u1 s2 E2. apply putres_val in E. subst x. exact La.
  - step E v s1 E1. destruct (r_type a), (r_type b); try (elim (error_never _ _ _ _ _ E)); apply putres_val in E; subst x; discriminate.
  - destruct (r_type a), (r_type b); try (elim (error_never _ _ _ _ _ E)); try (step E v s1 E1; apply putres_val in E; subst x; discriminate).
    destruct (bitindex 32 0 (r_value a)); [|discriminate E]. destruct (bitindex 32 0 (r_value b)); [|discriminate E].
    destruct (_ <? _); [elim (error_never _ _ _ _ _ E)|discriminate E].
  - step E u s1 E1. step E v s2 E2. apply putres_val in E. subst x. exact La.
  - step E u s1 E1. destruct (_ =? _); [|step E v s2 E2]; apply putres_val in E; subst x; exact La.
  - step E u s1 E1. apply putres_val in E. subst x. exact La.
  - step E u s1 E1. apply putres_val in E. subst x. exact La.
  - step E u s1 E1. apply putres_val in E. subst x. exact La.
  - step E u s1 E1. destruct (_ && _); [|discriminate E]. apply putres_val in E. subst x. exact La.
  - step E u s1 E1. destruct (_ && _); [|discriminate E]. apply putres_val in E. subst x. exact La.
  - step E u s1 E1. step E r s2 E2. apply putres_val in E2. subst r.
    destruct (_ <? _); [elim (error_never _ _ _ _ _ E)|]. injection E as <- _. discriminate.
Qed.
Lemma trycst_listed : forall t r e l s x s', trycst t r e l s = (Ok x, s') -> listed x.
Proof.
  intros t r e l. induction l as [|[f conv] l IH]; intros s x s' E; cbn [trycst] in E.
  - destruct e as [|c e]; [elim (error_never _ _ _ _ _ E)|]. destruct (isdigit c); [eapply constant_listed; exact E|].
    destruct (_ || _); [eapply constant_listed; exact E|]. elim (error_never _ _ _ _ _ E).
  - step E m s1 E1. destruct m as [[|c m]|]; [eapply IH; exact E| |eapply IH; exact E]. eapply constant_listed; exact E.
Qed.
Lemma naming_ok : forall A (m : M A) s a s', pres naming A m -> m s = (Ok a, s') -> named s -> named s'.
Proof. intros A m s a s' K E. specialize (K s). rewrite E in K. exact K. Qed.

Lemma parserows_listed : forall rec,
  (forall t r e s x s', named s -> rec t r e s = (Ok x, s') -> listed x /\ named s') -> forall rows t r e s x s', named s ->
  parserows rec t r e rows s = (Ok x, s') -> listed x.
Proof.
  intros rec H rows. induction rows as [|row rows IH]; intros t r e s x s' N E; cbn [parserows] in E; cbv zeta in E.
  - destruct (checklabel _); [eapply cstlabel_listed; eassumption|eapply trycst_listed; exact E].
  - destruct row as [l|f o|f].
    + step E m s1 E1. apply (naming_ok _ _ _ _ _ (pe_trygroup _ naming_steps e l)) in E1; [|exact N].
      destruct m as [[[[|c1 t1] [|c2 t2]] o]|]; try (eapply IH; [|exact E]; exact E1).
      step E a s2 E2. destruct (H _ _ _ _ _ _ E1 E2) as [La N2]. step E b s3 E3. eapply apply2_listed; eassumption.
    + step E m s1 E1. apply (naming_ok _ _ _ _ _ (pe_filter1 _ naming_steps e f)) in E1; [|exact N].
      destruct m as [[|c t1]|]; try (eapply IH; [|exact E]; exact E1).
      step E a s2 E2. eapply apply1_listed; eassumption.
    + step E m s1 E1. apply (naming_ok _ _ _ _ _ (pe_filter1 _ naming_steps e f)) in E1; [|exact N].
      destruct m as [[|c t1]|]; try (eapply IH; [|exact E]; exact E1).
      destruct (H _ _ _ _ _ _ E1 E) as [La N2]. exact La.
Qed.
Lemma parse2_listed : forall n t r e s x s', named s -> parse2 n t r e s = (Ok x, s') -> listed x /\ named s'.
Proof.
  induction n as [|n IH]; intros t r e s x s' N E; [discriminate E|].
  split; [|eapply naming_ok; [apply (pe_parse2 _ naming_steps (S n) t r e)|exact E|exact N]].
  cbn [parse2] in E. eapply parserows_listed; eassumption.
Qed.
Theorem parse_listed : forall e s x s', named s -> parse e s = (Ok x, s') -> listed x /\ named s'.
Proof.
  intros e s x s' N E. split; [|eapply naming_ok; [apply (pe_parse _ naming_steps e)|exact E|exact N]].
  unfold parse in E. destruct e as [|c e]; [elim (error_never _ _ _ _ _ E)|].
  step E m s1 E1. apply (naming_ok _ _ _ _ _ (pe_filter1 _ naming_steps _ _)) in E1; [|exact N].
  step E u s2 E2. assert (N2 : named s2).
  { unfold when in E2. destruct m; [|injection E2 as _ <-; exact E1].
    eapply naming_ok; [apply (pres_warning _ naming_osteps)|exact E2|exact E1]. }
  step E r s3 E3. apply gets_ok in E3. destruct E3 as [-> ->]. eapply parse2_listed; eassumption.
Qed.

(** * States near each other *)
Lemma near_same : forall s s', same s s' -> near s s'.
Proof. unfold near, same. cbn [set_cp fl inp cp files maintext ct sy]. intros s s' (A & B & C & D & E & F & G). repeat (split; [assumption || reflexivity|]). exact G. Qed.
Lemma near_refl : forall s, near s s.
Proof. intros s. apply near_same. apply same_refl. Qed.
Lemma near_trans : forall a b c, near a b -> near b c -> near a c.
Proof.
  unfold near, same. cbn [set_cp fl inp cp files maintext ct sy].
  intros a b c (A1 & A2 & A3 & A4 & A5 & A6 & A7) (B1 & B2 & B3 & B4 & B5 & B6 & B7).
  repeat (split; [congruence|]). eapply keeps_trans; eassumption.
Qed.
Lemma near_fl : forall s s', near s s' -> s'.(fl) = s.(fl).
Proof. intros s s' H. apply H. Qed.
Definition close (s s' : state) : Prop := near s s' /\ still s s' /\ (named s -> named s').
Lemma close_refl : forall s, close s s.
Proof. intros s. split; [apply near_refl|]. split; [apply still_refl|auto]. Qed.
Lemma close_trans : forall a b c, close a b -> close b c -> close a c.
Proof. intros a b c (A1 & A2 & A3) (B1 & B2 & B3). split; [eapply near_trans; eassumption|]. split; [eapply still_trans; eassumption|auto]. Qed.
Lemma close_cp : forall s f, close s (set_cp f s).
Proof.
  intros s f. split; [|split; [apply (still_refl s)|auto]]. unfold near, same. cbn [set_cp fl inp cp files maintext ct sy]. repeat (split; [reflexivity|]). apply keeps_refl.
Qed.
Lemma close_eval : forall A (m : M A) s a s', pres evaluating A m -> pres naming A m -> m s = (Ok a, s') -> close s s' /\ s'.(cp) = s.(cp).
Proof.
  intros A m s a s' K1 K2 E. specialize (K1 s). specialize (K2 s). rewrite E in K1, K2. cbn [how fst snd evaluating naming] in K1, K2.
  destruct K1 as [K1 K3]. split; [|apply K1]. split; [apply near_same; exact K1|]. split; assumption.
Qed.
Lemma close_filterc : forall t p s r s', filterc t p s = (Ok r, s') -> close s s' /\ s'.(cp) = s.(cp).
Proof. intros t p s r s' E. eapply close_eval; [apply (pres_filterc _ evaluating_osteps)|apply (pres_filterc _ naming_osteps)|exact E]. Qed.
Lemma close_filter0 : forall t p s r s', filter0 t p s = (Ok r, s') -> close s s' /\ s'.(cp) = s.(cp).
Proof. intros t p s r s' E. eapply close_eval; [apply (pe_filter0 _ evaluating_steps)|apply (pe_filter0 _ naming_steps)|exact E]. Qed.
Lemma close_filter1 : forall t p s r s', filter1 t p s = (Ok r, s') -> close s s' /\ s'.(cp) = s.(cp).
Proof. intros t p s r s' E. eapply close_eval; [apply (pe_filter1 _ evaluating_steps)|apply (pe_filter1 _ naming_steps)|exact E]. Qed.
Lemma close_filter2 : forall t p s r s', filter2 t p s = (Ok r, s') -> close s s' /\ s'.(cp) = s.(cp).
Proof. intros t p s r s' E. eapply close_eval; [apply (pe_filter2 _ evaluating_steps)|apply (pe_filter2 _ naming_steps)|exact E]. Qed.
Lemma close_parse : forall t s r s', parse t s = (Ok r, s') -> close s s' /\ s'.(cp) = s.(cp).
Proof. intros t s r s' E. eapply close_eval; [apply (pe_parse _ evaluating_steps)|apply (pe_parse _ naming_steps)|exact E]. Qed.
Lemma close_warning : forall m s r s', warning m s = (Ok r, s') -> close s s' /\ s'.(cp) = s.(cp).
Proof. intros m s r s' E. eapply close_eval; [apply (pres_warning _ evaluating_osteps)|apply (pres_warning _ naming_osteps)|exact E]. Qed.
Lemma upd_cp_ok : forall f s u s', upd_cp f s = (Ok u, s') -> s' = set_cp (f s.(cp)) s.
Proof. intros f s u s' E. unfold upd_cp, modify in E. injection E as _ <-. reflexivity. Qed.

Lemma value_z_near : forall s s1 t v, near s s1 -> value_z s1 t v -> value_z s t v.
Proof. intros s s1 t v N (a & b & r & H & P). exists a, b, r. split; [eapply near_trans; eassumption|exact P]. Qed.
Lemma reads_near : forall s s1 t x, near s s1 -> reads s1 t x -> reads s t x.
Proof.
  intros s s1 t x N H. destruct H as [iy a F|iy a v F V|iy a v F V|r a F|a v F V|a v F V|a r F V].
  - eapply rd_idx; exact F.
  - eapply rd_plus; [exact F|eapply value_z_near; eassumption].
  - eapply rd_minus; [exact F|eapply value_z_near; eassumption].
  - eapply rd_ind; exact F.
  - eapply rd_mem; [exact F|eapply value_z_near; eassumption].
  - eapply rd_num; [exact F|eapply value_z_near; eassumption].
  - eapply rd_reg; [exact F|]. destruct V as (p & q & w & H & V). exists p, q, w. split; [eapply near_trans; eassumption|exact V].
Qed.
Lemma trunc_s32 : forall v, trunc32 v = s32 v.
Proof. reflexivity. Qed.
Lemma value_z_here : forall s t r s', parse t s = (Ok r, s') -> r.(r_type) = TAbs -> value_z s t (s32 r.(r_value)).
Proof. intros s t r s' E T. exists s, s', r. split; [apply near_refl|]. split; [exact E|]. split; [exact T|reflexivity]. Qed.

(** * Reading an operand *)
(** The number getreg returns and what it stores. *)
Definition zcode (x : zop) : Z :=
  match x with
  | Reg rIX | Reg rIY => 10
  | Reg r => number r
  | Ind rHL | Idx _ _ => 6
  | Ind rBC => -4
  | Ind rDE => -5
  | Mem _ => -1
  | Num _ => -2
  | _ => -99
  end.
Definition use (i : Z) (c : cpustate) : option cpustate :=
  if negb (c.(z_indexflag) =? 0) && negb (c.(z_indexflag) =? i) then None else Some (set_z_indexflag i c).
Definition eff (x : zop) (c : cpustate) : option cpustate :=
  match x with
  | Idx iy d =>
      if negb (c.(z_indexflag) =? 0) || c.(z_offsetflag) then None
      else Some (set_z_indexflag (if iy then IY else IX) (set_z_offsetflag true (set_z_offset d c)))
  | Ind rHL | Reg rHL => use HL c
  | Reg rIX => use IX c
  | Reg rIY => use IY c
  | Mem v | Num v =>
      if c.(z_arg8flag) || c.(z_arg16flag) then None else Some (set_z_arg v (set_z_arg16flag true c))
  | Ind rBC | Ind rDE | Reg _ => Some c
  | _ => None
  end.

Inductive idxread (s : state) (a : text) : zform -> zop -> Prop :=
| ir_0 : forall iy, idxread s a (FIdx iy) (Idx iy 0)
| ir_plus : forall iy v, value_z s a v -> idxread s a (FPlus iy) (Idx iy v)
| ir_minus : forall iy v, value_z s a v -> idxread s a (FMinus iy) (Idx iy (trunc32 (- v))).
Definition idxform (i : Z) : zform :=
  if i <=? 1 then FIdx (Z.odd i) else if i <=? 3 then FPlus (Z.odd i) else FMinus (Z.odd i).

Lemma when_fine : forall b (m : M unit) s u s', when b m s = (Ok u, s') -> (b = true /\ m s = (Ok u, s')) \/ (b = false /\ s' = s).
Proof. intros b m s u s' E. unfold when in E. destruct b; [left; auto|right]. injection E as _ <-. auto. Qed.

Lemma getindexed_ok : forall t l fs, Forall2 (fun p q => form_of (s2l (fst p)) = Some (fst q) /\ snd q = idxform (snd p)) l fs ->
  forall tail s b s', getindexed t l s = (Ok b, s') ->
  close s s' /\
  if b then exists w a x, first_fit t (fs ++ tail) w a /\ idxread s a w x /\ eff x s.(cp) = Some s'.(cp) /\ zcode x = 6
  else s'.(cp) = s.(cp) /\ forall w a, first_fit t tail w a -> first_fit t (fs ++ tail) w a.
Proof.
  intros t l fs F. induction F as [|[pat i] [f w] l fs (Fo & W) F IH]; intros tail s b s' E; cbn [getindexed fst snd app] in *.
  { injection E as <- <-. split; [apply close_refl|]. auto. }
  step E m s1 E1. destruct (close_filterc _ _ _ _ _ E1) as [C1 P1]. apply (filterc_form _ _ _ _ _ _ Fo) in E1.
  destruct m as [[caps used]|].
  - destruct E1 as (a & Fi & Ca). step E u s2 E2. apply upd_cp_ok in E2. subst s2.
    step E u1 s2 E2.
    assert (V : close s1 s2 /\ exists d, s2.(cp) = set_z_offset d s1.(cp) /\ idxread s a w (Idx (Z.odd i) d)).
    { rewrite W. unfold idxform. destruct (1 <? i) eqn:I.
      - step E2 r s3 E3. destruct (close_parse _ _ _ _ E3) as [C3 P3]. 
        step E2 u2 s4 E4. apply checktype_ok in E4. destruct E4 as [T ->]. apply upd_cp_ok in E2. subst s2.
        assert (Z0 : value_z s a (s32 (r_value r))).
        { apply (value_z_near _ _ _ _ (proj1 C1)). apply (value_z_near _ _ _ _ (proj1 (close_cp s1 (set_z_offset 0 (cp s1))))).
          eapply value_z_here; [|exact T].
          assert (X : match caps with a :: _ => a | [] => [] end = a).
          { destruct f; subst caps; [|reflexivity]. inversion Fi. reflexivity. }
          rewrite <- X. exact E3. }
        split.
        + eapply close_trans; [apply close_cp|]. eapply close_trans; [exact C3|]. apply close_cp.
        + replace (i <=? 1) with false by lia. destruct (3 <? i) eqn:I3.
          * exists (s32 (- s32 (r_value r))). split; [cbn [cp set_cp]; rewrite P3; reflexivity|].
            replace (i <=? 3) with false by lia. constructor. exact Z0.
          * exists (s32 (r_value r)). split; [cbn [cp set_cp]; rewrite P3; reflexivity|].
            replace (i <=? 3) with true by lia. constructor. exact Z0.
      - injection E2 as _ <-. split; [apply close_cp|]. exists 0. split; [reflexivity|]. replace (i <=? 1) with true by lia. constructor. }
    destruct V as (C2 & d & P2 & R). clear E2.
    step E c s3 E3. apply gets_ok in E3. destruct E3 as [-> ->].
    step E u2 s3 E3. apply when_err in E3. destruct E3 as [B ->].
    step E u3 s3 E3. apply upd_cp_ok in E3. subst s3. step E u4 s3 E3. apply upd_cp_ok in E3. subst s3.
    injection E as <- <-. split.
    + eapply close_trans; [exact C1|]. eapply close_trans; [exact C2|]. eapply close_trans; apply close_cp.
    + exists w, a, (Idx (Z.odd i) d). split; [constructor; exact Fi|]. split; [exact R|]. split; [|reflexivity].
      cbn [eff cp set_cp]. rewrite P2, P1 in *. cbn [z_indexflag z_offsetflag set_z_offset] in B. rewrite B. reflexivity.
  - destruct (IH tail _ _ _ E) as (C2 & K). split; [eapply close_trans; eassumption|]. destruct b.
    + destruct K as (w' & a & x & Ff & R & Ef & Zc). exists w', a, x. split; [apply ff_there; assumption|]. split.
      * destruct R; constructor; eapply value_z_near; try eassumption; apply C1.
      * rewrite <- P1. split; assumption.
    + destruct K as [P2 K]. split; [congruence|]. intros w' a Ff. apply ff_there; [exact E1|]. apply K. exact Ff.
Qed.

Lemma indexed_forms : Forall2 (fun p q => form_of (s2l (fst p)) = Some (fst q) /\ snd q = idxform (snd p)) indexed (firstn 6 zforms).
Proof. unfold indexed. cbn [firstn zforms]. repeat (apply Forall2_cons; [split; reflexivity|]). apply Forall2_nil. Qed.

Lemma filter0_form : forall pat f t s b s', form_of (s2l pat) = Some f -> filter0 t pat s = (Ok b, s') ->
  if b then exists a, fits f t a else forall a, ~ fits f t a.
Proof.
  intros pat f t s b s' Fo E. unfold filter0 in E. step E r s1 E1. injection E as <- _. apply (filterc_form _ _ _ _ _ _ Fo) in E1.
  destruct r as [[l ?]|]; [|exact E1]. destruct E1 as (a & Fi & _). exists a. exact Fi.
Qed.
Lemma filter1_form : forall pat p q t s r s', form_of (s2l pat) = Some (Free p q) -> filter1 t pat s = (Ok r, s') ->
  match r with Some a => fits (Free p q) t a | None => forall a, ~ fits (Free p q) t a end.
Proof.
  intros pat p q t s r s' Fo E. unfold filter1 in E. step E m s1 E1. injection E as <- _. apply (filterc_form _ _ _ _ _ _ Fo) in E1.
  destruct m as [[l ?]|]; [|exact E1]. destruct E1 as (a & Fi & ->). exact Fi.
Qed.

Lemma pow_number : forall r, s32 (Z.shiftl 1 (number r)) = 2 ^ number r.
Proof. intros []; reflexivity. Qed.
Lemma use_ok : forall i s u s' u' s'', when (negb (z_indexflag (cp s) =? 0) && negb (z_indexflag (cp s) =? i)) (err badop) s = (Ok u, s') ->
  upd_cp (set_z_indexflag i) s' = (Ok u', s'') -> use i s.(cp) = Some s''.(cp) /\ close s s''.
Proof.
  intros i s u s' u' s'' E1 E2. apply when_err in E1. destruct E1 as [B ->]. apply upd_cp_ok in E2. subst s''. split; [|apply close_cp].
  unfold use. rewrite B. reflexivity.
Qed.

Theorem getreg_ok : forall t s g s', named s -> getreg t s = (Ok g, s') ->
  exists x, reads s t x /\ eff x s.(cp) = Some s'.(cp) /\ g = zcode x /\ close s s'.
Proof.
  intros t s g s' N E. unfold getreg in E. step E b s1 E1.
  apply (getindexed_ok _ _ _ indexed_forms (skipn 6 zforms)) in E1. change (firstn 6 zforms ++ skipn 6 zforms) with zforms in E1.
  destruct E1 as [C1 K]. destruct b.
  { destruct K as (w & a & x & Ff & R & Ef & Zc). injection E as <- <-. exists x. split; [|split; [exact Ef|]; split; [symmetry; exact Zc|exact C1]].
    destruct R as [iy|iy v V|iy v V]; [eapply rd_idx; exact Ff|eapply rd_plus; eassumption|eapply rd_minus; eassumption]. }
  destruct K as [P1 K]. cbn [skipn zforms] in K.
  step E b s2 E2. destruct (close_filter0 _ _ _ _ _ E2) as [C2 P2]. apply (filter0_form _ (Fixed (t_ "(_HL_)"))) in E2; [|reflexivity].
  pose proof (close_trans _ _ _ C1 C2) as C. rewrite P1 in P2. clear C1 C2 P1. destruct b.
  { destruct E2 as (a & Fi). step E c s3 E3. apply gets_ok in E3. destruct E3 as [-> ->]. step E u s3 E3. step E u1 s4 E4.
    injection E as <- <-. destruct (use_ok _ _ _ _ _ _ E3 E4) as [U C4]. exists (Ind rHL). split; [|rewrite P2 in U; split; [exact U|]; split; [reflexivity|]].
    - eapply rd_ind. apply K. constructor. exact Fi.
    - eapply close_trans; eassumption. }
  assert (K1 : forall w a, first_fit t (skipn 7 zforms) w a -> first_fit t zforms w a) by (intros; apply K; apply ff_there; assumption).
  clear K E2. cbn [skipn zforms] in K1.
  step E b s3 E3. destruct (close_filter0 _ _ _ _ _ E3) as [C3 P3]. apply (filter0_form _ (Fixed (t_ "(_BC_)"))) in E3; [|reflexivity].
  apply (close_trans _ _ _ C) in C3. rewrite P2 in P3. clear C P2. destruct b.
  { injection E as <- <-. destruct E3 as (a & Fi). exists (Ind rBC). split; [|split; [cbn [eff]; rewrite P3; reflexivity|split; [reflexivity|exact C3]]].
    eapply rd_ind. apply K1. constructor. exact Fi. }
  assert (K2 : forall w a, first_fit t (skipn 8 zforms) w a -> first_fit t zforms w a) by (intros; apply K1; apply ff_there; assumption).
  clear K1 E3. cbn [skipn zforms] in K2.
  step E b s4 E4. destruct (close_filter0 _ _ _ _ _ E4) as [C4 P4]. apply (filter0_form _ (Fixed (t_ "(_DE_)"))) in E4; [|reflexivity].
  apply (close_trans _ _ _ C3) in C4. rewrite P3 in P4. clear C3 P3. destruct b.
  { injection E as <- <-. destruct E4 as (a & Fi). exists (Ind rDE). split; [|split; [cbn [eff]; rewrite P4; reflexivity|split; [reflexivity|exact C4]]].
    eapply rd_ind. apply K2. constructor. exact Fi. }
  assert (K3 : forall w a, first_fit t (skipn 9 zforms) w a -> first_fit t zforms w a) by (intros; apply K2; apply ff_there; assumption).
  clear K2 E4. cbn [skipn zforms] in K3.
  step E m s5 E5. destruct (close_filter1 _ _ _ _ _ E5) as [C5 P5]. apply (filter1_form _ (t_ "(_") (t_ "_)")) in E5; [|reflexivity].
  apply (close_trans _ _ _ C4) in C5. rewrite P4 in P5. clear C4 P4. destruct m as [a|].
  { step E r s6 E6. destruct (close_parse _ _ _ _ E6) as [C6 P6]. step E u s7 E7. apply checktype_ok in E7. destruct E7 as [T ->].
    step E c s7 E7. apply gets_ok in E7. destruct E7 as [-> ->]. step E u1 s7 E7. apply when_err in E7. destruct E7 as [B ->].
    step E u2 s7 E7. apply upd_cp_ok in E7. subst s7. step E u3 s7 E7. apply upd_cp_ok in E7. subst s7. injection E as <- <-.
    exists (Mem (s32 (r_value r))). split; [|split; [|split; [reflexivity|]]].
    - eapply rd_mem; [apply K3; constructor; exact E5|]. eapply value_z_near; [apply C5|]. eapply value_z_here; eassumption.
    - cbn [eff cp set_cp]. rewrite P6, P5 in *. rewrite B. reflexivity.
    - eapply close_trans; [exact C5|]. eapply close_trans; [exact C6|]. eapply close_trans; apply close_cp. }
  assert (Ff : exists a, first_fit t zforms FPlain a /\ a = t).
  { exists t. split; [|reflexivity]. apply K3. apply ff_there; [exact E5|]. constructor.
    replace t with ([] ++ t ++ []) at 1 by (cbn [app]; apply app_nil_r). constructor; [constructor|constructor|congruence]. }
  destruct Ff as (a & Ff & Ea). clear K3 E5.
  step E r s6 E6. destruct (close_parse _ _ _ _ E6) as [C6 P6]. pose proof (close_trans _ _ _ C5 C6) as C7.
  destruct (parse_listed _ _ _ _ (proj2 (proj2 C5) N) E6) as [Li _].
  destruct (ltype_eqb (r_type r) TAbs) eqn:Ty.
  { assert (T : r_type r = TAbs) by (destruct (r_type r); try discriminate Ty; reflexivity).
    step E c s7 E7. apply gets_ok in E7. destruct E7 as [-> ->]. step E u1 s7 E7. apply when_err in E7. destruct E7 as [B ->].
    step E u2 s7 E7. apply upd_cp_ok in E7. subst s7. step E u3 s7 E7. apply upd_cp_ok in E7. subst s7. injection E as <- <-.
    exists (Num (s32 (r_value r))). split; [|split; [|split; [reflexivity|]]].
    - eapply rd_num; [exact Ff|]. rewrite Ea. eapply value_z_near; [apply C5|]. eapply value_z_here; eassumption.
    - cbn [eff cp set_cp]. rewrite P6, P5 in *. rewrite B. reflexivity.
    - eapply close_trans; [exact C7|]. eapply close_trans; apply close_cp. }
  step E u s7 E7. apply checktype_ok in E7. destruct E7 as [T ->]. destruct (Li T) as (n & Mn). rewrite Mn in E.
  step E u1 s7 E7. assert (B : (number n <? 0) || (31 <? number n) = false) by (destruct n; reflexivity). rewrite B in E7.
  apply when_err in E7. destruct E7 as [V ->]. rewrite pow_number in V.
  assert (Rd : reads s t (Reg n)).
  { eapply rd_reg; [exact Ff|]. rewrite Ea. exists s5, s6, r. split; [apply C5|]. split; [exact E6|]. split; [exact T|]. split; [exact Mn|]. lia. }
  rewrite <- P5, <- P6. exists (Reg n). split; [exact Rd|].
  destruct n; cbn [number] in E; cbn [Z.eqb Pos.eqb orb HLREGISTER] in E;
    try (injection E as <- <-; split; [reflexivity|]; split; [reflexivity|exact C7]);
    (step E c s7 E7; apply gets_ok in E7; destruct E7 as [-> ->]; step E u2 s7 E7; step E u3 s9 E8; injection E as <- <-;
     destruct (use_ok _ _ _ _ _ _ E7 E8) as [U C8]; split; [exact U|]; split; [reflexivity|]; eapply close_trans; eassumption).
Qed.
