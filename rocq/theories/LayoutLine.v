(** The lines of the two passes. *)
From Coq Require Import String Ascii ZArith List Bool Lia ZifyBool ZifyNat.
From Verif Require Import Base State Tree Tables Filter Output Label Operator Parse Scode Macro Cpu6800 Cpu6502 CpuZ80 Pseudos Crasm.
From Verif Require Import TreeFacts Frame Walk Run SymFacts SpecLayout LayoutFacts LayoutRel LayoutOps LayoutPseudo.
From Verif Require Import SpecStar.
From Verif Require BaseFacts FilterFacts MacroFacts InputFacts.
Import ListNotations.
Open Scope Z_scope.

(** ** Finding the instruction *)
Definition agrees (m1 m2 : option (str * label)) : Prop :=
  match m1, m2 with
  | None, None => True
  | Some (k1, l1), Some (k2, l2) => k1 = k2 /\ samelab l1 l2 /\ (l1.(l_type) = TMnemo \/ l1.(l_type) = TMacro)
  | _, _ => False
  end.
Lemma usable_undef : forall k l, l.(l_flags).(f_undef) = true -> usable (k, l) = None.
Proof. intros k l U. unfold usable. cbn [snd]. rewrite U. reflexivity. Qed.
Lemma usable_same : forall k l1 l2, samelab l1 l2 -> agrees (usable (k, l1)) (usable (k, l2)).
Proof.
  intros k l1 l2 S. pose proof S as (U1 & U2 & Ty & _). unfold usable. cbn [snd]. rewrite U1, U2, <- Ty. cbn [negb andb].
  destruct (l_type l1) eqn:E; cbn; auto.
Qed.
Lemma dot_needed : forall t s a s', filter2 t "?.?" s = (Ok (Some a), s') -> ~ undotted t.
Proof.
  intros t s a s' E N. apply MacroFacts.filter2_eq in E. destruct E as [_ E]. destruct (fr_caps (filter_pure t (s2l "?.?"))) as [l|] eqn:F; [|discriminate E].
  destruct (FilterFacts.filter_needs _ _ _ F "."%char) as (c & Ic & Mc); try (cbn; auto; lia).
  apply N. replace "."%char with c; [exact Ic|]. apply BaseFacts.zc_inj. destruct c as [[] [] [] [] [] [] [] []]; vm_compute in Mc |- *; first [reflexivity|discriminate Mc].
Qed.

Section Line.
Variable F : final.
Variable SF : forward_numbers F.
Notation rel := (rel F).
Notation T := (T F).

Lemma lookups : forall t1 t2 k, tables F t1 t2 -> grows t1 F ->
  match tfind k t1 with
  | Some l1 => exists l2, tfind k t2 = Some l2 /\ ((l1.(l_flags).(f_undef) = true /\ l2.(l_flags).(f_undef) = true) \/ samelab l1 l2)
  | None => tfind k t2 = None \/ exists l2, tfind k t2 = Some l2 /\ l2.(l_flags).(f_undef) = true
  end.
Proof.
  intros t1 t2 k H G. specialize (H k). specialize (G k). destruct H as [H1 H2]. destruct (str_dec k starkey) as [K|K].
  - destruct (H1 K) as (l1 & l2 & -> & -> & A & _ & _ & _ & _ & _ & S). exists l2. split; [reflexivity|].
    destruct (f_undef (l_flags l1)); [left; auto|right; auto].
  - specialize (H2 K). destruct (tfind k t1) as [l1|].
    + destruct G as (lF & EF & _). rewrite EF in H2. destruct (f_undef (l_flags l1)).
      * destruct H2 as (_ & l2 & E2 & _ & U). exists l2. auto.
      * destruct H2 as (l2 & E2 & S & _). exists l2. auto.
    + destruct (tfind k F) as [lF|]; [|left; exact H2]. destruct H2 as (l2 & E2 & _ & U). right. exists l2. auto.
Qed.
Lemma findmnemo_agrees : forall z m s1 s2 a s1' b s2', T z s1 s2 -> grows s1.(sy) F -> findmnemo m s1 = (Ok a, s1') -> findmnemo m s2 = (Ok b, s2') ->
  plainly m a -> agrees a b.
Proof.
  intros z m s1 s2 a s1' b s2' Ht G E1 E2 P. assert (Sg : segment (inp s2) = segment (inp s1)) by (exact (f_equal segment (eq_sym (a_inp _ _ _ _ Ht)))).
  pose proof (a_tables _ _ _ _ Ht) as Tb. cbn in Tb.
  unfold findmnemo, searchlabel in E1, E2. unfold bind at 1 2 in E1. unfold bind at 1 2 in E2. cbn [gets ret] in E1, E2. cbv zeta in E1, E2. rewrite Sg in E2.
  pose proof (lookups _ _ (lkey (segment (inp s1)) m) Tb G) as L. destruct (tfind _ (sy s1)) as [l1|].
  - destruct L as (l2 & L2 & L). rewrite L2 in E2. injection E1 as <- <-. injection E2 as <- <-. destruct L as [[U1 U2]|S]; [|apply usable_same, S].
    rewrite !usable_undef by assumption. exact Logic.I.
  - unfold bind at 1 in E1. destruct (filter2 m "?.?" s1) as [[a0|] s3] eqn:E0; [|discriminate E1]. pose proof E0 as Ef. apply MacroFacts.filter2_eq in E0. destruct E0 as [L1 V1].
    assert (N : a0 <> None -> a = None).
    { intros Na. destruct a as [kl|]; [|reflexivity]. exfalso. destruct a0 as [[x y]|]; [|apply Na; reflexivity].
      apply (dot_needed _ _ _ _ Ef). apply P. discriminate. }
    destruct L as [L|(l2 & L & U2)]; rewrite L in E2.
    + unfold bind at 1 in E2. destruct (filter2 m "?.?" s2) as [[a1|] s4] eqn:E0; [|discriminate E2]. apply MacroFacts.filter2_eq in E0. destruct E0 as [L2 V2]. rewrite <- V1 in V2. subst a1. destruct a0 as [[x y]|].
      * specialize (N ltac:(discriminate)). subst a. unfold bind at 1 2 in E1. unfold bind at 1 2 in E2. cbn [gets ret] in E1, E2. cbv zeta in E1, E2.
        destruct L1 as (_ & _ & Y1 & I1 & _), L2 as (_ & _ & Y2 & I2 & _). rewrite Y1, I1 in E1. rewrite Y2, I2, Sg in E2.
        pose proof (lookups _ _ (lkey (segment (inp s1)) x) Tb G) as M. destruct (tfind _ (sy s1)) as [l1|].
        -- destruct M as (l2 & M2 & M). rewrite M2 in E2. injection E1 as E1 _. injection E2 as <- _. destruct M as [[U1 U2]|S].
           ++ rewrite usable_undef by exact U2. destruct (0 <=? l_modifier l2); exact Logic.I.
           ++ pose proof S as (D1 & D2 & Ty & _ & _ & _ & V & _). unfold usable in *. cbn [snd] in *. rewrite D1 in E1. rewrite D2, <- Ty. cbn [negb andb] in *.
              destruct (l_type l1); cbn [ltype_eqb orb] in *; try (destruct (0 <=? l_modifier l2); exact Logic.I); destruct V as (_ & Vm & _); rewrite <- Vm;
                destruct (0 <=? l_modifier l1); first [exact Logic.I|discriminate E1].
        -- destruct M as [M|(l2 & M & U2)]; rewrite M in E2; injection E2 as <- _; [exact Logic.I|]. rewrite usable_undef by exact U2.
           destruct (0 <=? l_modifier l2); exact Logic.I.
      * injection E1 as <- _. injection E2 as <- _. exact Logic.I.
    + injection E2 as <- _. rewrite usable_undef by exact U2. destruct a0 as [xy|]; [rewrite N by discriminate; exact Logic.I|]. injection E1 as <- _. exact Logic.I.
Qed.
Lemma mute_findmnemo : forall m, pres mute _ (findmnemo m).
Proof. intros m. unfold findmnemo, searchlabel, filter2. mutes. Qed.
Lemma rel_findmnemo : forall z lt m, rel z z lt (fun a b => plainly m a -> agrees a b) (findmnemo m) (findmnemo m).
Proof.
  intros z lt m s1 s2 b s2' Ht E. pose proof (rel_mute F z lt _ _ _ _ (mute_findmnemo m) (mute_findmnemo m) _ _ _ _ Ht E) as H.
  pose proof (mute_findmnemo m s1) as C. destruct (findmnemo m s1) as [[a|[e|?|?| |]] s1'] eqn:E1; try exact Logic.I; [|exact H].
  intros G. split; [apply H, G|]. apply (findmnemo_agrees z m s1 s2 a s1' b s2' Ht); try assumption. apply (f_equal k_sy) in C. cbn in C. rewrite <- C. exact G.
Qed.

(** ** Taking the line apart *)
Definition agree3 (a b : str * option (str * label) * option str) : Prop :=
  fst (fst a) = fst (fst b) /\ snd a = snd b /\ (plainly (fst (fst a)) (snd (fst a)) -> agrees (snd (fst a)) (snd (fst b))).
Lemma rel_splitmnemo : forall z lt s, rel z z lt agree3 (splitmnemo s) (splitmnemo s).
Proof.
  intros z lt s. unfold splitmnemo. eapply rel_bind; [apply rel_filter2|gro|]. intros a b <-.
  assert (D : rel z z lt agree3 (l <- findmnemo s ;; ret (s, l, None)) (l <- findmnemo s ;; ret (s, l, None))).
  { eapply rel_bind; [apply rel_findmnemo|gro|]. cbv beta. intros x y H. apply rel_ret. split; [reflexivity|]. split; [reflexivity|exact H]. }
  destruct a as [[[|c x] [|d y]]|]; try exact D. eapply rel_bind; [apply rel_findmnemo|gro|]. cbv beta. intros u v H. apply rel_ret.
  split; [reflexivity|]. split; [reflexivity|exact H].
Qed.
Definition softly : relation := fun d s s' => d = Fine -> coreof s' = coreof s.
Lemma softly_order : order softly.
Proof. constructor; unfold softly; intros; auto; try discriminate. subst d. rewrite H0 by reflexivity. apply H. reflexivity. Qed.
Lemma softly_mute : forall A (m : M A), pres mute _ m -> pres softly _ m.
Proof. intros A m H s D. specialize (H s). destruct (m s) as [[a|[]] s']; try discriminate D. exact H. Qed.
Lemma softly_err : forall A m, pres softly A (err m).
Proof. intros A m s X. destruct (err m s) as [[a|[]] s'] eqn:E; try discriminate X. elim (never_err _ _ _ _ _ E). Qed.
Lemma rel_softly : forall z lt A B (Q : A -> B -> Prop) a m2, pres softly _ m2 -> (forall b, Q a b) -> rel z z lt Q (ret a) m2.
Proof.
  intros z lt A B Q a m2 H Hq s1 s2 b s2' Ht E. specialize (H s2). rewrite E in H. specialize (H eq_refl). cbn in H.
  cbn. intros _. split; [|apply Hq]. exact (T_core _ _ _ _ _ _ Ht eq_refl H).
Qed.
Definition fagree (q1 q2 : fields) : Prop :=
  direct q1 -> q1.(q_label) = q2.(q_label) /\ q1.(q_text) = q2.(q_text) /\ q1.(q_oper) = q2.(q_oper) /\ agrees q1.(q_mnemo) q2.(q_mnemo).
Lemma mute_splitmnemo : forall s, pres mute _ (splitmnemo s).
Proof. intros s. unfold splitmnemo, filter2. mutes; apply mute_findmnemo. Qed.
Lemma rel_splitrest : forall z lt s, rel z z lt fagree (splitrest s) (splitrest s).
Proof.
  intros z lt s. unfold splitrest. eapply rel_bind; [apply rel_splitmnemo|gro|]. intros [[m l1] o] [[m' l2] o'] (E1 & E2 & H). cbn [fst snd] in *. subst m' o'.
  destruct l1 as [[k1 l1]|].
  - destruct l2 as [[k2 l2]|].
    + apply rel_ret. intros P. split; [reflexivity|]. split; [reflexivity|]. split; [reflexivity|]. exact (H P).
    + assert (Q : forall q, fagree (mkFields (Some (k1, l1)) None m o) q) by (intros q P; elim (H P)).
      destruct o as [o|]; [|apply rel_ret, Q]. apply rel_softly; [|exact Q].
      apply (pres_bind _ softly_order); [unfold when; destruct (negb _); [apply softly_err|apply (pres_ret _ softly_order)]|intros _].
      apply (pres_bind _ softly_order); [apply softly_mute, mute_splitmnemo|]. intros [[? ?] ?]. apply (pres_ret _ softly_order).
  - assert (Z : l2 = None) by (specialize (H ltac:(intros X; elim X; reflexivity)); destruct l2 as [[? ?]|]; [destruct H|reflexivity]). subst l2.
    destruct o as [o|].
    + eapply rel_bind; [apply rel_refuse; nolate|gro|]. intros _ _ _. eapply rel_bind; [apply rel_splitmnemo|gro|].
      intros [[m2 l1] o1] [[m3 l3] o3] (E1 & E2 & H2). cbn [fst snd] in *. subst m3 o3. apply rel_ret. intros P. cbn. auto.
    + apply rel_ret. intros P. cbn. auto.
Qed.
Lemma softly_splitline : forall s, pres softly _ (splitline s).
Proof.
  assert (W : forall c m, pres softly _ (when c (err m))).
  { intros c m. unfold when. destruct c; [apply softly_err|apply (pres_ret _ softly_order)]. }
  assert (R : forall s, pres softly _ (splitrest s)).
  { intros s. unfold splitrest. apply (pres_bind _ softly_order); [apply softly_mute, mute_splitmnemo|]. intros [[m l] o].
    destruct l; [apply (pres_ret _ softly_order)|]. destruct o; [|apply (pres_ret _ softly_order)].
    apply (pres_bind _ softly_order); [apply W|intros _].
    apply (pres_bind _ softly_order); [apply softly_mute, mute_splitmnemo|]. intros [[? ?] ?]. apply (pres_ret _ softly_order). }
  intros s. unfold splitline. apply (pres_bind _ softly_order); [apply softly_mute; unfold filter2; mutes|]. intros [[l o]|]; [|apply R].
  destruct (nospacein l); [|apply R]. apply (pres_bind _ softly_order); [apply softly_mute, mute_findmnemo|intros x].
  apply (pres_bind _ softly_order); [apply W|intros _]. apply (pres_ret _ softly_order).
Qed.
Lemma rel_splitline : forall z lt s, rel z z lt fagree (splitline s) (splitline s).
Proof.
  intros z lt s. unfold splitline. eapply rel_bind; [apply rel_filter2|gro|]. intros a b <-. destruct a as [[l o]|]; [|apply rel_splitrest].
  if1; [|apply rel_splitrest]. eapply rel_bind; [apply rel_findmnemo|gro|]. cbv beta. intros x y H.
  eapply rel_bind; [apply rel_refuse; nolate|gro|]. intros _ _ _. apply rel_ret. intros P. cbn. auto.
Qed.

(** ** The start of a line *)
Lemma setpc_core : forall a s, match setpc a s with
  | (Ok _, s') => coreof s' = mkCore s.(ct).(passnumber) s.(ct).(advance) s.(inp) s.(sy) s.(fl).(a_relatif) s.(fl).(a_org_gv) (u64 a) s.(cp) s.(emitted)
  | (Bad (Err _), _) => False
  | _ => True
  end.
Proof.
  intros a s. rewrite setpc_eq. destruct (u64 a =? pc (wr s)) eqn:E.
  - apply Z.eqb_eq in E. rewrite E. reflexivity.
  - pose proof (mute_flush s) as C. unfold bind. destruct (flushscoderaw s) as [[u|[e|?|?| |]] s'] eqn:Ef; try exact Logic.I.
    + cbn in C |- *. unfold coreof in *. cbn. injection C as -> -> -> -> -> -> _ -> ->. reflexivity.
    + exact (calm_mute _ _ mute_flush _ _ _ Ef).
Qed.
Lemma linestart_core : forall s, match linestart s with
  | (Ok _, s') => coreof s' = mkCore s.(ct).(passnumber) 0 s.(inp) s.(sy) s.(fl).(a_relatif) (negb (starundef s))
                    (if starundef s then s.(wr).(pc) else u64 (starvalue s)) s.(cp) s.(emitted)
  | (Bad (Err _), _) => False
  | _ => True
  end.
Proof.
  intros s. unfold linestart. unfold bind at 1. cbn [upd_ct modify]. unfold bind at 1. cbn [gets].
  set (s0 := set_ct (set_advance 0 s.(ct)) s). change (starundef s0) with (starundef s). change (starvalue s0) with (starvalue s).
  destruct (starundef s).
  - reflexivity.
  - unfold bind. cbn [upd_fl modify]. pose proof (setpc_core (starvalue s) (set_fl (set_a_org_gv true s0.(fl)) s0)) as C.
    destruct (setpc _ _) as [[u|[e|?|?| |]] s'] eqn:Ep; try exact Logic.I; [|exact C]. cbn in C |- *. exact C.
Qed.
Lemma linestart_T : forall s1 s2 u s2', Tb F s1 s2 -> s1.(inp) = s2.(inp) -> linestart s2 = (Ok u, s2') ->
  match linestart s1 with
  | (Ok _, s1') => T false s1' s2' /\ s1'.(sy) = s1.(sy)
  | (Bad (Err _), _) => False
  | _ => True
  end.
Proof.
  intros s1 s2 u s2' H I E. pose proof (linestart_core s2) as C2. rewrite E in C2. pose proof (linestart_core s1) as C1.
  destruct (linestart s1) as [[v|[e|?|?| |]] s1']; try exact Logic.I; [|exact C1].
  split; [|exact (f_equal k_sy C1)]. unfold LayoutRel.T. rewrite C1, C2. destruct H as [B1 B2 B3 B4 B5 B6 B7 B8]. cbn in B1, B2, B3, B4, B5, B6, B7, B8.
  destruct (proj1 (B7 starkey) eq_refl) as (l1 & l2 & E1 & E2 & S). pose proof S as (S1 & S2 & _ & _ & _ & _ & S3).
  assert (U : starundef s1 = starundef s2) by (unfold starundef, star; rewrite E1, E2; exact S1).
  assert (V : starundef s1 = false -> starvalue s1 = starvalue s2).
  { unfold starundef, starvalue, star. rewrite E1, E2. intros X. destruct (S3 X) as (_ & _ & _ & _ & _ & _ & V & _). rewrite S2 in V. exact (vals_value _ _ _ _ _ _ _ V). }
  constructor; cbn [k_pass k_adv k_inp k_sy k_rel k_org k_pc k_cp k_em]; try assumption; try reflexivity; try discriminate.
  - rewrite U. reflexivity.
  - rewrite <- U. destruct (starundef s1); [discriminate|]. rewrite V by reflexivity. reflexivity.
  - intros X. exists l1. split; [exact E1|]. unfold starundef, star in X. rewrite E1 in X. destruct (f_undef (l_flags l1)); [discriminate X|reflexivity].
Qed.
Lemma rel_stripline : forall z lt, rel z z lt eq stripline stripline.
Proof.
  intros z lt. unfold stripline. apply rel_look. intros s1 s2 Ht b s2' E. pose proof (a_inp _ _ _ _ Ht) as I. cbn in I. rewrite <- I in E.
  set (c := curline (inp s1)) in *.
  assert (R : rel z z lt eq (m <- filter2 c "_?_;?" ;; match m with Some (t, _) => ret t | None => upd_inp (set_curline (trimblanks c)) ;;; ret (skipblanks (trimblanks c)) end)
    (m <- filter2 c "_?_;?" ;; match m with Some (t, _) => ret t | None => upd_inp (set_curline (trimblanks c)) ;;; ret (skipblanks (trimblanks c)) end)).
  { eapply rel_bind; [apply rel_filter2|gro|]. intros a b' <-. destruct a as [[x y]|]; [apply rel_ret; reflexivity|].
    eapply rel_bind with (Q := any) (z1 := z); [|gro|intros _ _ _; apply rel_ret; reflexivity].
    intros t1 t2 b0 t2' Ht' E'. injection E' as <- <-. cbn. intros _. split; [|exact Logic.I]. destruct Ht'. constructor; cbn in *; auto. congruence. }
  exact (R s1 s2 b s2' Ht E).
Qed.

(** ** One line *)
Definition body (l : label) (lab oper : option str) : M flag :=
  when (l.(l_flags).(f_nolabel) && ogiven lab) (err "labels not allowed here") ;;;
  (if l.(l_flags).(f_deflabel) then when (negb (ogiven lab)) (err "label required here")
   else match lab with Some t => when true (herelabel t) | None => ret tt end) ;;;
  (match l.(l_ptr) with PFun h => exec h l.(l_modifier) lab oper | _ => stop (UB "asmline: bad function pointer") end) ;;; ended true.
Lemma dispatch_body : forall self n key l lab oper s, l.(l_type) = TMnemo -> l.(l_flags).(f_defcond) = false -> l.(l_flags).(f_defmacro) = false ->
  dispatch self n true true key l lab oper s = body l lab oper s.
Proof. intros self n key l lab oper s Ty Dc Dm. unfold dispatch, body. cbv zeta. rewrite Ty, Dc, Dm. reflexivity. Qed.
Definition watched (p : lptr) (lab : option str) (i : input) : Prop :=
  p = PFun HDs \/ (p = PFun HEqu /\ exists t, lab = Some t /\ pinned F t i).
Lemma lrel_body : forall l1 l2 lab oper, samelab l1 l2 -> l1.(l_type) = TMnemo -> l1.(l_ptr) <> PFun HInclude ->
  lrel F (fun s => watched l1.(l_ptr) lab s.(inp) -> settled s.(ct).(calcresult)) false eq (body l1 lab oper) (body l2 lab oper).
Proof.
  intros l1 l2 lab oper (_ & _ & _ & _ & _ & _ & V & Mk) Ty Ni. rewrite Ty in V, Mk. destruct V as (_ & Em & Ep & Ko). destruct (Mk eq_refl) as (_ & Md & _ & _).
  unfold body. rewrite <- Md, <- Em, <- Ep.
  assert (G : pres growing _ ((match l1.(l_ptr) with PFun h => exec h l1.(l_modifier) lab oper | _ => stop (UB "asmline: bad function pointer") end) ;;; ended true)).
  { apply (w_bind _ GW); [gro|intros _; apply ended_grows]. }
  eapply lrel_bind; [apply rel_refuse; nolate|intros _; apply (w_bind _ GW); [gro|intros _; exact G]|]. intros _ _ _.
  eapply lrel_bind with (Q := any) (z1 := false); [|intros _; exact G|].
  { if1; [eapply rel_weaken; [apply rel_refuse; nolate|intros; exact Logic.I]|]. destruct lab as [t|]; [apply rel_herelabel, SF|apply rel_ret; exact Logic.I]. }
  intros _ _ _. destruct (l_ptr l1) as [|h|?].
  - intros s1 s2 b s2' Ht E. seq E. discriminate E0.
  - pose proof (lrel_ended F (fun r i => watched (PFun h) lab i -> settled r) false false true (exec h (l_modifier l1) lab oper) (exec h (l_modifier l1) lab oper)) as L.
    apply L. intros s1 s2 b s2' Ht E.
    assert (N : h <> HInclude) by congruence.
    assert (Kb : h = HZBitop -> In (l_modifier l1) (map s16 [52032; 52160; 52096])) by (intros ->; exact (Ko eq_refl)).
    pose proof (rel_exec F SF h (l_modifier l1) lab oper N Kb s1 s2 b s2' Ht E) as R.
    destruct (exec h (l_modifier l1) lab oper s1) as [[a|[e|?|?| |]] s1']; try exact Logic.I; [|exact R].
    intros Gr C. apply R; [exact Gr|]. intros X. apply C. destruct X as [-> |[-> X]]; [left; reflexivity|right; auto].
  - intros s1 s2 b s2' Ht E. seq E. discriminate E0.
Qed.
Definition atzero (s : state) : bool := match s.(inp).(curline) with c :: _ => negb (isblank c) | [] => true end.
Definition closing (n : nat) (col0 : bool) (q : fields) : M flag :=
  match q.(q_mnemo) with
  | Some (key, l) => dispatch (run n) n true true key l q.(q_label) q.(q_oper)
  | None =>
      if col0 && negb (ogiven q.(q_label)) && negb (ogiven q.(q_oper)) then
        when true (herelabel q.(q_text)) ;;; when true outputline ;;; ret FNone
      else err "unknown macro or mnemonic"
  end.
Definition opened (n : nat) (col0 : bool) (t : str) : M flag :=
  match t with
  | [] => when true outputline ;;; ret FNone
  | _ :: _ => q <- splitline t ;; closing n col0 q
  end.
Lemma run_opened : forall n s, run (S n) KLine true true s = (linestart ;;; (fun s => (t <- stripline ;; opened n (atzero s) t) s)) s.
Proof. reflexivity. Qed.
Lemma strip_sy : forall s, (snd (stripline s)).(sy) = s.(sy).
Proof.
  intros s. unfold stripline, filter2, filterc, bind. cbn [gets]. destruct (4000 <=? _); [reflexivity|].
  destruct (fr_caps _) as [[|x [|y l]]|]; reflexivity.
Qed.
Definition watches (q : fields) (i : input) : Prop := reserves q \/ exists t, assigns q t /\ pinned F t i.
Lemma closing_pair : forall n c q1 q2 s1 s2 f2 s2', T false s1 s2 -> fagree q1 q2 -> ordinary q1 -> closing n c q2 s2 = (Ok f2, s2') ->
  match closing n c q1 s1 with
  | (Ok f1, s1') => grows s1'.(sy) F -> (watches q1 s1'.(inp) -> settled s1'.(ct).(calcresult)) -> Tb F s1' s2' /\ f1 = f2
  | (Bad (Err e), s1') => grows s1'.(sy) F -> late e -> Tb F s1' s2'
  | _ => True
  end.
Proof.
  intros n c q1 q2 s1 s2 f2 s2' Ht Fa (Di & Ow & Ni) E. destruct (Fa Di) as (El & Et & Eo & Am). unfold closing in *. rewrite <- El, <- Et, <- Eo in E. unfold of_its_own in Ow.
  destruct (q_mnemo q1) as [[k1 l1]|] eqn:M1, (q_mnemo q2) as [[k2 l2]|]; cbn [agrees] in Am; try contradiction.
  - destruct Am as (<- & S & Ty). destruct Ow as (Nm & Dc & Dm). destruct Ty as [Ty|Ty]; [|contradiction].
    pose proof S as (_ & _ & Ty2 & _ & _ & _ & _ & Mk). rewrite Ty in Ty2, Mk. destruct (Mk eq_refl) as (_ & _ & Mm & Mc).
    rewrite dispatch_body in E by congruence. rewrite dispatch_body by assumption.
    pose proof (lrel_body l1 l2 (q_label q1) (q_oper q1) S Ty Ni s1 s2 f2 s2' Ht E) as R.
    destruct (body l1 (q_label q1) (q_oper q1) s1) as [[f1|[e|?|?| |]] s1']; try exact Logic.I; [|exact R].
    intros G C. apply R; [exact G|]. intros X. apply C. destruct X as [X|(X & t & X1 & X2)]; [left; exists k1, l1; auto|]. right. exists t. split; [split; [exact X1|exists k1, l1; auto]|exact X2].
  - destruct (c && negb (ogiven (q_label q1)) && negb (ogiven (q_oper q1))); [|elim (never_err _ _ _ _ _ E)].
    assert (R : lrel F (fun _ => True) false eq (when true (herelabel q1.(q_text)) ;;; when true outputline ;;; ret FNone)
      (when true (herelabel q1.(q_text)) ;;; when true outputline ;;; ret FNone)).
    { apply rel_lrel with (z' := false). eapply rel_bind; [apply rel_herelabel, SF|gro|]. intros _ _ _.
      apply (rel_bind F false false false false unit flag unit flag any eq); [apply rel_mute; mutes|gro|]. intros _ _ _. apply rel_ret. reflexivity. }
    specialize (R s1 s2 f2 s2' Ht E). match goal with |- match ?m with _ => _ end => destruct m as [[f1|[e|?|?| |]] s1'] end; try exact Logic.I; [|exact R].
    intros G _. apply R; auto.
Qed.
Lemma asmline_pair : forall n s1 s2 f2 s2', Tb F s1 s2 -> s1.(inp) = s2.(inp) -> (forall q, taken_apart s1 q -> ordinary q) ->
  (forall q f s', taken_apart s1 q -> run (S n) KLine true true s1 = (Ok f, s') -> watches q s'.(inp) -> settled s'.(ct).(calcresult)) ->
  run (S n) KLine true true s2 = (Ok f2, s2') ->
  match run (S n) KLine true true s1 with
  | (Ok f1, s1') => grows s1'.(sy) F -> Tb F s1' s2' /\ f1 = f2
  | (Bad (Err e), s1') => grows s1'.(sy) F -> late e -> Tb F s1' s2'
  | _ => True
  end.
Proof.
  intros n s1 s2 f2 s2' H I Hq Hd E.
  assert (GA : grows s1.(sy) (snd (run (S n) KLine true true s1)).(sy)) by (exact (J_run _ GW (S n) KLine true true s1)).
  assert (X : grows (snd (run (S n) KLine true true s1)).(sy) F -> match run (S n) KLine true true s1 with
    | (Ok f1, s1') => Tb F s1' s2' /\ f1 = f2
    | (Bad (Err e), s1') => late e -> Tb F s1' s2'
    | _ => True
    end).
  2:{ clear GA. destruct (run (S n) KLine true true s1) as [[f1|[e|?|?| |]] s1']; auto. }
  intros GF. pose proof (grows_trans _ _ _ GA GF) as G0. clear GA. rewrite run_opened in E. rewrite run_opened in GF |- *.
  assert (Hd' : forall q f s', taken_apart s1 q -> (linestart ;;; (fun s => (t <- stripline ;; opened n (atzero s) t) s)) s1 = (Ok f, s') -> watches q s'.(inp) -> settled s'.(ct).(calcresult)) by exact Hd.
  clear Hd. seq E. rename s into t2. unfold bind at 1 in GF; unfold bind at 1 in Hd'; unfold bind at 1. pose proof (linestart_T _ _ _ _ H I E0) as LT.
  destruct (linestart s1) as [[u1|[e|?|?| |]] t1] eqn:L1; try exact Logic.I; [|destruct LT]. destruct LT as [Ht Y1].
  assert (Az : atzero t2 = atzero t1) by (unfold atzero; pose proof (a_inp _ _ _ _ Ht) as It; cbn in It; rewrite It; reflexivity). cbv beta in E, GF, Hd' |- *. rewrite Az in E.
  set (c := atzero t1) in *. clearbody c. seq E. rename s into w2, a0 into x. unfold bind at 1 in GF; unfold bind at 1 in Hd'; unfold bind at 1.
  pose proof (strip_sy t1) as Y2. pose proof (rel_stripline false false _ _ _ _ Ht E1) as Rs.
  destruct (stripline t1) as [[y|[e|?|?| |]] w1] eqn:S1; try exact Logic.I; cbn [snd] in Y2.
  2:{ intros L. destruct (Rs ltac:(rewrite Y2, Y1; exact G0) L) as [Z _]. discriminate Z. }
  destruct (Rs ltac:(rewrite Y2, Y1; exact G0)) as [Hw <-]. clear Rs.
  destruct y as [|d y]; cbn [opened] in *.
  - pose proof (rel_mute F false false _ _ (when true outputline ;;; ret FNone) (when true outputline ;;; ret FNone) ltac:(mutes) ltac:(mutes) _ _ _ _ Hw E) as R.
    assert (Fl : forall s f s', (when true outputline ;;; ret FNone) s = (Ok f, s') -> f = FNone) by (intros s f s' Q; seq Q; injection Q as <- _; reflexivity).
    rewrite (Fl _ _ _ E). specialize (Fl w1). destruct ((when true outputline ;;; ret FNone) w1) as [[f1|[e|?|?| |]] s1']; try exact Logic.I.
    + split; [exact (T_b _ _ _ _ (proj1 (R GF)))|exact (Fl _ _ eq_refl)].
    + intros L. destruct (R GF L) as [Z _]. discriminate Z.
  - seq E. rename s into v2, a0 into q2. unfold bind at 1 in GF; unfold bind at 1 in Hd'; unfold bind at 1. pose proof (rel_splitline false false (d :: y) _ _ _ _ Hw E2) as Rq.
    destruct (splitline (d :: y) w1) as [[q1|[e|?|?| |]] v1] eqn:Q1; try exact Logic.I.
    + assert (Yv : v1.(sy) = w1.(sy)) by (pose proof (softly_splitline (d :: y) w1) as Z; rewrite Q1 in Z; exact (f_equal k_sy (Z eq_refl))).
      destruct (Rq ltac:(rewrite Yv, Y2, Y1; exact G0)) as [Hv Fa].
      assert (Ta : taken_apart s1 q1).
      { exists t1, (d :: y), w1, v1. destruct u1. repeat split; try assumption. discriminate. }
      pose proof (closing_pair n c q1 q2 v1 v2 f2 s2' Hv Fa (Hq _ Ta) E) as R.
      specialize (Hd' q1). destruct (closing n c q1 v1) as [[f1|[e|?|?| |]] s1']; try exact Logic.I; [|exact (R GF)].
      apply R; [exact GF|]. exact (Hd' _ _ Ta eq_refl).
    + intros L. destruct (Rq GF L) as [Z _]. discriminate Z.
Qed.
End Line.
