(** Lemmas on the pseudo instructions that store bytes. *)
From Coq Require Import String Ascii ZArith List Bool Lia ZifyBool ZifyNat.
From Verif Require Import Base BaseFacts State Tree Filter Output Label Operator Parse Scode Pseudos.
From Verif Require Import Walk TreeFacts Frame Run Eval SpecEmit EmitFacts FilterFacts SpecSplit SplitFacts.
From Verif Require Import SpecNumbers NumberFacts Cpu6800.
Import ListNotations.
Open Scope Z_scope.
Ltac Zify.zify_post_hook ::= Z.div_mod_to_equations.

Lemma value_at_same : forall s s1 t r, same s s1 -> value_at s1 t r -> value_at s t r.
Proof. intros s s1 t r H (a & b & A & B & C). exists a, b. split; [eapply same_trans; eassumption|]. split; assumption. Qed.

Lemma checktype_ok : forall r ty s u s', checktype r ty s = (Ok u, s') -> r.(r_type) = ty /\ s' = s.
Proof.
  intros r ty s u s' H. unfold checktype in H. destruct (ltype_eqb (r_type r) ty) eqn:E.
  - injection H as _ <-. split; [|reflexivity]. destruct (r_type r), ty; try discriminate E; reflexivity.
  - unfold err in H. destruct (r_type r); elim (error_never _ _ _ _ _ H).
Qed.

Lemma warning_ok : forall m s u s', warning m s = (Ok u, s') -> same s s' /\ still s s'.
Proof.
  intros m s u s' E. pose proof (pres_warning _ evaluating_osteps m s) as K. rewrite E in K. exact K.
Qed.
Lemma when_warning : forall b m s u s', when b (warning m) s = (Ok u, s') -> same s s' /\ still s s'.
Proof.
  intros b m s u s' E. unfold when in E. destruct b; [eapply warning_ok; exact E|].
  injection E as _ <-. split; [apply same_refl|apply still_refl].
Qed.
Lemma filter2_ok' : forall t p s r s', filter2 t p s = (Ok r, s') -> same s s' /\ still s s'.
Proof.
  intros t p s r s' E. pose proof (pe_filter2 _ evaluating_steps t p s) as K. rewrite E in K. exact K.
Qed.
Lemma filter0_ok : forall t p s r s', filter0 t p s = (Ok r, s') -> same s s' /\ still s s'.
Proof.
  intros t p s r s' E. pose proof (pe_filter0 _ evaluating_steps t p s) as K. rewrite E in K. exact K.
Qed.

Lemma still_pc : forall s s', still s s' -> pcok s -> pcok s'.
Proof. intros s s' (W & _) R. unfold pc_range. rewrite W. exact R. Qed.

Lemma good_before : forall bs s s1 s2, same s s1 -> still s s1 -> good bs s1 s2 -> good bs s s2.
Proof.
  intros bs s s1 s2 A B [C D]. split; [|eapply same_trans; eassumption].
  eapply emits_still; [exact A|exact B|exact C|apply still_refl].
Qed.
Lemma good_after : forall bs s s1 s2, good bs s s1 -> same s1 s2 -> still s1 s2 -> good bs s s2.
Proof.
  intros bs s s1 s2 [C D] A B. split; [|eapply same_trans; eassumption].
  eapply emits_still; [apply same_refl|apply still_refl|exact C|exact B].
Qed.

(** ** DB, DW, DDB, DL *)
Definition unit_bytes (modifier : Z) (lohi : bool) (v : Z) : list Z :=
  if modifier =? 1 then word 1 lohi v
  else if modifier =? 2 then word 2 (negb lohi) v
  else if modifier =? 3 then word 2 lohi v
  else if modifier =? 4 then word 4 lohi v
  else [].

Lemma same_flip : forall s s', same s s' -> forall f, same (set_fl f s) (set_fl f s').
Proof. unfold same. intros s s' (A & B & C & D & E & F & G) f. cbn. repeat (split; [assumption || reflexivity|]). exact G. Qed.

Lemma stocke_good : forall t m s u s', pcok s -> stocke t m s = (Ok u, s') ->
  exists r, value_at s t r /\ good (unit_bytes m s.(fl).(a_lohi) r.(r_value)) s s'.
Proof.
  intros t m s u s' R E. unfold stocke in E.
  apply seq_ok in E. destruct E as (r & s1 & E1 & E).
  destruct (parse_keeps _ _ _ _ E1) as [P1 P2].
  apply seq_ok in E. destruct E as (u1 & s2 & E2 & E). apply checktype_ok in E2. destruct E2 as [Ty ->].
  apply seq_ok in E. destruct E as (u2 & s3 & E3 & E).
  apply when_warning in E. destruct E as [W1 W2].
  exists r. split; [exists s, s1; split; [apply same_refl|]; split; assumption|].
  pose proof (still_pc _ _ P2 R) as R1.
  eapply good_before; [exact P1|exact P2|]. eapply good_after; [|exact W1|exact W2].
  clear W1 W2 s' u. rewrite <- (same_fl _ _ P1). unfold unit_bytes.
  destruct (m =? 1).
  { unfold word, little. cbn [rev app]. destruct (a_lohi (fl s1)); eapply insert8_emits; eassumption. }
  destruct (m =? 2).
  { apply seq_ok in E3. destruct E3 as (u3 & s4 & E3 & E4). unfold flip_lohi, upd_fl, modify in E3. injection E3 as _ <-.
    apply seq_ok in E4. destruct E4 as (u4 & s5 & E4 & E5). unfold flip_lohi, upd_fl, modify in E5. injection E5 as _ <-.
    apply insert16_good in E4; [|exact R1]. destruct E4 as [G S]. cbn [fl set_fl a_lohi set_a_lohi] in G.
    pose proof (same_fl _ _ S) as F. split.
    - apply flags_emits in G; [|reflexivity]. unfold emits in *. cbn [emitted wr ct set_fl]. exact G.
    - rewrite F. cbn [fl set_fl]. pose proof (same_flip _ _ S (fl s1)) as K.
      change (set_fl (fl s1) (set_fl (set_a_lohi (negb (a_lohi (fl s1))) (fl s1)) s1)) with (set_fl (fl s1) s1) in K.
      assert (H1 : set_fl (fl s1) s1 = s1) by (destruct s1; reflexivity).
      assert (H2 : set_a_lohi (negb (a_lohi (set_a_lohi (negb (a_lohi (fl s1))) (fl s1))))
                     (set_a_lohi (negb (a_lohi (fl s1))) (fl s1)) = fl s1).
      { destruct (fl s1). cbn. rewrite negb_involutive. reflexivity. }
      rewrite H2. rewrite H1 in K. exact K. }
  destruct (m =? 3); [eapply insert16_good; eassumption|].
  destruct (m =? 4); [eapply insert32_good; eassumption|].
  injection E3 as _ <-. split; [apply emits_nil; exact R1|apply same_refl].
Qed.

Lemma Forall2_weaken : forall A B (P Q : A -> B -> Prop) l l', (forall a b, P a b -> Q a b) ->
  Forall2 P l l' -> Forall2 Q l l'.
Proof. intros A B P Q l l' H F. induction F; constructor; auto. Qed.

Definition comma : str := [","%char].

Lemma comma_sep : forall t s r s', filter2 t "?_,_?" s = (Ok r, s') ->
  match r with Some (a, b) => first_cut comma t a b | None => uncut comma t end.
Proof.
  intros t s r s' E. apply (filter2_sep comma) in E; [apply E|reflexivity|discriminate|reflexivity].
Qed.

Lemma dcloop_good : forall n t m s u s', pcok s -> dcloop n t m s = (Ok u, s') ->
  exists ts rs, items comma t ts /\ Forall2 (value_at s) ts rs /\
    good (flat_map (fun r => unit_bytes m s.(fl).(a_lohi) r.(r_value)) rs) s s'.
Proof.
  induction n as [|n IH]; intros t m s u s' R E; [discriminate|]. cbn [dcloop] in E.
  apply seq_ok in E. destruct E as (c & s1 & E1 & E).
  pose proof (comma_sep _ _ _ _ E1) as C. destruct (filter2_ok' _ _ _ _ _ E1) as [F1 F2].
  pose proof (still_pc _ _ F2 R) as R1.
  destruct c as [[a b]|].
  - apply seq_ok in E. destruct E as (u1 & s2 & E2 & E).
    apply stocke_good in E2; [|exact R1]. destruct E2 as (r & V & G).
    pose proof (emits_pc _ _ _ (proj1 G)) as R2.
    apply IH in E; [|exact R2]. destruct E as (ts & rs & I & Vs & Gs).
    pose proof (same_trans _ _ _ F1 (proj2 G)) as S2.
    exists (a :: ts), (r :: rs). split; [eapply it_more; eassumption|]. split.
    + constructor; [exact (value_at_same _ _ _ _ F1 V)|].
      eapply Forall2_weaken; [|exact Vs]. intros x y. apply value_at_same. exact S2.
    + cbn [flat_map]. rewrite (same_fl _ _ S2) in Gs. rewrite (same_fl _ _ F1) in G.
      eapply good_app; [exact (good_before _ _ _ _ F1 F2 G)|exact Gs].
  - apply stocke_good in E; [|exact R1]. destruct E as (r & V & G).
    exists [t], [r]. split; [apply it_last; exact C|]. split.
    + constructor; [exact (value_at_same _ _ _ _ F1 V)|constructor].
    + cbn [flat_map]. rewrite app_nil_r. rewrite (same_fl _ _ F1) in G. exact (good_before _ _ _ _ F1 F2 G).
Qed.

Theorem Xdc_good : forall m t s u s', pcok s -> Xdc m (Some t) s = (Ok u, s') ->
  exists ts rs, items comma t ts /\ Forall2 (value_at s) ts rs /\
    emits (flat_map (fun r => unit_bytes m s.(fl).(a_lohi) r.(r_value)) rs) s s' /\ s'.(fl) = s.(fl).
Proof.
  intros m t s u s' R E. unfold Xdc in E. cbn [otext] in E. apply dcloop_good in E; [|exact R].
  destruct E as (ts & rs & A & B & C & D). exists ts, rs. repeat split; try assumption; [apply C..|apply D].
Qed.

(** ** DS *)
Lemma dsloop_good : forall n v s u s', pcok s -> dsloop n v s = (Ok u, s') -> good (repeat (v mod 256) n) s s'.
Proof.
  induction n as [|n IH]; intros v s u s' R E; cbn [dsloop] in E.
  - injection E as _ <-. split; [apply emits_nil; exact R|apply same_refl].
  - apply seq_ok in E. destruct E as (u1 & s1 & E1 & E). apply insert8_emits in E1; [|exact R].
    apply IH in E; [|eapply emits_pc; apply E1]. cbn [repeat].
    change (v mod 256 :: repeat (v mod 256) n) with ([v mod 256] ++ repeat (v mod 256) n).
    eapply good_app; eassumption.
Qed.

Lemma s32_mod : forall v, s32 v mod 256 = v mod 256.
Proof. intros v. unfold s32. lia. Qed.

Theorem Xds_good : forall t s u s', pcok s -> Xds (Some t) s = (Ok u, s') ->
  exists n v, 0 <= n < 2 ^ 31 /\
    (exists r, n = trunc32 r.(r_value) /\
       ((exists a b r', first_cut comma t a b /\ value_at s a r /\ value_at s b r' /\ v = r'.(r_value) mod 256) \/
        (uncut comma t /\ value_at s t r /\ v = 0))) /\
    s'.(emitted) = rev (placed s.(ct).(passnumber) s.(fl).(a_code_on) s.(wr).(pc) (repeat v (Z.to_nat n))) ++ s.(emitted) /\
    s'.(wr).(pc) = (s.(wr).(pc) + n) mod 2 ^ 64 /\ s'.(ct).(advance) = n.
Proof.
  intros t s u s' R E. unfold Xds in E. cbn [otext] in E.
  apply seq_ok in E. destruct E as (c & s1 & E1 & E).
  pose proof (comma_sep _ _ _ _ E1) as C. destruct (filter2_ok' _ _ _ _ _ E1) as [F1 F2].
  apply seq_ok in E. destruct E as ([t' init] & s2 & E2 & E).
  assert (K : same s s2 /\ still s s2 /\
    match c with
    | Some (a, b) => t' = a /\ exists r', value_at s b r' /\ init = s32 r'.(r_value)
    | None => t' = t /\ init = 0
    end).
  { destruct c as [[a b]|].
    - apply seq_ok in E2. destruct E2 as (r' & s3 & E3 & E2). destruct (parse_keeps _ _ _ _ E3) as [P1 P2].
      apply seq_ok in E2. destruct E2 as (u1 & s4 & E4 & E2). apply checktype_ok in E4. destruct E4 as [Ty ->].
      apply seq_ok in E2. destruct E2 as (u2 & s5 & E5 & E2). apply when_warning in E5. destruct E5 as [W1 W2].
      injection E2 as <- <- <-.
      split; [eapply same_trans; [exact F1|]; eapply same_trans; eassumption|].
      split; [eapply still_trans; [exact F2|]; eapply still_trans; eassumption|].
      split; [reflexivity|]. exists r'. split; [|reflexivity]. exists s1, s3. split; [exact F1|]. split; assumption.
    - injection E2 as <- <- <-. split; [exact F1|]. split; [exact F2|]. split; reflexivity. }
  clear E2. destruct K as (S1 & S2 & K).
  apply seq_ok in E. destruct E as (r & s3 & E3 & E). destruct (parse_keeps _ _ _ _ E3) as [P1 P2].
  apply seq_ok in E. destruct E as (u1 & s4 & E4 & E). apply checktype_ok in E4. destruct E4 as [Ty ->].
  apply seq_ok in E. destruct E as (u2 & s5 & E5 & E).
  assert (V : value_at s t' r) by (exists s2, s3; split; [exact S1|]; split; assumption).
  pose proof (same_trans _ _ _ S1 P1) as S3. pose proof (still_trans _ _ _ S2 P2) as T3.
  destruct (s32 (r_value r) <? 0) eqn:N; [discriminate|].
  apply dsloop_good in E5; [|eapply still_pc; eassumption].
  apply (good_before _ s) in E5; [|exact S3|exact T3].
  unfold upd_ct, modify in E. injection E as _ <-. destruct E5 as [(G1 & G2 & G3) _].
  exists (s32 (r_value r)), (init mod 256).
  assert (Rn : 0 <= s32 (r_value r) < 2 ^ 31) by (unfold s32 in *; lia).
  split; [exact Rn|]. split.
  { exists r. split; [reflexivity|]. destruct c as [[a b]|].
    - destruct K as (-> & r' & V' & ->). left. exists a, b, r'. repeat split; try assumption; try apply C. apply s32_mod.
    - destruct K as (-> & ->). right. repeat split; assumption. }
  cbn [emitted wr ct set_ct advance set_advance]. rewrite repeat_length in G2. rewrite Z2Nat.id in G2 by lia.
  split; [exact G1|]. split; [exact G2|reflexivity].
Qed.

(** ** ASC *)
Lemma escape_meaning : forall c v, escape c = Some v -> meaning (Esc c) = Some v.
Proof.
  intros c v H. unfold escape in H.
  assert (K : forall n x, zc x = n -> (zc c =? n) = true -> c = x).
  { intros n x Hx E. apply zc_inj. lia. }
  destruct (zc c =? 116) eqn:E1; [apply (K 116 "t"%char eq_refl) in E1; subst; exact H|].
  destruct (zc c =? 110) eqn:E2; [apply (K 110 "n"%char eq_refl) in E2; subst; exact H|].
  destruct (zc c =? 114) eqn:E3; [apply (K 114 "r"%char eq_refl) in E3; subst; exact H|].
  destruct (zc c =? 48) eqn:E4; [apply (K 48 "0"%char eq_refl) in E4; subst; exact H|].
  destruct (zc c =? 34) eqn:E5; [apply (K 34 """"%char eq_refl) in E5; subst; exact H|].
  destruct (zc c =? 92) eqn:E6; [apply (K 92 "\"%char eq_refl) in E6; subst; exact H|].
  destruct (zc c =? 39) eqn:E7; [apply (K 39 "'"%char eq_refl) in E7; subst; exact H|].
  discriminate H.
Qed.

Lemma meaning_byte : forall p v, char_code p = Some v -> 0 <= v < 256.
Proof.
  intros [c|e] v H; cbn [char_code] in H.
  - injection H as <-. unfold code. pose proof (zc_range c). exact H.
  - destruct e as [[] [] [] [] [] [] [] []]; cbn in H; try discriminate; injection H as <-; lia.
Qed.

Lemma ascloop_good : forall k d t s u s', (List.length t <= k)%nat -> pcok s -> d <> "\"%char ->
  ascloop d t s = (Ok u, s') ->
  exists l vs, t = flat l ++ [d] /\ Forall (within d) l /\ map char_code l = map Some vs /\ good vs s s'.
Proof.
  induction k as [|k IH]; intros d t s u s' L R D E; destruct t as [|r t]; try discriminate E; [cbn in L; lia|].
  cbn [List.length] in L. cbn [ascloop] in E.
  destruct (zc r =? zc d) eqn:Q.
  { assert (r = d) by (apply zc_inj; lia). subst r. destruct t as [|x t].
    - injection E as _ <-. exists [], []. repeat split; try constructor.
      all: apply (emits_nil s R) || apply (same_refl s).
    - unfold err in E. elim (error_never _ _ _ _ _ E). }
  assert (Nd : r <> d) by (intros ->; lia).
  destruct (zc r =? 92) eqn:B.
  { assert (r = "\"%char) by (apply zc_inj; change (zc "\") with 92; lia). subst r.
    destruct t as [|c t]; [unfold err in E; elim (error_never _ _ _ _ _ E)|].
    destruct (escape c) as [v|] eqn:Es; [|unfold err in E; elim (error_never _ _ _ _ _ E)].
    apply seq_ok in E. destruct E as (u1 & s1 & E1 & E). apply insert8_emits in E1; [|exact R].
    apply IH in E; [|cbn [List.length] in L; lia|eapply emits_pc; apply E1|exact D].
    destruct E as (l & vs & -> & W & M & G).
    pose proof (escape_meaning _ _ Es) as Me.
    assert (Rv : 0 <= v < 256) by (apply (meaning_byte (Esc c)); exact Me).
    rewrite Z.mod_small in E1 by exact Rv.
    exists (Esc c :: l), (v :: vs). split; [reflexivity|]. split; [constructor; [exact I|exact W]|].
    split; [|exact (good_app [v] vs _ _ _ E1 G)].
    cbn [map]. rewrite M. cbn [char_code]. rewrite Me. reflexivity. }
  assert (Nb : r <> "\"%char).
  { intros ->. change (zc "\") with 92 in B. discriminate B. }
  apply seq_ok in E. destruct E as (u1 & s1 & E1 & E). apply insert8_emits in E1; [|exact R].
  apply IH in E; [|lia|eapply emits_pc; apply E1|exact D].
  destruct E as (l & vs & -> & W & M & G).
  pose proof (zc_range r) as Rr. rewrite Z.mod_small in E1 by lia.
  exists (Char r :: l), (zc r :: vs). split; [reflexivity|]. split; [constructor; [split; assumption|exact W]|].
  split; [|exact (good_app [zc r] vs _ _ _ E1 G)].
  cbn [map char_code]. rewrite M. reflexivity.
Qed.

Theorem Xasc_good : forall t s u s', pcok s -> Xasc (Some t) s = (Ok u, s') ->
  exists q l vs, (q = "'"%char \/ q = """"%char) /\ t = quoted q l /\ Forall (within q) l /\
    map char_code l = map Some vs /\ emits vs s s'.
Proof.
  intros t s u s' R E. unfold Xasc in E. destruct t as [|d t]; [unfold err in E; elim (error_never _ _ _ _ _ E)|].
  destruct (negb (zc d =? 39) && negb (zc d =? 34)) eqn:Q; [unfold err in E; elim (error_never _ _ _ _ _ E)|].
  assert (Qd : d = "'"%char \/ d = """"%char).
  { destruct (zc d =? 39) eqn:A; [left|right]; apply zc_inj; [change (zc "'") with 39; lia|].
    change (zc """") with 34. destruct (zc d =? 34) eqn:B; [lia|discriminate Q]. }
  apply (ascloop_good _ _ _ _ _ _ (Nat.le_refl _) R) in E; [|destruct Qd; subst; discriminate].
  destruct E as (l & vs & -> & W & M & G & _). exists d, l, vs. repeat split; try assumption; apply G.
Qed.

(** ** ALIGN *)
Theorem Xalign_good : forall t s u s', pcok s -> Xalign (Some t) s = (Ok u, s') ->
  exists b : bool, keyword (s2l (if b then "ODD" else "EVEN")) t /\ Z.odd s'.(wr).(pc) = b /\ (emits [] s s' \/ (Z.odd s.(wr).(pc) = negb b /\ emits [0] s s')).
Proof.
  intros t s u s' R E. unfold Xalign in E. cbn [otext] in E.
  assert (Od : forall p, 0 <= p < 2 ^ 64 -> Z.odd ((p + 1) mod 2 ^ 64) = negb (Z.odd p)).
  { intros p Rp. rewrite !Zodd_mod. destruct (Zeq_bool (p mod 2) 1) eqn:X; cbn [negb];
      [apply Zeq_bool_eq in X|apply Zeq_bool_neq in X].
    - replace (((p + 1) mod 2 ^ 64) mod 2) with 0 by lia. reflexivity.
    - replace (((p + 1) mod 2 ^ 64) mod 2) with 1 by lia. reflexivity. }
  assert (Fin : forall (b : bool) u s',
     when (if b then negb (Z.odd s.(wr).(pc)) else Z.odd s.(wr).(pc)) (insert8 0) s = (Ok u, s') ->
     Z.odd s'.(wr).(pc) = b /\ (emits [] s s' \/ (Z.odd s.(wr).(pc) = negb b /\ emits [0] s s'))).
  { clear E u s'. intros b u s' E. unfold when in E.
    destruct (if b then negb (Z.odd s.(wr).(pc)) else Z.odd s.(wr).(pc)) eqn:C.
    - apply insert8_emits in E; [|exact R]. destruct E as [G _]. change (0 mod 256) with 0 in G.
      assert (B : Z.odd (pc (wr s)) = negb b) by (destruct b, (Z.odd (pc (wr s))); try discriminate C; reflexivity).
      split; [|right; split; assumption].
      destruct G as (_ & G & _). rewrite G. cbn [List.length]. change (Z.of_nat 1) with 1.
      rewrite Od by exact R. rewrite B. apply negb_involutive.
    - injection E as _ <-. split.
      + destruct b, (Z.odd (pc (wr s))); try discriminate C; reflexivity.
      + left. apply emits_nil. exact R. }
  apply seq_ok in E. destruct E as (b1 & s1 & E1 & E).
  apply (filter0_kw (s2l "EVEN")) in E1; [|reflexivity|reflexivity|discriminate]. destruct E1 as [-> K1].
  destruct b1.
  - exists false. split; [apply K1; reflexivity|]. unfold bind at 1 in E. cbn [gets] in E. exact (Fin false u s' E).
  - apply seq_ok in E. destruct E as (b2 & s2 & E2 & E).
    apply (filter0_kw (s2l "ODD")) in E2; [|reflexivity|reflexivity|discriminate]. destruct E2 as [-> K2].
    destruct b2; [|unfold err in E; elim (error_never _ _ _ _ _ E)].
    exists true. split; [apply K2; reflexivity|]. unfold bind at 1 in E. cbn [gets] in E. exact (Fin true u s' E).
Qed.

Theorem Xdb_good : forall t s u s', pcok s -> Xdc 1 (Some t) s = (Ok u, s') ->
  exists ts rs, items comma t ts /\ Forall2 (value_at s) ts rs /\
    emits (map (fun r => r.(r_value) mod 256) rs) s s' /\ s'.(fl) = s.(fl).
Proof.
  intros t s u s' R E. apply Xdc_good in E; [|exact R]. destruct E as (ts & rs & A & B & C & D).
  exists ts, rs. repeat (split; [assumption|]). split; [|exact D].
  replace (map (fun r => r.(r_value) mod 256) rs) with (flat_map (fun r => unit_bytes 1 (a_lohi (fl s)) (r_value r)) rs); [exact C|].
  clear. induction rs as [|r rs IH]; [reflexivity|]. cbn [flat_map map]. rewrite IH.
  unfold unit_bytes, word. cbn. destruct (a_lohi (fl s)); reflexivity.
Qed.
