(** The layout of the listing (C46): the line formatter and the whole assembler.  Nothing here
    is part of the model. *)
From Coq Require Import String Ascii ZArith List Bool Lia ZifyBool ZifyNat.
From Verif Require Import Base BaseFacts State Tree Filter Output Label Operator Parse Scode Tables.
From Verif Require Import Cpu6800 Cpu6502 CpuZ80 Pseudos Macro Xref Crasm.
From Verif Require Import Walk Frame Run CountFacts SpecPage PageFacts.
Import ListNotations.
Open Scope Z_scope.

(** ** The line buffer *)
Lemma lput_all : forall (P : ascii -> Prop) i c l, P c -> P (cz 0) -> Forall P l -> Forall P (lput i c l).
Proof.
  intros P. induction i as [|i IH]; intros c [|x l] C Z F; cbn [lput].
  - constructor; auto.
  - inversion F; subst. constructor; auto.
  - constructor; auto.
  - inversion F; subst. constructor; auto.
Qed.
Lemma cstr_end : forall i l, zlen (cstr (lput i (cz 0) l)) <= Z.of_nat i.
Proof.
  induction i as [|i IH]; intros [|x l]; cbn [lput cstr]; change (zc (cz 0) =? 0) with true; cbv iota;
    try (unfold zlen; cbn [List.length]; lia).
  destruct (zc x =? 0); [unfold zlen; cbn [List.length]; lia|]. specialize (IH l). unfold zlen in *. cbn [List.length]. lia.
Qed.
Lemma cstr_in : forall c l, In c (cstr l) -> In c l.
Proof.
  intros c. induction l as [|x l IH]; cbn [cstr]; [auto|]. destruct (zc x =? 0); [intros []|]. intros [->|H]; cbn; auto.
Qed.

Definition plain (c : ascii) : Prop := c <> newline.
Definition rest (l : listing) : Prop := pageinv l /\ Forall line_fits l.(composed) /\
  forall p t, In (PLine p t) l.(sheets) -> (exists w, In (w, t) l.(composed)) \/ is_message t.
Definition lineok (l : listing) : Prop := 0 <= l.(lpos) /\ zlen (cstr l.(linebuffer)) <= l.(lpos) /\
  zlen (cstr l.(linebuffer)) <= l.(llen) /\ Forall plain l.(linebuffer) /\ 39 <= l.(llen).
Definition W (s : state) : Prop := rest s.(ls) /\ lineok s.(ls).
Definition U (k : Z) (s : state) : Prop := W s /\ s.(ls).(lpos) <= k.
(** Between instructions. *)
Definition calm : state -> Prop := U 28.

Definition T {A} (P Q : state -> Prop) (m : M A) : Prop := forall s, P s ->
  match m s with
  | (Ok _, s') => Q s'
  | (Bad b, s') => rest s'.(ls) /\ forall e, b = Err e -> calm s'
  end.

Lemma T_bind : forall A B P Q R (m : M A) (k : A -> M B), T P Q m -> (forall a, T Q R (k a)) -> T P R (bind m k).
Proof.
  intros A B P Q R m k H K s p. specialize (H s p). unfold bind. destruct (m s) as [[a|b] s']; [|exact H]. exact (K a s' H).
Qed.
Lemma T_gets : forall A B P Q (f : state -> A) (k : A -> M B),
  (forall a, T (fun s => P s /\ f s = a) Q (k a)) -> T P Q (bind (gets f) k).
Proof. intros A B P Q f k H s p. unfold bind. cbn [gets]. apply (H (f s) s). auto. Qed.
Lemma T_skip : forall A B P Q (f : state -> A) (k : A -> M B), (forall a, T P Q (k a)) -> T P Q (bind (gets f) k).
Proof. intros A B P Q f k H s p. unfold bind. cbn [gets]. exact (H (f s) s p). Qed.
Lemma T_weak : forall A (P P' Q Q' : state -> Prop) (m : M A), (forall s, P' s -> P s) -> (forall s, Q s -> Q' s) -> T P Q m -> T P' Q' m.
Proof.
  intros A P P' Q Q' m HP HQ H s p. specialize (H s (HP s p)). destruct (m s) as [[a|b] s']; auto.
Qed.
Lemma T_ret : forall A (P : state -> Prop) (a : A), T P P (ret a).
Proof. intros A P a s p. exact p. Qed.
Lemma T_when : forall P b (m : M unit), T P P m -> T P P (when b m).
Proof. intros P [] m H; [exact H|apply T_ret]. Qed.
(** What does not touch the listing. *)
Definition deaf (P : state -> Prop) : Prop := forall s s', s'.(ls) = s.(ls) -> P s -> P s'.
Lemma deaf_W : deaf W.
Proof. intros s s' E. unfold W. rewrite E. auto. Qed.
Lemma deaf_U : forall k, deaf (U k).
Proof. intros k s s' E. unfold U, W. rewrite E. auto. Qed.
Lemma T_modify : forall P f, deaf P -> (forall s, (f s).(ls) = s.(ls)) -> T P P (modify f).
Proof. intros P f D E s p. exact (D s (f s) (E s) p). Qed.

Lemma rest_same : forall l l', rest l -> l'.(composed) = l.(composed) -> l'.(sheets) = l.(sheets) -> l'.(stdout) = l.(stdout) ->
  l'.(ppos) = l.(ppos) -> l'.(plen) = l.(plen) -> rest l'.
Proof.
  intros l l' H A B C D E. unfold rest, pageinv, printing, closedpage, openpage in *. rewrite A, B, C, D, E. exact H.
Qed.

Lemma U_W : forall k s, U k s -> W s.
Proof. intros k s H. apply H. Qed.
Lemma U_le : forall j k s, j <= k -> U j s -> U k s.
Proof. intros j k s L [H K]. split; [exact H|lia]. Qed.

Lemma T_outspace : forall k, T (U k) (U (k + 1)) outspace.
Proof.
  intros k s [[R (A & B & C & D & E)] K]. unfold outspace, bind at 1. cbn [gets]. destruct (lpos (ls s) <? llen (ls s)) eqn:X.
  - unfold bind, lbwrite, upd_ls, modify, stop. destruct (1000 <=? lpos (ls s)) eqn:Y.
    { split; [exact R|discriminate]. }
    cbn [ls set_ls]. destruct (1000 <=? lpos (ls s) + 1) eqn:Z.
    { split; [|discriminate]. apply (rest_same _ _ R); reflexivity. }
    split; [split; [apply (rest_same _ _ R); reflexivity|]|].
    + unfold lineok. cbn [ls set_ls lpos set_lpos linebuffer set_linebuffer llen].
      pose proof (cstr_end (Z.to_nat (lpos (ls s) + 1)) (lput (Z.to_nat (lpos (ls s))) (cz 32) (linebuffer (ls s)))) as Q.
      split; [lia|]. split; [lia|]. split; [lia|]. split; [|exact E].
      apply lput_all; [intros N; discriminate N|intros N; discriminate N|].
      apply lput_all; [intros N; discriminate N|intros N; discriminate N|exact D].
    + cbn [ls set_ls lpos set_lpos linebuffer set_linebuffer llen]. lia.
  - unfold upd_ls, modify. split; [split; [apply (rest_same _ _ R); reflexivity|]|]; unfold lineok; cbn [ls set_ls lpos set_lpos linebuffer llen]; [|lia].
    split; [lia|]. split; [lia|]. auto.
Qed.
Lemma T_outspaces : forall n k, T (U k) (U (k + Z.of_nat n)) (outspaces n).
Proof.
  induction n as [|n IH]; intros k; cbn [outspaces].
  - apply (T_weak _ (U k) _ (U k)); [auto|intros s; apply U_le; lia|apply T_ret].
  - eapply T_bind; [apply T_outspace|intros _]. eapply T_weak; [|  |apply (IH (k + 1))]; [auto|]. intros s. apply U_le. lia.
Qed.
Lemma T_fatal : forall A (P Q : state -> Prop) m, (forall s, P s -> rest s.(ls)) -> T P Q (@fatal A m).
Proof.
  intros A P Q m H s p. unfold fatal, bind, print, upd_ls, modify, stop. split; [|discriminate]. specialize (H s p).
  destruct H as ([G O] & F & R). split; [|split; [exact F|exact R]]. split; [|exact O].
  destruct G as (G1 & G2 & G3 & G4). split; [exact G1|]. split; [exact G2|]. split; [exact G3|].
  cbn [ls set_ls sheets stdout set_stdout rev]. exact (pr_fatal _ _ (s2l m) G4).
Qed.
Lemma T_position : forall n k, T (U k) (U (Z.max k n)) (position n).
Proof.
  intros n k. unfold position. apply T_gets. intros l. destruct (llen l <=? n).
  - apply T_fatal. intros s [[[H _] _] _]. exact H.
  - intros s [[H K] E]. assert (U (lpos l) s) as V by (split; [exact H|rewrite E; lia]).
    pose proof (T_outspaces (Z.to_nat (n - lpos l)) (lpos l) s V) as Q. destruct (outspaces _ s) as [[a|b] s']; [|exact Q].
    subst l. eapply U_le; [|exact Q]. lia.
Qed.
Lemma T_outtab : forall n, T W W (outtab n).
Proof.
  assert (G : T W W outspace).
  { intros s H. pose proof (T_outspace (lpos (ls s)) s ltac:(split; [exact H|lia])) as K.
    destruct (outspace s) as [[a|b] s']; [apply K|exact K]. }
  induction n as [|n IH]; cbn [outtab]; [apply T_ret|]. eapply T_bind; [exact G|intros _]. apply T_skip. intros p.
  destruct (_ =? 0); [apply T_ret|exact IH].
Qed.

Lemma outputEOL_ok : T W (U 0) outputEOL.
Proof.
  intros s [(G & F & R) (A & B & C & D & E)]. unfold outputEOL, bind at 1. cbn [gets].
  destruct (outputraw_step (cstr (linebuffer (ls s))) s G) as (l' & E1 & [H1 H2 H3 H4 H5 H6]).
  unfold bind at 1. rewrite E1. unfold bind, upd_ls, modify, lbwrite. cbn [Z.leb Z.compare]. split; [split|].
  - cbn [ls set_ls]. split; [|split].
    + exact H1.
    + cbn [composed set_composed set_linebuffer set_lpos]. rewrite H5. constructor; [|exact F].
      split; [exact C|]. cbn [snd]. intros I. apply cstr_in in I. rewrite Forall_forall in D. exact (D _ I eq_refl).
    + cbn [composed set_composed set_linebuffer set_lpos sheets]. rewrite H5. intros p t I.
      destruct (H6 p t I) as [J| ->]; [|left; eexists; left; reflexivity].
      destruct (R p t J) as [[w K]|K]; [left; exists w; right; exact K|right; exact K].
  - unfold lineok. cbn [ls set_ls lpos linebuffer set_linebuffer set_composed set_lpos llen].
    pose proof (cstr_end 0 (linebuffer l')) as Q. change (Z.to_nat 0) with O.
    split; [lia|]. split; [lia|]. rewrite H3. split; [lia|]. split; [|lia].
    apply lput_all; [intros N; discriminate N|intros N; discriminate N|rewrite H4; exact D].
  - cbn. lia.
Qed.
Lemma T_outputEOL : forall k, 0 <= k -> T W (U k) outputEOL.
Proof. intros k K. eapply T_weak; [| |exact outputEOL_ok]; [auto|]. intros s. apply U_le. exact K. Qed.

Lemma T_filterc : forall (P : state -> Prop) t p, deaf P -> (forall s, P s -> rest s.(ls)) -> T P P (filterc t p).
Proof.
  intros P t p D H s K. unfold filterc, bind. cbn [gets]. destruct (4000 <=? _); [split; [exact (H s K)|discriminate]|].
  destruct (fr_caps _); cbn [ret]; apply (D s); auto.
Qed.
Lemma rest_W : forall s, W s -> rest s.(ls).
Proof. intros s H. apply H. Qed.
Lemma rest_U : forall k s, U k s -> rest s.(ls).
Proof. intros k s H. apply H. Qed.

(** Within the line. *)
Definition V (s : state) : Prop := W s /\ s.(ls).(lpos) < s.(ls).(llen).
Lemma deaf_V : deaf V.
Proof. intros s s' E. unfold V, W. rewrite E. auto. Qed.
Lemma outspaces_llen : forall n s, match outspaces n s with (Ok _, s') => s'.(ls).(llen) = s.(ls).(llen) | _ => True end.
Proof.
  induction n as [|n IH]; intros s; cbn [outspaces]; [reflexivity|]. unfold bind.
  assert (K : match outspace s with (Ok _, s') => s'.(ls).(llen) = s.(ls).(llen) | _ => True end).
  { unfold outspace, bind, lbwrite, upd_ls, modify, gets, stop. destruct (_ <? _); [|reflexivity].
    destruct (1000 <=? _); [exact I|]. destruct (1000 <=? _); [exact I|reflexivity]. }
  destruct (outspace s) as [[a|b] s1]; [|exact I]. specialize (IH s1). destruct (outspaces n s1) as [[a'|b] s2]; [congruence|exact I].
Qed.
Lemma V_position : forall n, T V V (position n).
Proof.
  intros n s [H K]. pose proof (T_position n (lpos (ls s)) s ltac:(split; [exact H|lia])) as P.
  destruct (position n s) as [[a|b] s'] eqn:E; [|exact P].
  unfold position, bind in E. cbn [gets] in E. destruct (llen (ls s) <=? n) eqn:N.
  { unfold fatal, bind, print, upd_ls, modify, stop in E. discriminate E. }
  pose proof (outspaces_llen (Z.to_nat (n - lpos (ls s))) s) as Q. rewrite E in Q. split; [apply P|].
  destruct P as [_ P]. lia.
Qed.
Lemma V_outpats : forall l t, T V V (outpats l t).
Proof.
  induction l as [|p l IH]; intros t; cbn [outpats]; [apply T_ret|].
  eapply T_bind; [apply T_filterc; [exact deaf_V|intros s H; apply H]|intros [[x n]|]]; [apply V_position|apply IH].
Qed.
Lemma T_wrapline : forall c, T W V (wrapline c).
Proof.
  intros c. unfold wrapline. eapply T_bind; [apply (T_outputEOL 0); lia|intros _].
  apply (T_weak _ V _ V); [|auto|].
  { intros s [[R L] P]. split; [split; [exact R|exact L]|]. unfold lineok in L. lia. }
  apply T_skip. intros text. eapply T_bind; [apply T_filterc; [exact deaf_V|intros s H; apply H]|intros r].
  apply T_skip. intros off. eapply T_bind.
  - instantiate (1 := V). destruct r as [[x n]|]; [apply V_position|]. destruct (zc c =? 59); [apply V_position|].
    destruct (_ <=? _); [apply V_position|apply V_outpats].
  - intros _. apply T_skip. intros p s [[R L] P]. unfold upd_ls, modify. split; [split|].
    + apply (rest_same _ _ R); reflexivity.
    + exact L.
    + exact P.
Qed.

Lemma isprint_plain : forall c, isspace c = false -> plain c.
Proof. intros c H E. subst c. discriminate H. Qed.
(** A character that is not a blank takes at most one place. *)
Lemma T_car : forall c k, isspace c = false -> k < 39 -> T (U k) (U (k + 1)) (outputcar c).
Proof.
  intros c k S K s [[R L] P]. unfold outputcar. rewrite S. cbn [negb]. unfold bind at 1. cbn [gets].
  replace (llen (ls s) <=? lpos (ls s)) with false by (unfold lineok in L; lia). unfold when, bind at 1. cbn [ret].
  unfold bind at 1. cbn [gets]. destruct L as (A & B & C & D & E). destruct (isprint c || negb (isascii c)).
  - unfold bind, lbwrite, upd_ls, modify, gets. replace (1000 <=? lpos (ls s)) with false by lia. cbn [ls set_ls lpos set_lpos].
    replace (1000 <=? lpos (ls s) + 1) with false by lia. split; [split; [apply (rest_same _ _ R); reflexivity|]|].
    + unfold lineok. cbn [ls set_ls lpos set_lpos linebuffer set_linebuffer llen].
      pose proof (cstr_end (Z.to_nat (lpos (ls s) + 1)) (lput (Z.to_nat (lpos (ls s))) c (linebuffer (ls s)))) as Q.
      split; [lia|]. split; [lia|]. split; [lia|]. split; [|exact E].
      apply lput_all; [intros N; discriminate N|intros N; discriminate N|].
      apply lput_all; [exact (isprint_plain c S)|intros N; discriminate N|exact D].
    + cbn. lia.
  - unfold bind, lbwrite, upd_ls, modify, gets, ret. replace (1000 <=? lpos (ls s)) with false by lia.
    split; [split; [apply (rest_same _ _ R); reflexivity|]|].
    + unfold lineok. cbn [ls set_ls lpos set_lpos linebuffer set_linebuffer llen].
      pose proof (cstr_end (Z.to_nat (lpos (ls s))) (linebuffer (ls s))) as Q.
      split; [lia|]. split; [lia|]. split; [lia|]. split; [|exact E].
      apply lput_all; [intros N; discriminate N|intros N; discriminate N|exact D].
    + cbn. lia.
Qed.
Lemma T_outputcar : forall c, T W W (outputcar c).
Proof.
  intros c. unfold outputcar. destruct (isspace c) eqn:S; cbn [negb].
  { destruct (zc c =? 32); [|destruct (zc c =? 9); [apply T_outtab|apply T_ret]].
    intros s H. pose proof (T_outspace (lpos (ls s)) s ltac:(split; [exact H|lia])) as K.
    destruct (outspace s) as [[a|b] s']; [apply K|exact K]. }
  apply T_gets. intros l. eapply T_bind with (Q := V).
  { intros s [H E]. unfold when. destruct (llen l <=? lpos l) eqn:N; [exact (T_wrapline c s H)|]. split; [exact H|subst l; lia]. }
  intros _ s [[R (A & B & C & D & E)] P]. unfold bind at 1. cbn [gets]. destruct (isprint c || negb (isascii c)).
  - unfold bind, lbwrite, upd_ls, modify, gets, stop. destruct (1000 <=? lpos (ls s)); [split; [exact R|discriminate]|]. cbn [ls set_ls lpos set_lpos].
    destruct (1000 <=? lpos (ls s) + 1); [split; [apply (rest_same _ _ R); reflexivity|discriminate]|].
    split; [apply (rest_same _ _ R); reflexivity|].
    unfold lineok. cbn [ls set_ls lpos set_lpos linebuffer set_linebuffer llen].
    pose proof (cstr_end (Z.to_nat (lpos (ls s) + 1)) (lput (Z.to_nat (lpos (ls s))) c (linebuffer (ls s)))) as Q.
    split; [lia|]. split; [lia|]. split; [lia|]. split; [|exact E].
    apply lput_all; [intros N; discriminate N|intros N; discriminate N|].
    apply lput_all; [exact (isprint_plain c S)|intros N; discriminate N|exact D].
  - unfold bind, lbwrite, upd_ls, modify, gets, ret, stop. destruct (1000 <=? lpos (ls s)); [split; [exact R|discriminate]|].
    split; [apply (rest_same _ _ R); reflexivity|].
    unfold lineok. cbn [ls set_ls lpos set_lpos linebuffer set_linebuffer llen].
    pose proof (cstr_end (Z.to_nat (lpos (ls s))) (linebuffer (ls s))) as Q.
    split; [lia|]. split; [lia|]. split; [lia|]. split; [|exact E].
    apply lput_all; [intros N; discriminate N|intros N; discriminate N|exact D].
Qed.
Lemma T_output : forall t, T W W (output t).
Proof. induction t as [|c t IH]; cbn [output]; [apply T_ret|]. eapply T_bind; [apply T_outputcar|intros _; exact IH]. Qed.
(** Without tabulations. *)
Definition single (c : ascii) : Prop := isspace c = false \/ c = cz 32.
Lemma T_short : forall t k, Forall single t -> k + zlen t <= 39 -> T (U k) (U (k + zlen t)) (output t).
Proof.
  induction t as [|c t IH]; intros k F L; cbn [output].
  - apply (T_weak _ (U k) _ (U k)); [auto|intros s; apply U_le; cbn; lia|apply T_ret].
  - inversion F; subst. assert (X : zlen (c :: t) = zlen t + 1) by (unfold zlen; cbn [List.length]; lia).
    assert (0 <= zlen t) by (unfold zlen; lia).
    eapply T_bind with (Q := U (k + 1)).
    + destruct H1 as [S| ->]; [apply T_car; [exact S|lia]|apply T_outspace].
    + intros _. eapply T_weak; [| |apply (IH (k + 1)); [assumption|lia]]; [auto|]. intros s. apply U_le. lia.
Qed.
Lemma hexa_single : forall z, 0 <= z < 16 -> isspace (hexa z) = false.
Proof. intros z H. unfold hexa, isspace. destruct (z <? 10) eqn:E; rewrite zc_cz_small by lia; lia. Qed.
Lemma addr_single : forall n i a, Forall single (addr_digits n i a) /\ zlen (addr_digits n i a) = Z.of_nat n.
Proof.
  induction n as [|n IH]; intros i a; cbn [addr_digits]; [split; [constructor|reflexivity]|].
  destruct (IH (i - 4) a) as [A B]. split; [constructor; [|exact A]|unfold zlen in *; cbn [List.length]; lia].
  left. assert (H : 0 <= Z.land (Z.shiftr a i) 15 < 16).
  { change 15 with (Z.ones 4). rewrite Z.land_ones by lia. apply Z.mod_pos_bound. lia. }
  revert H. generalize (Z.land (Z.shiftr a i) 15). intros z H. exact (hexa_single z H).
Qed.
Lemma T_outputaddr : forall a k, k + 9 <= 39 -> T (U k) (U (k + 9)) (outputaddr a).
Proof.
  intros a k L. unfold outputaddr. apply T_skip. intros f. cbv zeta.
  assert (G : forall n i, (n <= 8)%nat -> T (U k) (U (k + 9)) (output (addr_digits n i (u64 a) ++ [cz 32]))).
  { intros n i N. destruct (addr_single n i (u64 a)) as [A B].
    assert (Z : zlen (addr_digits n i (u64 a) ++ [cz 32]) = Z.of_nat n + 1) by (unfold zlen in *; rewrite app_length; cbn [List.length]; lia).
    eapply T_weak; [| |apply (T_short (addr_digits n i (u64 a) ++ [cz 32]) k)]; [auto| | |].
    - intros s. apply U_le. lia.
    - apply Forall_app. split; [exact A|]. constructor; [right; reflexivity|constructor].
    - lia. }
  destruct (a_addr24 f); [apply G; lia|]. destruct (a_addr16 f); apply G; lia.
Qed.

Lemma T_upd_ls : forall k f, (forall l, (f l).(composed) = l.(composed) /\ (f l).(sheets) = l.(sheets) /\ (f l).(stdout) = l.(stdout) /\
    (f l).(ppos) = l.(ppos) /\ (f l).(plen) = l.(plen) /\ (f l).(lpos) = l.(lpos) /\ (f l).(linebuffer) = l.(linebuffer) /\
    (f l).(llen) = l.(llen)) -> T (U k) (U k) (upd_ls f).
Proof.
  intros k f H s [[R L] P]. unfold upd_ls, modify. destruct (H (ls s)) as (A & B & C & D & E & F & G & I). split; [split|].
  - apply (rest_same _ _ R); assumption.
  - unfold lineok in *. cbn [ls set_ls]. rewrite F, G, I. exact L.
  - cbn [ls set_ls]. rewrite F. exact P.
Qed.

Lemma T_outputbyte : forall b, T calm calm (outputbyte b).
Proof.
  intros b. unfold outputbyte. apply T_gets. intros s0.
  destruct ((20 <? advance (ct s0)) && (NMARGIN - 5 <? lpos (ls s0))).
  - destruct (lpos (ls s0) <=? NMARGIN - 3) eqn:E.
    + apply (T_weak _ (U 18) _ (U (18 + zlen (s2l "...")))).
      * intros s [[H K] ->]. split; [exact H|]. unfold NMARGIN in E. lia.
      * intros s. apply U_le. cbn. lia.
      * apply T_short; [|cbn; lia]. cbn. repeat constructor; left; reflexivity.
    + eapply T_weak; [| |apply T_ret]; [intros s H; exact (proj1 H)|auto].
  - eapply T_bind with (Q := U 18).
    { intros s [H <-]. unfold when. destruct (NMARGIN - 3 <? lpos (ls s)) eqn:E.
      - exact (T_outputEOL 18 ltac:(lia) s (U_W _ _ H)).
      - destruct H as [H _]. split; [exact H|]. unfold NMARGIN in E. lia. }
    intros _. apply T_skip. intros l1. eapply T_bind with (Q := U 18).
    { apply T_when. eapply T_weak; [| |apply (T_outputEOL 18); lia]; [apply U_W|auto]. }
    intros _. apply T_gets. intros l2. eapply T_bind with (Q := U 18).
    { intros s [H E]. unfold when. destruct (lpos l2 =? 0) eqn:Z; [|exact H].
      assert (U 0 s) as H0 by (destruct H as [H _]; split; [exact H|subst l2; lia]).
      pose proof (T_outputaddr (pc (wr s0)) 0 ltac:(lia) s H0) as K. destruct (outputaddr _ s) as [[u|x] s']; [|exact K].
      exact (U_le (0 + 9) 18 s' ltac:(lia) K). }
    intros _. eapply T_bind.
    + apply (T_short [hexa (Z.land (Z.shiftr b 4) 15); hexa (Z.land b 15)] 18); [|cbn; lia].
      assert (Q : forall z, 0 <= Z.land z 15 < 16).
      { intros z. change 15 with (Z.ones 4). rewrite Z.land_ones by lia. apply Z.mod_pos_bound. lia. }
      constructor; [|constructor; [|constructor]]; left; apply hexa_single; apply Q.
    + intros _. apply (T_weak _ calm _ calm); [intros s; apply U_le; cbn; lia|auto|]. apply T_upd_ls. intros l. repeat split.
Qed.

Lemma W_position : forall n, T W W (position n).
Proof.
  intros n s H. pose proof (T_position n (lpos (ls s)) s ltac:(split; [exact H|lia])) as K.
  destruct (position n s) as [[a|b] s']; [apply K|exact K].
Qed.
Lemma T_outputline : T calm calm outputline.
Proof.
  unfold outputline. eapply T_bind; [apply (T_upd_ls 28); intros l; repeat split|intros _]. apply T_skip. intros s0.
  destruct (_ =? 0); [apply T_ret|].
  eapply T_bind with (Q := W); [eapply T_weak; [| |apply W_position]; [apply U_W|auto]|intros _].
  eapply T_bind; [apply T_output|intros _]. eapply T_bind; [apply W_position|intros _].
  eapply T_bind; [apply T_output|intros _]. apply T_outputEOL. lia.
Qed.
Lemma T_EOL : T calm calm outputEOL.
Proof. eapply T_weak; [| |apply (T_outputEOL 28); lia]; [apply U_W|auto]. Qed.
Lemma T_EOP : forall P, (P = calm \/ P = W) -> T P P outputEOP.
Proof.
  intros P HP. assert (L : forall n, T P P (eoploop n)).
  { assert (E : T P P outputEOL). { destruct HP as [-> | ->]; [exact T_EOL|]. eapply T_weak; [| |apply (T_outputEOL 0); lia]; [auto|apply U_W]. }
    induction n as [|n IH]; cbn [eoploop].
    - intros s H. split; [|discriminate]. destruct HP as [-> | ->]; apply H.
    - apply T_skip. intros p. destruct (p =? 0); [apply T_ret|]. eapply T_bind; [exact E|intros _; exact IH]. }
  unfold outputEOP. apply T_skip. intros s0. destruct (a_list_on (fl s0)); [|apply T_ret].
  destruct (negb _); [apply L|].
  assert (G : forall l, rest l -> rest (set_stdout ([nl; nl; nl] :: stdout l) l)).
  { intros l ((G & O) & F & R). split; [|split; [exact F|exact R]]. split; [|exact O].
    destruct G as (G1 & G2 & G3 & G4). split; [exact G1|]. split; [exact G2|]. split; [exact G3|]. exact (pr_feed _ _ G4). }
  intros s H. unfold print, upd_ls, modify. destruct HP as [-> | ->].
  - destruct H as [[R L'] K]. split; [split; [exact (G _ R)|exact L']|exact K].
  - destruct H as [R L']. split; [exact (G _ R)|exact L'].
Qed.

Lemma T_raw : forall t, is_message t -> T calm calm (outputraw t).
Proof.
  intros t N s [[(G & F & R) (A & B & C & D & E)] K].
  destruct (outputraw_step t s G) as (l' & E1 & [H1 H2 H3 H4 H5 H6]). rewrite E1. split; [split|].
  - split; [exact H1|]. cbn [ls set_ls]. rewrite H5. split; [exact F|]. intros p x I.
    destruct (H6 p x I) as [J| ->]; [exact (R p x J)|right; exact N].
  - unfold lineok. cbn [ls set_ls]. rewrite H2, H3, H4. auto.
  - cbn [ls set_ls]. rewrite H2. exact K.
Qed.
Lemma marked : forall n k m, k = " ERROR: "%string \/ k = " WARNING: "%string ->
  is_message (markline (padl 7 (dec n) ++ s2l k ++ m)).
Proof.
  intros n k m H. unfold padl. rewrite <- app_assoc. destruct (dec_nonblank n) as [Hn Hl].
  destruct (markline_spec (7 - List.length (dec n)) (dec n) (s2l k ++ m) Hn ltac:(lia)) as (p & Hp & Ep).
  exists (p ++ dec n), m. rewrite Ep, app_assoc. destruct H as [-> | ->]; auto.
Qed.
Lemma T_warning : forall m, T calm calm (warning m).
Proof.
  intros m. unfold warning. apply T_skip. intros s0. destruct (negb _); [|apply T_ret]. apply T_raw. apply marked. auto.
Qed.
Lemma T_star : T calm calm star_advance.
Proof.
  unfold star_advance. apply T_skip. intros s0. cbv zeta. destruct (in_s64 _); [apply T_modify; [apply deaf_U|reflexivity]|].
  intros s H. split; [apply H|discriminate].
Qed.
Lemma T_error : forall A m Q, T calm Q (@error A m).
Proof.
  intros A m Q. unfold error. apply T_skip. intros s0. cbv zeta. eapply T_bind with (Q := calm).
  { destruct (negb _); [|apply T_ret]. destruct (80 <=? _); [intros s H; split; [apply H|discriminate]|].
    eapply T_bind; [apply T_modify; [apply deaf_U|reflexivity]|intros _]. apply T_raw. apply marked. auto. }
  intros _. eapply T_bind; [exact T_outputline|intros _]. eapply T_bind; [apply T_when; exact T_star|intros _].
  eapply T_bind; [apply T_modify; [apply deaf_U|reflexivity]|intros _].
  eapply T_bind; [apply T_modify; [apply deaf_U|reflexivity]|intros _].
  intros s H. split; [apply H|intros e _; exact H].
Qed.

Notation J := (fun A (m : M A) => T calm calm m).
Lemma J_stop : forall A b, (forall e, b <> Err e) -> T calm calm (@stop A b).
Proof. intros A b N s H. split; [apply H|]. intros e E. exfalso. exact (N e E). Qed.
Lemma J_catch : forall A (m : M A), T calm calm m -> T calm calm (catch m).
Proof.
  intros A m H s K. unfold catch. specialize (H s K). destruct (m s) as [[a|[]] s']; try exact H.
  destruct H as [_ H]. exact (H _ eq_refl).
Qed.
Ltac t1 :=
  lazymatch goal with
  | |- T _ _ (bind (gets _) _) => apply T_skip; intros
  | |- T _ _ (bind (error _) _) => eapply T_bind with (Q := calm); [apply T_error|intros]
  | |- T _ _ (bind _ _) => eapply T_bind with (Q := calm); [|intros]
  | |- T _ _ (ret _) => apply T_ret
  | |- T _ _ (gets _) => intros ?s ?K; exact K
  | |- T _ _ (when _ _) => apply T_when
  | |- T _ _ (stop _) => apply J_stop; discriminate
  | |- T _ _ (err _) => unfold err; apply T_error
  | |- T _ _ (error _) => apply T_error
  | |- T _ _ (warning _) => apply T_warning
  | |- T _ _ (fatal _) => apply T_fatal; apply rest_U
  | |- T _ _ outputline => exact T_outputline
  | |- T _ _ outputEOL => exact T_EOL
  | |- T _ _ outputEOP => apply T_EOP; left; reflexivity
  | |- T _ _ star_advance => exact T_star
  | |- T _ _ (outputbyte _) => apply T_outputbyte
  | |- T _ _ (filterc _ _) => apply T_filterc; [apply deaf_U|apply rest_U]
  | |- T _ _ (upd_fl _) => apply T_modify; [apply deaf_U|reflexivity]
  | |- T _ _ (upd_ct _) => apply T_modify; [apply deaf_U|reflexivity]
  | |- T _ _ (upd_sy _) => apply T_modify; [apply deaf_U|reflexivity]
  | |- T _ _ (upd_inp _) => apply T_modify; [apply deaf_U|reflexivity]
  | |- T _ _ (upd_wr _) => apply T_modify; [apply deaf_U|reflexivity]
  | |- T _ _ (upd_cp _) => apply T_modify; [apply deaf_U|reflexivity]
  | |- T _ _ (modify _) => apply T_modify; [apply deaf_U|reflexivity]
  | |- T _ _ (match ?x with _ => _ end) => destruct x
  | |- T _ _ (let (_, _) := ?x in _) => destruct x
  | |- T _ _ _ => solve [auto]
  end.
Ltac t := repeat first [t1 | progress (cbv beta zeta)].

Lemma j_settitle : forall x, T calm calm (settitle x).
Proof. intros x. unfold settitle. t; apply T_upd_ls; intros l; repeat split. Qed.
Lemma j_setpage : forall a b, T calm calm (setpage a b).
Proof.
  intros a b. unfold setpage. t1. t1; [t|]. destruct (_ || _) eqn:C.
  { unfold when at 1. eapply T_bind with (Q := fun _ => False); [apply T_error|]. intros u s []. }
  unfold when at 1. t1; [t|]. intros s H. unfold bind at 1. cbn [upd_ls modify]. unfold bind at 1. cbn [upd_ls modify].
  match goal with |- context [set_ls ?l ?x] => set (s2 := set_ls l x) end.
  assert (K : calm s2).
  { destruct H as [[((G & O) & F & R) (A & B & C' & D & E)] P]. split; [split|].
    - split; [|split; [exact F|exact R]]. split; [|exact O]. destruct G as (G1 & G). split; [|exact G]. cbn. lia.
    - unfold lineok. cbn [s2 ls set_ls lpos linebuffer llen set_llen set_plen]. repeat split; auto; lia.
    - exact P. }
  clearbody s2. revert s2 K. clear. intros s2 K.
  match goal with |- match ?m s2 with _ => _ end => assert (G : T calm calm m) end; [|exact (G s2 K)].
  t. apply T_upd_ls; intros l; repeat split.
Qed.
Lemma j_scwrite : forall x, T calm calm (scwrite x).
Proof. intros x. unfold scwrite. t. Qed.
Lemma j_flush : T calm calm flushscoderaw.
Proof. unfold flushscoderaw. pose proof j_scwrite. t. Qed.
Lemma j_setpc : forall a, T calm calm (setpc a).
Proof. intros a. unfold setpc. pose proof j_flush. t. Qed.
Lemma j_insert8 : forall x, T calm calm (insert8 x).
Proof. intros x. unfold insert8. pose proof j_flush. t. Qed.
Lemma j_searchlabel : forall n, T calm calm (searchlabel n).
Proof. intros n. unfold searchlabel. t. Qed.
Lemma j_findlabel : forall n, T calm calm (findlabel n).
Proof. intros n. unfold findlabel, makelabel. pose proof j_searchlabel. t. Qed.
Lemma j_deflabel : forall n f ty v, T calm calm (deflabel n f ty v).
Proof. intros n f ty v. unfold deflabel, makelabel. pose proof j_searchlabel. t. Qed.
Lemma j_show : forall v (b : bool), T calm calm (s <- gets (fun s => s) ;;
         when (b && ((s.(inp).(macrolevel) =? 0) || s.(fl).(a_macrolist_on)) && (s.(ls).(lpos) =? 0))
              (position 2 ;;; outputaddr v)).
Proof.
  intros v b. apply T_gets. intros s0 s [H <-]. unfold when. destruct (_ && _) eqn:C; [|exact H].
  apply andb_true_iff in C. destruct C as [_ C]. apply Z.eqb_eq in C.
  assert (G : T (U 0) calm (position 2 ;;; outputaddr v)).
  { eapply T_bind; [apply T_position|intros _]. eapply T_weak; [| |apply (T_outputaddr v 2); lia]; [auto|].
    intros x. apply U_le. lia. }
  apply G. split; [apply H|lia].
Qed.
Lemma j_herelabel : forall n, T calm calm (herelabel n).
Proof.
  intros n. unfold herelabel. pose proof (j_deflabel). t1; [t|]. t1. t1; [t|].
  pose proof (fun v s0 => j_show v (negb (a_code_on (fl s0)))) as G.
  intros s K. unfold bind at 1. cbn [gets]. specialize (G (starvalue s) s s K). unfold bind at 1 in G. cbn [gets] in G. exact G.
Qed.
Lemma j_init_entry : forall e, T calm calm (init_entry e).
Proof. intros e. unfold init_entry. pose proof j_searchlabel. t. Qed.
Lemma j_init_inner : forall n i k l, T calm calm (init_inner n i k l).
Proof. induction n as [|n IH]; intros; cbn [init_inner]; pose proof j_init_entry; t. Qed.
Lemma j_init_outer : forall n k l, T calm calm (init_outer n k l).
Proof. induction n as [|n IH]; intros; cbn [init_outer]; pose proof j_init_inner; t. Qed.
Lemma j_init : forall l, T calm calm (init_label_list l).
Proof. intros. apply j_init_outer. Qed.
Lemma j_popended : forall l, T calm calm (popended l).
Proof. induction l as [|[[] r e ol op on|] l IH]; cbn [popended]; t. Qed.
Lemma j_readline : forall r, T calm calm (readline r).
Proof. intros r. unfold readline. t. Qed.
Lemma j_linegets : T calm calm linegets.
Proof. unfold linegets. pose proof j_popended. pose proof j_readline. t. Qed.
Lemma j_macrolines : forall n li acc, T calm calm (macrolines n li acc).
Proof. induction n as [|n IH]; intros; cbn [macrolines]; pose proof j_linegets; unfold zerobuffer, mainfeof, filter2; t. Qed.
Lemma j_checkdepth : T calm calm checkdepth.
Proof. unfold checkdepth. t. Qed.
Lemma j_macroargs : forall n o acc, T calm calm (macroargs n o acc).
Proof. induction n as [|n IH]; intros [|c o] acc; cbn [macroargs]; unfold filter2; t. Qed.

Lemma calm_walk : walk (fun A m => T calm calm m).
Proof.
  pose proof j_deflabel. pose proof j_macrolines. pose proof j_checkdepth. pose proof j_macroargs. pose proof j_init. pose proof j_setpc.
  pose proof j_findlabel.
  constructor; intros; cbv beta in *.
  all: lazymatch goal with
  | H : forall s, ?m s = ?m' s |- T _ _ ?m' => intros s K; rewrite <- H; auto; match goal with G : T calm calm m |- _ => exact (G s K) end
  | |- T _ _ (catch _) => apply J_catch; assumption
  | |- T _ _ (fatal _) => apply T_fatal; apply rest_U
  | |- T _ _ (settitle _) => apply j_settitle
  | |- T _ _ (setpage _ _) => apply j_setpage
  | |- T _ _ (insert8 _) => apply j_insert8
  | |- T _ _ (herelabel _) => apply j_herelabel
  | |- T _ _ linegets => apply j_linegets
  | |- T _ _ (bind (gets (fun s => s)) _) => apply j_show
  | |- T _ _ linestart => unfold linestart, zerobuffer; t
  | |- T _ _ (cstlabel _ _) => unfold cstlabel, putres; t
  | |- T _ _ (Xinclude _) => unfold Xinclude; t
  | |- T _ _ (Xif _ _ _ _) => unfold Xif, iflist; t
  | |- T _ _ stripline => unfold stripline, filter2; t
  | |- T _ _ (init6800 _) => unfold init6800; t
  | |- T _ _ (init6502 _) => unfold init6502; t
  | |- T _ _ (initz80 _) => unfold initz80; t
  | |- T _ _ zerobuffer => unfold zerobuffer; t
  | |- T _ _ flip_lohi => unfold flip_lohi; t
  | |- T _ _ newsegment => unfold newsegment; t
  | |- T _ _ (macrocall _ _ _ _ _) => unfold macrocall, newsegment; t
  | |- T _ _ _ => t
  end.
Qed.

(** ** The whole assembly *)
Lemma j_passloop : forall n, T calm calm (passloop n).
Proof. exact (J_passloop _ calm_walk). Qed.
Lemma j_pass : forall n k, T calm calm (pass n k).
Proof.
  intros n k. unfold pass, passstart. pose proof j_findlabel. pose proof (j_passloop n). t.
Qed.
Lemma j_between : forall o, T calm calm (between o).
Proof. intros o. unfold between, undeflabels. t. Qed.
Lemma w_eol : T W W outputEOL.
Proof. eapply T_weak; [| |apply (T_outputEOL 0); lia]; [auto|apply U_W]. Qed.
Lemma w_addr : forall a, T W W (outputaddr a).
Proof. intros a. unfold outputaddr. apply T_skip. intros f. apply T_output. Qed.
Ltac w1 :=
  lazymatch goal with
  | |- T _ _ (bind (gets _) _) => apply T_skip; intros
  | |- T _ _ (bind _ _) => eapply T_bind with (Q := W); [|intros]
  | |- T _ _ (ret _) => apply T_ret
  | |- T _ _ (when _ _) => apply T_when
  | |- T _ _ (stop _) => let s := fresh in let K := fresh in intros s K; split; [apply K|discriminate]
  | |- T _ _ outputEOL => exact w_eol
  | |- T _ _ outputEOP => apply T_EOP; right; reflexivity
  | |- T _ _ (output _) => apply T_output
  | |- T _ _ (outputcar _) => apply T_outputcar
  | |- T _ _ (outputaddr _) => apply w_addr
  | |- T _ _ (position _) => apply W_position
  | |- T _ _ (upd_fl _) => apply T_modify; [exact deaf_W|reflexivity]
  | |- T _ _ (match ?x with _ => _ end) => destruct x
  | |- T _ _ _ => solve [auto]
  end.
Ltac w := repeat first [w1 | progress (cbv beta zeta)].
Lemma w_resline : forall x, T W W (resline x).
Proof. intros x. unfold resline. w. Qed.
Lemma w_results : T W W results.
Proof. unfold results. pose proof w_resline. w. Qed.
Lemma w_printlabel : forall k l, T W W (printlabel k l).
Proof. intros k l. unfold printlabel. w. Qed.
Lemma w_xref2 : forall x, T W W (xref2 x).
Proof. induction x as [|l IHl k v r IHr]; cbn [xref2]; pose proof w_printlabel; w. Qed.
Lemma w_symbols : forall o, T W W (symbols o).
Proof. intros o. unfold symbols, xref. pose proof w_xref2. w. Qed.
Lemma w_finish : T calm W finish.
Proof.
  unfold finish. pose proof j_flush. pose proof j_scwrite. apply T_skip. intros x. eapply T_bind with (Q := calm).
  { destruct (scode x); [unfold closescodefile|]; t. }
  intros _. eapply T_bind with (Q := calm); [t|intros _]. eapply T_weak; [| |exact w_results]; [apply U_W|auto].
Qed.
Lemma w_assemble : forall n o, T calm W (assemble n o).
Proof.
  intros n o. unfold assemble. eapply T_bind; [apply j_init|intros _]. eapply T_bind; [apply j_pass|intros _].
  eapply T_bind; [apply j_between|intros _]. eapply T_bind; [apply j_pass|intros _]. exact w_finish.
Qed.
Lemma calm_init : forall fs text, calm (init_state fs text).
Proof.
  intros fs text. split; [split|]; cbn [init_state ls].
  - split; [|split; [constructor|intros p t []]]. split; [|left; reflexivity]. split; [right; cbn; lia|].
    split; [|split; [|constructor]]; intros before p page after; [intros m|]; intros E; destruct before; discriminate E.
  - unfold lineok. cbn. repeat split; try lia. constructor.
  - cbn. lia.
Qed.
Lemma rest_layout : forall s, rest s.(ls) -> layout s.
Proof. intros s (((_ & A & B & C) & _) & D & E). repeat split; assumption. Qed.

Lemma listing_layout : forall n o fs text,
  let m := (u <- assemble n o ;; symbols o) in layout (snd (m (init_state fs text))).
Proof.
  intros n o fs text m. assert (H : T calm W m) by (unfold m; eapply T_bind; [apply w_assemble|intros _; apply w_symbols]).
  specialize (H _ (calm_init fs text)). clearbody m. destruct (m (init_state fs text)) as [[u|b] s']; apply rest_layout; apply H.
Qed.
