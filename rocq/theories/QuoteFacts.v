(** Lemmas on quoted constants. *)
From Coq Require Import String Ascii ZArith List Bool Lia ZifyBool ZifyNat.
From Verif Require Import Base BaseFacts State Tree Filter Output Label Operator Parse.
From Verif Require Import FilterFacts SpecNumbers ParseFacts NumberFacts.
Import ListNotations.
Open Scope Z_scope.

(** ** A text all of whose inner positions are inside quotes *)
Definition literal (f : ascii) : bool := negb (zc f =? 63) && negb (zc f =? 95).

Lemma mlit_noisy : forall last seg s, existsb literal seg = true ->
  match mlit false last seg s with MOk _ => False | _ => True end.
Proof.
  intros last seg. induction seg as [|f seg IH]; intros s H; [discriminate|]. cbn [mlit].
  cbn [existsb] in H. destruct (zc f =? 95) eqn:E.
  - apply IH. unfold literal in H at 1. rewrite E, andb_false_r in H. exact H.
  - destruct s as [|c s]; exact I.
Qed.

Fixpoint noisy (q : quote) (t : str) : bool :=
  match t with [] => true | c :: t' => negb (qzero q) && noisy (qstep q c) t' end.

Lemma mlit_end : forall quiet last seg, existsb literal seg = true -> mlit quiet last seg [] = MEnd.
Proof.
  intros quiet last seg. induction seg as [|f seg IH]; intros H; [discriminate|]. cbn [mlit].
  cbn [existsb] in H. destruct (zc f =? 95) eqn:E; [|reflexivity]. cbn [skipblanks].
  apply IH. unfold literal in H at 1. rewrite E, andb_false_r in H. exact H.
Qed.

Lemma wildloop_noisy : forall k seg last rem t q cap, existsb literal seg = true -> noisy q t = true ->
  fr_caps (wildloop k seg last rem t q cap) = None.
Proof.
  intros k seg last rem t. induction t as [|c t IH]; intros q cap S H; cbn [wildloop].
  - rewrite mlit_end by exact S. reflexivity.
  - cbn [noisy] in H. apply andb_true_iff in H. destruct H as [H1 H2].
    destruct (qzero q); [discriminate|].
    pose proof (mlit_noisy last seg (c :: t) S) as K.
    destruct (mlit false last seg (c :: t)); [contradiction|reflexivity|]. apply IH; assumption.
Qed.

(** Patterns that cannot match a quoted text. *)
Definition unquoted (f : ascii) : bool := negb (charmatch f "'") && negb (charmatch f """").
Definition guard (pat : str) : bool :=
  let (h, t) := segments pat in
  forallb (fun f => implb (literal f) (unquoted f)) h &&
  (existsb literal h ||
   match t with seg :: _ => existsb literal seg && forallb (fun f => implb (literal f) (unquoted f)) seg
              | [] => false end).

Definition isquote (c : ascii) : Prop := c = "'"%char \/ c = """"%char.

Lemma mlit_first : forall last seg c t, isquote c -> existsb literal seg = true ->
  forallb (fun f => implb (literal f) (unquoted f)) seg = true ->
  forallb (fun f => negb (zc f =? 63)) seg = true -> mlit true last seg (c :: t) = MRetry.
Proof.
  intros last seg c t Q. induction seg as [|f seg IH]; intros H1 H2 H3; [discriminate|].
  cbn [mlit existsb forallb] in *. apply andb_true_iff in H2. destruct H2 as [H2 H2'].
  apply andb_true_iff in H3. destruct H3 as [H3 H3'].
  unfold literal in H1 at 1. unfold literal in H2. rewrite H3 in *.
  destruct (zc f =? 95) eqn:E; cbn [negb andb orb implb] in *.
  - assert (B : skipblanks (c :: t) = c :: t) by (destruct Q; subst; reflexivity).
    rewrite B. apply IH; assumption.
  - unfold unquoted in H2. apply andb_true_iff in H2. destruct H2 as [U1 U2].
    assert (M : charmatch f c = false) by (destruct Q; subst; [destruct (charmatch f "'")|destruct (charmatch f """")]; trivial; discriminate).
    rewrite M. reflexivity.
Qed.

Lemma mlit_skip : forall seg c t, isquote c -> existsb literal seg = false ->
  forallb (fun f => negb (zc f =? 63)) seg = true -> mlit true false seg (c :: t) = MOk (c :: t).
Proof.
  intros seg c t Q. induction seg as [|f seg IH]; intros H1 H3; [reflexivity|].
  cbn [mlit existsb forallb] in *. apply andb_true_iff in H3. destruct H3 as [H3 H3'].
  apply orb_false_iff in H1. destruct H1 as [H1 H1']. unfold literal in H1. rewrite H3 in H1. cbn [andb] in H1.
  destruct (zc f =? 95); [|discriminate].
  assert (B : skipblanks (c :: t) = c :: t) by (destruct Q; subst; reflexivity).
  rewrite B. apply IH; assumption.
Qed.

Lemma segments_nowild : forall pat, forallb (fun f => negb (zc f =? 63)) (fst (segments pat)) = true /\
  Forall (fun s => forallb (fun f => negb (zc f =? 63)) s = true) (snd (segments pat)).
Proof.
  induction pat as [|c pat [IH1 IH2]]; cbn [segments]; [split; [reflexivity|constructor]|].
  destruct (segments pat) as [h t]. cbn [fst snd] in *.
  destruct (zc c =? 63) eqn:E; cbn [fst snd forallb].
  - split; [reflexivity|constructor; assumption].
  - split; [rewrite E; exact IH1|assumption].
Qed.

Lemma guard_none : forall pat c t, guard pat = true -> isquote c -> noisy (qstep q0 c) t = true ->
  fr_caps (filter_pure (c :: t) pat) = None.
Proof.
  intros pat c t G Q N. unfold guard in G. unfold filter_pure.
  pose proof (segments_nowild pat) as [W1 W2]. destruct (segments pat) as [h l]. cbn [fst snd] in *.
  apply andb_true_iff in G. destruct G as [G1 G2].
  destruct (existsb literal h) eqn:E.
  - rewrite mlit_first by assumption. reflexivity.
  - cbn [orb] in G2. destruct l as [|seg l]; [discriminate|]. apply andb_true_iff in G2. destruct G2 as [G2 G3].
    cbn [lastseg]. rewrite mlit_skip by assumption. inversion W2 as [|? ? W3 W4]; subst.
    assert (R : fwild (seg :: l) q0 (c :: t) = wildloop (fwild l) seg (lastseg l) (zlen (c :: t)) (c :: t) q0 []).
    { cbn [fwild]. destruct seg as [|f seg]; [discriminate|]. reflexivity. }
    rewrite R. cbn [wildloop]. change (qzero q0) with true. rewrite mlit_first by assumption.
    apply wildloop_noisy; assumption.
Qed.

(** The same behind a run of backslashes. *)
Definition unslash (f : ascii) : bool := negb (charmatch f "\").
Definition guard' (pat : str) : bool :=
  guard pat && forallb (fun f => implb (literal f) (unslash f)) pat.

Lemma mlit_first' : forall last seg t, existsb literal seg = true ->
  forallb (fun f => implb (literal f) (unslash f)) seg = true ->
  forallb (fun f => negb (zc f =? 63)) seg = true -> mlit true last seg ("\"%char :: t) = MRetry.
Proof.
  intros last seg t. induction seg as [|f seg IH]; intros H1 H2 H3; [discriminate|].
  cbn [mlit existsb forallb] in *. apply andb_true_iff in H2. destruct H2 as [H2 H2'].
  apply andb_true_iff in H3. destruct H3 as [H3 H3'].
  unfold literal in H1 at 1. unfold literal in H2. rewrite H3 in *.
  destruct (zc f =? 95) eqn:E; cbn [negb andb orb implb] in *.
  - change (skipblanks ("\"%char :: t)) with ("\"%char :: t). apply IH; assumption.
  - unfold unslash in H2. destruct (charmatch f "\"); [discriminate|]. reflexivity.
Qed.

Lemma mlit_skip' : forall seg t, existsb literal seg = false ->
  forallb (fun f => negb (zc f =? 63)) seg = true -> mlit true false seg ("\"%char :: t) = MOk ("\"%char :: t).
Proof.
  intros seg t. induction seg as [|f seg IH]; intros H1 H3; [reflexivity|].
  cbn [mlit existsb forallb] in *. apply andb_true_iff in H3. destruct H3 as [H3 H3'].
  apply orb_false_iff in H1. destruct H1 as [H1 H1']. unfold literal in H1. rewrite H3 in H1. cbn [andb] in H1.
  destruct (zc f =? 95); [|discriminate].
  change (skipblanks ("\"%char :: t)) with ("\"%char :: t). apply IH; assumption.
Qed.

Lemma segments_incl : forall P pat, forallb P pat = true ->
  forallb P (fst (segments pat)) = true /\ Forall (fun s => forallb P s = true) (snd (segments pat)).
Proof.
  intros P. induction pat as [|c pat IH]; intros H; cbn [segments]; [split; [reflexivity|constructor]|].
  cbn [forallb] in H. apply andb_true_iff in H. destruct H as [H H']. destruct (IH H') as [IH1 IH2].
  destruct (segments pat) as [h t]. cbn [fst snd] in *.
  destruct (zc c =? 63) eqn:E; cbn [fst snd forallb].
  - split; [reflexivity|constructor; assumption].
  - rewrite H. split; assumption.
Qed.

Lemma wildloop_slashes : forall k seg last rem n t cap, existsb literal seg = true ->
  forallb (fun f => implb (literal f) (unslash f)) seg = true ->
  forallb (fun f => negb (zc f =? 63)) seg = true ->
  exists cap', wildloop k seg last rem (repeat "\"%char n ++ t) q0 cap = wildloop k seg last rem t q0 cap'.
Proof.
  intros k seg last rem n t. induction n as [|n IH]; intros cap H1 H2 H3; [exists cap; reflexivity|].
  cbn [repeat app wildloop]. change (qzero q0) with true. rewrite mlit_first' by assumption.
  change (qstep q0 "\") with q0. apply IH; assumption.
Qed.

Lemma guard_none' : forall pat n c t, guard' pat = true -> isquote c -> noisy (qstep q0 c) t = true ->
  fr_caps (filter_pure (repeat "\"%char n ++ c :: t) pat) = None.
Proof.
  intros pat [|n] c t G Q N; unfold guard' in G; apply andb_true_iff in G; destruct G as [G U];
    [apply guard_none; assumption|].
  unfold guard in G. unfold filter_pure.
  pose proof (segments_nowild pat) as [W1 W2]. destruct (segments_incl _ _ U) as [U1 U2].
  destruct (segments pat) as [h l]. cbn [fst snd] in *.
  apply andb_true_iff in G. destruct G as [G1 G2]. cbn [repeat app].
  destruct (existsb literal h) eqn:E.
  - rewrite mlit_first' by assumption. reflexivity.
  - cbn [orb] in G2. destruct l as [|seg l]; [discriminate|]. apply andb_true_iff in G2. destruct G2 as [G2 G3].
    cbn [lastseg]. rewrite mlit_skip' by assumption. inversion W2 as [|? ? W3 W4]; subst.
    inversion U2 as [|? ? U3 U4]; subst.
    assert (R : forall x, fwild (seg :: l) q0 x = wildloop (fwild l) seg (lastseg l) (zlen x) x q0 []).
    { intros x. cbn [fwild]. destruct seg as [|f seg]; [discriminate|]. reflexivity. }
    rewrite R. set (z := zlen _). clearbody z.
    destruct (wildloop_slashes (fwild l) seg (lastseg l) z (S n) (c :: t) [] G2 U3 W3) as [cap' X].
    cbn [repeat app] in X. rewrite X.
    cbn [wildloop]. change (qzero q0) with true. rewrite mlit_first by assumption.
    apply wildloop_noisy; assumption.
Qed.

Definition rowguard (r : row) : bool :=
  match r with
  | R2 l => forallb (fun p => guard' (s2l (fst p)) && (zlen (snd (segments (s2l (fst p)))) <=? 3)) l
  | R1 f _ | RPar f => guard' (s2l f) && (zlen (snd (segments (s2l f))) <=? 3)
  end.

Lemma trygroup_guard : forall s n c t l, room s (repeat "\"%char n ++ c :: t) -> isquote c -> noisy (qstep q0 c) t = true ->
  rowguard (R2 l) = true -> trygroup (repeat "\"%char n ++ c :: t) l s = (Ok None, s).
Proof.
  intros s n c t l R Q N. induction l as [|[f o] l IH]; intros H; [reflexivity|].
  cbn [rowguard forallb fst] in H. apply andb_true_iff in H. destruct H as [H H'].
  apply andb_true_iff in H. destruct H as [H1 H2].
  cbn [trygroup]. unfold bind. unfold filter2, bind.
  rewrite filterc_none; [|exact R|unfold short; lia|apply guard_none'; assumption].
  cbn [ret]. rewrite IH by exact H'. reflexivity.
Qed.

Lemma parserows_guard : forall rec top r s n c t rows, room s (repeat "\"%char n ++ c :: t) -> isquote c ->
  noisy (qstep q0 c) t = true -> forallb rowguard rows = true ->
  parserows rec top r (repeat "\"%char n ++ c :: t) rows s = parserows rec top r (repeat "\"%char n ++ c :: t) [] s.
Proof.
  intros rec top r s n c t rows R Q N. induction rows as [|w rows IH]; intros H; [reflexivity|].
  cbn [forallb] in H. apply andb_true_iff in H. destruct H as [H H'].
  rewrite <- (IH H'). destruct w as [l|f o|f]; cbn [parserows]; unfold bind at 1.
  - rewrite trygroup_guard by assumption. reflexivity.
  - cbn [rowguard] in H. apply andb_true_iff in H. destruct H as [H1 H2].
    unfold filter1, bind. rewrite filterc_none; [|exact R|unfold short; lia|apply guard_none'; assumption].
    reflexivity.
  - cbn [rowguard] in H. apply andb_true_iff in H. destruct H as [H1 H2].
    unfold filter1, bind. rewrite filterc_none; [|exact R|unfold short; lia|apply guard_none'; assumption].
    reflexivity.
Qed.

(** The first row separates registers with a backslash: nothing is before it here. *)
Lemma first_row : forall rec top r s n c t rows, isquote c -> noisy (qstep q0 c) t = true ->
  room s (repeat "\"%char n ++ c :: t) ->
  exists b, b <= bufferpos (ct s) + zlen (repeat "\"%char n ++ c :: t) + 3 /\
  parserows rec top r (repeat "\"%char n ++ c :: t) (R2 [("?_\_?"%string, ORlist)] :: rows) s =
  parserows rec top r (repeat "\"%char n ++ c :: t) rows (set_ct (set_bufferpos b (ct s)) s).
Proof.
  intros rec top r s n c t rows Q N R. destruct n as [|n].
  - exists (bufferpos (ct s)). split; [unfold zlen; lia|]. rewrite bufferpos_self. cbn [repeat app] in *.
    cbn [parserows trygroup]. unfold bind. unfold filter2, bind.
    rewrite filterc_none; [|exact R|unfold short; vm_compute; discriminate|].
    2:{ apply guard_none; try assumption. vm_compute. reflexivity. }
    reflexivity.
  - set (x := repeat "\"%char (S n) ++ c :: t) in *.
    assert (E : exists y, fr_caps (filter_pure x (s2l "?_\_?")) = Some [[]; y]).
    { unfold x. eexists. change (filter_pure (repeat "\"%char (S n) ++ c :: t) (s2l "?_\_?")) with
        (fwild [["_"; "\"; "_"]; []]%char q0 ("\"%char :: repeat "\"%char n ++ c :: t)).
      cbn [fwild lastseg wildloop]. change (qzero q0) with true.
      change (mlit true false ["_"; "\"; "_"]%char ("\"%char :: repeat "\"%char n ++ c :: t)) with
        (MOk (skipblanks (repeat "\"%char n ++ c :: t))).
      cbv iota. cbn [fr_caps rev]. reflexivity. }
    destruct E as [y E].
    exists (bufferpos (ct s) + fr_used (filter_pure x (s2l "?_\_?"))).
    pose proof (filter_used x (s2l "?_\_?")) as B.
    change (zlen (snd (segments (s2l "?_\_?")))) with 2 in B. split; [lia|].
    cbn [parserows trygroup]. unfold bind. unfold filter2, bind.
    rewrite (filterc_some s x (s2l "?_\_?") [[]; y]); [|exact R|unfold short; vm_compute; discriminate|exact E].
    reflexivity.
Qed.

Lemma trycst_guard : forall top r s c t l, room s (c :: t) -> isquote c -> noisy (qstep q0 c) t = true ->
  forallb (fun p => guard (s2l (fst p)) && (zlen (snd (segments (s2l (fst p)))) <=? 3)) l = true ->
  trycst top r (c :: t) l s = constant top r (cstascii c 0 t) s.
Proof.
  intros top r s c t l R Q N. induction l as [|[f o] l IH]; intros H.
  - cbn [trycst]. destruct Q; subst; reflexivity.
  - cbn [forallb fst] in H. apply andb_true_iff in H. destruct H as [H H'].
    apply andb_true_iff in H. destruct H as [H1 H2].
    rewrite trycst_none; [auto|exact R|unfold short; lia|apply guard_none; assumption].
Qed.

Lemma room_reverse : forall s a b, List.length a = List.length b -> room s a -> room s b.
Proof. intros s a b H. unfold room, zlen. rewrite H. trivial. Qed.

(** The whole parser on a quoted text that the double reversal keeps. *)
Lemma parse_guard : forall s c t n u, isquote c -> noisy (qstep q0 c) t = true ->
  noisy (qstep q0 c) u = true -> reverse (c :: t) = repeat "\"%char n ++ c :: u ->
  reverse (repeat "\"%char n ++ c :: u) = c :: t ->
  List.length (c :: t) = List.length (repeat "\"%char n ++ c :: u) ->
  bufferpos (ct s) + 2 * zlen (c :: t) + 6 < 4000 ->
  exists b, parse (c :: t) s = constant true s.(ct).(calcresult) (cstascii c 0 t) (set_ct (set_bufferpos b s.(ct)) s).
Proof.
  intros s c t n u Q N1 N2 E1 E2 L R.
  assert (R0 : room s (c :: t)) by (unfold room, zlen in *; lia).
  assert (R' : room s (repeat "\"%char n ++ c :: u)) by (eapply room_reverse; [exact L|exact R0]).
  unfold parse. unfold bind at 1. unfold filter1, bind at 1.
  rewrite filterc_none; [|exact R0|discriminate|apply guard_none; try assumption; reflexivity].
  cbn [ret when]. unfold bind at 1. cbn [gets]. unfold bind, ret, gets.
  rewrite E1. cbn [parse2].
  change oplist with (R2 [("?_\_?"%string, ORlist)] :: tl oplist).
  destruct (first_row (parse2 (List.length (c :: t))) true (calcresult (ct s)) s n c u (tl oplist) Q N2 R') as (b & Hb & X).
  exists b. rewrite X. set (s1 := set_ct (set_bufferpos b (ct s)) s).
  assert (Hz : zlen (repeat "\"%char n ++ c :: u) = zlen (c :: t)) by (unfold zlen; rewrite L; reflexivity).
  assert (R1 : room s1 (repeat "\"%char n ++ c :: u)).
  { unfold room. rewrite Hz in *. unfold s1. cbn [ct set_ct bufferpos set_bufferpos]. lia. }
  rewrite parserows_guard; try assumption; [|vm_compute; reflexivity].
  cbn [parserows]. rewrite E2.
  assert (K : checklabel (c :: t) = false).
  { unfold checklabel. destruct (_ <? _); [reflexivity|]. destruct Q; subst; reflexivity. }
  rewrite K. apply trycst_guard; try assumption; [|vm_compute; reflexivity].
  unfold room in *. rewrite Hz in R1. exact R1.
Qed.

(** ** Reversal of quoted texts *)

(** A run of [n] backslashes and the character that follows it. *)
Definition group := (nat * ascii)%type.
Definition gtext (g : group) : str := repeat "\"%char (fst g) ++ [snd g].
Definition gflat (l : list group) : str := flat_map gtext l.
Definition gok (q : ascii) (g : group) : Prop :=
  snd g <> "\"%char /\ (snd g = q -> Nat.odd (fst g) = true).

Lemma groups : forall q l, Forall (within q) l ->
  exists gs n, flat l = gflat gs ++ repeat "\"%char n /\ Forall (gok q) gs /\ Nat.odd n = false.
Proof.
  intros q l. induction l as [|p l IH]; intros W.
  - exists [], O. split; [reflexivity|]. split; [constructor|reflexivity].
  - inversion W as [|? ? W1 W2]; subst.
    destruct IH as (gs & n & E & G & Z); [exact W2|].
    destruct p as [c|e].
    + exists ((O, c) :: gs), n. cbn [flat flat_map gflat] in *. fold (flat l). rewrite E. split; [reflexivity|].
      split; [|exact Z]. constructor; [|exact G]. destruct W1 as [A B]. split; cbn [fst snd]; [exact B|congruence].
    + destruct (ascii_dec e "\"%char) as [->|Ne].
      * destruct gs as [|[k c] gs].
        { exists [], (S (S n)). cbn [flat flat_map gflat] in *. fold (flat l). rewrite E.
          split; [reflexivity|]. split; [constructor|exact Z]. }
        exists ((S (S k), c) :: gs), n. cbn [flat flat_map gflat] in *. fold (flat l). rewrite E. split; [reflexivity|].
        split; [|exact Z]. inversion G as [|? ? [A B] G']; subst. constructor; [|exact G'].
        split; cbn [fst snd] in *; [exact A|]. intros H. specialize (B H). exact B.
      * exists ((1%nat, e) :: gs), n. cbn [flat flat_map gflat] in *. fold (flat l). rewrite E. split; [reflexivity|].
        split; [|exact Z]. constructor; [|exact G]. split; cbn [fst snd]; [exact Ne|reflexivity].
Qed.

Definition insq (q : ascii) : bool := Ascii.eqb q "'".
Definition inq (q : ascii) : bool := Ascii.eqb q """".

Lemma repeat_snoc : forall (A : Type) (x : A) n l, repeat x n ++ x :: l = x :: repeat x n ++ l.
Proof. intros A x n l. induction n as [|n IH]; [reflexivity|]. cbn [repeat app]. rewrite IH. reflexivity. Qed.

Lemma rev_repeat' : forall (A : Type) (x : A) n, rev (repeat x n) = repeat x n.
Proof.
  intros A x n. induction n as [|n IH]; [reflexivity|]. cbn [repeat rev]. rewrite IH.
  rewrite <- (app_nil_r (x :: repeat x n)). rewrite repeat_snoc. reflexivity.
Qed.

Lemma revfix_backslashes : forall q n c acc rest, isquote q ->
  revfix (c :: acc) (repeat "\"%char n ++ rest) (insq q) (inq q) =
  revfix (c :: repeat "\"%char n ++ acc) rest (insq q) (inq q).
Proof.
  intros q n. induction n as [|n IH]; intros c acc rest Q; [reflexivity|].
  cbn [repeat app revfix].
  change (zc "\" =? 39) with false. change (zc "\" =? 34) with false. change (zc "\" =? 92) with true.
  assert (B : insq q || inq q = true) by (destruct Q; subst; reflexivity). rewrite B. cbn [andb].
  rewrite IH by exact Q. rewrite repeat_snoc. reflexivity.
Qed.

Lemma revfix_group : forall q g acc rest, isquote q -> gok q g -> rest <> [] ->
  revfix acc (rev (gtext g) ++ rest) (insq q) (inq q) = revfix (rev (gtext g) ++ acc) rest (insq q) (inq q).
Proof.
  intros q [n c] acc rest Q [G1 G2] R. unfold gtext. cbn [fst snd] in *.
  rewrite rev_app_distr, rev_repeat'. cbn [rev app].
  rewrite <- (revfix_backslashes q n c acc rest Q).
  cbn [revfix].
  assert (NB : c = q -> (match repeat "\"%char n ++ rest with d :: _ => zc d =? 92 | [] => false end) = true).
  { intros E. specialize (G2 E). destruct n as [|n]; [discriminate|]. reflexivity. }
  assert (N92 : zc c =? 92 = false).
  { destruct (zc c =? 92) eqn:E; [|reflexivity]. elim G1. apply zc_inj. change (zc "\") with 92. lia. }
  destruct (zc c =? 39) eqn:E1.
  - assert (C : c = "'"%char) by (apply zc_inj; change (zc "'") with 39; lia). subst c.
    destruct Q as [->| ->]; [|reflexivity]. rewrite NB by reflexivity. reflexivity.
  - destruct (zc c =? 34) eqn:E2.
    + assert (C : c = """"%char) by (apply zc_inj; change (zc """") with 34; lia). subst c.
      destruct Q as [->| ->]; [reflexivity|]. rewrite NB by reflexivity. reflexivity.
    + rewrite N92. reflexivity.
Qed.

Lemma gflat_app : forall a b, gflat (a ++ b) = gflat a ++ gflat b.
Proof. intros a b. apply flat_map_app. Qed.

Lemma revfix_groups : forall q gs acc rest, isquote q -> Forall (gok q) gs -> rest <> [] ->
  revfix acc (rev (gflat gs) ++ rest) (insq q) (inq q) =
  revfix (rev (gflat (rev gs)) ++ acc) rest (insq q) (inq q).
Proof.
  intros q gs. induction gs as [|g gs IH] using rev_ind; intros acc rest Q G R; [reflexivity|].
  apply Forall_app in G. destruct G as [G1 G2]. inversion G2 as [|? ? G3 _]; subst.
  rewrite gflat_app, rev_app_distr. cbn [gflat flat_map]. rewrite app_nil_r, <- app_assoc.
  rewrite revfix_group; [|assumption|assumption|].
  2:{ destruct (rev (gflat gs)); [exact R|discriminate]. }
  rewrite IH by assumption. rewrite rev_app_distr. cbn [rev app gflat flat_map]. fold (gflat (rev gs)).
  rewrite rev_app_distr, <- app_assoc. reflexivity.
Qed.

Lemma reverse_groups : forall q gs, isquote q -> Forall (gok q) gs ->
  reverse (q :: gflat gs ++ [q]) = q :: gflat (rev gs) ++ [q].
Proof.
  intros q gs Q G. unfold reverse. cbn [rev]. rewrite rev_app_distr. cbn [rev app].
  assert (S : revfix [] (q :: rev (gflat gs) ++ [q]) false false = revfix [q] (rev (gflat gs) ++ [q]) (insq q) (inq q)).
  { destruct Q; subst; reflexivity. }
  rewrite S, revfix_groups by (try assumption; discriminate).
  assert (S2 : forall acc, revfix acc [q] (insq q) (inq q) = rev (q :: acc)).
  { intros acc. destruct Q; subst; reflexivity. }
  rewrite S2. cbn [rev]. rewrite rev_app_distr, rev_involutive. reflexivity.
Qed.

Lemma reverse_tail : forall q gs n, isquote q -> Forall (gok q) gs ->
  reverse (q :: gflat gs ++ repeat "\"%char n ++ [q]) = repeat "\"%char n ++ q :: gflat (rev gs) ++ [q].
Proof.
  intros q gs n Q G. unfold reverse. cbn [rev]. rewrite !rev_app_distr, rev_repeat'. cbn [rev app].
  assert (S : forall x, revfix [] (q :: x) false false = revfix [q] x (insq q) (inq q)).
  { intros x. destruct Q; subst; reflexivity. }
  rewrite S. rewrite <- app_assoc. rewrite revfix_backslashes by exact Q.
  rewrite revfix_groups by (try assumption; discriminate).
  assert (S2 : forall acc, revfix acc [q] (insq q) (inq q) = rev (q :: acc)).
  { intros acc. destruct Q; subst; reflexivity. }
  rewrite S2. cbn [rev]. rewrite rev_app_distr, rev_involutive. cbn [rev].
  rewrite rev_app_distr, rev_repeat'. cbn [rev app]. rewrite <- !app_assoc. reflexivity.
Qed.

Lemma reverse_head : forall q gs n, isquote q -> Forall (gok q) gs ->
  reverse (repeat "\"%char (S n) ++ q :: gflat gs ++ [q]) = q :: gflat (rev gs) ++ repeat "\"%char (S n) ++ [q].
Proof.
  intros q gs n Q G. unfold reverse. rewrite rev_app_distr, rev_repeat'. cbn [rev]. rewrite rev_app_distr. cbn [rev app].
  assert (S : forall x, revfix [] (q :: x) false false = revfix [q] x (insq q) (inq q)).
  { intros x. destruct Q; subst; reflexivity. }
  rewrite S. rewrite <- !app_assoc.
  rewrite revfix_groups by (try assumption; discriminate).
  assert (S2 : forall acc, revfix acc (q :: repeat "\"%char (Datatypes.S n)) (insq q) (inq q) =
                           revfix (q :: acc) (repeat "\"%char (Datatypes.S n)) (insq q) (inq q)).
  { intros acc. destruct Q; subst; reflexivity. }
  cbn [app]. rewrite S2. rewrite <- (app_nil_r (repeat "\"%char (Datatypes.S n))). rewrite revfix_backslashes by exact Q.
  cbn [revfix]. cbn [rev]. rewrite !rev_app_distr, rev_repeat', rev_involutive. cbn [rev]. rewrite app_nil_r.
  rewrite <- !app_assoc. reflexivity.
Qed.

Definition within_quote (q : ascii) : quote := mkQ (insq q) (inq q) false 0.

Lemma noisy_backslashes : forall q n e t, isquote q ->
  noisy (mkQ (insq q) (inq q) e 0) (repeat "\"%char n ++ t) =
  noisy (mkQ (insq q) (inq q) (xorb e (Nat.odd n)) 0) t.
Proof.
  intros q n. induction n as [|n IH]; intros e t Q; cbn [repeat app].
  - rewrite xorb_false_r. reflexivity.
  - cbn [noisy]. replace (qstep (mkQ (insq q) (inq q) e 0) "\") with (mkQ (insq q) (inq q) (negb e) 0)
      by (destruct Q, e; subst; reflexivity).
    rewrite IH by exact Q. rewrite Nat.odd_succ, <- Nat.negb_odd.
    replace (qzero _) with false by (destruct Q, e; subst; reflexivity). cbn [negb andb].
    destruct e, (Nat.odd n); reflexivity.
Qed.

Lemma noisy_groups : forall q k gs, isquote q -> Nat.odd k = false -> Forall (gok q) gs ->
  noisy (within_quote q) (gflat gs ++ repeat "\"%char k ++ [q]) = true.
Proof.
  intros q k gs Q K. induction gs as [|[n c] gs IH]; intros G.
  - cbn [gflat flat_map app]. unfold within_quote. rewrite noisy_backslashes by exact Q. rewrite K.
    destruct Q; subst; reflexivity.
  - inversion G as [|? ? [G1 G2] G3]; subst. cbn [gflat flat_map]. fold (gflat gs). unfold gtext. cbn [fst snd] in *.
    rewrite <- !app_assoc. unfold within_quote. rewrite noisy_backslashes by exact Q. rewrite xorb_false_l. cbn [app noisy].
    assert (Z : qzero (mkQ (insq q) (inq q) (Nat.odd n) 0) = false) by (destruct Q; subst; reflexivity).
    rewrite Z. cbn [negb andb]. fold (within_quote q) in IH.
    assert (S : qstep (mkQ (insq q) (inq q) (Nat.odd n) 0) c = within_quote q).
    { unfold qstep. cbn [q_esc q_sq q_dq q_depth]. destruct (Nat.odd n) eqn:O; [reflexivity|].
      assert (Nq : c <> q) by (intros H; specialize (G2 H); congruence).
      destruct (zc c =? 92) eqn:E; [elim G1; apply zc_inj; change (zc "\") with 92; lia|].
      destruct (zc c =? 39) eqn:E1.
      { assert (C : c = "'"%char) by (apply zc_inj; change (zc "'") with 39; lia).
        destruct Q; subst; [congruence|reflexivity]. }
      destruct (zc c =? 34) eqn:E2.
      { assert (C : c = """"%char) by (apply zc_inj; change (zc """") with 34; lia).
        destruct Q; subst; [reflexivity|congruence]. }
      destruct (zc c =? 40), (zc c =? 41), Q; subst; reflexivity. }
    rewrite S. apply IH. exact G3.
Qed.

(** ** The value *)
Definition amount (v : Z) (cs : list Z) : Z := fold_left (fun v c => v * 256 + c) cs v.

Lemma amount_ge : forall cs v, 0 <= v -> Forall (fun c => 0 <= c) cs -> v <= amount v cs.
Proof.
  induction cs as [|c cs IH]; intros v Hv H; [cbn; lia|]. inversion H; subst.
  change (amount v (c :: cs)) with (amount (v * 256 + c) cs). specialize (IH (v * 256 + c)). lia.
Qed.

Lemma meaning_code : forall p v, meaning p = Some v -> 0 <= v < 256 /\
  match p with Char c => isprint c = true /\ zc c = v | Esc e => escape e = Some v end.
Proof.
  intros [c|e] v H; cbn [meaning] in H.
  - unfold code in H. unfold isprint, zc. destruct (_ && _) eqn:E in H; [|discriminate]. injection H as <-. lia.
  - revert H. destruct e as [[] [] [] [] [] [] [] []]; cbn; intros E; try discriminate; injection E as <-;
      (split; [lia|reflexivity]).
Qed.

Lemma escape_meaning : forall e v, escape e = Some v -> meaning (Esc e) = Some v.
Proof. intros e v. destruct e as [[] [] [] [] [] [] [] []]; cbn; intros E; try discriminate; exact E. Qed.

Lemma shift_check : forall v r, 0 <= v < 2 ^ 64 -> 0 <= r < 256 ->
  let w := u64 (Z.shiftl v 8 + r) in
  if v * 256 + r <? 2 ^ 64 then w = v * 256 + r /\ Z.shiftr w 8 =? v = true else Z.shiftr w 8 =? v = false.
Proof.
  intros v r Hv Hr w. subst w. rewrite Z.shiftl_mul_pow2 by lia. rewrite Z.shiftr_div_pow2 by lia.
  unfold u64. change (2 ^ 8) with 256. change (2 ^ 64) with 18446744073709551616 in *.
  destruct (_ <? _) eqn:E; [split|]; lia.
Qed.

Lemma ascii_loop : forall q l cs v, isquote q -> Forall (within q) l -> map meaning l = map Some cs ->
  0 <= v < 2 ^ 64 ->
  cstascii q v (flat l ++ [q]) = if amount v cs <? 2 ^ 64 then inl (amount v cs) else inr "overflow"%string.
Proof.
  intros q l. induction l as [|p l IH]; intros cs v Q W M Hv.
  - destruct cs; [|discriminate]. cbn [flat flat_map app cstascii]. rewrite Ascii.eqb_refl.
    change (amount v []) with v. destruct (v <? 2 ^ 64) eqn:E; [reflexivity|lia].
  - destruct cs as [|c cs]; [discriminate|]. cbn [map] in M. injection M as M1 M2.
    inversion W as [|? ? W1 W2]; subst. destruct (meaning_code p c M1) as [Hc Hp].
    assert (P : Forall (fun c => 0 <= c) cs).
    { clear - M2. revert cs M2. induction l as [|p l IH]; intros [|c cs] M; try discriminate; [constructor|].
      cbn [map] in M. injection M as M1 M2. constructor; [apply (meaning_code _ _ M1)|apply IH; exact M2]. }
    change (amount v (c :: cs)) with (amount (v * 256 + c) cs).
    pose proof (shift_check v c Hv Hc) as K. cbv zeta in K.
    assert (Step : cstascii q v (flat (p :: l) ++ [q]) =
      let w := u64 (Z.shiftl v 8 + c) in
      if Z.shiftr w 8 =? v then cstascii q w (flat l ++ [q]) else inr "overflow"%string).
    { destruct p as [x|e].
      - cbn [flat flat_map app cstascii]. fold (flat l). destruct W1 as [A B]. destruct Hp as [Hp1 Hp2].
        apply Ascii.eqb_neq in A. rewrite A, Hp1. cbn [negb].
        destruct (zc x =? 92) eqn:E; [elim B; apply zc_inj; change (zc "\") with 92; lia|].
        rewrite Hp2. reflexivity.
      - cbn [flat flat_map app cstascii]. fold (flat l).
        assert (A : Ascii.eqb "\" q = false) by (destruct Q; subst; reflexivity). rewrite A.
        change (isprint "\") with true. change (zc "\" =? 92) with true. cbn [negb]. rewrite Hp. reflexivity. }
    rewrite Step. cbv zeta. destruct (v * 256 + c <? 2 ^ 64) eqn:E.
    + destruct K as [K1 K2]. rewrite K2, K1. apply IH; try assumption. lia.
    + rewrite K. pose proof (amount_ge cs (v * 256 + c) ltac:(lia) P).
      destruct (amount (v * 256 + c) cs <? 2 ^ 64) eqn:E'; [lia|reflexivity].
Qed.

Lemma ascii_bad : forall q l v, isquote q -> Forall (within q) l -> Exists (fun p => meaning p = None) l ->
  exists m, cstascii q v (flat l ++ [q]) = inr m.
Proof.
  intros q l. induction l as [|p l IH]; intros v Q W M; [inversion M|].
  inversion W as [|? ? W1 W2]; subst.
  destruct p as [x|e].
  - cbn [flat flat_map app cstascii]. fold (flat l). destruct W1 as [A B].
    apply Ascii.eqb_neq in A. rewrite A.
    destruct (isprint x) eqn:Ex; cbn [negb]; [|eexists; reflexivity].
    destruct (zc x =? 92) eqn:E; [elim B; apply zc_inj; change (zc "\") with 92; lia|].
    destruct (_ =? v); [|eexists; reflexivity]. apply IH; try assumption.
    inversion M as [? ? M1|? ? M1]; subst; [|exact M1]. cbn [meaning] in M1.
    unfold isprint, zc in Ex. unfold code in M1. rewrite Ex in M1. discriminate.
  - cbn [flat flat_map app cstascii]. fold (flat l).
    assert (A : Ascii.eqb "\" q = false) by (destruct Q; subst; reflexivity). rewrite A.
    change (isprint "\") with true. change (zc "\" =? 92) with true. cbn [negb].
    destruct (escape e) as [r|] eqn:Ee; [|eexists; reflexivity].
    destruct (_ =? v); [|eexists; reflexivity]. apply IH; try assumption.
    inversion M as [? ? M1|? ? M1]; subst; [|exact M1]. rewrite (escape_meaning _ _ Ee) in M1. discriminate.
Qed.

(** ** The parser on quoted constants *)
Lemma gflat_length : forall gs, List.length (gflat (rev gs)) = List.length (gflat gs).
Proof.
  induction gs as [|g gs IH]; [reflexivity|].
  cbn [rev]. rewrite gflat_app, app_length. cbn [gflat flat_map]. fold (gflat gs). rewrite app_nil_r, app_length. lia.
Qed.

Lemma quoted_parse : forall q l s, isquote q -> Forall (within q) l ->
  bufferpos (ct s) + 2 * zlen (quoted q l) + 6 < 4000 ->
  exists b, parse (quoted q l) s =
    constant true s.(ct).(calcresult) (cstascii q 0 (flat l ++ [q])) (set_ct (set_bufferpos b s.(ct)) s).
Proof.
  intros q l s Q W R. destruct (groups q l W) as (gs & n & E & G & O). unfold quoted in *. rewrite E in *.
  rewrite <- app_assoc in *.
  assert (G' : Forall (gok q) (rev gs)) by (apply Forall_rev; exact G).
  assert (Q' : qstep q0 q = within_quote q) by (destruct Q; subst; reflexivity).
  apply (parse_guard s q _ n (gflat (rev gs) ++ [q])); try assumption.
  - rewrite Q'. apply noisy_groups; assumption.
  - rewrite Q'. apply (noisy_groups q 0 (rev gs)); try assumption. reflexivity.
  - apply reverse_tail; assumption.
  - destruct n as [|n].
    + cbn [repeat app]. rewrite reverse_groups by assumption. rewrite rev_involutive. reflexivity.
    + rewrite reverse_head by assumption. rewrite rev_involutive. reflexivity.
  - cbn [List.length]. rewrite !app_length. cbn [List.length]. rewrite !app_length, repeat_length, gflat_length.
    cbn [List.length]. lia.
Qed.

Lemma codes_nonneg : forall l cs, map meaning l = map Some cs -> Forall (fun c => 0 <= c) cs.
Proof.
  induction l as [|p l IH]; intros [|c cs] M; try discriminate; [constructor|].
  cbn [map] in M. injection M as M1 M2. constructor; [apply (meaning_code _ _ M1)|apply IH; exact M2].
Qed.

Theorem quoted_value : forall q l cs s, isquote q -> Forall (within q) l ->
  bufferpos (ct s) + 2 * zlen (quoted q l) + 6 < 4000 -> map meaning l = map Some cs ->
  packed cs < 2 ^ 64 ->
  exists r s', parse (quoted q l) s = (Ok r, s') /\ r.(r_type) = TAbs /\ r.(r_flags) = lf0 /\
    - 2 ^ 63 <= r.(r_value) < 2 ^ 63 /\ r.(r_value) mod 2 ^ 64 = packed cs.
Proof.
  intros q l cs s Q W R M P. destruct (quoted_parse q l s Q W R) as [b X]. rewrite X. clear X.
  rewrite (ascii_loop q l cs 0 Q W M) by lia.
  change (amount 0 cs) with (packed cs). destruct (packed cs <? 2 ^ 64) eqn:E; [|lia].
  assert (P0 : 0 <= packed cs).
  { change (packed cs) with (amount 0 cs). apply amount_ge; [lia|]. eapply codes_nonneg; exact M. }
  unfold constant, putres, cst, bind, when, upd_ct, modify, ret. eexists _, _. split; [reflexivity|].
  cbn [r_type r_flags r_value]. repeat split; unfold s64;
    change (2 ^ 63) with 9223372036854775808; change (2 ^ 64) with 18446744073709551616 in *; lia.
Qed.

Theorem quoted_overflow : forall q l cs s, isquote q -> Forall (within q) l ->
  bufferpos (ct s) + 2 * zlen (quoted q l) + 6 < 4000 -> map meaning l = map Some cs ->
  2 ^ 64 <= packed cs -> exists b, parse (quoted q l) s = err "overflow" (set_ct (set_bufferpos b s.(ct)) s).
Proof.
  intros q l cs s Q W R M P. destruct (quoted_parse q l s Q W R) as [b X]. exists b. rewrite X.
  rewrite (ascii_loop q l cs 0 Q W M) by lia.
  change (amount 0 cs) with (packed cs). destruct (packed cs <? 2 ^ 64) eqn:E; [lia|]. reflexivity.
Qed.

Theorem quoted_bad : forall q l s, isquote q -> Forall (within q) l ->
  bufferpos (ct s) + 2 * zlen (quoted q l) + 6 < 4000 -> Exists (fun p => meaning p = None) l ->
  exists m b, parse (quoted q l) s = err m (set_ct (set_bufferpos b s.(ct)) s).
Proof.
  intros q l s Q W R M. destruct (quoted_parse q l s Q W R) as [b X]. destruct (ascii_bad q l 0 Q W M) as [m E].
  exists m, b. rewrite X, E. reflexivity.
Qed.

(** ** Unterminated constants *)
(** Characters that occur in no operator. *)
Definition nonop (c : ascii) : bool :=
  negb (existsb (Ascii.eqb c) (s2l "\+-*/|&^<>~(){}")).

Definition clear (pat : str) : bool :=
  existsb (fun f => negb (zc f =? 63) && negb (zc f =? 95) &&
     forallb (fun c => negb (nonop c && charmatch f c)) allchars) pat.

Lemma clear_lacks : forall pat t, clear pat = true -> forallb nonop t = true -> lacks t pat = true.
Proof.
  intros pat t H T. unfold clear in H. apply existsb_exists in H. destruct H as (f & Hf & H).
  apply andb_true_iff in H. destruct H as [H1 H2]. unfold lacks. apply existsb_exists.
  exists f. split; [exact Hf|]. rewrite H1. cbn [andb].
  destruct (existsb (charmatch f) t) eqn:E; [|reflexivity].
  apply existsb_exists in E. destruct E as (c & Hc & Hm).
  rewrite forallb_forall in T. pose proof (byte_cases _ H2 c) as K. cbv beta in K.
  rewrite (T c Hc), Hm in K. discriminate.
Qed.

Definition rowclear (r : row) : bool :=
  match r with
  | R2 l => forallb (fun p => clear (s2l (fst p)) && (zlen (snd (segments (s2l (fst p)))) <=? 3)) l
  | R1 f _ | RPar f => clear (s2l f) && (zlen (snd (segments (s2l f))) <=? 3)
  end.

Lemma trygroup_clear : forall s t l, room s t -> forallb nonop t = true ->
  rowclear (R2 l) = true -> trygroup t l s = (Ok None, s).
Proof.
  intros s t l R N. induction l as [|[f o] l IH]; intros H; [reflexivity|].
  cbn [rowclear forallb fst] in H. apply andb_true_iff in H. destruct H as [H H'].
  apply andb_true_iff in H. destruct H as [H1 H2].
  cbn [trygroup]. unfold bind. rewrite filter2_lacks; [|exact R|unfold short; lia|apply clear_lacks; assumption].
  rewrite IH by exact H'. reflexivity.
Qed.

Lemma parserows_clear : forall rec top r s t rows, room s t -> forallb nonop t = true ->
  forallb rowclear rows = true -> parserows rec top r t rows s = parserows rec top r t [] s.
Proof.
  intros rec top r s t rows R N. induction rows as [|w rows IH]; intros H; [reflexivity|].
  cbn [forallb] in H. apply andb_true_iff in H. destruct H as [H H'].
  rewrite <- (IH H'). destruct w as [l|f o|f]; cbn [parserows]; unfold bind at 1.
  - rewrite trygroup_clear by assumption. reflexivity.
  - cbn [rowclear] in H. apply andb_true_iff in H. destruct H as [H1 H2].
    rewrite filter1_lacks; [|exact R|unfold short; lia|apply clear_lacks; assumption]. reflexivity.
  - cbn [rowclear] in H. apply andb_true_iff in H. destruct H as [H1 H2].
    rewrite filter1_lacks; [|exact R|unfold short; lia|apply clear_lacks; assumption]. reflexivity.
Qed.

Lemma revfix_noslash : forall s acc sq dq, forallb (fun c => negb (zc c =? 92)) s = true ->
  revfix acc s sq dq = rev acc ++ s.
Proof.
  induction s as [|c s IH]; intros acc sq dq H; cbn [revfix]; [rewrite app_nil_r; reflexivity|].
  cbn [forallb] in H. apply andb_true_iff in H. destruct H as [H H'].
  destruct (zc c =? 92); [discriminate|]. cbn [andb].
  assert (E : forall a b, revfix (c :: acc) s a b = rev acc ++ c :: s).
  { intros a b. rewrite IH by exact H'. cbn [rev]. rewrite <- app_assoc. reflexivity. }
  destruct (zc c =? 39); [destruct (negb sq && negb dq); [apply E|destruct sq; apply E]|].
  destruct (zc c =? 34); [destruct (negb sq && negb dq); [apply E|destruct dq; apply E]|]. apply E.
Qed.

Lemma noisy_open : forall q u, isquote q -> forallb nonop u = true -> ~ In q u ->
  noisy (within_quote q) u = true.
Proof.
  intros q u Q. induction u as [|c u IH]; intros N I; [reflexivity|]. cbn [noisy forallb] in *.
  apply andb_true_iff in N. destruct N as [N N'].
  assert (Z : qzero (within_quote q) = false) by (destruct Q; subst; reflexivity). rewrite Z. cbn [negb andb].
  assert (S : qstep (within_quote q) c = within_quote q).
  { unfold qstep, within_quote. cbn [q_esc q_sq q_dq q_depth].
    destruct (zc c =? 92) eqn:E.
    { assert (C : c = "\"%char) by (apply zc_inj; change (zc "\") with 92; lia). subst c. discriminate. }
    destruct (zc c =? 39) eqn:E1.
    { assert (C : c = "'"%char) by (apply zc_inj; change (zc "'") with 39; lia).
      destruct Q; subst; [elim I; left; reflexivity|reflexivity]. }
    destruct (zc c =? 34) eqn:E2.
    { assert (C : c = """"%char) by (apply zc_inj; change (zc """") with 34; lia).
      destruct Q; subst; [reflexivity|elim I; left; reflexivity]. }
    destruct (zc c =? 40), (zc c =? 41), Q; subst; reflexivity. }
  rewrite S. apply IH; [exact N'|]. intros H. apply I. right. exact H.
Qed.

Lemma ascii_open : forall q u v, ~ In q u -> ~ In "\"%char u -> exists m, cstascii q v u = inr m.
Proof.
  intros q u. induction u as [|c u IH]; intros v I J; cbn [cstascii]; [eexists; reflexivity|].
  assert (A : Ascii.eqb c q = false) by (apply Ascii.eqb_neq; intros H; apply I; left; exact H). rewrite A.
  destruct (negb (isprint c)); [eexists; reflexivity|].
  destruct (zc c =? 92) eqn:E; [elim J; left; apply zc_inj; change (zc "\") with 92; lia|].
  destruct (_ =? v); [|eexists; reflexivity]. apply IH; intros H; [apply I|apply J]; right; exact H.
Qed.

Theorem quoted_open : forall q u s, isquote q -> ~ In q u -> forallb nonop u = true -> room s (q :: u) ->
  exists m, parse (q :: u) s = err m s.
Proof.
  intros q u s Q I N R.
  assert (NQ : forallb nonop (q :: u) = true) by (cbn [forallb]; rewrite N; destruct Q; subst; reflexivity).
  assert (B : forall t, forallb nonop t = true -> forallb (fun c => negb (zc c =? 92)) t = true).
  { intros t H. rewrite forallb_forall in *. intros c Hc. specialize (H c Hc).
    destruct (zc c =? 92) eqn:E; [|reflexivity].
    assert (C : c = "\"%char) by (apply zc_inj; change (zc "\") with 92; lia). subst c. discriminate. }
  assert (NR : forallb nonop (rev (q :: u)) = true).
  { rewrite forallb_forall in *. intros c Hc. apply NQ. apply in_rev. exact Hc. }
  assert (E1 : reverse (q :: u) = rev (q :: u)) by (unfold reverse; rewrite revfix_noslash; auto).
  assert (E2 : reverse (rev (q :: u)) = q :: u).
  { unfold reverse. rewrite revfix_noslash; [rewrite rev_involutive; reflexivity|].
    apply B. rewrite rev_involutive. exact NQ. }
  destruct (ascii_open q u 0 I) as [m E].
  { intros H. rewrite forallb_forall in N. specialize (N _ H). discriminate. }
  exists m. unfold parse. unfold bind at 1.
  rewrite filter1_lacks; [|exact R|discriminate|apply clear_lacks; [vm_compute; reflexivity|exact NQ]].
  cbn [when]. unfold bind, ret, gets. rewrite E1. cbn [parse2].
  assert (R' : room s (rev (q :: u))) by (eapply room_reverse; [|exact R]; rewrite rev_length; reflexivity).
  rewrite parserows_clear; try assumption; [|vm_compute; reflexivity].
  cbn [parserows]. rewrite E2.
  assert (K : checklabel (q :: u) = false).
  { unfold checklabel. destruct (_ <? _); [reflexivity|]. destruct Q; subst; reflexivity. }
  rewrite K. rewrite trycst_guard; try assumption; [rewrite E; reflexivity| |vm_compute; reflexivity].
  replace (qstep q0 q) with (within_quote q) by (destruct Q; subst; reflexivity). apply noisy_open; assumption.
Qed.

Theorem quoted_unclosed : forall q u s, isquote q -> ~ In q u ->
  (forall c, In c u -> ~ In c (s2l "\+-*/|&^<>~(){}")) -> room s (q :: u) ->
  exists m, parse (q :: u) s = err m s.
Proof.
  intros q u s Q I N R. apply quoted_open; try assumption. apply forallb_forall. intros c Hc.
  unfold nonop. destruct (existsb _ _) eqn:E; [|reflexivity]. apply existsb_exists in E.
  destruct E as (x & Hx & E). apply Ascii.eqb_eq in E. subst x. elim (N c Hc Hx).
Qed.

Lemma word_small : forall x v, - 2 ^ 63 <= x < 2 ^ 63 -> x mod 2 ^ 64 = v -> v < 2 ^ 63 -> x = v.
Proof.
  intros x v. change (2 ^ 63) with 9223372036854775808. change (2 ^ 64) with 18446744073709551616. lia.
Qed.
