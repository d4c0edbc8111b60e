(** Lengths of the lines stored by the line reader. *)
From Coq Require Import String Ascii ZArith List Bool Lia ZifyBool ZifyNat.
From Verif Require Import Base BaseFacts State Macro.
Import ListNotations.
Open Scope Z_scope.

Lemma uptonl_len : forall t, zlen (uptonl t) <= zlen t.
Proof.
  induction t as [|c t IH]; cbn [uptonl]; [lia|].
  destruct (_ || _); rewrite ?zlen_cons, ?zlen_nil; [|lia]. pose proof (zlen_nonneg _ t). lia.
Qed.

Lemma filter_len : forall (f : ascii -> bool) t, zlen (List.filter f t) <= zlen t.
Proof.
  induction t as [|c t IH]; cbn [List.filter]; [lia|].
  destruct (f c); rewrite ?zlen_cons; lia.
Qed.

Lemma fgets_len : forall n s, zlen (fst (fst (fgets n s))) <= Z.of_nat n.
Proof.
  induction n as [|n IH]; intros s; [cbn; lia|]. cbn [fgets].
  destruct s as [|c s]; [cbn; lia|].
  destruct (zc c =? 10); [cbn; lia|].
  specialize (IH s). destruct (fgets n s) as [[t r] e]. cbn [fst] in *. rewrite zlen_cons. lia.
Qed.

Lemma readline_len : forall rest t r e, fgets 249 rest = (t, r, e) ->
  zlen (List.filter keepchar (uptonl t)) <= 249.
Proof.
  intros rest t r e E. pose proof (fgets_len 249 rest) as H. rewrite E in H. cbn [fst] in H.
  pose proof (filter_len keepchar (uptonl t)). pose proof (uptonl_len t). lia.
Qed.

Lemma firstn_len : forall A n (l : list A), zlen (firstn n l) <= Z.of_nat n.
Proof. intros A n l. unfold zlen. rewrite firstn_length. lia. Qed.

Lemma msubst_len : forall args all s len, 0 <= len <= 241 ->
  len + zlen (fst (msubst args all len s)) <= 241.
Proof.
  intros args all.
  assert (K : forall n s len, (List.length s <= n)%nat -> 0 <= len <= 241 ->
     len + zlen (fst (msubst args all len s)) <= 241).
  { induction n as [|n IH]; intros s len Hn Hl.
    { destruct s; [cbn; lia|cbn in Hn; lia]. }
    destruct s as [|c s]; [cbn; lia|]. cbn [List.length] in Hn. cbn [msubst].
    destruct (240 <? len) eqn:E; [cbn; lia|].
    assert (One : forall c' s', (List.length s' <= n)%nat ->
      len + zlen (fst (let (t, b) := msubst args all (len + 1) s' in (c' :: t, b))) <= 241).
    { intros c' s' Hs. specialize (IH s' (len + 1) Hs ltac:(lia)).
      destruct (msubst args all (len + 1) s') as [t b]. cbn [fst] in *. rewrite zlen_cons. lia. }
    destruct (negb (zc c =? 92)); [apply One; lia|].
    destruct s as [|d s]; [cbn; lia|]. cbn [List.length] in Hn.
    destruct (zc d =? 35); [apply One; lia|].
    destruct (_ || _); [|apply One; cbn [List.length]; lia].
    cbv zeta. set (a0 := if zc d =? 42 then all else nth _ args []).
    set (a := firstn (Z.to_nat (241 - len)) a0).
    assert (Ha : zlen a <= 241 - len) by (pose proof (firstn_len _ (Z.to_nat (241 - len)) a0); fold a in H; lia).
    pose proof (zlen_nonneg _ a) as Ha0.
    specialize (IH s (len + zlen a) ltac:(lia) ltac:(lia)).
    destruct (msubst args all (len + zlen a) s) as [t b]. cbn [fst] in *. rewrite zlen_app. lia. }
  intros s len. apply (K (List.length s)). lia.
Qed.

Lemma trimblanks_len : forall t, zlen (trimblanks t) <= zlen t.
Proof.
  intros t. unfold trimblanks, zlen. rewrite rev_length.
  pose proof (skipblanks_length (rev t)) as H. rewrite rev_length in H. lia.
Qed.
