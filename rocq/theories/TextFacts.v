(** Lemmas on the reversal of operand texts. *)
From Coq Require Import String Ascii ZArith List Bool Lia ZifyBool ZifyNat.
From Verif Require Import Base BaseFacts State Filter Output Label Operator Parse.
From Verif Require Import FilterFacts ParseFacts SpecNumbers NumberFacts QuoteFacts SpecText.
Import ListNotations.
Open Scope Z_scope.

(** Chunks with the quoted strings seen as groups. *)
Inductive gchunk := GB (c : ascii) | GQ (q : ascii) (gs : list group).
Definition gspell (l : list gchunk) : str :=
  flat_map (fun k => match k with GB c => [c] | GQ q gs => q :: gflat gs ++ [q] end) l.
Definition gproper (k : gchunk) : Prop :=
  match k with
  | GB c => c <> "'"%char /\ c <> """"%char /\ c <> "\"%char
  | GQ q gs => isquote q /\ Forall (gok q) gs
  end.
Definition grev (k : gchunk) : gchunk := match k with GB c => GB c | GQ q gs => GQ q (rev gs) end.

Lemma groups_exact : forall q l, Forall (within q) l -> (forall l', l <> l' ++ [Esc "\"%char]) ->
  exists gs, flat l = gflat gs /\ Forall (gok q) gs.
Proof.
  intros q l. induction l as [|p l IH]; intros W N; [exists []; split; [reflexivity|constructor]|].
  inversion W as [|? ? W1 W2]; subst. destruct IH as (gs & E & G); [exact W2| |].
  { intros l' ->. apply (N (p :: l')). reflexivity. }
  destruct p as [c|e].
  - exists ((O, c) :: gs). cbn [flat flat_map gflat] in *. fold (flat l). rewrite E. split; [reflexivity|].
    constructor; [|exact G]. destruct W1 as [A B]. split; cbn [fst snd]; [exact B|congruence].
  - destruct (ascii_dec e "\"%char) as [->|Ne].
    + destruct gs as [|[k c] gs].
      { exfalso. destruct l as [|p l]; [apply (N []); reflexivity|]. cbn in E. destruct p; discriminate E. }
      exists ((S (S k), c) :: gs). cbn [flat flat_map gflat] in *. fold (flat l). rewrite E. split; [reflexivity|].
      inversion G as [|? ? [A B] G']; subst. constructor; [|exact G'].
      split; cbn [fst snd] in *; [exact A|]. intros H. specialize (B H). exact B.
    + exists ((1%nat, e) :: gs). cbn [flat flat_map gflat] in *. fold (flat l). rewrite E. split; [reflexivity|].
      constructor; [|exact G]. split; cbn [fst snd]; [exact Ne|reflexivity].
Qed.

Lemma chunks_exact : forall l, Forall proper l -> exists g, spelled l = gspell g /\ Forall gproper g.
Proof.
  intros l H. induction H as [|k l Hk H (g & E & G)]; [exists []; split; [reflexivity|constructor]|].
  destruct k as [c|q p].
  - exists (GB c :: g). cbn [spelled gspell flat_map]. fold (spelled l) (gspell g). rewrite E.
    split; [reflexivity|]. constructor; assumption.
  - destruct Hk as (Q & W & N). destruct (groups_exact q p W N) as (gs & E' & G').
    exists (GQ q gs :: g). cbn [spelled gspell flat_map]. fold (spelled l) (gspell g). unfold quoted. rewrite E, E'.
    split; [reflexivity|]. constructor; [split; assumption|exact G].
Qed.

Definition nobs (t : str) : Prop := match t with [] => True | c :: _ => c <> "\"%char end.

Lemma gspell_app : forall a b, gspell (a ++ b) = gspell a ++ gspell b.
Proof. intros. apply flat_map_app. Qed.

Lemma gok_rev : forall q gs, Forall (gok q) gs -> Forall (gok q) (rev gs).
Proof. intros q gs H. apply Forall_rev. exact H. Qed.

Lemma revfix_chunk : forall k acc rest, gproper k -> nobs rest ->
  revfix acc (rev (gspell [k]) ++ rest) false false = revfix (rev (gspell [grev k]) ++ acc) rest false false.
Proof.
  intros [c|q gs] acc rest P N.
  - destruct P as (A & B & C). cbn [gspell flat_map grev rev app revfix].
    assert (E1 : zc c =? 39 = false).
    { destruct (zc c =? 39) eqn:E; [|reflexivity]. elim A. apply zc_inj. change (zc "'") with 39. lia. }
    assert (E2 : zc c =? 34 = false).
    { destruct (zc c =? 34) eqn:E; [|reflexivity]. elim B. apply zc_inj. change (zc """") with 34. lia. }
    rewrite E1, E2. cbn [orb]. rewrite andb_false_r. reflexivity.
  - destruct P as (Q & G). cbn [gspell flat_map grev]. rewrite !app_nil_r.
    cbn [rev]. rewrite !rev_app_distr. cbn [rev app]. rewrite <- !app_assoc. cbn [app].
    assert (S : forall x, revfix acc (q :: x) false false = revfix (q :: acc) x (insq q) (inq q)).
    { intros x. destruct Q; subst; reflexivity. }
    rewrite S, revfix_groups by (try assumption; discriminate).
    assert (S2 : forall a, revfix a (q :: rest) (insq q) (inq q) = revfix (q :: a) rest false false).
    { intros a. destruct rest as [|d rest]; [destruct Q; subst; reflexivity|].
      assert (E : zc d =? 92 = false).
      { destruct (zc d =? 92) eqn:E; [|reflexivity]. elim N. apply zc_inj. change (zc "\") with 92. lia. }
      destruct Q; subst q; unfold insq, inq; cbn [revfix].
      - change (zc "'" =? 39) with true. cbn [Ascii.eqb negb andb]. rewrite E. reflexivity.
      - change (zc """" =? 39) with false. change (zc """" =? 34) with true.
        cbn [Ascii.eqb negb andb]. rewrite E. reflexivity. }
    rewrite S2. reflexivity.
Qed.

Lemma nobs_gspell : forall g rest, Forall gproper g -> nobs rest -> nobs (rev (gspell g) ++ rest).
Proof.
  intros g. induction g as [|k g _] using rev_ind; intros rest P N; [exact N|].
  apply Forall_app in P. destruct P as [_ P]. inversion P as [|? ? P' _]; subst.
  rewrite gspell_app, rev_app_distr. destruct k as [c|q gs]; cbn [gspell flat_map app rev].
  - cbn. apply P'.
  - rewrite app_nil_r. cbn [rev]. rewrite rev_app_distr. cbn. destruct P' as [[->| ->] _]; discriminate.
Qed.

Lemma revfix_chunks : forall g acc, Forall gproper g ->
  revfix acc (rev (gspell g)) false false = rev acc ++ gspell (rev (map grev g)).
Proof.
  intros g. induction g as [|k g IH] using rev_ind; intros acc P.
  - cbn. rewrite app_nil_r. reflexivity.
  - apply Forall_app in P. destruct P as [P1 P]. inversion P as [|? ? P2 _]; subst.
    rewrite gspell_app, rev_app_distr. rewrite revfix_chunk.
    + rewrite IH by exact P1. rewrite rev_app_distr, rev_involutive.
      rewrite map_app. cbn [map]. rewrite rev_app_distr. cbn [rev app].
      change (grev k :: rev (map grev g)) with ([grev k] ++ rev (map grev g)).
      rewrite gspell_app, app_assoc. reflexivity.
    + exact P2.
    + rewrite <- (app_nil_r (rev _)). apply nobs_gspell; [exact P1|exact I].
Qed.

Theorem reverse_proper : forall l, Forall proper l -> reverse (reverse (spelled l)) = spelled l.
Proof.
  intros l P. destruct (chunks_exact l P) as (g & -> & G). unfold reverse at 2.
  rewrite revfix_chunks by exact G. cbn [rev app]. unfold reverse. rewrite revfix_chunks.
  - cbn [rev app]. rewrite map_rev, rev_involutive, map_map.
    f_equal. rewrite <- (map_id g) at 2. apply map_ext. intros [c|q gs]; cbn; [|rewrite rev_involutive]; reflexivity.
  - apply Forall_rev. apply Forall_map. eapply Forall_impl; [|exact G].
    intros [c|q gs]; cbn; [auto|]. intros [A B]. split; [exact A|apply Forall_rev; exact B].
Qed.

Lemma revfix_noquote : forall t acc, unquoted t -> revfix acc t false false = rev acc ++ t.
Proof.
  intros t. induction t as [|c t IH]; intros acc U; [cbn; rewrite app_nil_r; reflexivity|].
  inversion U as [|? ? [A B] U']; subst. cbn [revfix].
  assert (E1 : zc c =? 39 = false).
  { destruct (zc c =? 39) eqn:E; [|reflexivity]. elim A. apply zc_inj. change (zc "'") with 39. lia. }
  assert (E2 : zc c =? 34 = false).
  { destruct (zc c =? 34) eqn:E; [|reflexivity]. elim B. apply zc_inj. change (zc """") with 34. lia. }
  rewrite E1, E2. cbn [orb]. rewrite andb_false_r. rewrite IH by exact U'. cbn [rev]. rewrite <- app_assoc. reflexivity.
Qed.

Theorem reverse_unquoted : forall t, unquoted t -> reverse t = rev t /\ reverse (reverse t) = t.
Proof.
  intros t U. assert (E : forall x, unquoted x -> reverse x = rev x).
  { intros x Ux. unfold reverse. rewrite revfix_noquote; [reflexivity|apply Forall_rev; exact Ux]. }
  split; [apply E; exact U|]. rewrite (E t U). rewrite E by (apply Forall_rev; exact U). apply rev_involutive.
Qed.

(** ** Text after the closing quote *)
Lemma ascii_trailing : forall q a y v, ~ In q a -> ~ In "\"%char a -> y <> [] ->
  exists m, cstascii q v (a ++ q :: y) = inr m.
Proof.
  intros q a y. induction a as [|c a IH]; intros v I J N; cbn [app cstascii].
  - rewrite Ascii.eqb_refl. destruct y; [congruence|]. eexists. reflexivity.
  - assert (A : Ascii.eqb c q = false) by (apply Ascii.eqb_neq; intros H; apply I; left; exact H). rewrite A.
    destruct (negb (isprint c)); [eexists; reflexivity|].
    destruct (zc c =? 92) eqn:E; [elim J; left; apply zc_inj; change (zc "\") with 92; lia|].
    destruct (_ =? v); [|eexists; reflexivity]. apply IH; try assumption; intros H; [apply I|apply J]; right; exact H.
Qed.

Lemma wild_last : forall k seg rem starts q cap l, fr_caps (wildloop k seg true rem starts q cap) = Some l ->
  exists a, l = [rev cap ++ a].
Proof.
  intros k seg rem starts. induction starts as [|c starts IH]; intros q cap l E; cbn [wildloop] in E.
  - destruct (mlit _ _ _ _); try discriminate E. injection E as <-. exists []. rewrite app_nil_r. reflexivity.
  - destruct (mlit _ _ _ _); try discriminate E.
    + injection E as <-. exists []. rewrite app_nil_r. reflexivity.
    + apply IH in E. destruct E as [a ->]. exists (c :: a). cbn [rev]. rewrite <- app_assoc. reflexivity.
Qed.

Lemma suffix_caps : forall q u f l, negb (zc f =? 63) && negb (zc f =? 95) && negb (charmatch f q) = true ->
  fr_caps (filter_pure (q :: u) ["?"%char; f]) = Some l -> exists a, l = [q :: a].
Proof.
  intros q u f l F E. unfold filter_pure in E. cbn [segments] in E.
  destruct (zc f =? 63) eqn:F1; [discriminate F|]. change (zc "?" =? 63) with true in E. cbn [mlit lastseg] in E.
  cbn [fwild lastseg wildloop mlit] in E. destruct (zc f =? 95) eqn:F2; [discriminate F|].
  destruct (charmatch f q); [discriminate F|]. rewrite andb_false_r in E.
  apply wild_last in E. destruct E as [a ->]. exists a. reflexivity.
Qed.

Definition fails (q : ascii) (u : str) (l : list (string * (Z -> str -> Z + string))) : Prop :=
  Forall (fun p => forall x, match fr_caps (filter_pure (q :: u) (s2l (fst p))) with
     | Some (c :: t) => c <> [] /\ exists m, snd p x c = inr m
     | Some [] => False
     | None => True
     end /\ short (s2l (fst p))) l.

Lemma trycst_fails : forall l top r q u s, isquote q -> room s (q :: u) -> fails q u l ->
  (exists m, cstascii q 0 u = inr m) ->
  exists m b, trycst top r (q :: u) l s = err m (set_ct (set_bufferpos b s.(ct)) s).
Proof.
  induction l as [|[f conv] l IH]; intros top r q u s Q R F [m E]; cbn [trycst].
  - exists m, (bufferpos (ct s)).
    assert (D : isdigit q = false) by (destruct Q; subst; reflexivity). rewrite D.
    assert (D2 : (zc q =? 39) || (zc q =? 34) = true) by (destruct Q; subst; reflexivity). rewrite D2, E.
    destruct s as [? ? ? ? ? [] ? ? ? ? ?]; reflexivity.
  - inversion F as [|? ? F1 F2]; subst. destruct (F1 0) as [F1' Sh]. cbn [fst snd] in *.
    unfold filter1, bind. destruct (fr_caps (filter_pure (q :: u) (s2l f))) as [[|c t]|] eqn:K.
    + contradiction.
    + rewrite (filterc_some s (q :: u) _ (c :: t)) by assumption. destruct F1' as [N [m' E']].
      destruct c as [|x c]; [congruence|]. cbn. rewrite E'. eexists m', _. reflexivity.
    + rewrite filterc_none by assumption. cbn [ret]. apply IH; try assumption. exists m. exact E.
Qed.

Lemma fails_all : forall q u, isquote q -> fails q u cstlist.
Proof.
  intros q u Q. unfold cstlist. repeat (apply Forall_cons; [|]); try apply Forall_nil; intros x; cbn [fst snd];
    (split; [|vm_compute; discriminate]).
  - destruct Q; subst; exact I.
  - change (s2l "?H") with ["?"; "H"]%char.
    destruct (fr_caps (filter_pure (q :: u) ["?"; "H"]%char)) as [l|] eqn:E; [|exact I].
    apply suffix_caps in E; [|destruct Q; subst; reflexivity]. destruct E as [a ->]. split; [discriminate|].
    destruct Q; subst; eexists; reflexivity.
  - destruct Q; subst; exact I.
  - destruct Q; subst; exact I.
  - change (s2l "?B") with ["?"; "B"]%char.
    destruct (fr_caps (filter_pure (q :: u) ["?"; "B"]%char)) as [l|] eqn:E; [|exact I].
    apply suffix_caps in E; [|destruct Q; subst; reflexivity]. destruct E as [a ->]. split; [discriminate|].
    destruct Q; subst; eexists; reflexivity.
  - destruct Q; subst; exact I.
  - change (s2l "?Q") with ["?"; "Q"]%char.
    destruct (fr_caps (filter_pure (q :: u) ["?"; "Q"]%char)) as [l|] eqn:E; [|exact I].
    apply suffix_caps in E; [|destruct Q; subst; reflexivity]. destruct E as [a ->]. split; [discriminate|].
    destruct Q; subst; eexists; reflexivity.
Qed.

Theorem quoted_trailing : forall q a y s, isquote q -> ~ In q a -> y <> [] ->
  (forall c, In c (a ++ y) -> ~ In c (s2l "\+-*/|&^<>~(){}")) -> room s (q :: a ++ q :: y) ->
  exists m b, parse (q :: a ++ q :: y) s = err m (set_ct (set_bufferpos b s.(ct)) s).
Proof.
  intros q a y s Q I Y N R. set (u := a ++ q :: y) in *.
  assert (NQ : forallb nonop (q :: u) = true).
  { apply forallb_forall. intros c Hc.
    unfold nonop. destruct (existsb _ _) eqn:E; [|reflexivity]. apply existsb_exists in E.
    destruct E as (x & Hx & E). apply Ascii.eqb_eq in E. subst x.
    assert (K : c = q \/ In c (a ++ y)).
    { unfold u in Hc. cbn [In] in Hc. rewrite in_app_iff in *. cbn [In] in Hc. intuition. }
    destruct K as [-> |K]; [|elim (N c K Hx)]. exfalso. clear - Q Hx. destruct Q; subst; cbn in Hx;
      repeat (destruct Hx as [Hx|Hx]; [discriminate|]); exact Hx. }
  assert (B : forall t, forallb nonop t = true -> forallb (fun c => negb (zc c =? 92)) t = true).
  { intros t H. rewrite forallb_forall in *. intros c Hc. specialize (H c Hc).
    destruct (zc c =? 92) eqn:E; [|reflexivity].
    assert (C : c = "\"%char) by (apply zc_inj; change (zc "\") with 92; lia). subst c. discriminate. }
  assert (NR : forallb nonop (rev (q :: u)) = true).
  { rewrite forallb_forall in *. intros c Hc. apply NQ. apply in_rev. exact Hc. }
  assert (E1 : reverse (q :: u) = rev (q :: u)) by (unfold reverse; rewrite revfix_noslash; auto).
  assert (E2 : reverse (rev (q :: u)) = q :: u).
  { unfold reverse. rewrite revfix_noslash; [rewrite rev_involutive; reflexivity|].
    apply B. rewrite rev_involutive. exact NQ. }
  assert (E : exists m, cstascii q 0 u = inr m).
  { apply ascii_trailing; try assumption. intros H. apply (N "\"%char); [apply in_or_app; left; exact H|left; reflexivity]. }
  unfold parse. unfold bind at 1.
  rewrite filter1_lacks; [|exact R|discriminate|apply clear_lacks; [vm_compute; reflexivity|exact NQ]].
  cbn [when]. unfold bind, ret, gets. rewrite E1. cbn [parse2].
  assert (R' : room s (rev (q :: u))) by (eapply room_reverse; [|exact R]; rewrite rev_length; reflexivity).
  rewrite parserows_clear; try assumption; [|vm_compute; reflexivity].
  cbn [parserows]. rewrite E2.
  assert (K : checklabel (q :: u) = false).
  { unfold checklabel. destruct (_ <? _); [reflexivity|]. destruct Q; subst; reflexivity. }
  rewrite K. apply trycst_fails; try assumption. apply fails_all. exact Q.
Qed.
