(** Constants are evaluated as specified. *)
From Coq Require Import String Ascii ZArith List Bool Lia ZifyBool ZifyNat.
From Verif Require Import Base BaseFacts State Tree Filter Output Label Operator Parse FilterFacts ParseFacts.
From Verif Require Import SpecNumbers.
Import ListNotations.
Open Scope Z_scope.

(** ** The conversion loops *)
Definition more (b : Z) (v : Z) (d : str) : Z :=
  fold_left (fun v c => v * b + match digit c with Some x => x | None => 0 end) d v.

Lemma digit_nonneg : forall c v, digit c = Some v -> 0 <= v < 16.
Proof.
  intros c v. unfold digit. set (n := Z.of_N (N_of_ascii c)).
  destruct ((48 <=? n) && (n <=? 57)) eqn:E1; [intros [= <-]; lia|].
  destruct ((65 <=? n) && (n <=? 70)) eqn:E2; [intros [= <-]; lia|].
  destruct ((97 <=? n) && (n <=? 102)) eqn:E3; [intros [= <-]; lia|discriminate].
Qed.

Lemma more_ge : forall b d v, 1 <= b -> 0 <= v -> v <= more b v d.
Proof.
  intros b. induction d as [|c d IH]; intros v Hb Hv; cbn [more fold_left]; [lia|].
  change (v <= more b (v * b + match digit c with Some x => x | None => 0 end) d).
  assert (K : 0 <= match digit c with Some x => x | None => 0 end).
  { destruct (digit c) as [x|] eqn:E; [|lia]. apply digit_nonneg in E. lia. }
  specialize (IH (v * b + match digit c with Some x => x | None => 0 end) Hb ltac:(nia)). nia.
Qed.

Lemma decimal_loop : forall d v, digits 10 d -> 0 <= v < 4294967296 ->
  cstdecimal v d = if more 10 v d <? 4294967296 then inl (more 10 v d) else inr "overflow"%string.
Proof.
  induction d as [|c d IH]; intros v H Hv; cbn [cstdecimal].
  - cbn [more fold_left]. destruct (v <? 4294967296) eqn:E; [reflexivity|lia].
  - inversion H as [|c' d' (x & Hx & Hb) Hd]; subst. pose proof (digit_nonneg c x Hx) as Hx0.
    assert (C : isdigit c = true /\ zc c - 48 = x).
    { unfold digit in Hx. unfold isdigit, zc. set (n := Z.of_N (N_of_ascii c)) in *.
      destruct ((48 <=? n) && (n <=? 57)) eqn:E1; [injection Hx as <-; split; reflexivity|].
      destruct ((65 <=? n) && (n <=? 70)) eqn:E2; [injection Hx as <-; lia|].
      destruct ((97 <=? n) && (n <=? 102)) eqn:E3; [injection Hx as <-; lia|discriminate]. }
    destruct C as [C1 C2]. rewrite C1. cbn [negb]. cbv zeta. rewrite C2.
    change (more 10 v (c :: d)) with (more 10 (v * 10 + match digit c with Some x => x | None => 0 end) d).
    rewrite Hx.
    destruct (429496729 <? v) eqn:E1.
    { pose proof (more_ge 10 d (v * 10 + x) ltac:(lia) ltac:(lia)) as G.
      destruct (more 10 (v * 10 + x) d <? 4294967296) eqn:E; [lia|reflexivity]. }
    destruct (4294967295 - x <? v * 10) eqn:E2.
    { pose proof (more_ge 10 d (v * 10 + x) ltac:(lia) ltac:(lia)) as G.
      destruct (more 10 (v * 10 + x) d <? 4294967296) eqn:E; [lia|reflexivity]. }
    apply IH; [exact Hd|lia].
Qed.

Lemma hexa_char : forall c x, digit c = Some x -> isxdigit c = true /\ digitval c = x.
Proof.
  intros c x Hx. unfold digit in Hx. unfold isxdigit, isdigit, digitval, zc.
  set (n := Z.of_N (N_of_ascii c)) in *.
  destruct ((48 <=? n) && (n <=? 57)) eqn:E1; [injection Hx as <-; split; [lia|]|].
  { destruct (97 <=? n) eqn:E; [lia|]. destruct (65 <=? n) eqn:E'; lia. }
  destruct ((65 <=? n) && (n <=? 70)) eqn:E2; [injection Hx as <-; split; [lia|]|].
  { destruct (97 <=? n) eqn:E; [lia|]. destruct (65 <=? n) eqn:E'; lia. }
  destruct ((97 <=? n) && (n <=? 102)) eqn:E3; [injection Hx as <-; split; [lia|]|discriminate].
  destruct (97 <=? n) eqn:E; lia.
Qed.

Lemma hexa_loop : forall d v, digits 16 d -> 0 <= v < 4294967296 ->
  csthexa v d = if more 16 v d <? 4294967296 then inl (more 16 v d) else inr "overflow"%string.
Proof.
  induction d as [|c d IH]; intros v H Hv; cbn [csthexa].
  - cbn [more fold_left]. destruct (v <? 4294967296) eqn:E; [reflexivity|lia].
  - inversion H as [|c' d' (x & Hx & Hb) Hd]; subst. pose proof (digit_nonneg c x Hx) as Hx0.
    destruct (hexa_char c x Hx) as [C1 C2]. rewrite C1. cbn [negb]. rewrite C2.
    rewrite Z.shiftl_mul_pow2 by lia. change (2 ^ 4) with 16.
    change (more 16 v (c :: d)) with (more 16 (v * 16 + match digit c with Some x => x | None => 0 end) d).
    rewrite Hx.
    destruct (268435455 <? v) eqn:E1.
    { pose proof (more_ge 16 d (v * 16 + x) ltac:(lia) ltac:(lia)) as G.
      destruct (more 16 (v * 16 + x) d <? 4294967296) eqn:E; [lia|reflexivity]. }
    apply IH; [exact Hd|lia].
Qed.

Lemma octal_loop : forall d v, digits 8 d -> 0 <= v < 4294967296 ->
  cstoctal v d = if more 8 v d <? 4294967296 then inl (more 8 v d) else inr "overflow"%string.
Proof.
  induction d as [|c d IH]; intros v H Hv; cbn [cstoctal].
  - cbn [more fold_left]. destruct (v <? 4294967296) eqn:E; [reflexivity|lia].
  - inversion H as [|c' d' (x & Hx & Hb) Hd]; subst. pose proof (digit_nonneg c x Hx) as Hx0.
    assert (C : (zc c <? 48) || (55 <? zc c) = false /\ zc c - 48 = x).
    { unfold digit in Hx. unfold zc. set (n := Z.of_N (N_of_ascii c)) in *.
      destruct ((48 <=? n) && (n <=? 57)) eqn:E1; [injection Hx as <-; lia|].
      destruct ((65 <=? n) && (n <=? 70)) eqn:E2; [injection Hx as <-; lia|].
      destruct ((97 <=? n) && (n <=? 102)) eqn:E3; [injection Hx as <-; lia|discriminate]. }
    destruct C as [C1 C2]. rewrite C1, C2.
    rewrite Z.shiftl_mul_pow2 by lia. change (2 ^ 3) with 8.
    change (more 8 v (c :: d)) with (more 8 (v * 8 + match digit c with Some x => x | None => 0 end) d).
    rewrite Hx.
    destruct (536870911 <? v) eqn:E1.
    { pose proof (more_ge 8 d (v * 8 + x) ltac:(lia) ltac:(lia)) as G.
      destruct (more 8 (v * 8 + x) d <? 4294967296) eqn:E; [lia|reflexivity]. }
    apply IH; [exact Hd|lia].
Qed.

(** The binary loop is exact below 2^32 only. *)
Lemma binary_loop : forall d v, digits 2 d -> 0 <= v -> more 2 v d < 4294967296 ->
  cstbinary v d = inl (more 2 v d).
Proof.
  induction d as [|c d IH]; intros v H Hv; cbn [cstbinary]; intros K; [reflexivity|].
  inversion H as [|c' d' (x & Hx & Hb) Hd]; subst. pose proof (digit_nonneg c x Hx) as Hx0.
  assert (C : negb ((zc c =? 49) || (zc c =? 48)) = false /\ zc c - 48 = x).
  { unfold digit in Hx. unfold zc. set (n := Z.of_N (N_of_ascii c)) in *.
    destruct ((48 <=? n) && (n <=? 57)) eqn:E1; [injection Hx as <-; lia|].
    destruct ((65 <=? n) && (n <=? 70)) eqn:E2; [injection Hx as <-; lia|].
    destruct ((97 <=? n) && (n <=? 102)) eqn:E3; [injection Hx as <-; lia|discriminate]. }
  destruct C as [C1 C2]. rewrite C1, C2.
  rewrite Z.shiftl_mul_pow2 by lia. change (2 ^ 1) with 2.
  change (more 2 v (c :: d)) with (more 2 (v * 2 + match digit c with Some x => x | None => 0 end) d) in *.
  rewrite Hx in *. pose proof (more_ge 2 d (v * 2 + x) ltac:(lia) ltac:(lia)) as G.
  destruct (4026531839 <? v) eqn:E1; [lia|]. apply IH; [exact Hd|lia|exact K].
Qed.

(** ** The forms of constants *)
Lemma qstep_plain : forall c, plain c = true -> qstep q0 c = q0.
Proof.
  intros c H. assert (K : zc c <> 92 /\ zc c <> 39 /\ zc c <> 34 /\ zc c <> 40 /\ zc c <> 41).
  { unfold plain, isalnum, isalpha, isupper, islower, isdigit in H. lia. }
  unfold qstep, q0. cbn [q_esc].
  destruct (zc c =? 92) eqn:E1; [lia|]. destruct (zc c =? 39) eqn:E2; [lia|].
  destruct (zc c =? 34) eqn:E3; [lia|]. destruct (zc c =? 40) eqn:E4; [lia|].
  destruct (zc c =? 41) eqn:E5; [lia|]. reflexivity.
Qed.

(** A wildcard followed by one character at the end. *)
Lemma wild_last : forall k f rem h p cap, zc f <> 95 -> forallb plain p = true ->
  fr_caps (wildloop k [f] true rem (p ++ [h]) q0 cap) =
  if charmatch f h then Some [rev cap ++ p] else None.
Proof.
  intros k f rem h p. induction p as [|c p IH]; intros cap Hf Hp.
  - cbn [app wildloop mlit qzero q0 negb andb Z.eqb].
    destruct (zc f =? 95) eqn:E; [lia|].
    change (qzero q0) with true. cbn [andb]. destruct (charmatch f h); cbn [fr_caps].
    + rewrite app_nil_r. reflexivity.
    + cbn [mlit]. rewrite ?E. reflexivity.
  - cbn [forallb] in Hp. apply andb_true_iff in Hp. destruct Hp as [Hc Hp].
    cbn [app wildloop]. assert (M : mlit (qzero q0) true [f] (c :: p ++ [h]) = MRetry).
    { cbn [mlit]. destruct (zc f =? 95) eqn:E; [lia|]. change (qzero q0) with true. cbn [andb].
      destruct (charmatch f c); [|reflexivity]. destruct p; reflexivity. }
    rewrite M, (qstep_plain c Hc), IH by assumption. cbn [rev]. rewrite <- app_assoc. reflexivity.
Qed.

Lemma suffix_match : forall f h p, zc f <> 95 -> zc f <> 63 -> forallb plain p = true ->
  fr_caps (filter_pure (p ++ [h]) ["?"%char; f]) = if charmatch f h then Some [p] else None.
Proof.
  intros f h p H1 H2 Hp. unfold filter_pure. cbn [segments].
  destruct (zc f =? 63) eqn:E; [lia|]. change (zc "?" =? 63) with true. cbn [mlit lastseg fwild].
  rewrite wild_last by assumption. reflexivity.
Qed.

Lemma prefix_match : forall f c p, zc f <> 95 -> zc f <> 63 ->
  fr_caps (filter_pure (c :: p) [f; "?"%char]) = if charmatch f c then Some [p] else None.
Proof.
  intros f c p H1 H2. unfold filter_pure. cbn [segments].
  change (zc "?" =? 63) with true. destruct (zc f =? 63) eqn:E; [lia|]. cbn [mlit lastseg].
  destruct (zc f =? 95) eqn:E'; [lia|]. cbn [andb]. destruct (charmatch f c); reflexivity.
Qed.

Lemma prefix2_match : forall f g c p, zc f <> 95 -> zc f <> 63 -> zc g <> 95 -> zc g <> 63 ->
  fr_caps (filter_pure (c :: p) [f; g; "?"%char]) =
  match p with
  | d :: p' => if charmatch f c && charmatch g d then Some [p'] else None
  | [] => None
  end.
Proof.
  intros f g c p H1 H2 H3 H4. unfold filter_pure. cbn [segments].
  change (zc "?" =? 63) with true. destruct (zc f =? 63) eqn:E; [lia|]. destruct (zc g =? 63) eqn:E2; [lia|].
  cbn [mlit lastseg].
  destruct (zc f =? 95) eqn:E'; [lia|]. destruct (zc g =? 95) eqn:E2'; [lia|]. cbn [andb].
  destruct (charmatch f c); [|destruct p; reflexivity]. cbn [andb].
  destruct p as [|d p]; [reflexivity|]. destruct (charmatch g d); reflexivity.
Qed.

(** One step of the search for the form. *)
Lemma trycst_none : forall top r t f conv l s, room s t -> short (s2l f) ->
  fr_caps (filter_pure t (s2l f)) = None ->
  trycst top r t ((f, conv) :: l) s = trycst top r t l s.
Proof.
  intros top r t f conv l s R S H. cbn [trycst]. unfold bind at 1. unfold filter1, bind.
  rewrite filterc_none by assumption. reflexivity.
Qed.

Lemma trycst_nil : forall top r t f conv l s, room s t -> short (s2l f) ->
  fr_caps (filter_pure t (s2l f)) = Some [[]] ->
  exists s1, trycst top r t ((f, conv) :: l) s = trycst top r t l s1 /\
    s1 = set_ct (set_bufferpos s1.(ct).(bufferpos) s.(ct)) s /\ bufferpos (ct s1) <= bufferpos (ct s) + 1.
Proof.
  intros top r t f conv l s R S H. cbn [trycst]. unfold bind at 1. unfold filter1, bind.
  rewrite (filterc_some s t (s2l f) [[]]) by assumption. eexists. split; [reflexivity|]. split; [reflexivity|].
  rewrite (filter_size _ _ _ H). cbn [capsize zlen List.length Z.of_nat ct set_ct bufferpos set_bufferpos]. lia.
Qed.

Lemma trycst_some : forall top r t f conv l s c p, room s t -> short (s2l f) ->
  fr_caps (filter_pure t (s2l f)) = Some [c :: p] ->
  exists b, trycst top r t ((f, conv) :: l) s =
    constant top r (conv 0 (c :: p)) (set_ct (set_bufferpos b s.(ct)) s).
Proof.
  intros top r t f conv l s c p R S H. cbn [trycst]. unfold bind at 1. unfold filter1, bind.
  rewrite (filterc_some s t (s2l f) [c :: p]) by assumption. eexists. reflexivity.
Qed.

(** What is left by the evaluation of a constant: [bufferpos] and the result. *)
Lemma constant_done : forall r z s, 0 <= z < 2 ^ 63 ->
  exists s', constant true r (inl z) s = (Ok (mkRes lf0 TAbs r.(r_modifier) r.(r_ptr) z), s').
Proof.
  intros r z s Hz. unfold constant, putres, cst, bind, when, upd_ct, modify, ret.
  replace (s64 z) with z by (unfold s64; lia). eexists. reflexivity.
Qed.

Definition conv_of (b : Z) : Z -> str -> Z + string :=
  if b =? 16 then csthexa else if b =? 2 then cstbinary else if b =? 8 then cstoctal else cstdecimal.

Lemma digits_plain : forall b d, digits b d -> forallb plain d = true.
Proof.
  intros b d H. apply forallb_forall. intros c Hc. unfold digits in H. rewrite Forall_forall in H.
  destruct (H c Hc) as (v & Hv & _). clear - Hv. unfold digit in Hv. unfold plain, isalnum, isalpha, isupper, islower, isdigit, zc.
  set (n := Z.of_N (N_of_ascii c)) in *.
  destruct ((48 <=? n) && (n <=? 57)) eqn:E1; [lia|].
  destruct ((65 <=? n) && (n <=? 70)) eqn:E2; [lia|].
  destruct ((97 <=? n) && (n <=? 102)) eqn:E3; [lia|discriminate].
Qed.

Lemma digits_last : forall b d, digits b d -> d <> [] -> exists p h, d = p ++ [h] /\ digits b p /\
  (exists v, digit h = Some v /\ v < b).
Proof.
  intros b d H Hn. destruct (exists_last Hn) as (p & h & ->). exists p, h. split; [reflexivity|].
  unfold digits in *. apply Forall_app in H. destruct H as [H1 H2]. split; [exact H1|].
  inversion H2; subst. assumption.
Qed.

Lemma digit_decimal : forall c v, digit c = Some v -> v < 10 -> 48 <= zc c <= 57.
Proof.
  intros c v Hx Hv. unfold digit in Hx. unfold zc. set (n := Z.of_N (N_of_ascii c)) in *.
  destruct ((48 <=? n) && (n <=? 57)) eqn:E1; [lia|].
  destruct ((65 <=? n) && (n <=? 70)) eqn:E2; [injection Hx as <-; lia|].
  destruct ((97 <=? n) && (n <=? 102)) eqn:E3; [injection Hx as <-; lia|discriminate].
Qed.

Lemma charmatch_alike : forall f c, charmatch f c = true -> zc f <> 32 -> toupper f = toupper c.
Proof.
  intros f c H Hf. unfold charmatch in H. apply orb_true_iff in H. destruct H as [H|H].
  - apply Ascii.eqb_eq in H. exact H.
  - apply andb_true_iff in H. lia.
Qed.

Ltac bytes c := revert c; intros [[] [] [] [] [] [] [] []]; vm_compute; try reflexivity; try discriminate.

(** The search for the form, without the buffer. *)
Fixpoint search (t : str) (l : list (string * (Z -> str -> Z + string)))
  : option ((Z -> str -> Z + string) * str) :=
  match l with
  | [] => match t with c :: _ => if isdigit c then Some (cstdecimal, t) else None | [] => None end
  | (f, conv) :: l' =>
      match fr_caps (filter_pure t (s2l f)) with
      | Some [c :: p] => Some (conv, c :: p)
      | _ => search t l'
      end
  end.

Lemma bufferpos_self : forall s, set_ct (set_bufferpos (bufferpos (ct s)) (ct s)) s = s.
Proof. intros [? ? ? ? ? [] ? ? ? ? ?]. reflexivity. Qed.

(** Room for the constant forms, seven of which may capture an empty text. *)
Definition roomy (k : Z) (s : state) (t : str) : Prop := bufferpos (ct s) + zlen t + k < 4000.

Lemma trycst_search : forall top r t l s, Forall (fun x => short (s2l (fst x))) l ->
  Forall (fun x => fr_caps (filter_pure t (s2l (fst x))) = None \/
                   exists p, fr_caps (filter_pure t (s2l (fst x))) = Some [p]) l ->
  roomy (3 + zlen l) s t ->
  exists b, trycst top r t l s =
    match search t l with
    | Some (conv, p) => constant top r (conv 0 p)
    | None =>
      match t with
      | c :: t =>
          if (zc c =? 39) || (zc c =? 34) then constant top r (cstascii c 0 t)
          else err "syntax error in an expression"
      | [] => err "syntax error in an expression"
      end
    end (set_ct (set_bufferpos b s.(ct)) s).
Proof.
  intros top r t l. induction l as [|[f cv] l IH]; intros s S O R.
  - exists (bufferpos (ct s)). rewrite bufferpos_self. cbn [search trycst].
    destruct t as [|c t]; [reflexivity|]. destruct (isdigit c); reflexivity.
  - inversion S as [|? ? S1 S2]; subst. inversion O as [|? ? O1 O2]; subst. cbn [fst] in *.
    cbn [search]. unfold zlen in R. cbn [List.length] in R. fold (@zlen (string * (Z -> str -> Z + string)) l) in R.
    assert (R1 : room s t) by (unfold room, roomy, zlen in *; lia).
    destruct O1 as [E|[[|c p] E]]; rewrite E.
    + rewrite trycst_none by assumption. apply IH; try assumption. unfold roomy, zlen in *; lia.
    + destruct (trycst_nil top r t f cv l s R1 S1 E) as (s1 & E1 & E2 & B). rewrite E1.
      destruct (IH s1 S2 O2) as [b K].
      { unfold roomy, zlen in *. lia. }
      exists b. rewrite K. rewrite E2. destruct s as [? ? ? ? ? [] ? ? ? ? ?]. reflexivity.
    + apply trycst_some; assumption.
Qed.

Lemma short_cstlist : Forall (fun x => short (s2l (fst x))) cstlist.
Proof. repeat constructor; discriminate. Qed.

Lemma alike : forall f c, charmatch f c = true -> zc f <> 32 ->
  zc c = zc f \/ (65 <= zc f <= 90 /\ zc c = zc f + 32) \/ (97 <= zc f <= 122 /\ zc c = zc f - 32).
Proof.
  intros f c H Hf. apply charmatch_alike in H; [|exact Hf]. unfold toupper in H.
  pose proof (zc_range f). pose proof (zc_range c). unfold islower in H.
  destruct (_ && _) eqn:E1 in H; destruct (_ && _) eqn:E2 in H; apply (f_equal zc) in H;
    rewrite ?zc_cz_small in H; lia.
Qed.

Lemma unlike : forall f c, zc f <> 32 -> zc c <> zc f ->
  (65 <= zc f <= 90 -> zc c <> zc f + 32) -> (97 <= zc f <= 122 -> zc c <> zc f - 32) ->
  charmatch f c = false.
Proof.
  intros f c H1 H2 H3 H4. destruct (charmatch f c) eqn:E; [|reflexivity].
  apply alike in E; [|exact H1]. intuition lia.
Qed.

Ltac unl := apply unlike; change (zc "$") with 36; change (zc "H") with 72; change (zc "0") with 48;
  change (zc "X") with 88; change (zc "%") with 37; change (zc "B") with 66; change (zc "Q") with 81; lia.

Lemma nosuffix : forall f p h, zc f <> 95 -> zc f <> 63 -> forallb plain p = true ->
  charmatch f h = false -> fr_caps (filter_pure (p ++ [h]) ["?"%char; f]) = None.
Proof. intros f p h H1 H2 H3 H4. rewrite suffix_match by assumption. rewrite H4. reflexivity. Qed.

Lemma zc_digit : forall c b v, digit c = Some v -> v < b -> b <= 10 -> 48 <= zc c < 48 + b.
Proof.
  intros c b v Hx Hv Hb. unfold digit in Hx. unfold zc. set (n := Z.of_N (N_of_ascii c)) in *.
  destruct ((48 <=? n) && (n <=? 57)) eqn:E1; [injection Hx as <-; lia|].
  destruct ((65 <=? n) && (n <=? 70)) eqn:E2; [injection Hx as <-; lia|].
  destruct ((97 <=? n) && (n <=? 102)) eqn:E3; [injection Hx as <-; lia|discriminate].
Qed.

Lemma zc_digit16 : forall c v, digit c = Some v -> 48 <= zc c <= 57 \/ 65 <= zc c <= 70 \/ 97 <= zc c <= 102.
Proof.
  intros c v Hx. unfold digit in Hx. unfold zc. set (n := Z.of_N (N_of_ascii c)) in *.
  destruct ((48 <=? n) && (n <=? 57)) eqn:E1; [injection Hx as <-; lia|].
  destruct ((65 <=? n) && (n <=? 70)) eqn:E2; [injection Hx as <-; lia|].
  destruct ((97 <=? n) && (n <=? 102)) eqn:E3; [injection Hx as <-; lia|discriminate].
Qed.

Lemma first_last : forall (t : str), t <> [] -> exists c q p h, t = c :: q /\ t = p ++ [h].
Proof.
  intros [|c q] H; [congruence|]. destruct (@exists_last _ (c :: q)) as (p & h & E); [discriminate|].
  exists c, q, p, h. split; [reflexivity|exact E].
Qed.

Definition filled (t : str) : bool := match t with [] => false | _ => true end.

Lemma search_step : forall t f cv l (b : bool) p,
  fr_caps (filter_pure t (s2l f)) = (if b then Some [p] else None) ->
  search t ((f, cv) :: l) = if b && filled p then Some (cv, p) else search t l.
Proof. intros t f cv l b p E. cbn [search]. rewrite E. destruct b; [destruct p|]; reflexivity. Qed.

(** The search described by the first two and the last characters. *)
Lemma search_spec : forall t c q p h, t = c :: q -> t = p ++ [h] -> forallb plain t = true ->
  search t cstlist =
  if charmatch "$" c && filled q then Some (csthexa, q)
  else if charmatch "H" h && filled p then Some (csthexa, p)
  else if match q with d :: _ => charmatch "0" c && charmatch "X" d | [] => false end && filled (tl q)
       then Some (csthexa, tl q)
  else if charmatch "%" c && filled q then Some (cstbinary, q)
  else if charmatch "B" h && filled p then Some (cstbinary, p)
  else if match q with d :: _ => charmatch "0" c && charmatch "B" d | [] => false end && filled (tl q)
       then Some (cstbinary, tl q)
  else if charmatch "Q" h && filled p then Some (cstoctal, p)
  else if isdigit c then Some (cstdecimal, t) else None.
Proof.
  intros t c q p h E1 E2 T.
  assert (P : forallb plain p = true).
  { rewrite E2, forallb_app in T. apply andb_true_iff in T. apply T. }
  assert (F1 : forall f, zc f <> 95 -> zc f <> 63 ->
    fr_caps (filter_pure t [f; "?"%char]) = if charmatch f c then Some [q] else None).
  { intros f H1 H2. rewrite E1. apply prefix_match; assumption. }
  assert (F2 : forall f, zc f <> 95 -> zc f <> 63 ->
    fr_caps (filter_pure t ["?"%char; f]) = if charmatch f h then Some [p] else None).
  { intros f H1 H2. rewrite E2. apply suffix_match; assumption. }
  assert (F3 : forall f g, zc f <> 95 -> zc f <> 63 -> zc g <> 95 -> zc g <> 63 ->
    fr_caps (filter_pure t [f; g; "?"%char]) =
      if match q with d :: _ => charmatch f c && charmatch g d | [] => false end then Some [tl q] else None).
  { intros f g H1 H2 H3 H4. rewrite E1, prefix2_match by assumption. destruct q; reflexivity. }
  unfold cstlist.
  erewrite search_step by (apply F1; discriminate).
  erewrite search_step by (apply F2; discriminate).
  erewrite search_step by (apply F3; discriminate).
  erewrite search_step by (apply F1; discriminate).
  erewrite search_step by (apply F2; discriminate).
  erewrite search_step by (apply F3; discriminate).
  erewrite search_step by (apply F2; discriminate).
  cbn [search]. rewrite E1. clear E1 E2 F1 F2 F3.
  destruct q as [|d q]; reflexivity.
Qed.

Lemma one_capture : forall (x : option (list str)) (b : bool) p, x = (if b then Some [p] else None) ->
  x = None \/ exists p, x = Some [p].
Proof. intros x b p ->. destruct b; eauto. Qed.

(** Each form matches with one capture or not at all. *)
Lemma cst_captures : forall t, forallb plain t = true -> t <> [] ->
  Forall (fun x => fr_caps (filter_pure t (s2l (fst x))) = None \/
                   exists p, fr_caps (filter_pure t (s2l (fst x))) = Some [p]) cstlist.
Proof.
  intros t T N. destruct (first_last t N) as (c & q & p & h & E1 & E2).
  assert (P : forallb plain p = true).
  { rewrite E2, forallb_app in T. apply andb_true_iff in T. apply T. }
  assert (F1 : forall f, zc f <> 95 -> zc f <> 63 ->
    fr_caps (filter_pure t [f; "?"%char]) = if charmatch f c then Some [q] else None).
  { intros f H1 H2. rewrite E1. apply prefix_match; assumption. }
  assert (F2 : forall f, zc f <> 95 -> zc f <> 63 ->
    fr_caps (filter_pure t ["?"%char; f]) = if charmatch f h then Some [p] else None).
  { intros f H1 H2. rewrite E2. apply suffix_match; assumption. }
  assert (F3 : forall f g, zc f <> 95 -> zc f <> 63 -> zc g <> 95 -> zc g <> 63 ->
    fr_caps (filter_pure t [f; g; "?"%char]) =
      if match q with d :: _ => charmatch f c && charmatch g d | [] => false end then Some [tl q] else None).
  { intros f g H1 H2 H3 H4. rewrite E1, prefix2_match by assumption. destruct q; reflexivity. }
  unfold cstlist. repeat (apply Forall_cons || apply Forall_nil); cbn [fst].
  1,4: eapply one_capture; apply F1; discriminate.
  1,3,5: eapply one_capture; apply F2; discriminate.
  all: eapply one_capture; apply F3; discriminate.
Qed.

Lemma written_search : forall b d t, written b d t -> digits b d -> d <> [] ->
  forallb plain t = true /\ checklabel t = false /\ search t cstlist = Some (conv_of b, d).
Proof.
  intros b d t W D N. pose proof (digits_plain b d D) as P.
  assert (X : forall c x, zc c = zc x -> c = x) by (intros; apply zc_inj; assumption).
  assert (T : forallb plain t = true).
  { destruct W; rewrite ?forallb_app; cbn [forallb]; rewrite ?P; auto;
      repeat match goal with H : _ \/ _ |- _ => destruct H; subst end; try reflexivity. }
  split; [exact T|].
  destruct (first_last d N) as (c & q & p & h & E1 & E2).
  assert (Hc : exists v, digit c = Some v /\ v < b).
  { unfold digits in D. rewrite Forall_forall in D. apply D. rewrite E1. left. reflexivity. }
  assert (Hh : exists v, digit h = Some v /\ v < b).
  { unfold digits in D. rewrite Forall_forall in D. apply D. rewrite E2. apply in_or_app. right. left. reflexivity. }
  destruct Hc as (vc & Hc & Bc). destruct Hh as (vh & Hh & Bh).
  pose proof (zc_digit16 _ _ Hc) as Kc. pose proof (zc_digit16 _ _ Hh) as Kh.
  assert (L0 : forall u v, 48 <= zc u <= 57 -> checklabel (u :: v) = false).
  { intros u v Hu. unfold checklabel. destruct (_ <? _); [reflexivity|].
    destruct (zc u =? 42) eqn:E; [lia|]. cbn [andb].
    unfold isalpha, isupper, islower. destruct (_ || _) eqn:E'; [lia|reflexivity]. }
  assert (Q2 : forall v, q = v :: tl q -> exists w, digit v = Some w /\ w < b).
  { intros v Ev. unfold digits in D. rewrite Forall_forall in D. apply D. rewrite E1, Ev. right. left. reflexivity. }
  destruct W as [d0|d0 x F0 X0|d0 x X0|d0|d0 x X0|d0 x X0|d0 x X0|d0].
  - (* $ *) split; [unfold checklabel; destruct (_ <? _); reflexivity|].
    rewrite (search_spec _ "$" d0 ("$" :: p)%char h eq_refl); [|rewrite E2; reflexivity|exact T].
    rewrite E1. reflexivity.
  - (* H *) rewrite E1. cbn [app]. split.
    { apply L0. rewrite E1 in F0. destruct F0 as [<-|(v & Hv & Bv)]; [vm_compute; split; discriminate|].
      pose proof (digit_decimal _ _ Hv Bv). lia. }
    rewrite E1 in T. cbn [app] in T.
    rewrite (search_spec _ c (q ++ [x]) (c :: q) x eq_refl eq_refl T).
    assert (M1 : charmatch "$" c = false) by unl. rewrite M1.
    assert (M2 : charmatch "H" x = true) by (destruct X0; subst; reflexivity). rewrite M2. reflexivity.
  - (* 0X *) split; [apply L0; vm_compute; split; discriminate|].
    rewrite (search_spec _ "0" (x :: d0) ("0" :: x :: p)%char h eq_refl); [|rewrite E2; reflexivity|exact T].
    change (charmatch "$" "0") with false. cbv iota.
    assert (M1 : charmatch "H" h = false) by unl. rewrite M1.
    assert (M2 : charmatch "X" x = true) by (destruct X0; subst; reflexivity). rewrite M2.
    rewrite E1. reflexivity.
  - (* % *) split; [unfold checklabel; destruct (_ <? _); reflexivity|].
    rewrite (search_spec _ "%" d0 ("%" :: p)%char h eq_refl); [|rewrite E2; reflexivity|exact T].
    change (charmatch "$" "%") with false. cbv iota.
    assert (M1 : charmatch "H" h = false) by unl. rewrite M1.
    rewrite E1. reflexivity.
  - (* B *) pose proof (zc_digit _ _ _ Hc Bc ltac:(lia)) as Kc'. rewrite E1. cbn [app]. split.
    { apply L0. lia. }
    rewrite E1 in T. cbn [app] in T.
    rewrite (search_spec _ c (q ++ [x]) (c :: q) x eq_refl eq_refl T).
    assert (M1 : charmatch "$" c = false) by unl. rewrite M1.
    assert (M2 : charmatch "H" x = false) by (destruct X0; subst; reflexivity). rewrite M2.
    assert (M3 : (match q ++ [x] with d :: _ => charmatch "0" c && charmatch "X" d | [] => false end) = false).
    { destruct q as [|v q]; cbn [app]; [destruct X0; subst; apply andb_false_r|].
      destruct (Q2 v eq_refl) as (w & Hw & Bw). pose proof (zc_digit _ _ _ Hw Bw ltac:(lia)).
      assert (M : charmatch "X" v = false) by unl. rewrite M. apply andb_false_r. }
    rewrite M3. assert (M4 : charmatch "%" c = false) by unl. rewrite M4.
    assert (M5 : charmatch "B" x = true) by (destruct X0; subst; reflexivity). rewrite M5. reflexivity.
  - (* 0B *) pose proof (zc_digit _ _ _ Hh Bh ltac:(lia)) as Kh'.
    split; [apply L0; vm_compute; split; discriminate|].
    rewrite (search_spec _ "0" (x :: d0) ("0" :: x :: p)%char h eq_refl); [|rewrite E2; reflexivity|exact T].
    change (charmatch "$" "0") with false. cbv iota.
    assert (M1 : charmatch "H" h = false) by unl. rewrite M1.
    assert (M2 : charmatch "0" "0" && charmatch "X" x = false) by (destruct X0; subst; reflexivity). rewrite M2.
    change (charmatch "%" "0") with false. cbv iota.
    assert (M3 : charmatch "B" h = false) by unl. rewrite M3.
    assert (M4 : charmatch "0" "0" && charmatch "B" x = true) by (destruct X0; subst; reflexivity). rewrite M4.
    rewrite E1. reflexivity.
  - (* Q *) pose proof (zc_digit _ _ _ Hc Bc ltac:(lia)) as Kc'. rewrite E1. cbn [app]. split.
    { apply L0. lia. }
    rewrite E1 in T. cbn [app] in T.
    rewrite (search_spec _ c (q ++ [x]) (c :: q) x eq_refl eq_refl T).
    assert (M1 : charmatch "$" c = false) by unl. rewrite M1.
    assert (M2 : charmatch "H" x = false) by (destruct X0; subst; reflexivity). rewrite M2.
    assert (M3 : forall f, f = "X"%char \/ f = "B"%char ->
      (match q ++ [x] with d :: _ => charmatch "0" c && charmatch f d | [] => false end) = false).
    { intros f Hf. destruct q as [|v q]; cbn [app]; [destruct X0, Hf; subst; apply andb_false_r|].
      destruct (Q2 v eq_refl) as (w & Hw & Bw). pose proof (zc_digit _ _ _ Hw Bw ltac:(lia)).
      assert (M : charmatch f v = false) by (destruct Hf; subst; unl). rewrite M. apply andb_false_r. }
    rewrite (M3 "X"%char) by auto. assert (M4 : charmatch "%" c = false) by unl. rewrite M4.
    assert (M5 : charmatch "B" x = false) by (destruct X0; subst; reflexivity). rewrite M5.
    rewrite (M3 "B"%char) by auto.
    assert (M6 : charmatch "Q" x = true) by (destruct X0; subst; reflexivity). rewrite M6. reflexivity.
  - (* decimal *) pose proof (zc_digit _ _ _ Hc Bc ltac:(lia)) as Kc'.
    pose proof (zc_digit _ _ _ Hh Bh ltac:(lia)) as Kh'. split; [rewrite E1; apply L0; lia|].
    rewrite (search_spec _ c q p h E1 E2 T).
    assert (M1 : charmatch "$" c = false) by unl. rewrite M1.
    assert (M2 : charmatch "H" h = false) by unl. rewrite M2.
    assert (M3 : forall f, f = "X"%char \/ f = "B"%char ->
      (match q with d :: _ => charmatch "0" c && charmatch f d | [] => false end) = false).
    { intros f Hf. destruct q as [|v q']; [reflexivity|].
      destruct (Q2 v eq_refl) as (w & Hw & Bw). pose proof (zc_digit _ _ _ Hw Bw ltac:(lia)).
      assert (M : charmatch f v = false) by (destruct Hf; subst; unl). rewrite M. apply andb_false_r. }
    rewrite (M3 "X"%char) by auto. assert (M4 : charmatch "%" c = false) by unl. rewrite M4.
    assert (M5 : charmatch "B" h = false) by unl. rewrite M5. rewrite (M3 "B"%char) by auto.
    assert (M6 : charmatch "Q" h = false) by unl. rewrite M6.
    assert (M7 : isdigit c = true) by (unfold isdigit; lia). rewrite M7. reflexivity.
Qed.

Lemma written_base : forall b d t, written b d t -> b = 2 \/ b = 8 \/ b = 10 \/ b = 16.
Proof. intros b d t W. destruct W; auto. Qed.

Lemma roomy_room : forall s t, roomy 10 s t -> room s t.
Proof. intros s t. unfold roomy, room. lia. Qed.

Lemma parse_search : forall t s, forallb plain t = true -> t <> [] -> checklabel t = false -> roomy 10 s t ->
  exists bp, parse t s =
    match search t cstlist with
    | Some (conv, p) => constant true s.(ct).(calcresult) (conv 0 p)
    | None => err "syntax error in an expression"
    end (set_ct (set_bufferpos bp s.(ct)) s).
Proof.
  intros t s T N L R.
  rewrite parse_plain by auto using roomy_room. rewrite L.
  destruct (trycst_search true (calcresult (ct s)) t cstlist s short_cstlist (cst_captures t T N) R) as [bp E].
  exists bp. rewrite E. destruct (search t cstlist) as [[conv p]|]; [reflexivity|].
  destruct t as [|c t]; [reflexivity|]. cbn [forallb] in T. apply andb_true_iff in T. destruct T as [T _].
  unfold plain, isalnum, isalpha, isupper, islower, isdigit in T.
  destruct ((zc c =? 39) || (zc c =? 34)) eqn:E'; [lia|reflexivity].
Qed.

Lemma parse_written : forall b d t s, written b d t -> digits b d -> d <> [] -> roomy 10 s t ->
  exists bp, parse t s =
    constant true s.(ct).(calcresult) (conv_of b 0 d) (set_ct (set_bufferpos bp s.(ct)) s).
Proof.
  intros b d t s W D N R. destruct (written_search b d t W D N) as (T & L & S).
  assert (Nt : t <> []) by (destruct W; destruct d; try discriminate; congruence).
  destruct (parse_search t s T Nt L R) as [bp E]. exists bp. rewrite E, S. reflexivity.
Qed.

(** A conversion that succeeds saw digits only. *)
Lemma digit_of : forall c b, 2 <= b <= 10 -> 48 <= zc c < 48 + b -> exists v, digit c = Some v /\ v < b.
Proof.
  intros c b Hb H. exists (zc c - 48). unfold digit. unfold zc in *. set (n := Z.of_N (N_of_ascii c)) in *.
  destruct ((48 <=? n) && (n <=? 57)) eqn:E; [split; [reflexivity|lia]|lia].
Qed.
Lemma digit_of16 : forall c, isxdigit c = true -> exists v, digit c = Some v /\ v < 16.
Proof.
  intros c H. unfold isxdigit, isdigit in H. unfold digit. unfold zc in *. set (n := Z.of_N (N_of_ascii c)) in *.
  destruct ((48 <=? n) && (n <=? 57)) eqn:E; [eexists; split; [reflexivity|lia]|].
  destruct ((65 <=? n) && (n <=? 70)) eqn:E2; [eexists; split; [reflexivity|lia]|].
  destruct ((97 <=? n) && (n <=? 102)) eqn:E3; [eexists; split; [reflexivity|lia]|]. discriminate.
Qed.
Lemma hexa_digits : forall d v w, csthexa v d = inl w -> digits 16 d.
Proof.
  induction d as [|c d IH]; intros v w H; [constructor|]. cbn [csthexa] in H.
  destruct (isxdigit c) eqn:E; cbn [negb] in H; [|discriminate].
  destruct (_ <? _) in H; [discriminate|]. constructor; [apply digit_of16; exact E|]. eapply IH; exact H.
Qed.
Lemma octal_digits : forall d v w, cstoctal v d = inl w -> digits 8 d.
Proof.
  induction d as [|c d IH]; intros v w H; [constructor|]. cbn [cstoctal] in H.
  destruct (_ || _) eqn:E in H; [discriminate|].
  destruct (536870911 <? _) in H; [discriminate|]. constructor; [apply digit_of; lia|]. eapply IH; exact H.
Qed.
Lemma binary_digits : forall d v w, cstbinary v d = inl w -> digits 2 d.
Proof.
  induction d as [|c d IH]; intros v w H; [constructor|]. cbn [cstbinary] in H.
  destruct (_ || _) eqn:E in H; cbn [negb] in H; [|discriminate].
  destruct (_ <? _) in H; [discriminate|]. constructor; [apply digit_of; lia|]. eapply IH; exact H.
Qed.
Lemma decimal_digits : forall d v w, cstdecimal v d = inl w -> digits 10 d.
Proof.
  induction d as [|c d IH]; intros v w H; [constructor|]. cbn [cstdecimal] in H. unfold isdigit in H.
  destruct (_ && _) eqn:E in H; cbn [negb] in H; [|discriminate].
  destruct (429496729 <? _) in H; [discriminate|].
  destruct (_ <? _) in H; [discriminate|]. constructor; [apply digit_of; lia|]. eapply IH; exact H.
Qed.

(** The forms found by the search are the written forms. *)
Lemma search_written : forall t conv p w, t <> [] -> forallb plain t = true ->
  (forall c q, t = c :: q -> isalpha c = false) ->
  search t cstlist = Some (conv, p) -> conv 0 p = inl w ->
  exists b, written b p t /\ digits b p /\ p <> [].
Proof.
  intros t conv p w N T A S C. destruct (first_last t N) as (c & q & p0 & h & E1 & E2).
  specialize (A c q E1).
  rewrite (search_spec t c q p0 h E1 E2 T) in S.
  assert (Z : forall f k, charmatch f k = true -> zc f <> 32 -> 65 <= zc f <= 90 -> k = f \/ zc k = zc f + 32).
  { intros f k H1 H2 H3. destruct (alike f k H1 H2) as [H|[H|H]]; [left; apply zc_inj; exact H|right; lia|lia]. }
  assert (O : forall f k, charmatch f k = true -> zc f <> 32 -> zc f < 65 -> k = f).
  { intros f k H1 H2 H3. destruct (alike f k H1 H2) as [H|[H|H]]; [apply zc_inj; exact H|lia|lia]. }
  assert (Z' : forall f g k, charmatch f k = true -> zc f <> 32 -> 65 <= zc f <= 90 -> zc g = zc f + 32 -> k = f \/ k = g).
  { intros f g k H1 H2 H3 H4. destruct (Z f k H1 H2 H3) as [H|H]; [left; exact H|right; apply zc_inj; lia]. }
  assert (NN : forall u : str, filled u = true -> u <> []) by (intros [|? ?] H; discriminate).
  destruct (charmatch "$" c && filled q) eqn:M1.
  { apply andb_true_iff in M1. destruct M1 as [M1 M2]. injection S as <- <-. exists 16.
    apply O in M1; [|discriminate|reflexivity]. subst c. rewrite E1.
    split; [constructor|]. split; [eapply hexa_digits; exact C|auto]. }
  clear M1. destruct (charmatch "H" h && filled p0) eqn:M1.
  { apply andb_true_iff in M1. destruct M1 as [M1 M2]. injection S as <- <-. exists 16.
    pose proof (hexa_digits _ _ _ C) as D.
    split; [|split; [exact D|auto]]. rewrite E2. constructor.
    - destruct p0 as [|x p0]; [discriminate|]. cbn [app] in E2. rewrite E2 in E1. injection E1 as -> _.
      inversion D as [|? ? (v & Hv & Bv) _]; subst. right. exists v. split; [exact Hv|].
      clear - Hv A. unfold digit in Hv. unfold isalpha, isupper, islower, zc in A.
      set (n := Z.of_N (N_of_ascii c)) in *.
      destruct ((48 <=? n) && (n <=? 57)) eqn:E1; [injection Hv as <-; lia|].
      destruct ((65 <=? n) && (n <=? 70)) eqn:E2; [lia|].
      destruct ((97 <=? n) && (n <=? 102)) eqn:E3; [lia|discriminate].
    - apply Z'; [exact M1|discriminate|vm_compute; split; discriminate|reflexivity]. }
  clear M1. match type of S with context [if ?b then _ else _] => destruct b eqn:M1 end.
  { apply andb_true_iff in M1. destruct M1 as [M1 M2]. destruct q as [|d q]; [discriminate|].
    apply andb_true_iff in M1. destruct M1 as [M0 M1]. cbn [tl] in *. injection S as <- <-. exists 16.
    apply O in M0; [|discriminate|reflexivity]. subst c. rewrite E1.
    split; [constructor; apply Z'; [exact M1|discriminate|vm_compute; split; discriminate|reflexivity]|].
    split; [eapply hexa_digits; exact C|auto]. }
  clear M1. destruct (charmatch "%" c && filled q) eqn:M1.
  { apply andb_true_iff in M1. destruct M1 as [M1 M2]. injection S as <- <-. exists 2.
    apply O in M1; [|discriminate|reflexivity]. subst c. rewrite E1.
    split; [constructor|]. split; [eapply binary_digits; exact C|auto]. }
  clear M1. destruct (charmatch "B" h && filled p0) eqn:M1.
  { apply andb_true_iff in M1. destruct M1 as [M1 M2]. injection S as <- <-. exists 2.
    split; [rewrite E2; constructor; apply Z'; [exact M1|discriminate|vm_compute; split; discriminate|reflexivity]|].
    split; [eapply binary_digits; exact C|auto]. }
  clear M1. match type of S with context [if ?b then _ else _] => destruct b eqn:M1 end.
  { apply andb_true_iff in M1. destruct M1 as [M1 M2]. destruct q as [|d q]; [discriminate|].
    apply andb_true_iff in M1. destruct M1 as [M0 M1]. cbn [tl] in *. injection S as <- <-. exists 2.
    apply O in M0; [|discriminate|reflexivity]. subst c. rewrite E1.
    split; [constructor; apply Z'; [exact M1|discriminate|vm_compute; split; discriminate|reflexivity]|].
    split; [eapply binary_digits; exact C|auto]. }
  clear M1. destruct (charmatch "Q" h && filled p0) eqn:M1.
  { apply andb_true_iff in M1. destruct M1 as [M1 M2]. injection S as <- <-. exists 8.
    split; [rewrite E2; constructor; apply Z'; [exact M1|discriminate|vm_compute; split; discriminate|reflexivity]|].
    split; [eapply octal_digits; exact C|auto]. }
  destruct (isdigit c); [|discriminate]. injection S as <- <-. exists 10.
  split; [constructor|]. split; [eapply decimal_digits; exact C|exact N].
Qed.

(** Characters of names and numbers; a text of them that is neither is refused. *)
Theorem number_refused : forall t s, t <> [] ->
  (forall c, In c t -> isalnum c = true \/ c = "$"%char \/ c = "%"%char) ->
  (forall c q, t = c :: q -> isalpha c = false) ->
  (forall b d, written b d t -> digits b d -> d = []) -> roomy 10 s t ->
  exists m bp, parse t s = err m (set_ct (set_bufferpos bp s.(ct)) s).
Proof.
  intros t s N T A W R.
  assert (P : forallb plain t = true).
  { apply forallb_forall. intros c Hc. unfold plain.
    destruct (T c Hc) as [->|[->| ->]]; reflexivity. }
  assert (L : checklabel t = false).
  { unfold checklabel. destruct (_ <? _); [reflexivity|]. destruct t as [|c q]; [reflexivity|].
    rewrite (A c q eq_refl). destruct (T c (or_introl eq_refl)) as [H|[->| ->]]; [|reflexivity|reflexivity].
    specialize (A c q eq_refl). unfold isalnum in H. rewrite A in H. unfold isdigit in H.
    destruct (zc c =? 42) eqn:E1; [lia|]. destruct (zc c =? 95) eqn:E2; [lia|].
    destruct (zc c =? 46) eqn:E3; [lia|]. reflexivity. }
  destruct (parse_search t s P N L R) as [bp E]. rewrite E.
  destruct (search t cstlist) as [[conv p]|] eqn:S; [|eexists _, bp; reflexivity].
  destruct (conv 0 p) as [w|m] eqn:C; [|exists m, bp; reflexivity].
  destruct (search_written t conv p w N P A S C) as (b & W1 & W2 & W3).
  elim W3. eapply W; eassumption.
Qed.

Theorem number_value : forall b d t s, written b d t -> digits b d -> d <> [] -> roomy 10 s t ->
  number b d < 2 ^ 32 ->
  exists r s', parse t s = (Ok r, s') /\ r.(r_type) = TAbs /\ r.(r_flags) = lf0 /\
    r.(r_value) = number b d.
Proof.
  intros b d t s W D N R V. destruct (parse_written b d t s W D N R) as [bp E]. rewrite E.
  assert (C : conv_of b 0 d = inl (number b d) /\ 0 <= number b d).
  { change (number b d) with (more b 0 d) in *. split.
    - change (2 ^ 32) with 4294967296 in V.
      destruct (written_base b d t W) as [->|[->|[->| ->]]]; unfold conv_of; cbn [Z.eqb Pos.eqb].
      + apply binary_loop; [exact D|lia|exact V].
      + rewrite octal_loop by (try exact D; lia). destruct (_ <? _) eqn:E'; [reflexivity|lia].
      + rewrite decimal_loop by (try exact D; lia). destruct (_ <? _) eqn:E'; [reflexivity|lia].
      + rewrite hexa_loop by (try exact D; lia). destruct (_ <? _) eqn:E'; [reflexivity|lia].
    - apply more_ge; [destruct (written_base b d t W) as [->|[->|[->| ->]]]; lia|lia]. }
  destruct C as [C1 C2]. rewrite C1.
  destruct (constant_done (calcresult (ct s)) (number b d) (set_ct (set_bufferpos bp (ct s)) s)) as [s' K]; [lia|].
  eexists _, s'. split; [exact K|]. repeat split.
Qed.

Theorem number_overflow : forall b d t s, written b d t -> digits b d -> d <> [] -> roomy 10 s t ->
  2 ^ 32 <= number b d -> b <> 2 ->
  exists bp, parse t s = err "overflow" (set_ct (set_bufferpos bp s.(ct)) s).
Proof.
  intros b d t s W D N R V B2. destruct (parse_written b d t s W D N R) as [bp E]. rewrite E.
  assert (C : conv_of b 0 d = inr "overflow"%string).
  { change (number b d) with (more b 0 d) in *. change (2 ^ 32) with 4294967296 in V.
    destruct (written_base b d t W) as [->|[->|[->| ->]]]; unfold conv_of; cbn [Z.eqb Pos.eqb].
    - congruence.
    - rewrite octal_loop by (try exact D; lia). destruct (_ <? _) eqn:E'; [lia|reflexivity].
    - rewrite decimal_loop by (try exact D; lia). destruct (_ <? _) eqn:E'; [lia|reflexivity].
    - rewrite hexa_loop by (try exact D; lia). destruct (_ <? _) eqn:E'; [lia|reflexivity]. }
  rewrite C. exists bp. reflexivity.
Qed.
