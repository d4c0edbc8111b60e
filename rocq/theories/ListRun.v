(** The listing of a line that stores bytes.  Nothing here is part of the model. *)
From Coq Require Import String Ascii ZArith List Bool Lia ZifyBool ZifyNat.
From Verif Require Import Base State Tree Filter Output Label Operator Parse Scode Tables.
From Verif Require Import Cpu6800 Cpu6502 CpuZ80 Pseudos Macro Xref Crasm.
From Verif Require Import BaseFacts Walk TreeFacts Frame Run Eval CpuFacts SpecTable TableFacts SpecListing StoreWalk.
From Verif Require SpecPage PageRun StarFacts TermProg.
From Verif Require Import PseudoFacts.
Import ListNotations.
Open Scope Z_scope.

(** ** Rows *)
Lemma hex_len : forall n v, List.length (hex n v) = n.
Proof. induction n; intros v; cbn [hex List.length]; auto. Qed.
Lemma bytes_len : forall bs, List.length (flat_map (hex 2) bs) = (2 * List.length bs)%nat.
Proof. induction bs as [|b bs IH]; [reflexivity|]. cbn [flat_map List.length]. rewrite app_length, hex_len, IH. lia. Qed.
Lemma row_len : forall a bs, List.length (row a bs) = match bs with [] => 0%nat | _ => (5 + 2 * List.length bs)%nat end.
Proof. intros a [|b bs]; [reflexivity|]. unfold row. rewrite !app_length, hex_len, bytes_len. cbn [s2l list_ascii_of_string List.length]. lia. Qed.
Lemma row_snoc : forall a bs x, bs <> [] -> row a (bs ++ [x]) = row a bs ++ hex 2 x.
Proof.
  intros a [|b bs] x N; [elim N; reflexivity|]. unfold row. cbn [app]. change (b :: bs ++ [x]) with ((b :: bs) ++ [x]).
  rewrite flat_map_app. cbn [flat_map]. rewrite app_nil_r, !app_assoc. reflexivity.
Qed.
Lemma row_one : forall a x, row a [x] = hex 4 a ++ s2l " " ++ hex 2 x.
Proof. intros a x. unfold row. cbn [flat_map]. rewrite app_nil_r. reflexivity. Qed.

Definition donecols (a : Z) (bs : list Z) : list str := removelast (columns a bs).
Definition lastcol (a : Z) (bs : list Z) : str := last (columns a bs) [].

(** What the next byte does to the rows. *)
Lemma columns_next : forall a bs x,
  let n := List.length bs in
  ((n = 0 \/ n = 7 \/ n = 14)%nat /\ donecols a (bs ++ [x]) = donecols a bs ++ (if (n =? 0)%nat then [] else [lastcol a bs]) /\
     lastcol a (bs ++ [x]) = row (a + Z.of_nat n) [x] /\ List.length (lastcol a bs) = (if (n =? 0)%nat then 0 else 19)%nat) \/
  ((1 <= n <= 20)%nat /\ donecols a (bs ++ [x]) = donecols a bs /\ lastcol a (bs ++ [x]) = lastcol a bs ++ hex 2 x /\
     (1 <= List.length (lastcol a bs) <= 18)%nat) \/
  ((21 <= n)%nat /\ donecols a (bs ++ [x]) = donecols a bs /\ lastcol a (bs ++ [x]) = lastcol a bs /\ List.length (lastcol a bs) = 19%nat).
Proof.
  intros a bs x n.
  assert (C : (21 <= n)%nat \/ (n < 21)%nat) by lia. destruct C as [C|C].
  - right. right. split; [exact C|]. unfold donecols, lastcol, columns. rewrite app_length. cbn [List.length]. fold n.
    replace (n + 1 <=? 7)%nat with false by lia. replace (n + 1 <=? 14)%nat with false by lia.
    replace (n <=? 7)%nat with false by lia. replace (n <=? 14)%nat with false by lia. cbn [removelast last].
    rewrite !skipn_app, !firstn_app, !skipn_length. fold n. replace (7 - n)%nat with 0%nat by lia. replace (14 - n)%nat with 0%nat by lia.
    replace (7 - (n - 7))%nat with 0%nat by lia. replace (7 - (n - 14))%nat with 0%nat by lia. rewrite ?skipn_O, ?firstn_O, ?app_nil_r.
    split; [reflexivity|]. split; [reflexivity|]. assert (K : List.length (firstn 7 (skipn 14 bs)) = 7%nat) by (rewrite firstn_length, skipn_length; fold n; lia).
    rewrite row_len. destruct (firstn 7 (skipn 14 bs)); [discriminate K|]. cbv iota. rewrite K. reflexivity.
  - unfold n in *. clear n.
    do 21 (destruct bs as [|? bs]; [clear C;
      first [ left; split; [cbn [List.length]; lia|]; split; [reflexivity|]; split; [unfold lastcol, columns; cbn [List.length app Nat.leb firstn skipn last]; apply (f_equal (fun z => row z [x])); lia|]; cbn [List.length Nat.eqb]; try reflexivity; apply row_len
            | right; left; split; [cbn [List.length]; lia|]; split; [reflexivity|]; split;
              [unfold lastcol, columns; cbn [List.length app Nat.leb firstn skipn last];
               match goal with |- row ?a0 ?l1 = row _ ?l2 ++ _ => apply (row_snoc a0 l2 x) end; discriminate
              |unfold lastcol, columns; cbn [List.length Nat.leb firstn skipn last]; rewrite row_len; cbn [List.length]; lia]]|]).
    cbn [List.length] in C. lia.
Qed.

(** ** One byte *)
Lemma wrote_grown : forall t s s', wrote t s s' -> grown [] s s'.
Proof. intros t s s' (A & B & _). apply grown_same; assumption. Qed.
Lemma hex_byte : forall b, [hexa (Z.land (Z.shiftr b 4) 15); hexa (Z.land b 15)] = hex 2 b.
Proof. intros b. exact (addr_hex 2 b). Qed.
Lemma outputaddr_wrote : forall a b s u s', buf b s -> a_addr24 (fl s) = false -> a_addr16 (fl s) = true ->
  lpos (ls s) + 5 <= llen (ls s) -> outputaddr a s = (Ok u, s') -> wrote (hex 4 a ++ s2l " ") s s'.
Proof.
  intros a b s u s' B F4 F6 L E. unfold outputaddr, bind in E. cbn [gets] in E. cbv zeta in E. rewrite F4, F6 in E.
  rewrite (addr_hex 4), hex_u64 in E by lia. apply (output_wrote _ b _ u) in E; [exact E| |exact B|].
  - apply Forall_app. split; [apply hex_visible|]. constructor; [split; discriminate|constructor].
  - rewrite app_length, hex_len. cbn [List.length]. lia.
Qed.

Lemma outputbyte_run : forall c x s u s', buf c s -> a_addr24 (fl s) = false -> a_addr16 (fl s) = true -> 28 < llen (ls s) ->
  (s.(ct).(advance) <= 20 \/ (List.length c <= 16)%nat) -> (c <> [] -> (List.length c <= 18)%nat -> s.(wr).(pc) = mypc (ls s)) ->
  (List.length c <= 19)%nat -> outputbyte x s = (Ok u, s') ->
  let full := (18 <? List.length c)%nat in
  grown (if full then [c] else []) s s' /\
  buf (match c with [] => hex 4 s.(wr).(pc) ++ s2l " " | _ => if full then hex 4 s.(wr).(pc) ++ s2l " " else c end ++ hex 2 x) s' /\
  mypc (ls s') = u64 (s.(wr).(pc) + 1).
Proof.
  intros c x s u s' B F4 F6 L A P N E full. pose proof B as (Bp & _ & _). unfold outputbyte in E. unfold bind at 1 in E. cbn [gets] in E. unfold NMARGIN in E.
  replace ((20 <? advance (ct s)) && (21 - 5 <? lpos (ls s))) with false in E by lia.
  unfold bind at 1 in E. destruct (when (21 - 3 <? lpos (ls s)) outputEOL s) as [[u1|b1] s1] eqn:E1; [|discriminate E].
  set (c1 := if full then [] else c).
  assert (K1 : grown (if full then [c] else []) s s1 /\ buf c1 s1 /\ (full = false -> s1 = s)).
  { unfold c1, full. destruct (18 <? List.length c)%nat eqn:F.
    - replace (21 - 3 <? lpos (ls s)) with true in E1 by lia. cbn [when] in E1. destruct (outputEOL_grown _ _ _ _ B E1) as [G1 G2]. auto. split; [exact G1|]. split; [exact G2|discriminate].
    - replace (21 - 3 <? lpos (ls s)) with false in E1 by lia. cbn [when] in E1. assert (s1 = s) by (unfold ret in E1; congruence). subst s1.
      split; [apply grown_refl|]. auto. }
  destruct K1 as (G1 & B1 & S1). clear E1.
  unfold bind at 1 in E. cbn [gets] in E. unfold bind at 1 in E. pose proof B1 as (Bp1 & _ & _).
  replace (negb (pc (wr s) =? mypc (ls s1)) && negb (lpos (ls s1) =? 0)) with false in E.
  2:{ unfold c1 in Bp1. destruct full eqn:F; [cbn [List.length] in Bp1; lia|]. rewrite (S1 eq_refl). destruct c as [|c0 c]; [cbn [List.length] in Bp1; rewrite (S1 eq_refl) in Bp1; lia|].
      rewrite P by (discriminate || (unfold full in F; lia)). rewrite Z.eqb_refl. reflexivity. }
  cbn [when ret] in E. unfold bind at 1 in E. cbn [gets] in E. unfold bind at 1 in E.
  assert (Fx : fl s1 = fl s /\ llen (ls s1) = llen (ls s)) by (destruct G1 as [(X1 & _ & X2 & _) _]; auto). destruct Fx as [Fx1 Fx2].
  destruct (when (lpos (ls s1) =? 0) (outputaddr (pc (wr s))) s1) as [[u2|b2] s2] eqn:E2; [|discriminate E].
  set (ad := if lpos (ls s1) =? 0 then hex 4 (pc (wr s)) ++ s2l " " else []) in *.
  assert (W2 : wrote ad s1 s2).
  { unfold ad. destruct (lpos (ls s1) =? 0) eqn:Z0; cbn [when] in E2.
    - apply (outputaddr_wrote _ c1 _ u2); auto; [congruence|congruence|lia].
    - assert (s2 = s1) by (unfold ret in E2; congruence). subst s2. apply wrote_nil. }
  destruct (wrote_pos _ _ _ _ B1 W2) as [P2 L2]. pose proof W2 as (_ & _ & W2b). specialize (W2b _ B1).
  unfold bind at 1 in E. rewrite hex_byte in E. destruct (output (hex 2 x) s2) as [[u3|b3] s3] eqn:E3; [|discriminate E].
  assert (Lad : (List.length ad <= 5)%nat) by (unfold ad; destruct (_ =? 0); [rewrite app_length, hex_len; cbn; lia|cbn; lia]).
  assert (Lc1 : (List.length c1 <= 18)%nat) by (unfold c1, full; destruct (18 <? List.length c)%nat eqn:F; cbn [List.length]; lia).
  pose proof (output_wrote _ _ _ _ _ (hex_visible 2 x) W2b ltac:(rewrite hex_len; lia) E3) as W3. pose proof W3 as (_ & _ & W3b). specialize (W3b _ W2b).
  assert (s' = set_ls (set_mypc (u64 (pc (wr s) + 1)) (ls s3)) s3) by (unfold upd_ls, modify in E; apply (f_equal snd) in E; cbn [snd] in E; auto). subst s'. clear E.
  split; [|split; [|reflexivity]].
  - rewrite <- (app_nil_r (if full then _ else _)). apply (grown_app _ _ _ s1); [exact G1|]. apply (grown_app [] [] _ s2); [exact (wrote_grown _ _ _ W2)|].
    apply (grown_app [] [] _ s3); [exact (wrote_grown _ _ _ W3)|]. apply grown_same; [repeat split|reflexivity].
  - assert (Q : (match c with [] => hex 4 (pc (wr s)) ++ s2l " " | _ => if full then hex 4 (pc (wr s)) ++ s2l " " else c end) = c1 ++ ad).
    { unfold c1, ad in *. destruct full eqn:F.
      - cbn [List.length] in Bp1. replace (lpos (ls s1) =? 0) with true by lia. destruct c; reflexivity.
      - destruct c; cbn [List.length] in Bp1.
        + replace (lpos (ls s1) =? 0) with true by lia. reflexivity.
        + replace (lpos (ls s1) =? 0) with false by lia. rewrite app_nil_r. reflexivity. }
    rewrite Q. exact W3b.
Qed.

(** ** Storing a byte *)
Definition aside (s s' : state) : Prop :=
  s'.(ls) = s.(ls) /\ s'.(fl) = s.(fl) /\ s'.(ct) = s.(ct) /\ s'.(inp) = s.(inp) /\ s'.(wr).(pc) = s.(wr).(pc) /\ s'.(emitted) = s.(emitted).
Definition asideR : relation := fun d s s' => match d with Fine => aside s s' | _ => True end.
Lemma asideR_order : order asideR.
Proof.
  constructor; unfold asideR, aside; auto; [repeat split|]. intros d a b c X Y. destruct d; auto. intuition congruence.
Qed.
Lemma aside_flush : pres asideR _ flushscoderaw.
Proof.
  unfold flushscoderaw, scwrite.
  repeat first
    [ match goal with |- pres _ _ (bind _ _) => apply (pres_bind _ asideR_order); [|intros] end
    | apply (pres_gets _ asideR_order) | apply (pres_ret _ asideR_order)
    | match goal with |- pres _ _ (match ?x with _ => _ end) => destruct x end
    | intros ?s; repeat split | intros ?s; exact Logic.I ].
Qed.

Lemma insert8_shape : forall x s u s', a_code_on (fl s) = true -> insert8 x s = (Ok u, s') ->
  exists sa sb v, outputbyte (u8 x) sa = (Ok v, sb) /\
    sa.(ls) = s.(ls) /\ sa.(fl) = s.(fl) /\ sa.(ct) = s.(ct) /\ sa.(inp) = s.(inp) /\ sa.(wr).(pc) = s.(wr).(pc) /\
    sa.(emitted) = mkEm s.(ct).(passnumber) s.(wr).(pc) (u8 x) (a_code_on (fl s)) :: s.(emitted) /\
    s'.(ls) = sb.(ls) /\ s'.(fl) = sb.(fl) /\ s'.(inp) = sb.(inp) /\ s'.(emitted) = sb.(emitted) /\
    s'.(ct).(advance) = sb.(ct).(advance) + 1 /\ s'.(wr).(pc) = u64 (sb.(wr).(pc) + 1).
Proof.
  intros x s u s' C E. unfold insert8 in E. cbv zeta in E. unfold bind at 1 in E. cbn [gets] in E. step E u1 s1 E1.
  apply when_err in E1. destruct E1 as [_ ->]. unfold bind at 1 in E. unfold modify at 1 in E. set (s2 := set_emitted _ s) in E.
  unfold bind at 1 in E. match type of E with (match ?m s2 with _ => _ end) = _ => destruct (m s2) as [[u3|b3] s3] eqn:E3; [|discriminate E]; assert (K3 : pres asideR _ m) end.
  { repeat first
    [ match goal with |- pres _ _ (bind _ _) => apply (pres_bind _ asideR_order); [|intros] end
    | apply (pres_ret _ asideR_order)
    | match goal with |- pres _ _ (match ?x with _ => _ end) => destruct x end
    | intros ?s; repeat split ]. }
  specialize (K3 s2). rewrite E3 in K3. cbn [fst snd how asideR] in K3. clear E3. rewrite C in E.
  unfold bind at 1 in E. match type of E with (match ?m s3 with _ => _ end) = _ => destruct (m s3) as [[u4|b4] s4] eqn:E4; [|discriminate E] end.
  unfold bind at 1 in E4. cbn [gets] in E4. unfold bind at 1 in E4.
  match type of E4 with (match ?m s3 with _ => _ end) = _ => destruct (m s3) as [[u5|b5] s5] eqn:E5; [|discriminate E4]; assert (K5 : pres asideR _ m) end.
  { repeat first
    [ match goal with |- pres _ _ (bind _ _) => apply (pres_bind _ asideR_order); [|intros] end
    | apply (pres_ret _ asideR_order) | match goal with |- pres _ _ (when _ _) => unfold when end | apply aside_flush
    | match goal with |- pres _ _ (match ?x with _ => _ end) => destruct x end
    | intros ?s; repeat split ]. }
  specialize (K5 s3). rewrite E5 in K5. cbn [fst snd how asideR] in K5. clear E5.
  unfold bind at 1 in E4. unfold upd_wr at 1, modify at 1 in E4. set (sa := set_wr _ s5) in E4.
  unfold bind, upd_ct, upd_wr, modify in E. apply (f_equal snd) in E. cbn [snd] in E.
  destruct K3 as (A1 & A2 & A3 & A4 & A5 & A6), K5 as (B1 & B2 & B3 & B4 & B5 & B6).
  exists sa, s4, u4. split; [exact E4|]. unfold sa. cbn [ls fl ct inp wr emitted set_wr pc set_codelen]. subst s'.
  cbn [ls fl ct inp wr emitted set_wr set_ct pc set_pc advance set_advance].
  rewrite B1, B2, B3, B4, B5, B6, A1, A2, A3, A4, A5, A6. repeat split.
Qed.

(** ** The relation *)
Lemma mixed_app : forall A (a b c a' b' c' : list A), mixed a b c -> mixed a' b' c' -> mixed (a ++ a') (b ++ b') (c ++ c').
Proof. intros A a b c a' b' c' H K. induction H; cbn [app]; [exact K|constructor; assumption|constructor; assumption]. Qed.
Lemma mixed_left : forall A (a : list A), mixed a [] a.
Proof. induction a; constructor; assumption. Qed.
Lemma mixed_right : forall A (a : list A), mixed [] a a.
Proof. induction a; constructor; assumption. Qed.

Definition geometry (s s' : state) : Prop := llen (ls s') = llen (ls s) /\ title (ls s') = title (ls s).
Lemma listing_geometry : forall s s' a t, geometry s s' -> listing s' a t -> listing s a t.
Proof.
  intros s s' a t (F & G) H. induction H; constructor; auto. destruct H as [n ->]. exists n. rewrite F, G. reflexivity.
Qed.

(** In the middle of a line that began at address [a] and has stored [bs]. *)
Definition D (a : Z) (bs : list Z) (s : state) : Prop :=
  a_code_on (fl s) = true /\ a_addr16 (fl s) = true /\ a_addr24 (fl s) = false /\ 28 < llen (ls s) /\
  s.(ct).(advance) = Z.of_nat (List.length bs) /\ s.(wr).(pc) = (a + Z.of_nat (List.length bs)) mod 2 ^ 64 /\
  buf (lastcol a bs) s /\ ((1 <= List.length bs <= 20)%nat -> mypc (ls s) = s.(wr).(pc)).

(** The lines [rows], mixed with messages, have been printed. *)
Definition shows (rows : list str) (s s' : state) : Prop :=
  geometry s s' /\ exists msgs lines t, mixed rows msgs lines /\ Forall SpecPage.is_message msgs /\
    pieces (stdout (ls s')) = pieces (stdout (ls s)) ++ t /\ listing s lines t.
Lemma shows_app : forall r1 r2 a b c, shows r1 a b -> shows r2 b c -> shows (r1 ++ r2) a c.
Proof.
  intros r1 r2 a b c [G1 (m1 & l1 & t1 & A1 & A2 & A3 & A4)] [G2 (m2 & l2 & t2 & B1 & B2 & B3 & B4)].
  split; [unfold geometry in *; intuition congruence|]. exists (m1 ++ m2), (l1 ++ l2), (t1 ++ t2). split; [apply mixed_app; assumption|].
  split; [apply Forall_app; auto|]. split; [rewrite B3, A3, app_assoc; reflexivity|]. apply listing_app; [exact A4|].
  exact (listing_geometry _ _ _ _ G1 B4).
Qed.
Lemma shows_same : forall s s', s'.(ls) = s.(ls) -> shows [] s s'.
Proof.
  intros s s' E. unfold shows, geometry. rewrite E. split; [split; reflexivity|]. exists [], [], []. split; [constructor|]. split; [constructor|].
  split; [rewrite app_nil_r; reflexivity|constructor].
Qed.
Lemma shows_grown : forall rows s s', grown rows s s' -> shows rows s s'.
Proof.
  intros rows s s' [(_ & _ & A & B) (t & C & F)]. split; [split; assumption|]. exists [], rows, t. split; [apply mixed_left|]. split; [constructor|]. auto.
Qed.
Lemma shows_ls : forall rows a b a' b', shows rows a b -> a'.(ls) = a.(ls) -> b'.(ls) = b.(ls) -> shows rows a' b'.
Proof.
  intros rows a b a' b' H A B. change rows with ([] ++ rows). apply (shows_app _ _ _ a); [apply shows_same; congruence|].
  rewrite <- (app_nil_r rows). apply (shows_app _ _ _ b); [exact H|]. apply shows_same. exact B.
Qed.

Definition V : relation := fun d s s' =>
  match d with
  | Fine => forall a bs, D a bs s -> s'.(inp) = s.(inp) /\
      exists es rows, s'.(emitted) = rev es ++ s.(emitted) /\ D a (bs ++ map em_byte es) s' /\
        donecols a (bs ++ map em_byte es) = donecols a bs ++ rows /\ shows rows s s'
  | _ => True
  end.
Lemma V_order : order V.
Proof.
  constructor; unfold V; auto.
  - intros s a bs H. split; [reflexivity|]. exists [], []. cbn [rev map]. rewrite !app_nil_r. split; [reflexivity|]. split; [exact H|].
    split; [reflexivity|]. apply shows_same. reflexivity.
  - intros d a b c X Y. destruct d; auto. intros p bs H.
    destruct (X p bs H) as (I1 & e1 & r1 & A1 & A2 & A3 & A4). destruct (Y p _ A2) as (I2 & e2 & r2 & B1 & B2 & B3 & B4).
    split; [congruence|]. exists (e1 ++ e2), (r1 ++ r2). rewrite map_app, app_assoc.
    split; [rewrite rev_app_distr, <- app_assoc, <- A1; exact B1|]. split; [exact B2|]. split; [rewrite B3, A3, app_assoc; reflexivity|]. exact (shows_app _ _ _ _ _ A4 B4).
Qed.
(** Operations that touch none of this. *)
Lemma V_idle : forall s s', s'.(ls) = s.(ls) -> s'.(fl) = s.(fl) -> s'.(ct).(advance) = s.(ct).(advance) -> s'.(inp) = s.(inp) ->
  s'.(wr).(pc) = s.(wr).(pc) -> s'.(emitted) = s.(emitted) -> V Fine s s'.
Proof.
  intros s s' L F A I P M a bs H. split; [exact I|]. exists [], []. cbn [rev map]. rewrite !app_nil_r. split; [exact M|].
  split; [|split; [reflexivity|apply shows_same; exact L]]. unfold D, buf in *. rewrite L, F, A, P. exact H.
Qed.

(** ** The basic operations *)
Definition sameinp : relation := fun d s s' => match d with Fine => s'.(inp) = s.(inp) | _ => True end.
Lemma sameinp_osteps : osteps sameinp.
Proof. constructor; [constructor|..]; unfold sameinp; intros; auto. destruct d; auto; congruence. Qed.

Lemma V_insert8 : forall x, pres V _ (insert8 x).
Proof.
  intros x s. destruct (insert8 x s) as [[u|b] s'] eqn:E; cbn [fst snd how]; [|destruct b; exact Logic.I].
  intros a bs (C & F6 & F4 & L & A & P & B & Y).
  destruct (insert8_shape _ _ _ _ C E) as (sa & sb & v & O & S1 & S2 & S3 & S4 & S5 & S6 & T1 & T2 & T3 & T4 & T5 & T6).
  pose proof (pres_outputbyte _ StarFacts.idling_osteps (u8 x) sa) as Id. rewrite O in Id. cbn [fst snd how StarFacts.idling] in Id.
  destruct Id as (_ & Ip & Ia & Ie & _).
  pose proof (pres_outputbyte _ sameinp_osteps (u8 x) sa) as In. rewrite O in In. cbn [fst snd how sameinp] in In.
  split; [congruence|].
  exists [mkEm s.(ct).(passnumber) s.(wr).(pc) (u8 x) (a_code_on (fl s))]. cbn [rev app map em_byte].
  assert (Ba : buf (lastcol a bs) sa) by (unfold buf in *; rewrite S1, S2; exact B).
  assert (Ep : pc (wr s') = (a + Z.of_nat (List.length (bs ++ [u8 x]))) mod 2 ^ 64).
  { rewrite T6, Ip, S5, P. unfold u64. rewrite app_length. cbn [List.length]. change 18446744073709551616 with (2 ^ 64). rewrite Zplus_mod_idemp_l. f_equal. lia. }
  assert (Ea : advance (ct s') = Z.of_nat (List.length (bs ++ [u8 x]))).
  { rewrite T5, Ia, S3, A, app_length. cbn [List.length]. lia. }
  assert (Hx : forall z, hex 4 (z mod 2 ^ 64) = hex 4 z) by (intros z; apply (hex_u64 4 z); lia).
  destruct (columns_next a bs (u8 x)) as [(N & Q1 & Q2 & Q3)|[(N & Q1 & Q2 & Q3)|(N & Q1 & Q2 & Q3)]].
  - destruct (outputbyte_run (lastcol a bs) (u8 x) sa v sb Ba ltac:(congruence) ltac:(congruence) ltac:(congruence)) as (G & Bb & Yb).
    + left. rewrite S3, A. lia.
    + rewrite S5, S1. intros N0 N1. symmetry. apply Y. destruct (List.length bs =? 0)%nat eqn:Z0; [destruct (lastcol a bs); [elim N0; reflexivity|discriminate Q3]|lia].
    + destruct (List.length bs =? 0)%nat; lia.
    + exact O.
    + rewrite S5 in Bb, Yb. exists (if (List.length bs =? 0)%nat then [] else [lastcol a bs]).
      split; [congruence|]. split; [|split; [exact Q1|]].
      * assert (Bc : buf (lastcol a (bs ++ [u8 x])) sb).
        { rewrite Q2, row_one. destruct (lastcol a bs) as [|c0 c] eqn:Lc.
          - rewrite P, Hx in Bb. rewrite <- app_assoc in Bb. exact Bb.
          - destruct (List.length bs =? 0)%nat; [discriminate Q3|]. rewrite Q3 in Bb. cbn [Nat.ltb Nat.leb] in Bb. rewrite P, Hx in Bb. rewrite <- app_assoc in Bb. exact Bb. }
        destruct G as [(G1 & _ & G2 & _) _]. unfold D. rewrite T2, T1, G1, G2, S2, S1.
        repeat (split; [assumption|]). split; [unfold buf in *; rewrite T1, T2; exact Bc|]. intros _. rewrite Yb, Ep, P. unfold u64. rewrite app_length. cbn [List.length].
        change 18446744073709551616 with (2 ^ 64). rewrite Zplus_mod_idemp_l. f_equal. lia.
      * apply (shows_ls _ sa sb); [|congruence|congruence]. apply shows_grown.
        destruct (List.length bs =? 0)%nat; rewrite Q3 in G; exact G.
  - destruct (outputbyte_run (lastcol a bs) (u8 x) sa v sb Ba ltac:(congruence) ltac:(congruence) ltac:(congruence)) as (G & Bb & Yb).
    + left. rewrite S3, A. lia.
    + rewrite S5, S1. intros N0 N1. symmetry. apply Y. lia.
    + lia.
    + exact O.
    + rewrite S5 in Bb, Yb. exists []. rewrite app_nil_r. replace (18 <? List.length (lastcol a bs))%nat with false in * by lia.
      split; [congruence|]. split; [|split; [exact Q1|]].
      * assert (Bc : buf (lastcol a (bs ++ [u8 x])) sb) by (rewrite Q2; destruct (lastcol a bs); [cbn [List.length] in Q3; lia|exact Bb]).
        destruct G as [(G1 & _ & G2 & _) _]. unfold D. rewrite T2, T1, G1, G2, S2, S1.
        repeat (split; [assumption|]). split; [unfold buf in *; rewrite T1, T2; exact Bc|]. intros _. rewrite Yb, Ep, P. unfold u64. rewrite app_length. cbn [List.length].
        change 18446744073709551616 with (2 ^ 64). rewrite Zplus_mod_idemp_l. f_equal. lia.
      * apply (shows_ls _ sa sb); [|congruence|congruence]. apply shows_grown. exact G.
  - exists []. rewrite app_nil_r. destruct B as (Bp & B2 & B3). assert (Sb : sb = sa).
    { unfold outputbyte, bind in O. cbn [gets] in O. unfold NMARGIN in O. rewrite S3, S1, A, Bp, Q3 in O.
      replace ((20 <? Z.of_nat (List.length bs)) && (21 - 5 <? Z.of_nat 19)) with true in O by lia. change (Z.of_nat 19 <=? 21 - 3) with false in O. cbv iota in O.
      unfold ret in O. congruence. }
    subst sb. split; [congruence|]. split; [|split; [exact Q1|apply shows_same; congruence]].
    unfold D, buf. rewrite T2, T1, S2, S1, Q2. repeat (split; [assumption|]). split; [repeat split; assumption|].
    intros X. rewrite app_length in X. cbn [List.length] in X. lia.
Qed.

(** A message is a line of its own and leaves the line that is being made alone. *)
Definition rawly : relation := fun d s s' => match d with Fine => exists v, s' = set_ls v s /\ mypc v = mypc (ls s) | _ => True end.
Lemma rawly_order : order rawly.
Proof.
  constructor; unfold rawly; auto.
  - intros s. exists (ls s). destruct s. split; reflexivity.
  - intros d a b c (v & -> & E) H. destruct d; auto. destruct H as (w & -> & F). exists w. split; [reflexivity|]. cbn [ls set_ls] in F. congruence.
Qed.
Lemma rawly_raw : forall t, pres rawly _ (outputraw t).
Proof.
  intros t. unfold outputraw, print.
  repeat first
    [ match goal with |- pres _ _ (bind _ _) => apply (pres_bind _ rawly_order); [|intros] end
    | apply (pres_gets _ rawly_order) | apply (pres_ret _ rawly_order)
    | match goal with |- pres _ _ (match ?x with _ => _ end) => destruct x end
    | intros ?s; eexists; split; reflexivity ].
Qed.
Lemma V_warning : forall m, pres V _ (warning m).
Proof.
  intros m s. unfold warning, bind. cbn [gets]. destruct (negb (a_nowarning (fl s))); [|apply (p_refl _ V_order)].
  match goal with |- V _ _ (snd (outputraw ?x s)) => set (t := x); pose proof (rawly_raw t s) as K end.
  destruct (outputraw t s) as [[u|b] s'] eqn:E; cbn [fst snd how] in *; [|destruct b; exact Logic.I].
  destruct K as (v & Es & Em). intros a bs H. pose proof H as (C & F6 & F4 & L & A & P & (B1 & B2 & B3) & Y).
  destruct (outputraw_grown _ _ _ _ B3 E) as (_ & [(G1 & _ & G3 & G4) (t1 & G5 & G6)] & G7 & G8).
  rewrite Es. split; [reflexivity|]. exists [], []. cbn [rev map]. rewrite !app_nil_r. split; [reflexivity|]. rewrite <- Es.
  split; [|split; [reflexivity|]].
  - unfold D, buf. rewrite G7, G8, G1, G3. repeat (split; [first [assumption|rewrite Es; assumption]|]).
    split; [repeat split; assumption|]. intros X. rewrite Es. cbn [ls wr set_ls]. rewrite Em. apply Y. exact X.
  - split; [split; assumption|]. exists [t], [t], t1. split; [apply mixed_right|]. split; [|split; assumption].
    constructor; [|constructor]. apply PageRun.marked. auto.
Qed.
Lemma V_filterc : forall t p, pres V _ (filterc t p).
Proof.
  intros t p. unfold filterc. apply (pres_bind _ V_order); [apply (pres_gets _ V_order)|]. intros bp. cbv zeta.
  destruct (4000 <=? _); [intros s; exact Logic.I|]. destruct (fr_caps _); [|apply (pres_ret _ V_order)].
  apply (pres_bind _ V_order); [|intros; apply (pres_ret _ V_order)]. intros s. apply V_idle; reflexivity.
Qed.
Lemma V_error : forall A m, pres V A (error m).
Proof.
  intros A m s. destruct (error m s) as [[u|b] s'] eqn:E; cbn [fst snd how] in *; [elim (error_never _ _ _ _ _ E)|destruct b; exact Logic.I].
Qed.
Lemma V_set : forall s f, s.(ls) = (f s).(ls) -> s.(fl) = (f s).(fl) -> s.(ct).(advance) = (f s).(ct).(advance) -> s.(inp) = (f s).(inp) ->
  s.(wr).(pc) = (f s).(wr).(pc) -> s.(emitted) = (f s).(emitted) -> V Fine s (f s).
Proof. intros. apply V_idle; congruence. Qed.
Lemma V_psteps : psteps V.
Proof.
  constructor; [exact V_order|exact V_warning|exact V_filterc|..|intros; apply V_error]; intros; apply V_idle; reflexivity.
Qed.

(** ** Instructions that store *)
Lemma V_fl : forall f, (forall x, a_code_on (f x) = a_code_on x /\ a_addr16 (f x) = a_addr16 x /\ a_addr24 (f x) = a_addr24 x /\ a_list_on (f x) = a_list_on x) ->
  pres V _ (upd_fl f).
Proof.
  intros f H s. cbn [fst snd how upd_fl modify]. intros a bs X. split; [reflexivity|]. exists [], []. cbn [rev map]. rewrite !app_nil_r. split; [reflexivity|].
  split; [|split; [reflexivity|apply shows_same; reflexivity]]. destruct (H (fl s)) as (A & B & C & G). unfold D, buf in *. cbn [fl ls ct wr set_fl]. rewrite A, B, C, G. exact X.
Qed.
Ltac v1 :=
  lazymatch goal with
  | |- pres V _ (bind _ _) => apply (pres_bind _ V_order); [|intros]
  | |- pres V _ (ret _) => apply (pres_ret _ V_order)
  | |- pres V _ (gets _) => apply (pres_gets _ V_order)
  | |- pres V _ (when _ _) => unfold when
  | |- pres V _ (stop (UB _)) => intros ?s; exact Logic.I
  | |- pres V _ (stop NoFuel) => intros ?s; exact Logic.I
  | |- pres V _ (parse _) => apply (pe_parse _ V_psteps)
  | |- pres V _ (err _) => apply V_error
  | |- pres V _ (error _) => apply V_error
  | |- pres V _ (warning _) => apply V_warning
  | |- pres V _ (filterc _ _) => apply V_filterc
  | |- pres V _ (filter2 _ _) => apply (pe_filter2 _ V_psteps)
  | |- pres V _ (filter1 _ _) => apply (pe_filter1 _ V_psteps)
  | |- pres V _ (filter0 _ _) => apply (pe_filter0 _ V_psteps)
  | |- pres V _ (checktype _ _) => apply (pe_checktype _ V_psteps)
  | |- pres V _ (findlabel _) => apply (pe_findlabel _ V_psteps)
  | |- pres V _ (insert8 _) => apply V_insert8
  | |- pres V _ (upd_fl _) => apply V_fl; intros; repeat split
  | |- pres V _ (match ?x with _ => _ end) => destruct x
  | |- forall _, _ => intros
  end.
Ltac v := repeat first [v1 | progress (cbv beta zeta)].
Lemma V_insert16 : forall x, pres V _ (insert16 x).
Proof. intros x. unfold insert16. v. Qed.
Lemma V_insert32 : forall x, pres V _ (insert32 x).
Proof. intros x. unfold insert32. v; apply V_insert16. Qed.
Lemma V_stocke : forall t m, pres V _ (stocke t m).
Proof. intros t m. unfold stocke, flip_lohi. v; first [apply V_insert16|apply V_insert32]. Qed.
Lemma V_dcloop : forall n t m, pres V _ (dcloop n t m).
Proof. induction n as [|n IH]; intros t m; cbn [dcloop]; v; first [apply V_stocke|apply IH]. Qed.
Lemma V_store : store (pres V).
Proof.
  constructor; intros; try solve [v]; try (intros ?s; apply V_idle; reflexivity).
  - apply (pres_bind _ V_order); assumption.
  - unfold Xdc. apply V_dcloop.
Qed.

Definition stayR : relation := fun d s s' => match d with Fine => s'.(ct).(advance) = s.(ct).(advance) | _ => True end.
Lemma stayR_osteps : osteps stayR.
Proof. constructor; [constructor|..]; unfold stayR; intros; auto. destruct d; auto; congruence. Qed.
Lemma insert8_counts : forall x s u s', insert8 x s = (Ok u, s') -> s'.(ct).(advance) = s.(ct).(advance) + 1.
Proof.
  pose proof (o_order _ stayR_osteps) as O.
  intros x s u s' E. unfold insert8 in E. cbv zeta in E. unfold bind at 1 in E. cbn [gets] in E. step E u1 s1 E1.
  apply when_err in E1. destruct E1 as [_ ->]. unfold bind at 1 in E. unfold modify at 1 in E. set (s2 := set_emitted _ s) in E.
  change (advance (ct s)) with (advance (ct s2)). clearbody s2.
  assert (K : forall m k, pres stayR unit m -> (m ;;; k) s2 = (Ok u, s') -> exists s3 v, k s3 = (Ok u, s') /\ m s2 = (Ok v, s3) /\ advance (ct s3) = advance (ct s2)).
  { intros m k P X. unfold bind in X. pose proof (P s2) as Y. destruct (m s2) as [[y|y] s3]; [|discriminate X]. exists s3, y. auto. }
  apply K in E.
  2:{ repeat first [ match goal with |- pres _ _ (bind _ _) => apply (pres_bind _ O); [|intros] end | apply (pres_ret _ O)
      | match goal with |- pres _ _ (match ?x with _ => _ end) => destruct x end | intros ?s; reflexivity ]. }
  clear K. destruct E as (s3 & u3 & E & _ & A3). rewrite <- A3. clear A3 s2.
  unfold bind at 1 in E. match type of E with (match ?m s3 with _ => _ end) = _ => assert (P : pres stayR _ m); [|pose proof (P s3) as Y; destruct (m s3) as [[y|y] s4]; [|discriminate E]] end.
  { repeat first [ match goal with |- pres _ _ (bind _ _) => apply (pres_bind _ O); [|intros] end | apply (pres_ret _ O) | apply (pres_gets _ O)
      | apply (pres_outputbyte _ stayR_osteps) | match goal with |- pres _ _ (when _ _) => unfold when end
      | match goal with |- pres _ _ flushscoderaw => let z := fresh in intros z; pose proof (aside_flush z) as AF; destruct (flushscoderaw z) as [[?|bb] ?]; cbn [fst snd how stayR asideR] in *;
          [unfold aside in AF; intuition congruence|destruct bb; exact Logic.I] end
      | match goal with |- pres _ _ (match ?x with _ => _ end) => destruct x end | intros ?s; reflexivity ]. }
  cbn [fst snd how stayR] in Y. unfold bind, upd_ct, upd_wr, modify in E. apply (f_equal snd) in E. cbn [snd] in E. subst s'. cbn [ct set_ct set_wr advance set_advance]. lia.
Qed.
Lemma dsloop_counts : forall n x s u s', dsloop n x s = (Ok u, s') -> s'.(ct).(advance) = s.(ct).(advance) + Z.of_nat n.
Proof.
  induction n as [|n IH]; intros x s u s' E; cbn [dsloop] in E; [unfold ret in E; assert (s' = s) by congruence; subst; lia|].
  step E u1 s1 E1. apply insert8_counts in E1. apply IH in E. lia.
Qed.
(** DS stores its bytes one by one, and then sets the number of bytes stored. *)
Lemma V_Xds : forall o s, s.(ct).(advance) = 0 -> V (how (fst (Xds o s))) s (snd (Xds o s)).
Proof.
  intros o s A.
  assert (Z : forall t s0 u s1, filter2 t "?_,_?" s0 = (Ok u, s1) -> s1.(ct).(advance) = s0.(ct).(advance)).
  { intros t s0 u s1 E. exact (proj1 (proj2 (proj2 (filter2_ok' _ _ _ _ _ E)))). }
  assert (Y : forall t s0 u s1, parse t s0 = (Ok u, s1) -> s1.(ct).(advance) = s0.(ct).(advance)).
  { intros t s0 u s1 E. pose proof (pe_parse _ evaluating_steps t s0) as K. rewrite E in K. exact (proj1 (proj2 (proj2 K))). }
  unfold Xds. match goal with |- V _ _ (snd (?m s)) => change (from V s m s) end.
  assert (Fn : forall s1, V Fine s s1 -> s1.(ct).(advance) = 0 -> forall t init,
     from V s (r <- parse t ;; checktype r TAbs ;;;
       (if s32 (r_value r) <? 0 then stop (UB "DS: negative count") else dsloop (Z.to_nat (s32 (r_value r))) init) ;;;
       upd_ct (set_advance (s32 (r_value r)))) s1).
  { intros s1 R1 A1 t init.
    apply (from_bind V); [apply (from_pres V V_order); [exact R1|v]|]. intros x s2 E2.
    pose proof (pres_ok V V_order _ _ _ _ _ _ R1 (pe_parse V V_psteps t) E2) as R2. apply Y in E2.
    apply (from_bind V); [apply (from_pres V V_order); [exact R2|v]|]. intros y s3 E3.
    pose proof (checktype_ok _ _ _ _ _ E3) as [_ ->]. clear E3 y.
    destruct (s32 (r_value x) <? 0) eqn:N; [exact Logic.I|]. apply Z.ltb_ge in N.
    assert (K : pres V _ (dsloop (Z.to_nat (s32 (r_value x))) init)) by apply (J_dsloop _ V_store).
    apply (from_bind V); [apply (from_pres V V_order); [exact R2|exact K]|]. intros z s4 E4.
    pose proof (pres_ok V V_order _ _ _ _ _ _ R2 K E4) as R4. pose proof (dsloop_counts _ _ _ _ _ E4) as L.
    assert (Q : s32 (r_value x) = s4.(ct).(advance)) by lia. rewrite Q. unfold from. cbn [fst snd how upd_ct modify].
    apply (p_trans V V_order) with s4; [exact R4|]. apply V_idle; reflexivity. }
  apply (from_bind V); [apply (from_pres V V_order); [apply (p_refl V V_order)|v]|]. intros q s1 E1.
  assert (R1 : V Fine s s1) by (apply (pres_ok V V_order _ _ _ _ _ _ (p_refl V V_order s) (pe_filter2 V V_psteps _ _) E1)).
  apply Z in E1.
  destruct q as [[a b]|].
  - assert (K : pres V _ (r0 <- parse b ;; checktype r0 TAbs ;;;
             when (negb (Z.land (s32 (r_value r0)) 4294967040 =? 0)) (warning "multiple byte initialiser") ;;;
             ret (a, s32 (r_value r0)))) by v.
    apply (from_bind V); [apply (from_pres V V_order); [exact R1|exact K]|]. intros [t init] s2 E2.
    apply Fn; [exact (pres_ok V V_order _ _ _ _ _ _ R1 K E2)|].
    unfold bind in E2. destruct (parse b s1) as [[x|x] s3] eqn:E3; [|discriminate E2]. apply Y in E3.
    destruct (checktype x TAbs s3) as [[y|y] s4] eqn:E4; [|discriminate E2]. apply checktype_ok in E4. destruct E4 as [_ ->].
    destruct (when _ _ s3) as [[y'|y'] s5] eqn:E5; [|discriminate E2]. apply when_warning in E5.
    injection E2 as _ _ <-. destruct E5 as [_ (_ & E5 & _)]. congruence.
  - apply (from_bind V); [apply (p_trans V V_order) with s1; [exact R1|apply (p_refl V V_order)]|].
    intros [t init] s2 [= _ _ <-]. apply Fn; [exact R1|congruence].
Qed.
Lemma V_exec : forall h m l o s, stores h = true -> s.(ct).(advance) = 0 -> V (how (fst (exec h m l o s))) s (snd (exec h m l o s)).
Proof.
  intros h m l o s H A. assert (C : h = HDs \/ h <> HDs) by (destruct h; (left; reflexivity) || (right; discriminate)).
  destruct C as [->|C]; [apply V_Xds; exact A|]. apply (J_exec _ V_store); [intros X; elim C; exact X|exact H].
Qed.

(** ** The label and the fields *)
Lemma V_herelabel : forall t, pres V _ (herelabel t).
Proof.
  intros t. unfold herelabel. apply (pres_bind _ V_order); [v|intros _]. apply (pres_bind _ V_order); [v|intros s0]. apply (pres_bind _ V_order).
  { destruct (a_org_gv (fl s0)); [|v]. apply (pres_bind _ V_order); [|intros; v]. intros s. rewrite deflabel_eq. destruct (refused _ _); [apply V_error|]. apply V_idle; reflexivity. }
  intros _ s. unfold bind at 1 3. cbn [gets]. destruct (a_code_on (fl s)) eqn:C; cbn [negb andb when]; [apply (p_refl _ V_order)|].
  match goal with |- V ?d _ _ => destruct d; try exact Logic.I end. intros a bs (X & _). congruence.
Qed.
Lemma V_splitline : forall t, pres V _ (splitline t).
Proof.
  intros t. unfold splitline, splitrest, splitmnemo, findmnemo, searchlabel. v.
Qed.

(** ** The line itself *)
Lemma nat_mod8 : forall p, Z.of_nat (p mod 8) = Z.of_nat p mod 8.
Proof. intros p. apply (Nat2Z.inj_mod p 8). Qed.
Lemma outtab_wrote : forall n p b s u s', buf b s -> lpos (ls s) = 28 + Z.of_nat p -> (8 - p mod 8 <= n)%nat ->
  lpos (ls s) + Z.of_nat (8 - p mod 8) <= llen (ls s) -> outtab n s = (Ok u, s') -> wrote (repeat " "%char (8 - p mod 8)) s s'.
Proof.
  induction n as [|n IH]; intros p b s u s' B P N L E.
  - pose proof (Nat.mod_upper_bound p 8 ltac:(discriminate)). lia.
  - pose proof (Nat.mod_upper_bound p 8 ltac:(discriminate)) as M. cbn [outtab] in E. step E u1 s1 E1. apply outspace_wrote in E1; [|lia].
    destruct (wrote_pos _ _ _ _ B E1) as [P1 L1]. change (Z.of_nat (List.length (s2l " "))) with 1 in P1.
    unfold bind at 1 in E. cbn [gets] in E. unfold LMARGIN in E. replace (lpos (ls s1) - 28) with (Z.of_nat (S p)) in E by lia.
    rewrite Z.rem_mod_nonneg in E by lia. rewrite <- nat_mod8 in E.
    assert (C : (p mod 8 = 7 /\ S p mod 8 = 0 \/ p mod 8 < 7 /\ S p mod 8 = S (p mod 8))%nat).
    { pose proof (nat_mod8 p). pose proof (nat_mod8 (S p)). lia. }
    destruct C as [[C1 C2]|[C1 C2]]; rewrite C2 in E.
    + change (Z.of_nat 0 =? 0) with true in E. cbv iota in E. unfold ret in E. assert (s' = s1) by congruence. subst s'. rewrite C1. exact E1.
    + replace (Z.of_nat (S (p mod 8)) =? 0) with false in E by lia. cbv iota in E.
      assert (W : wrote (repeat " "%char (8 - S p mod 8)) s1 s') by (apply (IH (S p) (b ++ s2l " ") s1 u s'); [apply E1; exact B|lia|lia|lia|exact E]).
      replace (8 - p mod 8)%nat with (S (8 - S p mod 8))%nat by lia. change (repeat " "%char (S ?k)) with (s2l " " ++ repeat " "%char k).
      exact (wrote_app _ _ _ s1 _ E1 W).
Qed.
Lemma output_expanded : forall t p b s u s', Forall listable t -> buf b s -> lpos (ls s) = 28 + Z.of_nat p ->
  lpos (ls s) + Z.of_nat (List.length (expanded p t)) <= llen (ls s) -> output t s = (Ok u, s') -> wrote (expanded p t) s s'.
Proof.
  induction t as [|c t IH]; intros p b s u s' F B P L E; cbn [output] in E; cbn [expanded] in *.
  - unfold ret in E. assert (s' = s) by congruence. subst. apply wrote_nil.
  - inversion F; subst. step E u1 s1 E1. destruct (Ascii.eqb c tab) eqn:T.
    + apply Ascii.eqb_eq in T. subst c. rewrite app_length, repeat_length in L. change (outputcar tab) with (outtab 8) in E1.
      assert (W : wrote (repeat " "%char (8 - p mod 8)) s s1) by (apply (outtab_wrote 8 p b s u1 s1); auto; lia).
      apply (wrote_app _ _ _ s1); [exact W|]. destruct (wrote_pos _ _ _ _ B W) as [P1 L1]. rewrite repeat_length in P1.
      apply (IH _ (b ++ repeat " "%char (8 - p mod 8)) _ u); auto; [apply W; exact B|lia|lia].
    + destruct H1 as [H1|H1]; [|subst c; discriminate T]. cbn [List.length] in L. apply outputcar_wrote in E1; [|exact H1|lia].
      destruct (wrote_pos _ _ _ _ B E1) as [P1 L1]. cbn [List.length] in P1. change (c :: expanded (S p) t) with ([c] ++ expanded (S p) t).
      apply (wrote_app _ _ _ s1); [exact E1|]. apply (IH _ (b ++ [c]) _ u); auto; [apply E1; exact B|lia|lia].
Qed.
Lemma position_filled : forall n b s u s', buf b s -> Z.of_nat (List.length b) <= llen (ls s) -> position (Z.of_nat n) s = (Ok u, s') ->
  grown [] s s' /\ buf (filled n b) s'.
Proof.
  intros n b s u s' B L E. pose proof B as (P & _). destruct (position_wrote _ _ _ _ _ B E) as [W|W]; [|lia].
  split; [exact (wrote_grown _ _ _ W)|]. destruct W as (_ & _ & W). specialize (W _ B). unfold filled.
  replace (n - List.length b)%nat with (Z.to_nat (Z.of_nat n - lpos (ls s))) by lia. exact W.
Qed.
Lemma outputline_run : forall c s u s', buf c s -> (List.length c <= 21)%nat -> 28 < llen (ls s) -> 0 < linenumber (inp s) < 10000000 ->
  zc (lineprefix (inp s)) = 0 -> Forall listable (curline (inp s)) ->
  28 + Z.of_nat (List.length (expanded 0 (curline (inp s)))) <= llen (ls s) -> outputline s = (Ok u, s') ->
  grown [filled 28 (filled 21 c ++ padl 5 (dec (linenumber (inp s)))) ++ expanded 0 (curline (inp s))] s s' /\ buf [] s'.
Proof.
  intros c s u s' B C L N P F T E. unfold outputline in E. unfold bind at 1 in E. unfold upd_ls, modify in E. set (s0 := set_ls _ s) in E.
  unfold bind at 1 in E. cbn [gets] in E. change (inp s0) with (inp s) in E. replace (linenumber (inp s) =? 0) with false in E by lia.
  assert (B0 : buf c s0) by exact B. assert (G0 : grown [] s s0) by (apply grown_same; [repeat split|reflexivity]).
  assert (L0 : llen (ls s0) = llen (ls s)) by reflexivity. clearbody s0.
  step E u1 s1 E1. change NMARGIN with (Z.of_nat 21) in E1. apply (position_filled 21 c) in E1; [|exact B0|lia]. destruct E1 as [G1 B1].
  assert (L1 : llen (ls s1) = llen (ls s)) by (destruct G1 as [(_ & _ & X & _) _]; congruence).
  step E u2 s2 E2. unfold linnum_field in E2. rewrite P in E2. change (0 =? 0) with true in E2. cbv iota in E2.
  set (num := padl 5 (dec (linenumber (inp s)))) in *.
  assert (Ln : (List.length num <= 7)%nat).
  { unfold num, padl. rewrite app_length, repeat_length. pose proof (TermProg.dec_short 7 (linenumber (inp s)) ltac:(cbn; lia) ltac:(lia)) as K. unfold zlen in K. lia. }
  assert (W2 : wrote num s1 s2).
  { apply (output_wrote _ (filled 21 c) _ u2); [|exact B1| |exact E2].
    - unfold num, padl. apply Forall_app. split; [|apply dec_visible]. apply Forall_forall. intros x X. apply repeat_spec in X. subst x. split; discriminate.
    - destruct B1 as (X & _). rewrite filled_len in X. lia. }
  pose proof (proj2 (proj2 W2) _ B1) as B2. destruct (wrote_pos _ _ _ _ B1 W2) as [P2 L2].
  step E u3 s3 E3. change LMARGIN with (Z.of_nat 28) in E3. apply (position_filled 28 (filled 21 c ++ num)) in E3; [|exact B2|rewrite app_length, filled_len; lia].
  destruct E3 as [G3 B3]. assert (L3 : llen (ls s3) = llen (ls s)) by (destruct G3 as [(_ & _ & X & _) _]; congruence).
  step E u4 s4 E4. assert (W4 : wrote (expanded 0 (curline (inp s))) s3 s4).
  { pose proof B3 as (X & _). rewrite filled_len, app_length, filled_len in X.
    apply (output_expanded _ 0 (filled 28 (filled 21 c ++ num)) _ u4); [exact F|exact B3|lia|lia|exact E4]. }
  pose proof (proj2 (proj2 W4) _ B3) as B4. destruct (outputEOL_grown _ _ _ _ B4 E) as [G5 B5]. split; [|exact B5].
  apply (grown_app [] _ _ s0 _ G0). apply (grown_app [] _ _ s1 _ G1). apply (grown_app [] _ _ s2 _ (wrote_grown _ _ _ W2)).
  apply (grown_app [] _ _ s3 _ G3). apply (grown_app [] _ _ s4 _ (wrote_grown _ _ _ W4)). exact G5.
Qed.
