(** The listing of the symbols.  Nothing here is part of the model. *)
From Coq Require Import String Ascii ZArith List Bool Lia ZifyBool Sorting.Sorted.
From Verif Require Import Base State Tree Filter Output Label Scode Xref Crasm.
From Verif Require Import BaseFacts Walk TreeFacts Frame Run CountFacts SpecTable.
Import ListNotations.
Open Scope Z_scope.

(** ** Order *)
Lemma before_lt : forall a b, strcmp a b = Lt -> before a b.
Proof.
  induction a as [|c a IH]; destruct b as [|d b]; cbn [strcmp before]; try discriminate; auto.
  destruct (zc c ?= zc d) eqn:E; [|intros _; left; exact E|discriminate].
  apply Z.compare_eq in E. auto.
Qed.
Lemma sorted_before : forall l, StronglySorted klt l -> StronglySorted before l.
Proof.
  intros l H. induction H; constructor; auto. eapply Forall_impl; [|exact H0]. intros x. apply before_lt.
Qed.
Lemma hidden_listed : forall k l, hidden k l = false <-> listed k l.
Proof.
  intros k l. unfold hidden, listed. rewrite orb_false_iff, !andb_false_iff, !negb_false_iff. split.
  - intros [A B]. split.
    + destruct A as [[A|A]|A]; [| |auto]; destruct (l_type l); try discriminate A; auto.
    + destruct k as [|c t]; [discriminate|]. exists c, t. split; [reflexivity|].
      apply orb_false_iff in B. destruct B as [_ B]. unfold sc in B. pose proof (zc_range c).
      destruct (zc c <? 128) eqn:E; lia.
  - intros [A (c & t & -> & B)]. split.
    + destruct A as [A|[A|A]]; rewrite ?A; auto.
    + unfold sc. replace (zc c <? 128) with true by lia. lia.
Qed.

(** ** Text sent to the listing *)
Lemma listing_app : forall s a ta b tb, listing s a ta -> listing s b tb -> listing s (a ++ b) (ta ++ tb).
Proof.
  intros s a ta b tb A B. induction A; cbn [app]; auto.
  - rewrite <- app_assoc. cbn [app]. constructor. assumption.
  - constructor. assumption.
  - rewrite <- app_assoc. cbn [app]. constructor; assumption.
Qed.
(** What stays: flags, table, page width and title. *)
Definition fixt (s s' : state) : Prop :=
  s'.(fl) = s.(fl) /\ s'.(sy) = s.(sy) /\ s'.(ls).(llen) = s.(ls).(llen) /\ s'.(ls).(title) = s.(ls).(title).
Definition grown (lines : list str) (s s' : state) : Prop :=
  fixt s s' /\ exists t, pieces s'.(ls).(stdout) = pieces s.(ls).(stdout) ++ t /\ listing s lines t.
Lemma listing_fixt : forall s s' a t, fixt s s' -> listing s' a t -> listing s a t.
Proof.
  intros s s' a t (_ & _ & F & G) H. induction H; constructor; auto.
  destruct H as [n ->]. exists n. rewrite F, G. reflexivity.
Qed.
Lemma fixt_trans : forall a b c, fixt a b -> fixt b c -> fixt a c.
Proof. unfold fixt. intros a b c (A & B & C & D) (E & F & G & H). repeat split; congruence. Qed.
Lemma fixt_refl : forall a, fixt a a.
Proof. repeat split. Qed.
Lemma grown_refl : forall s, grown [] s s.
Proof. intros s. split; [repeat split|]. exists []. split; [rewrite app_nil_r; reflexivity|constructor]. Qed.
Lemma grown_app : forall l1 l2 s s1 s2, grown l1 s s1 -> grown l2 s1 s2 -> grown (l1 ++ l2) s s2.
Proof.
  intros l1 l2 s s1 s2 [F (t1 & A & B)] [G (t2 & C & D)]. split; [exact (fixt_trans _ _ _ F G)|].
  exists (t1 ++ t2). rewrite C, A, app_assoc. split; [reflexivity|]. apply listing_app; [exact B|].
  exact (listing_fixt _ _ _ _ F D).
Qed.
Lemma grown_same : forall s s', fixt s s' -> s'.(ls).(stdout) = s.(ls).(stdout) -> grown [] s s'.
Proof. intros s s' F E. split; [exact F|]. exists []. rewrite E, app_nil_r. split; [reflexivity|constructor]. Qed.
Lemma pieces_cons : forall t l, pieces (t :: l) = pieces l ++ t.
Proof. intros t l. unfold pieces. cbn [rev]. rewrite concat_app. cbn [List.concat]. rewrite app_nil_r. reflexivity. Qed.
Lemma nl_newline : nl = newline.
Proof. reflexivity. Qed.
Lemma grown_print : forall t lines s, listing s lines t -> grown lines s (snd (print t s)).
Proof. intros t lines s L. split; [repeat split|]. exists t. split; [apply pieces_cons|exact L]. Qed.

Lemma outputraw_grown : forall t s r s', s.(fl).(a_list_on) = true -> outputraw t s = (r, s') ->
  r = Ok tt /\ grown [t] s s' /\ s'.(ls).(linebuffer) = s.(ls).(linebuffer) /\ s'.(ls).(lpos) = s.(ls).(lpos).
Proof.
  intros t s r s' F E. unfold outputraw in E. unfold bind at 1 in E. cbn [gets] in E. rewrite F in E.
  match type of E with (?m ;;; _) s = _ => set (hd := m) in E end.
  assert (H : exists s1, grown [] s s1 /\ s1.(ls).(linebuffer) = s.(ls).(linebuffer) /\ s1.(ls).(lpos) = s.(ls).(lpos) /\
    hd s = (Ok tt, s1)).
  { unfold hd. clear. destruct (ppos (ls s) =? 0).
    - unfold bind, print, upd_ls, modify. eexists. split; [|split; [|split; [|reflexivity]]]; [|reflexivity|reflexivity].
      split; [repeat split|]. eexists. split; [cbn [ls set_ls stdout set_stdout set_pagenumber set_ppos set_sheets]; apply pieces_cons|].
      replace (s2l "Crasm 1.11:   " ++ padl 30 (title (ls s)) ++ repeat (cz 32) (Z.to_nat (llen (ls s) - 58)) ++ s2l "page" ++
                padl 3 (dec (pagenumber (ls s) + 1)) ++ [nl; nl])
        with ((s2l "Crasm 1.11:   " ++ padl 30 (title (ls s)) ++ repeat " "%char (Z.to_nat (llen (ls s) - 58)) ++ s2l "page" ++
                padl 3 (dec (pagenumber (ls s) + 1))) ++ newline :: [newline]).
      + apply l_head; [eexists; reflexivity|]. apply l_empty. constructor.
      + rewrite <- !app_assoc. reflexivity.
    - exists s. split; [apply grown_refl|]. split; [reflexivity|]. split; reflexivity. }
  destruct H as (s1 & G & B & P & Eh). unfold bind at 1 in E. rewrite Eh in E. clear Eh hd. rename E into E1.
  unfold bind at 1 in E1. unfold print at 1, upd_ls at 1, modify at 1 in E1.
  set (s2 := set_ls _ s1) in E1. assert (G2 : grown [t] s s2).
  { change [t] with ([] ++ [t]). apply (grown_app _ _ _ s1); [exact G|]. exact (grown_print (t ++ [nl]) [t] s1 (l_line s1 t [] [] (l_end s1))). }
  unfold bind at 1 in E1. unfold upd_ls at 1, modify at 1 in E1. set (s3 := set_ls _ s2) in E1.
  assert (G3 : grown [t] s s3).
  { change [t] with ([t] ++ []). apply (grown_app _ _ _ s2); [exact G2|]. apply grown_same; [repeat split|reflexivity]. }
  assert (Q : linebuffer (ls s3) = linebuffer (ls s) /\ lpos (ls s3) = lpos (ls s)) by (cbn; auto).
  clearbody s3. clear G2 s2. unfold bind at 1 in E1. cbn [gets] in E1.
  destruct (_ && _).
  - unfold bind, print, upd_ls, modify in E1. injection E1 as <- <-. split; [reflexivity|]. split; [|exact Q].
    change [t] with ([t] ++ []). apply (grown_app _ _ _ s3); [exact G3|].
    apply (grown_app [] [] _ (snd (print [nl; nl] s3))).
    + apply grown_print. do 2 apply l_empty. constructor.
    + apply grown_same; [repeat split|reflexivity].
  - injection E1 as <- <-. split; [reflexivity|]. split; [exact G3|exact Q].
Qed.

(** ** The line buffer *)
Definition visible (c : ascii) : Prop := 32 <= zc c /\ zc c <> 127.
(** The line under construction is [b]. *)
Definition buf (b : str) (s : state) : Prop :=
  s.(ls).(lpos) = Z.of_nat (List.length b) /\ cstr s.(ls).(linebuffer) = b /\ s.(fl).(a_list_on) = true.
Lemma cstr_split : forall l, l = cstr l \/ exists z, l = cstr l ++ cz 0 :: z.
Proof.
  induction l as [|c l IH]; [left; reflexivity|]. cbn [cstr]. destruct (zc c =? 0) eqn:E.
  - right. exists l. cbn [app]. f_equal. apply zc_inj. rewrite zc_cz. apply Z.eqb_eq in E. rewrite E. reflexivity.
  - destruct IH as [IH|[z IH]]; [left; congruence|right]. exists z. cbn [app]. congruence.
Qed.
Lemma lput_end : forall b c z, exists y, lput (List.length b) c (b ++ z) = b ++ c :: y.
Proof.
  induction b as [|d b IH]; intros c z; cbn [List.length app lput].
  - destruct z; eexists; reflexivity.
  - destruct (IH c z) as [y E]. exists y. rewrite E. reflexivity.
Qed.
Lemma cstr_app : forall b y, Forall (fun c => zc c <> 0) b -> cstr (b ++ cz 0 :: y) = b.
Proof.
  induction b as [|c b IH]; intros y H; [reflexivity|]. inversion H; subst. cbn [app cstr].
  destruct (zc c =? 0) eqn:E; [lia|]. rewrite IH by assumption. reflexivity.
Qed.
Lemma cstr_nonzero : forall l, Forall (fun c => zc c <> 0) (cstr l).
Proof. induction l as [|c l IH]; cbn [cstr]; [constructor|]. destruct (zc c =? 0) eqn:E; constructor; auto. lia. Qed.
Lemma put_char : forall l c, zc c <> 0 ->
  cstr (lput (S (List.length (cstr l))) (cz 0) (lput (List.length (cstr l)) c l)) = cstr l ++ [c].
Proof.
  intros l c N. pose proof (cstr_nonzero l) as Z. set (b := cstr l) in *.
  assert (H : exists z, l = b ++ z).
  { destruct (cstr_split l) as [E|[z E]]; [exists []; rewrite app_nil_r; exact E|exists (cz 0 :: z); exact E]. }
  destruct H as [z E]. rewrite E. destruct (lput_end b c z) as [y ->].
  replace (b ++ c :: y) with ((b ++ [c]) ++ y) by (rewrite <- app_assoc; reflexivity).
  replace (S (List.length b)) with (List.length (b ++ [c])) by (rewrite app_length; cbn; lia).
  destruct (lput_end (b ++ [c]) (cz 0) y) as [x ->]. apply cstr_app. apply Forall_app. split; [exact Z|]. constructor; auto.
Qed.

(** Writing [t] to the line. *)
Definition wrote (t : str) (s s' : state) : Prop :=
  fixt s s' /\ s'.(ls).(stdout) = s.(ls).(stdout) /\ forall b, buf b s -> buf (b ++ t) s'.
Lemma wrote_nil : forall s, wrote [] s s.
Proof. intros s. split; [apply fixt_refl|]. split; [reflexivity|]. intros b B. rewrite app_nil_r. exact B. Qed.
Lemma wrote_app : forall t u s s1 s2, wrote t s s1 -> wrote u s1 s2 -> wrote (t ++ u) s s2.
Proof.
  intros t u s s1 s2 (A & B & C) (D & E & F). split; [exact (fixt_trans _ _ _ A D)|]. split; [congruence|].
  intros b H. rewrite app_assoc. auto.
Qed.
Lemma stored : forall b c s s', buf b s -> zc c <> 0 -> s'.(fl) = s.(fl) -> s'.(ls).(lpos) = s.(ls).(lpos) + 1 ->
  s'.(ls).(linebuffer) = lput (Z.to_nat (lpos (ls s) + 1)) (cz 0) (lput (Z.to_nat (lpos (ls s))) c (linebuffer (ls s))) ->
  buf (b ++ [c]) s'.
Proof.
  intros b c s s' (A & B & F) N G P L. unfold buf. rewrite app_length. cbn [List.length].
  split; [lia|]. rewrite G, L. split; [|exact F].
  rewrite A. replace (Z.to_nat (Z.of_nat (List.length b) + 1)) with (S (List.length b)) by lia. rewrite Nat2Z.id, <- B. apply put_char. exact N.
Qed.
Lemma lbwrite_ok : forall i c s u s', lbwrite i c s = (Ok u, s') ->
  s' = set_ls (set_linebuffer (lput (Z.to_nat i) c (linebuffer (ls s))) (ls s)) s.
Proof. intros i c s u s'. unfold lbwrite. destruct (1000 <=? i); [discriminate|]. unfold upd_ls, modify. intros [= _ <-]. reflexivity. Qed.

Lemma outspace_wrote : forall s u s', lpos (ls s) < llen (ls s) -> outspace s = (Ok u, s') -> wrote (s2l " ") s s'.
Proof.
  intros s u s' P E. unfold outspace, bind in E. cbn [gets] in E. replace (lpos (ls s) <? llen (ls s)) with true in E by lia.
  destruct (lbwrite (lpos (ls s)) (cz 32) s) as [[x|x] s1] eqn:E1; [|discriminate E]. apply lbwrite_ok in E1. subst s1.
  unfold upd_ls, modify in E. apply lbwrite_ok in E. subst s'. split; [repeat split|]. split; [reflexivity|].
  intros b B. change (s2l " ") with [cz 32]. eapply stored; [exact B|discriminate|reflexivity|reflexivity|reflexivity].
Qed.
Lemma outputcar_wrote : forall c s u s', visible c -> lpos (ls s) < llen (ls s) -> outputcar c s = (Ok u, s') -> wrote [c] s s'.
Proof.
  intros c s u s' [V V'] P E. unfold outputcar in E. destruct (isspace c) eqn:S; cbn [negb] in E.
  - destruct (zc c =? 32) eqn:C; [|unfold isspace in S; lia]. apply outspace_wrote in E; [|exact P].
    replace [c] with (s2l " "); [exact E|]. change (s2l " ") with [cz 32]. f_equal. apply zc_inj. rewrite zc_cz. lia.
  - unfold bind at 1 in E. cbn [gets] in E. replace (llen (ls s) <=? lpos (ls s)) with false in E by lia. cbn [when] in E.
    unfold bind at 1 in E. cbn [ret] in E. unfold bind at 1 in E. cbn [gets] in E.
    replace (isprint c || negb (isascii c)) with true in E by (unfold isprint, isascii; lia).
    unfold bind at 1 in E. unfold bind at 1 in E.
    destruct (lbwrite (lpos (ls s)) c s) as [[x|x] s1] eqn:E1; [|discriminate E]. apply lbwrite_ok in E1. subst s1.
    unfold upd_ls, modify in E. unfold bind in E. cbn [gets] in E. apply lbwrite_ok in E. subst s'. split; [repeat split|].
    split; [reflexivity|]. intros b B. eapply stored; [exact B|lia|reflexivity|reflexivity|reflexivity].
Qed.
Lemma wrote_pos : forall t s s' b, buf b s -> wrote t s s' -> lpos (ls s') = lpos (ls s) + Z.of_nat (List.length t) /\ llen (ls s') = llen (ls s).
Proof.
  intros t s s' b B (F & _ & W). specialize (W b B). destruct B as [B _], W as [W _]. rewrite app_length in W.
  split; [lia|]. apply F.
Qed.
Lemma output_wrote : forall t b s u s', Forall visible t -> buf b s -> lpos (ls s) + Z.of_nat (List.length t) <= llen (ls s) ->
  output t s = (Ok u, s') -> wrote t s s'.
Proof.
  induction t as [|c t IH]; intros b s u s' V B P E; cbn [output] in E.
  - injection E as _ <-. apply wrote_nil.
  - inversion V; subst. unfold bind in E. destruct (outputcar c s) as [[x|x] s1] eqn:E1; [|discriminate E].
    cbn [List.length] in P. apply outputcar_wrote in E1; [|assumption|lia]. destruct (wrote_pos _ _ _ _ B E1) as [P1 L1]. cbn [List.length] in P1.
    change (c :: t) with ([c] ++ t). apply (wrote_app _ _ _ s1); [exact E1|]. apply (IH (b ++ [c]) _ u); auto.
    + apply E1. exact B.
    + lia.
Qed.
Lemma outspaces_wrote : forall n b s u s', buf b s -> lpos (ls s) + Z.of_nat n <= llen (ls s) ->
  outspaces n s = (Ok u, s') -> wrote (repeat " "%char n) s s'.
Proof.
  induction n as [|n IH]; intros b s u s' B P E; cbn [outspaces] in E.
  - injection E as _ <-. apply wrote_nil.
  - unfold bind in E. destruct (outspace s) as [[x|x] s1] eqn:E1; [|discriminate E]. apply outspace_wrote in E1; [|lia].
    destruct (wrote_pos _ _ _ _ B E1) as [P1 L1]. cbn [s2l list_ascii_of_string List.length] in P1.
    change (repeat " "%char (S n)) with (s2l " " ++ repeat " "%char n). apply (wrote_app _ _ _ s1); [exact E1|].
    apply (IH (b ++ s2l " ") _ u); auto; [apply E1; exact B|lia].
Qed.
Lemma position_wrote : forall n b s u s', buf b s -> position n s = (Ok u, s') ->
  wrote (repeat " "%char (Z.to_nat (n - lpos (ls s)))) s s' \/ lpos (ls s) > llen (ls s).
Proof.
  intros n b s u s' B E. unfold position, bind in E. cbn [gets] in E. destruct (llen (ls s) <=? n) eqn:N.
  - unfold fatal, bind, print, upd_ls, modify, stop in E. discriminate E.
  - assert (D : lpos (ls s) > llen (ls s) \/ lpos (ls s) <= llen (ls s)) by lia. destruct D as [D|D]; [right; exact D|left].
    apply (outspaces_wrote _ b _ u); [exact B|lia|exact E].
Qed.

(** ** An entry *)
Lemma Forall_repeat_sp : forall n, Forall visible (repeat " "%char n).
Proof. induction n; cbn; constructor; auto. split; [discriminate|discriminate]. Qed.
Lemma hex_char_hexa : forall d, 0 <= d < 16 -> hex_char d = hexa d /\ visible (hex_char d).
Proof.
  intros d H. assert (K : d = 0 \/ d = 1 \/ d = 2 \/ d = 3 \/ d = 4 \/ d = 5 \/ d = 6 \/ d = 7 \/ d = 8 \/ d = 9 \/ d = 10 \/ d = 11 \/
    d = 12 \/ d = 13 \/ d = 14 \/ d = 15) by lia.
  repeat destruct K as [K|K]; subst d; (split; [reflexivity|split; vm_compute; discriminate]).
Qed.
Lemma nibble : forall v i, 0 <= i -> Z.land (Z.shiftr v i) 15 = (v / 2 ^ i) mod 16.
Proof. intros v i I. change 15 with (Z.ones 4). rewrite Z.land_ones, Z.shiftr_div_pow2 by lia. reflexivity. Qed.
Lemma addr_hex : forall n a, addr_digits n (4 * Z.of_nat n - 4) a = hex n a.
Proof.
  induction n as [|n IH]; intros a; cbn [addr_digits hex]; [reflexivity|].
  rewrite nibble by lia. replace (2 ^ (4 * Z.of_nat (S n) - 4)) with (16 ^ Z.of_nat n).
  2:{ change 16 with (2 ^ 4). rewrite <- Z.pow_mul_r by lia. f_equal. lia. }
  rewrite (proj1 (hex_char_hexa _ (Z.mod_pos_bound _ 16 ltac:(lia)))). f_equal.
  replace (4 * Z.of_nat (S n) - 4 - 4) with (4 * Z.of_nat n - 4) by lia. apply IH.
Qed.
Lemma hex_u64 : forall n v, (n <= 16)%nat -> hex n (u64 v) = hex n v.
Proof.
  induction n as [|n IH]; intros v L; cbn [hex]; [reflexivity|]. rewrite IH by lia. do 2 f_equal.
  change (u64 v) with (v mod (2 ^ 64)). assert (K : 2 ^ 64 = 16 ^ Z.of_nat n * (16 * 16 ^ (15 - Z.of_nat n))).
  { change 16 with (2 ^ 4) at 1 2. rewrite <- !Z.pow_mul_r by lia. change (2 ^ 64) with (2 ^ 64).
    change (16 ^ (15 - Z.of_nat n)) with ((2 ^ 4) ^ (15 - Z.of_nat n)). rewrite <- Z.pow_mul_r by lia.
    rewrite <- !Z.pow_add_r by lia. f_equal. lia. }
  set (A := 16 ^ Z.of_nat n) in *. set (B := 16 ^ (15 - Z.of_nat n)) in *.
  assert (PA : 0 < A) by (apply Z.pow_pos_nonneg; lia). assert (PB : 0 < B) by (apply Z.pow_pos_nonneg; lia).
  rewrite K. rewrite (Z.rem_mul_r v A (16 * B)) by lia.
  rewrite (Z.mul_comm A ((v / A) mod (16 * B))), Z.div_add by lia.
  rewrite (Z.div_small (v mod A) A) by (apply Z.mod_pos_bound; lia).
  rewrite Z.add_0_l. rewrite (Z.rem_mul_r (v / A) 16 B) by lia.
  rewrite (Z.mul_comm 16), Z.mod_add by lia. apply Z.mod_mod. lia.
Qed.
Lemma hex_visible : forall n v, Forall visible (hex n v).
Proof. induction n; intros v; cbn [hex]; constructor; auto. apply hex_char_hexa. apply Z.mod_pos_bound. lia. Qed.

Lemma dec_digits_visible : forall n z acc, Forall visible acc -> Forall visible (dec_digits n z acc).
Proof.
  induction n as [|n IH]; intros z acc H; [exact H|]. cbn [dec_digits]. cbv zeta.
  assert (K : Forall visible (cz (48 + z mod 10) :: acc)).
  { constructor; [|exact H]. unfold visible. pose proof (Z.mod_pos_bound z 10 ltac:(lia)). rewrite zc_cz_small; lia. }
  destruct (z <? 10); auto.
Qed.
Lemma dec_visible : forall z, Forall visible (dec z).
Proof.
  intros z. unfold dec. destruct (z <? 0); [constructor; [split; discriminate|]|]; apply dec_digits_visible; constructor.
Qed.
Ltac literal := apply Forall_forall; let c := fresh in let H := fresh in intros c H;
  repeat (destruct H as [H|H]; [subst c; split; vm_compute; discriminate|]); destruct H.
Lemma kind_visible : forall l, Forall visible (kind_text l).
Proof.
  intros l. unfold kind_text. destruct (never_defined l); [literal|]. destruct (l_type l); try literal.
  apply Forall_app. split; [literal|apply dec_visible].
Qed.
Lemma address_eq : forall f a, (if a_addr24 f then addr_digits 6 20 (u64 a) else if a_addr16 f then addr_digits 4 12 (u64 a)
    else addr_digits 8 28 (u64 a)) = hex (address_digits f) a.
Proof.
  intros f a. unfold address_digits. destruct (a_addr24 f); [|destruct (a_addr16 f)].
  - rewrite <- (hex_u64 6) by lia. apply (addr_hex 6).
  - rewrite <- (hex_u64 4) by lia. apply (addr_hex 4).
  - rewrite <- (hex_u64 8) by lia. apply (addr_hex 8).
Qed.
Lemma filled_len : forall n t, (List.length (filled n t) = Nat.max n (List.length t))%nat.
Proof. intros n t. unfold filled. rewrite app_length, repeat_length. lia. Qed.

(** A step that writes, then the rest. *)
Definition at_base (p : Z) (t : str) (b : str) (s s' : state) : Prop :=
  wrote t s s' /\ lpos (ls s') = p + Z.of_nat (List.length t) /\ llen (ls s') = llen (ls s) /\ fl s' = fl s /\ buf (b ++ t) s'.
Lemma at_start : forall b s, buf b s -> at_base (lpos (ls s)) [] b s s.
Proof. intros b s B. split; [apply wrote_nil|]. cbn. rewrite app_nil_r. repeat split; try apply B. lia. Qed.
Lemma at_more : forall p t u b s s1 s2, at_base p t b s s1 -> wrote u s1 s2 -> at_base p (t ++ u) b s s2.
Proof.
  intros p t u b s s1 s2 (W & P & L & F & B) W1. destruct (wrote_pos _ _ _ _ B W1) as [P1 L1].
  split; [exact (wrote_app _ _ _ _ _ W W1)|]. rewrite app_length. split; [lia|]. split; [congruence|].
  destruct W1 as ((F1 & _) & _ & W1). split; [congruence|]. rewrite app_assoc. apply W1. exact B.
Qed.
Lemma at_output : forall p t u b s s1 x s2, at_base p t b s s1 -> Forall visible u ->
  p + Z.of_nat (List.length (t ++ u)) <= llen (ls s) -> output u s1 = (Ok x, s2) -> at_base p (t ++ u) b s s2.
Proof.
  intros p t u b s s1 x s2 A V R E. apply (at_more _ _ _ _ _ s1); [exact A|]. destruct A as (W & P & L & F & B).
  apply (output_wrote u (b ++ t) s1 x s2 V B); [|exact E]. rewrite app_length in R. lia.
Qed.
Lemma at_position : forall p n t b s s1 x s2, at_base p t b s s1 ->
  p + Z.of_nat (List.length t) <= llen (ls s) -> position (p + n) s1 = (Ok x, s2) -> at_base p (filled (Z.to_nat n) t) b s s2.
Proof.
  intros p n t b s s1 x s2 A R E. unfold filled. apply (at_more _ _ _ _ _ s1); [exact A|]. destruct A as (W & P & L & F & B).
  destruct (position_wrote _ _ _ _ _ B E) as [K|K]; [|lia]. replace (Z.to_nat n - List.length t)%nat with (Z.to_nat (p + n - lpos (ls s1))) by lia.
  exact K.
Qed.

Lemma printlabel_shown : forall k l b s u s', buf b s -> lpos (ls s) + 61 < llen (ls s) -> tame (fl s) (k, l) -> hidden k l = false ->
  printlabel k l s = (Ok u, s') -> wrote (entry_text (fl s) (k, l)) s s'.
Proof.
  intros k l b s u s' B R [V T] H E. cbn [fst snd] in V, T. unfold printlabel in E. unfold bind at 1 in E. cbn [gets] in E.
  replace (llen (ls s) <=? lpos (ls s) + RECLEN) with false in E by (unfold RECLEN; lia). cbn [when] in E.
  unfold bind at 1 in E. cbn [ret] in E. unfold bind at 1 in E. cbn [gets] in E. rewrite H in E. cbv zeta in E.
  set (p := lpos (ls s)) in *.
  change (f_undef (l_flags l) && negb (f_forward (l_flags l))) with (never_defined l) in E.
  assert (Kt : typename (if never_defined l then None else Some (l_type l)) (l_modifier l) = kind_text l).
  { unfold typename, kind_text. destruct (never_defined l); reflexivity. }
  rewrite Kt in E. clear Kt.
  assert (Kv : match (if never_defined l then None else Some (l_type l)) with Some TAbs | Some TRel | Some TBit => true | _ => false end = has_value l).
  { unfold has_value. destruct (never_defined l); [reflexivity|]. destruct (l_type l); reflexivity. }
  rewrite Kv in E. clear Kv.
  change (if negb (f_used (l_flags l)) then cz 63 else if f_forward (l_flags l) then cz 94 else cz 32) with (mark l) in E.
  unfold entry_text. cbn [fst snd]. unfold head_part in *.
  set (kt := kind_text l) in *. set (val := if has_value l then _ else _) in *.
  set (t1 := mark l :: val) in *. set (t2 := filled (11 - List.length kt) t1) in *. set (t3 := filled 12 (t2 ++ kt)) in *.
  assert (L1 : (List.length t1 <= List.length t2)%nat) by (unfold t2; rewrite filled_len; lia).
  assert (L2 : (List.length t2 + List.length kt <= List.length t3)%nat) by (unfold t3; rewrite filled_len, app_length; lia).
  rewrite app_length in T. set (name := firstn 48 k) in *.
  unfold bind at 1 in E. destruct (outputcar (mark l) s) as [[x|x] s1] eqn:E1; [|discriminate E].
  assert (Vm : visible (mark l)).
  { unfold mark. destruct (negb (f_used (l_flags l))); [|destruct (f_forward (l_flags l))]; split; discriminate. }
  apply outputcar_wrote in E1; [|exact Vm|lia]. pose proof (at_more _ _ _ _ _ _ _ (at_start _ _ B) E1) as A1. cbn [app] in A1. fold p in A1.
  clear E1. unfold bind at 1 in E. destruct (when (has_value l) (outputaddr (l_value l)) s1) as [[y|y] s2] eqn:E2; [|discriminate E].
  assert (A2 : at_base p t1 b s s2).
  { unfold t1, val. unfold t1, val in L1. destruct (has_value l); cbn [when] in E2.
    - unfold outputaddr, bind in E2. cbn [gets] in E2. cbv zeta in E2. rewrite address_eq in E2.
      change (mark l :: hex (address_digits (fl s)) (l_value l) ++ s2l " ") with ([mark l] ++ (hex (address_digits (fl s)) (l_value l) ++ s2l " ")).
      apply (at_output _ _ _ _ _ s1 y).
      + exact A1.
      + apply Forall_app. split; [apply hex_visible|literal].
      + cbn [app List.length] in *. lia.
      + destruct A1 as (_ & _ & _ & F & _). rewrite <- F. exact E2.
    - injection E2 as _ <-. exact A1. }
  clear A1 E2. unfold bind at 1 in E. destruct (position _ s2) as [[z|z] s3] eqn:E3; [|discriminate E].
  assert (A3 : at_base p t2 b s s3).
  { unfold t2. replace (11 - List.length kt)%nat with (Z.to_nat (11 - zlen kt)) by (unfold zlen; lia). eapply at_position; [exact A2|lia|].
    replace (p + (11 - zlen kt)) with (p + RECLEN - Z.of_nat LABLEN - 2 - zlen kt) by (unfold RECLEN, LABLEN; lia). exact E3. }
  clear A2 E3. unfold bind at 1 in E. destruct (output kt s3) as [[w|w] s4] eqn:E4; [|discriminate E].
  eapply at_output in E4; [|exact A3|apply kind_visible|rewrite app_length; lia]. clear A3.
  unfold bind at 1 in E. destruct (position _ s4) as [[w'|w'] s5] eqn:E5; [|discriminate E].
  assert (A5 : at_base p t3 b s s5).
  { unfold t3. change 12%nat with (Z.to_nat 12). eapply at_position; [exact E4|rewrite app_length; lia|].
    replace (p + 12) with (p + RECLEN - Z.of_nat LABLEN - 1) by (unfold RECLEN, LABLEN; lia). exact E5. }
  clear E4 E5. unfold bind at 1 in E. change (firstn LABLEN k) with name in E. destruct (output name s5) as [[v|v] s6] eqn:E6; [|discriminate E].
  eapply at_output in E6; [|exact A5| |rewrite app_length; lia].
  2:{ unfold name. apply Forall_forall. intros c I. assert (I' : In c k).
      { rewrite <- (firstn_skipn 48 k). apply in_or_app. left. exact I. }
      rewrite Forall_forall in V. destruct (V c I') as [X Y]. split; [lia|exact Y]. }
  clear A5. change 61%nat with (Z.to_nat 61). eapply (at_position p 61) in E; [|exact E6|rewrite app_length; lia].
  apply E.
Qed.

(** ** Lines, pages *)
Lemma outputEOL_grown : forall b s u s', buf b s -> outputEOL s = (Ok u, s') -> grown [b] s s' /\ buf [] s'.
Proof.
  intros b s u s' (P & C & F) E. unfold outputEOL in E. unfold bind at 1 in E. cbn [gets] in E. rewrite C in E.
  unfold bind at 1 in E. destruct (outputraw b s) as [r s1] eqn:E1. destruct (outputraw_grown _ _ _ _ F E1) as (-> & G & _ & _).
  unfold bind, upd_ls, modify in E. apply lbwrite_ok in E. subst s'. split.
  - change [b] with ([b] ++ []). apply (grown_app _ _ _ s1); [exact G|]. apply grown_same; [repeat split|reflexivity].
  - split; [reflexivity|]. split; [cbn; destruct (linebuffer (ls s1)); reflexivity|]. destruct G as [(Q & _) _]. cbn [fl set_ls]. congruence.
Qed.
Lemma listing_blank : forall s t, listing s [[]] t -> listing s [] t.
Proof.
  intros s t H. remember [[]] as l eqn:E. induction H; try discriminate E.
  - injection E as -> ->. cbn [app]. constructor. assumption.
  - constructor. auto.
  - constructor; auto.
Qed.
Lemma grown_blank : forall s s', grown [[]] s s' -> grown [] s s'.
Proof. intros s s' [F (t & A & B)]. split; [exact F|]. exists t. split; [exact A|apply listing_blank; exact B]. Qed.
Lemma eoploop_grown : forall n s u s', buf [] s -> eoploop n s = (Ok u, s') -> grown [] s s' /\ buf [] s'.
Proof.
  induction n as [|n IH]; intros s u s' B E; [discriminate E|]. cbn [eoploop] in E. unfold bind at 1 in E. cbn [gets] in E.
  destruct (ppos (ls s) =? 0); [injection E as _ <-; split; [apply grown_refl|exact B]|].
  unfold bind in E. destruct (outputEOL s) as [[x|x] s1] eqn:E1; [|discriminate E]. apply (outputEOL_grown _ _ _ _ B) in E1.
  destruct E1 as [G B1]. destruct (IH _ _ _ B1 E) as [G1 B2]. split; [|exact B2].
  apply (grown_app [] [] _ s1); [apply grown_blank; exact G|exact G1].
Qed.
Lemma outputEOP_grown : forall s u s', buf [] s -> outputEOP s = (Ok u, s') -> grown [] s s' /\ buf [] s'.
Proof.
  intros s u s' B E. unfold outputEOP, bind in E. cbn [gets] in E. destruct (a_list_on (fl s)); [|injection E as _ <-; split; [apply grown_refl|exact B]].
  destruct (negb _); [exact (eoploop_grown _ _ _ _ B E)|]. unfold print, upd_ls, modify in E. injection E as _ <-.
  split; [|exact B]. apply (grown_print [nl; nl; nl]). do 3 apply l_empty. constructor.
Qed.

(** ** All entries *)
Fixpoint prints (l : list (str * label)) : M unit :=
  match l with
  | [] => ret tt
  | (k, v) :: l' => printlabel k v ;;; prints l'
  end.
Lemma bind_ext : forall A B (m : M A) (f g : A -> M B) s, (forall a s, f a s = g a s) -> bind m f s = bind m g s.
Proof. intros A B m f g s H. unfold bind. destruct (m s) as [[a|x] s1]; [apply H|reflexivity]. Qed.
Lemma prints_app : forall l l' s, prints (l ++ l') s = (prints l ;;; prints l') s.
Proof.
  induction l as [|[k v] l IH]; intros l' s; [reflexivity|]. cbn [app prints]. rewrite bind_assoc. apply bind_ext. intros _ s1. apply IH.
Qed.
Lemma xref2_prints : forall t s, xref2 t s = prints (telems t) s.
Proof.
  induction t as [|l IHl k v r IHr]; intros s; [reflexivity|]. cbn [xref2 telems]. rewrite prints_app. cbn [prints].
  transitivity ((prints (telems l) ;;; printlabel k v ;;; xref2 r) s).
  - unfold bind at 1. rewrite IHl. reflexivity.
  - apply bind_ext. intros _ s1. apply bind_ext. intros _ s2. apply IHr.
Qed.

Definition shown_labels (l : list (str * label)) : list (str * label) := List.filter (fun kv => negb (hidden (fst kv) (snd kv))) l.
(** The entries so far: full rows already printed, and those of the line under construction. *)
Definition rowstate (per : nat) (f : aflags) (rows : list (list str)) (cur : list str) (s0 s : state) : Prop :=
  Forall (fun r => List.length r = per) rows /\ (List.length cur <= per)%nat /\ Forall (fun e => List.length e = 61%nat) cur /\
  grown (map (@List.concat ascii) rows) s0 s /\ buf (List.concat cur) s.
Lemma concat_len : forall cur, Forall (fun e : str => List.length e = 61%nat) cur -> List.length (List.concat cur) = (61 * List.length cur)%nat.
Proof. intros cur H. induction H as [|e cur E H IH]; [reflexivity|]. cbn [List.concat List.length]. rewrite app_length. lia. Qed.
Lemma entry_len : forall f kl, tame f kl -> List.length (entry_text f kl) = 61%nat.
Proof. intros f kl [_ T]. unfold entry_text. rewrite filled_len. lia. Qed.

Lemma printlabel_break : forall k l s u s', printlabel k l s = (Ok u, s') ->
  exists s1, (if llen (ls s) <=? lpos (ls s) + 61 then outputEOL s = (Ok tt, s1) else s1 = s) /\
    (if hidden k l then s' = s1 else llen (ls s1) <=? lpos (ls s1) + 61 = false -> printlabel k l s1 = (Ok u, s')).
Proof.
  intros k l s u s' E. unfold printlabel in E. unfold bind at 1 in E. cbn [gets] in E. change RECLEN with 61 in E.
  unfold bind at 1 in E. destruct (when (llen (ls s) <=? lpos (ls s) + 61) outputEOL s) as [[[]|x] s1] eqn:E1; [|discriminate E].
  exists s1. split.
  - destruct (llen (ls s) <=? lpos (ls s) + 61); [exact E1|injection E1 as <-; reflexivity].
  - destruct (hidden k l) eqn:H.
    + unfold bind in E. cbn [gets] in E. injection E as _ <-. reflexivity.
    + intros C. unfold printlabel. unfold bind at 1. cbn [gets]. change RECLEN with 61. rewrite C. unfold bind at 1. cbn [when ret].
      rewrite H. exact E.
Qed.
Lemma prints_rows : forall l per f rows cur s0 s u s', rowstate per f rows cur s0 s -> fl s0 = f ->
  Z.of_nat per = (llen (ls s0) - 1) / 61 -> (1 <= per)%nat ->
  Forall (tame f) (shown_labels l) -> prints l s = (Ok u, s') ->
  exists rows' cur', rowstate per f rows' cur' s0 s' /\
    List.concat rows' ++ cur' = List.concat rows ++ cur ++ map (entry_text f) (shown_labels l).
Proof.
  induction l as [|[k v] l IH]; intros per f rows cur s0 s u s' R F P P1 T E.
  - cbn [prints] in E. injection E as _ <-. exists rows, cur. split; [exact R|]. cbn. rewrite app_nil_r. reflexivity.
  - cbn [prints] in E. unfold bind in E. destruct (printlabel k v s) as [[x|x] s2] eqn:E1; [|discriminate E].
    apply printlabel_break in E1. destruct E1 as (s1 & B & C).
    assert (K : exists rows1 cur1, rowstate per f rows1 cur1 s0 s1 /\ List.concat rows1 ++ cur1 = List.concat rows ++ cur /\
      llen (ls s1) <=? lpos (ls s1) + 61 = false).
    { destruct R as (R1 & R2 & R3 & R4 & R5). destruct (llen (ls s) <=? lpos (ls s) + 61) eqn:D.
      - assert (Lc : List.length cur = per).
        { destruct R5 as [R5 _]. rewrite concat_len in R5 by exact R3. destruct R4 as [(_ & _ & R4 & _) _]. rewrite R4 in D. lia. }
        apply (outputEOL_grown _ _ _ _ R5) in B. destruct B as [G B]. exists (rows ++ [cur]), []. split; [|split].
        + split; [apply Forall_app; split; [exact R1|constructor; auto]|]. split; [cbn; lia|]. split; [constructor|]. split; [|exact B].
          rewrite map_app. cbn [map]. apply (grown_app _ _ _ s); assumption.
        + rewrite concat_app. cbn [List.concat]. rewrite !app_nil_r. reflexivity.
        + destruct B as [B _]. rewrite B. destruct G as [(_ & _ & G & _) _]. destruct R4 as [(_ & _ & R4 & _) _]. rewrite G, R4. cbn [List.length]. lia.
      - subst s1. exists rows, cur. split; [repeat split; auto; try apply R4; apply R5|]. split; [reflexivity|exact D]. }
    destruct K as (rows1 & cur1 & K1 & K2 & K3). cbn [shown_labels List.filter fst snd] in *. unfold shown_labels in *. cbn [List.filter fst snd] in *.
    destruct (hidden k v) eqn:H; cbn [negb] in *.
    + subst s2. destruct (IH per f rows1 cur1 s0 s1 u s' K1 F P P1 T E) as (rows' & cur' & A & Q). exists rows', cur'. split; [exact A|].
      rewrite Q, !app_assoc, K2. reflexivity.
    + specialize (C K3). inversion T as [|? ? T1 T2]. subst x0 l0. destruct K1 as (R1 & R2 & R3 & R4 & R5).
      assert (Ff : fl s1 = f) by (destruct R4 as [(R4 & _) _]; congruence).
      pose proof (printlabel_shown k v _ _ _ _ R5 ltac:(lia) ltac:(rewrite Ff; exact T1) H C) as W. rewrite Ff in W.
      assert (K4 : rowstate per f rows1 (cur1 ++ [entry_text f (k, v)]) s0 s2).
      { split; [exact R1|]. split.
        - rewrite app_length. cbn [List.length]. destruct R5 as [R5 _]. rewrite concat_len in R5 by exact R3. destruct R4 as [(_ & _ & R4 & _) _]. rewrite R4 in K3. lia.
        - split; [apply Forall_app; split; [exact R3|constructor; [apply entry_len; exact T1|constructor]]|]. destruct W as (W1 & W2 & W3). split.
          + rewrite <- (app_nil_r (map _ _)). apply (grown_app _ _ _ s1); [exact R4|]. apply grown_same; assumption.
          + rewrite concat_app. cbn [List.concat]. rewrite app_nil_r. apply W3. exact R5. }
      destruct (IH per f rows1 _ s0 s2 u s' K4 F P P1 T2 E) as (rows' & cur' & A & Q). exists rows', cur'. split; [exact A|].
      rewrite Q. cbn [map]. rewrite <- !app_assoc. rewrite (app_assoc (List.concat rows)), <- K2, <- app_assoc. reflexivity.
Qed.

Lemma full_nonempty : forall per (rows : list (list str)), (1 <= per)%nat -> Forall (fun r => List.length r = per) rows ->
  Forall (fun r => (1 <= List.length r <= per)%nat) rows.
Proof. intros per rows P H. eapply Forall_impl; [|exact H]. cbn. intros a E. lia. Qed.
Lemma removelast_full : forall per (rows : list (list str)), Forall (fun r => List.length r = per) rows -> Forall (fun r => List.length r = per) (removelast rows).
Proof.
  intros per rows H. induction H as [|r rows H0 H IH]; [constructor|]. cbn [removelast]. destruct rows; [constructor|]. constructor; assumption.
Qed.
Lemma xref_lists : forall s u s', buf [] s -> bst (sy s) -> 61 < llen (ls s) ->
  (forall k l, tfind k (sy s) = Some l -> listed k l -> tame (fl s) (k, l)) -> xref s = (Ok u, s') ->
  exists t, pieces s'.(ls).(stdout) = pieces s.(ls).(stdout) ++ t /\ symbol_listing s t.
Proof.
  intros s u s' B T L Tm E. unfold xref in E. unfold bind at 1 in E. destruct (outputEOP s) as [[x|x] s1] eqn:E1; [|discriminate E].
  destruct (outputEOP_grown _ _ _ B E1) as [G1 B1]. clear E1. unfold bind at 1 in E. cbn [gets] in E.
  unfold bind at 1 in E. rewrite xref2_prints in E. destruct (prints _ s1) as [[y|y] s2] eqn:E2; [|discriminate E].
  pose proof G1 as [(F1 & F2 & F3 & F4) _]. rewrite F2 in E2. set (per := Z.to_nat ((llen (ls s) - 1) / 61)).
  assert (P1 : (1 <= per)%nat) by (unfold per; lia).
  assert (R0 : rowstate per (fl s) [] [] s s1).
  { split; [constructor|]. split; [cbn; lia|]. split; [constructor|]. split; [exact G1|exact B1]. }
  assert (In_iff : forall k l, In (k, l) (shown_labels (telems (sy s))) <-> tfind k (sy s) = Some l /\ listed k l).
  { intros k l. unfold shown_labels. rewrite filter_In. cbn [fst snd]. rewrite negb_true_iff, hidden_listed. split; intros [A C]; (split; [|exact C]).
    - apply In_tfind; assumption.
    - apply tfind_In. assumption. }
  assert (Tam : Forall (tame (fl s)) (shown_labels (telems (sy s)))).
  { apply Forall_forall. intros [k l] I. apply In_iff in I. apply Tm; apply I. }
  destruct (prints_rows _ per (fl s) _ _ _ _ _ _ R0 eq_refl ltac:(unfold per; lia) P1 Tam E2) as (rows & cur & (R1 & R2 & R3 & R4 & R5) & Q).
  cbn [List.concat app] in Q.
  unfold bind at 1 in E. destruct (outputEOL s2) as [[z|z] s3] eqn:E3; [|discriminate E].
  destruct (outputEOL_grown _ _ _ _ R5 E3) as [G3 B3]. destruct (outputEOP_grown _ _ _ B3 E) as [G4 B4].
  set (rows' := match cur with [] => rows | _ => rows ++ [cur] end).
  assert (G : grown (map (@List.concat ascii) rows') s s').
  { rewrite <- (app_nil_r (map _ rows')). apply (grown_app _ _ _ s3); [|exact G4]. unfold rows'. destruct cur as [|e cur].
    - rewrite <- (app_nil_r (map _ rows)). apply (grown_app _ _ _ s2); [exact R4|]. apply grown_blank. exact G3.
    - rewrite map_app. apply (grown_app _ _ _ s2); [exact R4|exact G3]. }
  destruct G as [_ (t & A & Li)]. exists t. split; [exact A|]. exists (shown_labels (telems (sy s))), (map (@List.concat ascii) rows').
  split.
  { apply sorted_before. pose proof (bst_sorted _ T) as S. unfold shown_labels. clear -S.
    induction (telems (sy s)) as [|[k v] l IH]; [constructor|]. cbn [map fst] in S. inversion S; subst. cbn [List.filter fst snd].
    destruct (negb (hidden k v)); [|auto]. cbn [map fst]. constructor; [auto|]. rewrite Forall_forall in *. intros a I. apply H2.
    rewrite in_map_iff in *. destruct I as (kv & <- & I). exists kv. split; [reflexivity|]. apply filter_In in I. apply I. }
  split; [exact In_iff|]. split; [|exact Li]. exists rows'. split; [|split; [reflexivity|]].
  - rewrite <- Q. unfold rows'. destruct cur as [|e cur]; [rewrite app_nil_r; reflexivity|]. rewrite concat_app. cbn [List.concat]. rewrite app_nil_r. reflexivity.
  - unfold rows'. fold per. destruct cur as [|e cur].
    + split; [apply full_nonempty; assumption|apply removelast_full; assumption].
    + split; [apply Forall_app; split; [apply full_nonempty; assumption|constructor; [cbn [List.length] in *; lia|constructor]]|].
      rewrite removelast_last. exact R1.
Qed.

(** ** The end of an assembly *)
Definition ordered (s : state) : Prop := bst s.(sy).
Definition ordering : relation := holds ordered ordered ordered.
Lemma ordered_systep : forall t t', systep t t' -> bst t -> bst t'.
Proof. intros t t' H B. destruct H; repeat first [exact B|apply bst_tupd|apply bst_tins|match goal with |- bst (match ?x with _ => _ end) => destruct x end]. Qed.
Lemma ordering_steps : steps ordering.
Proof.
  assert (L : lsteps ordering).
  { constructor; [apply holds_order; auto|..]; try triv. intros s _ H. apply bst_tupd. exact H. }
  pose proof (p_order _ L) as O.
  assert (W : forall s w, ordering Fine s (set_wr w s)) by triv.
  assert (Er : forall m, pres ordering unit (error m)).
  { apply error_parts; [exact L|triv|triv]. }
  constructor; [constructor; [exact L|..]|..]; try triv.
  - intros s a. apply (setpc_free _ O W).
  - intros s m. apply Er.
  - intros s t K H. exact (ordered_systep _ _ K H).
  - intros s x. apply (insert8_free _ O W L); try triv. exact Er.
Qed.

Lemma outputEOL_buf : forall s u s', outputEOL s = (Ok u, s') -> lpos (ls s') = 0 /\ cstr (linebuffer (ls s')) = [].
Proof.
  intros s u s' E. unfold outputEOL in E. unfold bind at 1 in E. cbn [gets] in E. unfold bind at 1 in E.
  destruct (outputraw _ s) as [[x|x] s1]; [|discriminate E]. unfold bind, upd_ls, modify in E. apply lbwrite_ok in E. subst s'.
  split; [reflexivity|]. cbn. destruct (linebuffer (ls s1)); reflexivity.
Qed.
Lemma resline_buf : forall t s u s', resline t s = (Ok u, s') -> lpos (ls s') = 0 /\ cstr (linebuffer (ls s')) = [].
Proof.
  intros t s u s' E. unfold resline in E. destruct (40 <=? zlen t); [discriminate E|]. unfold bind in E.
  destruct (output t s) as [[x|x] s1]; [|discriminate E]. exact (outputEOL_buf _ _ _ E).
Qed.
Definition flagged : relation := holds (fun s => a_list_on (fl s) = true) (fun s => a_list_on (fl s) = true) (fun _ => True).
Lemma flagged_lsteps : lsteps flagged.
Proof. constructor; [apply holds_order; auto|..]; triv. Qed.
Lemma finish_buf : forall s u s', finish s = (Ok u, s') -> buf [] s'.
Proof.
  intros s u s' E. unfold finish in E. unfold bind at 1 in E. cbn [gets] in E. unfold bind at 1 in E.
  destruct ((match scode (wr s) with Some _ => closescodefile | None => ret tt end) s) as [[x|x] s1]; [|discriminate E].
  unfold bind at 1 in E. unfold upd_fl, modify in E. set (s2 := set_fl _ s1) in E.
  pose proof (pres_results _ flagged_lsteps s2 eq_refl) as F. rewrite E in F. cbn [fst snd how] in F.
  enough (K : lpos (ls s') = 0 /\ cstr (linebuffer (ls s')) = []) by (split; [apply K|split; [apply K|exact F]]).
  clear F. unfold results in E.
  repeat (first
    [ match type of E with (bind (gets _) _) _ = _ => unfold bind at 1 in E; cbn [gets] in E end
    | match type of E with (bind ?m _) ?s = _ => unfold bind at 1 in E; let y := fresh in let r := fresh in
        destruct (m s) as [[y|y] r]; [|discriminate E] end
    | match type of E with (if ?c then _ else _) _ = _ => destruct c end ]).
  - exact (resline_buf _ _ _ _ E).
  - exact (outputEOL_buf _ _ _ E).
Qed.

Lemma bst_start : forall r t, bst t -> bst (startstar r t).
Proof. intros r t B. unfold startstar. do 2 apply bst_tupd. destruct (tfind starkey t); [|apply bst_tins]; exact B. Qed.
Theorem run_ordered : forall n o fs text s, assemble n o (init_state fs text) = (Ok tt, s) -> bst (sy s) /\ buf [] s.
Proof.
  intros n o fs text s E.
  pose proof (run_holds ordered ordered ordered ordered ordered ordered (fun s => bst (sy s) /\ buf [] s) ordered
    ordering_steps ordering_steps ordering_steps) as R.
  assert (R1 : forall k s, ordered s -> ordered (started k s)).
  { intros k s1 H. unfold started. rewrite passstart_eq. exact (bst_start _ _ H). }
  assert (R2 : forall s, ordered s -> ordered (turned o s)).
  { intros s1 H. unfold turned. apply R1. rewrite between_eq. exact (bst_tmap _ _ H). }
  assert (R3 : forall s, ordered s ->
       match finish s with (Ok _, s') => bst (sy s') /\ buf [] s' | (Bad _, s') => ordered s' end).
  { intros s1 H.
    assert (F : pres ordering _ finish).
    { apply finish_free; [apply (p_lsteps _ (p_bsteps _ ordering_steps))|triv|triv]. }
    specialize (F s1 H). destruct (finish s1) as [[u|x] s2] eqn:Ef; cbn [fst snd how] in F.
    - split; [exact F|]. exact (finish_buf _ _ _ Ef).
    - destruct x; exact F. }
  specialize (R (R1 1) o R2 R3 n (init_state fs text)). rewrite E in R. apply R. constructor.
Qed.
Theorem run_listing : forall n o fs text s u s', assemble n o (init_state fs text) = (Ok tt, s) -> xref s = (Ok u, s') ->
  61 < s.(ls).(llen) -> (forall k l, tfind k s.(sy) = Some l -> listed k l -> tame s.(fl) (k, l)) ->
  exists t, pieces s'.(ls).(stdout) = pieces s.(ls).(stdout) ++ t /\ symbol_listing s t.
Proof.
  intros n o fs text s u s' E X L T. destruct (run_ordered _ _ _ _ _ E) as [B F]. exact (xref_lists _ _ _ F B L T X).
Qed.

(** A check of the hypothesis on the names. *)
Definition tameb (f : aflags) (kl : str * label) : bool :=
  forallb (fun c => (33 <=? zc c) && negb (zc c =? 127)) (fst kl) &&
  Nat.leb (List.length (head_part f (snd kl) ++ firstn 48 (fst kl))) 61.
Lemma tame_check : forall f t, forallb (fun kl => hidden (fst kl) (snd kl) || tameb f kl) (telems t) = true ->
  forall k l, tfind k t = Some l -> listed k l -> tame f (k, l).
Proof.
  intros f t H k l F L. rewrite forallb_forall in H. specialize (H _ (tfind_In _ _ _ F)). cbn [fst snd] in H.
  apply hidden_listed in L. rewrite L in H. cbn [orb] in H. apply andb_prop in H. destruct H as [A B].
  split; [|apply Nat.leb_le; exact B]. rewrite forallb_forall in A. apply Forall_forall. intros c I. specialize (A c I). lia.
Qed.
