(** Accepted expressions are sentences of the grammar. *)
From Coq Require Import String Ascii ZArith List Bool Lia ZifyBool ZifyNat.
From Verif Require Import Base BaseFacts State Tree Filter Output Label Operator Parse.
From Verif Require Import FilterFacts SplitFacts SpecNumbers SpecText TextFacts NumberFacts SpecForms FormFacts CpuFacts Z80Facts SpecZ80 Z80Inst SpecGrammar Eval.
From Verif Require SpecSplit SpecExpr.
Import ListNotations.
Open Scope Z_scope.

(** ** Simple texts *)
Lemma simple_incl : forall a b, incl a b -> simple b -> simple a.
Proof.
  intros a b I [N|U]; [left; intros H; apply N, I, H|right]. unfold unquoted in *. rewrite Forall_forall in *. intros c H. apply U, I, H.
Qed.
Lemma simple_rev : forall t, simple t -> simple (rev t).
Proof. intros t. apply simple_incl. intros c H. apply in_rev. exact H. Qed.
Lemma revfix_plain : forall t acc sq dq, ~ List.In "\"%char t -> revfix acc t sq dq = rev acc ++ t.
Proof.
  induction t as [|c t IH]; intros acc sq dq N; [cbn; rewrite app_nil_r; reflexivity|]. cbn [revfix].
  assert (E : zc c =? 92 = false).
  { destruct (zc c =? 92) eqn:E; [|reflexivity]. elim N. left. apply zc_inj. change (zc "\") with 92. lia. }
  assert (K : forall a b, revfix (c :: acc) t a b = rev acc ++ c :: t).
  { intros a b. rewrite IH by (intros H; apply N; right; exact H). cbn [rev]. rewrite <- app_assoc. reflexivity. }
  rewrite E. cbn [andb]. destruct (zc c =? 39); [destruct (_ && _); [|destruct sq]; apply K|].
  destruct (zc c =? 34); [destruct (_ && _); [|destruct dq]; apply K|]. apply K.
Qed.
Lemma reverse_simple : forall t, simple t -> reverse t = rev t.
Proof.
  intros t [N|U]; [|apply reverse_unquoted; exact U]. unfold reverse. rewrite revfix_plain; [reflexivity|].
  intros H. apply N. apply in_rev. exact H.
Qed.

(** ** What signs spell *)
Lemma spells_blank : forall p t, spells ("_"%char :: p) t -> exists w t', t = w ++ t' /\ Forall SpecSplit.blank w /\ spells p t'.
Proof.
  intros p t H. inversion H as [|? w t' W H'|? ? ? ? N]; subst; [exists w, t'; auto|elim N; reflexivity].
Qed.
Lemma spells_one : forall c p t, c <> "_"%char -> spells (c :: p) t -> exists d t', t = d :: t' /\ SpecSplit.upper c = SpecSplit.upper d /\ spells p t'.
Proof.
  intros c p t N H. inversion H as [|? w t' W H'|? ? d t' _ U H']; subst; [elim N; reflexivity|exists d, t'; auto].
Qed.
Lemma upper_sep : forall c d, sepchar c = true -> SpecSplit.upper c = SpecSplit.upper d -> d = c.
Proof.
  intros c d S U. pose proof (charmatch_sep c d S) as K. assert (B : isblank c = false) by (unfold sepchar in S; destruct (isblank c); [lia|reflexivity]).
  apply (proj2 (charmatch_sign c d B)) in U. rewrite U in K. symmetry in K. apply Ascii.eqb_eq in K. auto.
Qed.
Lemma spells_sep : forall c p t, sepchar c = true -> spells (c :: p) t -> exists t', t = c :: t' /\ spells p t'.
Proof.
  intros c p t S H. apply spells_one in H; [|intros ->; discriminate S]. destruct H as (d & t' & -> & U & H). apply (upper_sep _ _ S) in U. subst d. exists t'. auto.
Qed.
Lemma spells_none : forall t, spells [] t -> t = [].
Proof. intros t H. inversion H. reflexivity. Qed.
Lemma spells_upper : forall p t, forallb sign p = true -> existsb (fun c => zc c =? 95) p = false -> spells p t -> map SpecSplit.upper t = map SpecSplit.upper p.
Proof.
  induction p as [|c p IH]; intros t S N H; [apply spells_none in H; subst; reflexivity|]. cbn [forallb existsb] in *.
  apply andb_prop in S. destruct S as [Sc S]. apply Bool.orb_false_iff in N. destruct N as [Nc N].
  apply spells_one in H; [|intros ->; discriminate Nc]. destruct H as (d & t' & -> & U & H). cbn [map]. rewrite (IH _ S N H), U. reflexivity.
Qed.

Lemma rev_blanks : forall w, Forall SpecSplit.blank w -> SpecExpr.blanks (rev w).
Proof. intros w H. apply Forall_rev. exact H. Qed.

(** ** The rows of the table *)
Definition good (rec : bool -> result -> str -> M result) : Prop :=
  forall top r e s v s', simple e -> rec top r e s = (Ok v, s') -> sentence (rev e).

Lemma dyad : forall o sep a b w1 w2, sepat sep = o -> List.In (rev sep) signs -> sentence (rev a) -> sentence (rev b) ->
  Forall SpecSplit.blank w1 -> Forall SpecSplit.blank w2 -> sentence (rev (a ++ w1 ++ sep ++ w2 ++ b)).
Proof.
  intros o sep a b w1 w2 _ I A B W1 W2. rewrite !rev_app_distr, <- !app_assoc. apply s_dyadic; try assumption; apply rev_blanks; assumption.
Qed.

(** A dyadic operator between blanks. *)
Definition dyadic (f : string) : Prop := exists sep, s2l f = sepat sep /\ sep <> [] /\ forallb sepchar sep = true /\ List.In (rev sep) signs.

Lemma trygroup_cut : forall e l, Forall (fun x => dyadic (fst x)) l -> forall s m s', trygroup e l s = (Ok m, s') ->
  match m with
  | Some (a, b, _) => exists sep w1 w2, e = a ++ w1 ++ sep ++ w2 ++ b /\ Forall SpecSplit.blank w1 /\ Forall SpecSplit.blank w2 /\ List.In (rev sep) signs
  | None => True end.
Proof.
  intros e l F. induction F as [|[f o] l D F IH]; intros s m s' E; cbn [trygroup] in E; [injection E as <- _; exact I|].
  step E r s1 E1. step E rest s2 E2. injection E as <- _. destruct r as [[a0 b0]|].
  - cbn [fst] in D. destruct D as (sep & P & N & S & Si). destruct (filter2_sep sep f e s (Some (a0, b0)) s1 P N S E1) as [_ [C _]].
    destruct C as (w1 & w2 & E & W1 & W2 & _). exists sep, w1, w2. auto.
  - eapply IH. exact E2.
Qed.

Lemma row_dyadic : forall rec top r e l rows s v s', good rec -> Forall (fun x => dyadic (fst x)) l -> simple e ->
  parserows rec top r e (R2 l :: rows) s = (Ok v, s') ->
  sentence (rev e) \/ exists s1, parserows rec top r e rows s1 = (Ok v, s').
Proof.
  intros rec top r e l rows s v s' G F S E. cbn [parserows] in E. step E m s1 E1. apply (trygroup_cut _ _ F) in E1.
  destruct m as [[[c1 c2] o]|]; [|right; exists s1; exact E].
  destruct c1 as [|x1 c1]; [right; exists s1; exact E|]. destruct c2 as [|x2 c2]; [right; exists s1; exact E|].
  left. step E va s2 E2. step E vb s3 E3. destruct E1 as (sep & w1 & w2 & -> & W1 & W2 & I).
  apply G in E2; [|revert S; apply simple_incl; intros c H; rewrite !in_app_iff; auto].
  apply G in E3; [|revert S; apply simple_incl; intros c H; rewrite !in_app_iff; auto].
  eapply dyad; [reflexivity|eassumption..].
Qed.

(** A row with one free part. *)
Lemma row_one : forall rec top r e f o rows p q s v s', good rec -> form_of (s2l f) = Some (Free p q) -> simple e ->
  (forall a, fits (Free p q) e a -> sentence (rev a) -> sentence (rev e)) ->
  parserows rec top r e (R1 f o :: rows) s = (Ok v, s') ->
  sentence (rev e) \/ exists s1, parserows rec top r e rows s1 = (Ok v, s').
Proof.
  intros rec top r e f o rows p q s v s' G Fo S K E. cbn [parserows] in E. step E m s1 E1. apply (filter1_form _ _ _ _ _ _ _ Fo) in E1.
  destruct m as [[|c0 c]|]; [right; exists s1; exact E| |right; exists s1; exact E]. left. step E va s2 E2.
  apply (K (c0 :: c)); [exact E1|]. eapply G; [|exact E2]. inversion E1 as [|? ? x ? y]; subst.
  revert S. apply simple_incl. intros d Hd. rewrite !in_app_iff. auto.
Qed.
Lemma row_par : forall rec top r e f rows p q s v s', good rec -> form_of (s2l f) = Some (Free p q) -> simple e ->
  (forall a, fits (Free p q) e a -> sentence (rev a) -> sentence (rev e)) ->
  parserows rec top r e (RPar f :: rows) s = (Ok v, s') ->
  sentence (rev e) \/ exists s1, parserows rec top r e rows s1 = (Ok v, s').
Proof.
  intros rec top r e f rows p q s v s' G Fo S K E. cbn [parserows] in E. step E m s1 E1. apply (filter1_form _ _ _ _ _ _ _ Fo) in E1.
  destruct m as [[|c0 c]|]; [right; exists s1; exact E| |right; exists s1; exact E]. left.
  apply (K (c0 :: c)); [exact E1|]. eapply G; [|exact E]. inversion E1 as [|? ? x ? y]; subst.
  revert S. apply simple_incl. intros d Hd. rewrite !in_app_iff. auto.
Qed.

(** The bit operator. *)
Lemma row_bit : forall rec top r e rows s v s', good rec -> simple e ->
  parserows rec top r e (R2 [("}_?_{_?"%string, OBit)] :: rows) s = (Ok v, s') ->
  sentence (rev e) \/ exists s1, parserows rec top r e rows s1 = (Ok v, s').
Proof.
  intros rec top r e rows s v s' G S E. cbn [parserows trygroup] in E. step E m s1 E1. step E1 m2 s2 E2. step E1 m3 s3 E3.
  injection E3 as <- <-. injection E1 as <- <-.
  apply (two_free _ ["}"; "_"]%char ["_"; "{"; "_"]%char [] e s m2 s2) in E2; try reflexivity; [|left; reflexivity].
  destruct m2 as [[c1 c2]|]; [|right; exists s2; exact E].
  destruct c1 as [|x1 c1]; [right; exists s2; exact E|]. destruct c2 as [|x2 c2]; [right; exists s2; exact E|].
  left. step E va s4 E4. step E vb s5 E5. destruct E2 as (x & y & z & -> & X & Y & Z0 & _).
  apply G in E4; [|revert S; apply simple_incl; intros c H; rewrite !in_app_iff; auto].
  apply G in E5; [|revert S; apply simple_incl; intros c H; rewrite !in_app_iff; auto].
  apply spells_sep in X; [|reflexivity]. destruct X as (x' & -> & X). apply spells_blank in X. destruct X as (w1 & x'' & -> & W1 & X).
  apply spells_none in X. apply spells_none in Z0. subst x'' z.
  apply spells_blank in Y. destruct Y as (w2 & y' & -> & W2 & Y). apply spells_sep in Y; [|reflexivity]. destruct Y as (y'' & -> & Y).
  apply spells_blank in Y. destruct Y as (w3 & y3 & -> & W3 & Y). apply spells_none in Y. subst y3.
  rewrite !app_nil_r. set (a := x2 :: c2) in *. set (b := x1 :: c1) in *. clearbody a b.
  replace (rev (("}"%char :: w1) ++ b ++ (w2 ++ "{"%char :: w3) ++ a)) with (rev a ++ rev w3 ++ "{"%char :: rev w2 ++ rev b ++ rev w1 ++ ["}"%char]).
  - apply s_bit; try assumption; apply rev_blanks; assumption.
  - repeat (rewrite rev_app_distr || cbn [rev app]). rewrite <- !app_assoc. cbn [app]. reflexivity.
Qed.

(** ** Functions, parentheses, signs *)
Lemma fit_sign : forall c e a, sepchar c = true -> c = "-"%char \/ c = "~"%char -> fits (Free [] ["_"%char; c]) e a -> sentence (rev a) -> sentence (rev e).
Proof.
  intros c e a Sc C F A. inversion F as [|? ? x ? y X Y _]; subst. apply spells_none in X. subst x.
  apply spells_blank in Y. destruct Y as (w & y' & -> & W & Y). apply spells_sep in Y; [|exact Sc]. destruct Y as (y'' & -> & Y). apply spells_none in Y. subst y''.
  cbn [app]. rewrite !rev_app_distr. cbn [rev app]. apply s_sign; [exact C|apply rev_blanks; exact W|exact A].
Qed.
Lemma fit_call : forall f e a, forallb FormFacts.sign f = true -> existsb (fun c => zc c =? 95) f = false -> List.In (map SpecSplit.upper (rev f)) functions ->
  fits (Free [")"; "_"]%char ("_" :: "(" :: "_" :: f)%char) e a -> sentence (rev a) -> sentence (rev e).
Proof.
  intros f e a Sf Nf I F A. inversion F as [|? ? x ? y X Y _]; subst.
  apply spells_sep in X; [|reflexivity]. destruct X as (x' & -> & X). apply spells_blank in X. destruct X as (w1 & x'' & -> & W1 & X). apply spells_none in X. subst x''.
  apply spells_blank in Y. destruct Y as (w2 & y' & -> & W2 & Y). apply spells_sep in Y; [|reflexivity]. destruct Y as (y'' & -> & Y).
  apply spells_blank in Y. destruct Y as (w3 & n & -> & W3 & Y). apply (spells_upper _ _ Sf Nf) in Y.
  replace (rev ((")"%char :: w1 ++ []) ++ a ++ w2 ++ "("%char :: w3 ++ n)) with (rev n ++ rev w3 ++ "("%char :: rev w2 ++ rev a ++ rev w1 ++ [")"%char]).
  - apply s_function; try assumption; try (apply rev_blanks; assumption). rewrite map_rev, Y, <- map_rev. exact I.
  - rewrite app_nil_r. repeat (rewrite rev_app_distr || cbn [rev app]). rewrite <- !app_assoc. cbn [app]. reflexivity.
Qed.
Lemma fit_group : forall e a, fits (Free [")"; "_"]%char ["_"; "("]%char) e a -> sentence (rev a) -> sentence (rev e).
Proof.
  intros e a F A. inversion F as [|? ? x ? y X Y _]; subst.
  apply spells_sep in X; [|reflexivity]. destruct X as (x' & -> & X). apply spells_blank in X. destruct X as (w1 & x'' & -> & W1 & X). apply spells_none in X. subst x''.
  apply spells_blank in Y. destruct Y as (w2 & y' & -> & W2 & Y). apply spells_sep in Y; [|reflexivity]. destruct Y as (y'' & -> & Y). apply spells_none in Y. subst y''.
  replace (rev ((")"%char :: w1 ++ []) ++ a ++ w2 ++ ["("%char])) with ("("%char :: rev w2 ++ rev a ++ rev w1 ++ [")"%char]).
  - apply s_group; try assumption; apply rev_blanks; assumption.
  - rewrite app_nil_r. repeat (rewrite rev_app_distr || cbn [rev app]). rewrite <- !app_assoc. cbn [app]. reflexivity.
Qed.

(** ** Names and constants *)
Lemma letter_of : forall c, isalpha c || (zc c =? 95) || (zc c =? 46) = true -> SpecExpr.letter c = true.
Proof. intros c H. unfold isalpha, isupper, islower, zc in H. unfold SpecExpr.letter. lia. Qed.
Lemma figure_of : forall c, isalnum c || (zc c =? 95) || (zc c =? 46) = true -> SpecExpr.letter c = true \/ SpecExpr.figure c = true.
Proof. intros c H. unfold isalnum, isdigit, isalpha, isupper, islower, zc in H. unfold SpecExpr.letter, SpecExpr.figure. lia. Qed.
Lemma label_sentence : forall t, checklabel t = true -> sentence t.
Proof.
  intros t H. unfold checklabel in H. destruct (_ <? _) eqn:L; [discriminate H|]. destruct t as [|c t]; [discriminate H|].
  destruct ((zc c =? 42) && _) eqn:E.
  - apply andb_prop in E. destruct E as [E1 E2]. destruct t; [|discriminate E2]. replace c with "*"%char; [apply s_star|].
    apply zc_inj. change (zc "*") with 42. lia.
  - destruct (isalpha c || (zc c =? 95) || (zc c =? 46)) eqn:A; [|discriminate H]. apply s_name. split; [apply letter_of; exact A|].
    split; [rewrite forallb_forall in H; apply Forall_forall; intros d D; apply figure_of; apply H; exact D|].
    unfold LABLEN, zlen in L. lia.
Qed.

Lemma ascii_string : forall q t v w, ~ List.In "\"%char t -> cstascii q v t = inl w ->
  exists a, t = a ++ [q] /\ Forall (fun c => printable c /\ c <> q /\ c <> "\"%char) a.
Proof.
  intros q. induction t as [|c t IH]; intros v w N H; cbn [cstascii] in H; [discriminate H|].
  destruct (Ascii.eqb_spec c q) as [->|Nq]; [destruct t; [exists []; auto|discriminate H]|].
  destruct (isprint c) eqn:P; cbn [negb] in H; [|discriminate H].
  assert (E : zc c =? 92 = false).
  { destruct (zc c =? 92) eqn:E; [|reflexivity]. elim N. left. apply zc_inj. change (zc "\") with 92. lia. }
  rewrite E in H. destruct (_ =? v) in H; [|discriminate H]. apply IH in H; [|intros X; apply N; right; exact X].
  destruct H as (a & -> & F). exists (c :: a). split; [reflexivity|]. constructor; [|exact F]. split; [|split; [exact Nq|intros ->; apply N; left; reflexivity]].
  unfold isprint, zc in P. unfold printable, code. lia.
Qed.

Definition reader (x : string * (Z -> str -> Z + string)) : Prop :=
  exists b, (forall d v w, snd x v d = inl w -> digits b d) /\
    ((exists p, form_of (s2l (fst x)) = Some (Free p []) /\ forallb FormFacts.sign p = true /\ existsb (fun c => zc c =? 95) p = false /\
        List.In (map SpecSplit.upper p, b) prefixes) \/
     (exists p, form_of (s2l (fst x)) = Some (Free [] p) /\ forallb FormFacts.sign p = true /\ existsb (fun c => zc c =? 95) p = false /\
        List.In (map SpecSplit.upper p, b) suffixes)).
Lemma readers : Forall reader cstlist.
Proof.
  repeat (apply Forall_cons || apply Forall_nil); unfold reader; cbn [fst snd];
    (exists 16; split; [exact hexa_digits|]) || (exists 2; split; [exact binary_digits|]) || (exists 8; split; [exact octal_digits|]).
  - left. exists ["$"%char]. repeat split. cbn; auto.
  - right. exists ["H"%char]. repeat split. cbn; auto.
  - left. exists ["0"; "X"]%char. repeat split. cbn; auto.
  - left. exists ["%"%char]. repeat split. cbn; auto.
  - right. exists ["B"%char]. repeat split. cbn; auto.
  - left. exists ["0"; "B"]%char. repeat split. cbn; auto.
  - right. exists ["Q"%char]. repeat split. cbn; auto.
Qed.

Lemma constant_inl : forall top r x s v s', constant top r x s = (Ok v, s') -> exists z, x = inl z.
Proof. intros top r [z|m] s v s' E; [exists z; reflexivity|]. cbn [constant] in E. elim (error_never _ _ _ _ _ E). Qed.

Lemma cst_sentence : forall top r t l, simple t -> Forall reader l -> forall s v s', trycst top r t l s = (Ok v, s') -> sentence t.
Proof.
  intros top r t l S F. induction F as [|[f conv] l R F IH]; intros s v s' E; cbn [trycst] in E.
  - destruct t as [|c t]; [elim (error_never _ _ _ _ _ E)|]. destruct (isdigit c) eqn:D.
    + apply constant_inl in E. destruct E as [z E]. apply decimal_digits in E. apply (s_prefix [] [] 10); [cbn; tauto|reflexivity|exact E|discriminate].
    + destruct (_ || _) eqn:Q in E; [|elim (error_never _ _ _ _ _ E)]. apply constant_inl in E. destruct E as [z E].
      assert (C : c = "'"%char \/ c = """"%char).
      { apply Bool.orb_prop in Q. destruct Q as [Q|Q]; [left|right]; apply zc_inj; [change (zc "'") with 39|change (zc """") with 34]; lia. }
      assert (N : ~ List.In "\"%char t).
      { destruct S as [N|U]; [intros H; apply N; right; exact H|]. inversion U as [|? ? [U1 U2] _]; subst. tauto. }
      apply (ascii_string _ _ _ _ N) in E. destruct E as (a & -> & A). apply s_string; assumption.
  - step E m s1 E1. destruct m as [[|c0 c]|]; [eapply IH; exact E| |eapply IH; exact E].
    apply constant_inl in E. destruct E as [z E]. destruct R as (b & D & R). cbn [fst snd] in *. apply D in E.
    destruct R as [(p & Fo & Sp & Np & I)|(p & Fo & Sp & Np & I)]; apply (filter1_form _ _ _ _ _ _ _ Fo) in E1; inversion E1 as [|? ? x ? y X Y _]; subst.
    + apply spells_none in Y. subst y. rewrite app_nil_r. eapply s_prefix; [exact I| |exact E|discriminate]. apply spells_upper; assumption.
    + apply spells_none in X. subst x. cbn [app]. apply (s_suffix y _ _ (c0 :: c) I); [|exact E|discriminate]. apply spells_upper; assumption.
Qed.

(** ** Whole expressions *)
Lemma rows_good : forall rec, good rec -> forall top r e s v s', simple e -> parserows rec top r e oplist s = (Ok v, s') -> sentence (rev e).
Proof.
  intros rec G top r e s v s' S E. unfold oplist in E.
  do 5 (apply row_dyadic in E; [|exact G|repeat (apply Forall_cons || apply Forall_nil); cbn [fst]|exact S];
    [|(exists ["\"%char]; repeat split; [discriminate|cbn; tauto]) || (exists ["+"%char]; repeat split; [discriminate|cbn; tauto]) || (exists ["-"%char]; repeat split; [discriminate|cbn; tauto])
      || (exists ["*"%char]; repeat split; [discriminate|cbn; tauto]) || (exists ["/"%char]; repeat split; [discriminate|cbn; tauto]) || (exists ["|"%char]; repeat split; [discriminate|cbn; tauto])
      || (exists ["&"%char]; repeat split; [discriminate|cbn; tauto]) || (exists ["^"%char]; repeat split; [discriminate|cbn; tauto])
      || (exists ["<"; "<"]%char; repeat split; [discriminate|cbn; tauto]) || (exists [">"; ">"]%char; repeat split; [discriminate|cbn; tauto])..];
    destruct E as [E|[? E]]; [exact E|]).
  eapply row_one in E; [|exact G|reflexivity|exact S|intros a; apply fit_sign; [reflexivity|auto]]. destruct E as [E|[? E]]; [exact E|].
  eapply row_one in E; [|exact G|reflexivity|exact S|intros a; apply fit_sign; [reflexivity|auto]]. destruct E as [E|[? E]]; [exact E|].
  eapply row_one in E; [|exact G|reflexivity|exact S|intros a; apply fit_call; [reflexivity|reflexivity|cbn; tauto]]. destruct E as [E|[? E]]; [exact E|].
  eapply row_one in E; [|exact G|reflexivity|exact S|intros a; apply fit_call; [reflexivity|reflexivity|cbn; tauto]]. destruct E as [E|[? E]]; [exact E|].
  eapply row_one in E; [|exact G|reflexivity|exact S|intros a; apply fit_call; [reflexivity|reflexivity|cbn; tauto]]. destruct E as [E|[? E]]; [exact E|].
  eapply row_one in E; [|exact G|reflexivity|exact S|intros a; apply fit_call; [reflexivity|reflexivity|cbn; tauto]]. destruct E as [E|[? E]]; [exact E|].
  apply row_bit in E; [|exact G|exact S]. destruct E as [E|[? E]]; [exact E|].
  eapply row_par in E; [|exact G|reflexivity|exact S|intros a; apply fit_group]. destruct E as [E|[? E]]; [exact E|].
  cbn [parserows] in E. rewrite (reverse_simple e S) in E. destruct (checklabel (rev e)) eqn:L; [apply label_sentence; exact L|].
  eapply cst_sentence; [apply simple_rev; exact S|exact readers|exact E].
Qed.
Lemma parse2_good : forall n, good (parse2 n).
Proof.
  induction n as [|n IH]; intros top r e s v s' S E; [discriminate E|]. cbn [parse2] in E. eapply rows_good; eassumption.
Qed.
Theorem parse_sentence : forall t s v s', simple t -> parse t s = (Ok v, s') -> sentence t.
Proof.
  intros t s v s' S E. unfold parse in E. destruct t as [|c t]; [elim (error_never _ _ _ _ _ E)|].
  step E m s1 E1. step E u s2 E2. step E r s3 E3. rewrite (reverse_simple _ S) in E. apply parse2_good in E; [|apply simple_rev; exact S].
  rewrite rev_involutive in E. exact E.
Qed.

(** ** Quotes and parentheses of sentences *)
Definition neutral (c : ascii) : Prop := forall d, SpecSplit.step (SpecSplit.Out d) c = SpecSplit.Out d.
Lemma neutral_char : forall c, ~ List.In c ["'"; """"; "("; ")"]%char -> neutral c.
Proof.
  intros c N d. unfold SpecSplit.step. cbn [List.In] in N.
  destruct (Ascii.eqb_spec c "'"); [subst; tauto|]. destruct (Ascii.eqb_spec c """"); [subst; tauto|].
  destruct (Ascii.eqb_spec c "("); [subst; tauto|]. destruct (Ascii.eqb_spec c ")"); [subst; tauto|]. reflexivity.
Qed.
Definition level (t : str) : Prop := forall d, fold_left SpecSplit.step t (SpecSplit.Out d) = SpecSplit.Out d.
Lemma level_app : forall a b, level a -> level b -> level (a ++ b).
Proof. intros a b A B d. rewrite fold_left_app, A, B. reflexivity. Qed.
Lemma level_neutral : forall t, Forall neutral t -> level t.
Proof. induction 1 as [|c t N F IH]; intros d; [reflexivity|]. cbn [fold_left]. rewrite N. apply IH. Qed.
Lemma level_blanks : forall w, SpecExpr.blanks w -> level w.
Proof.
  intros w W. apply level_neutral. eapply Forall_impl; [|exact W]. intros c [->| ->]; apply neutral_char; cbn; intuition discriminate.
Qed.
Lemma level_par : forall t, level t -> level ("("%char :: t ++ [")"%char]).
Proof.
  intros t L d. cbn [fold_left]. change (SpecSplit.step (SpecSplit.Out d) "(") with (SpecSplit.Out (d + 1)). rewrite fold_left_app, L.
  cbn [fold_left]. change (SpecSplit.step (SpecSplit.Out (d + 1)) ")") with (SpecSplit.Out (d + 1 - 1)). f_equal. lia.
Qed.
Lemma letter_neutral : forall c, SpecExpr.letter c = true \/ SpecExpr.figure c = true -> neutral c.
Proof.
  intros c H. apply neutral_char. cbn [List.In]. unfold SpecExpr.letter, SpecExpr.figure in H. intros [<-|[<-|[<-|[<-|[]]]]]; destruct H as [H|H]; discriminate H.
Qed.
Lemma digits_level : forall b d, digits b d -> level d.
Proof.
  intros b d D. apply level_neutral. eapply Forall_impl; [|exact D]. intros c (v & E & _). apply neutral_char. cbn [List.In].
  intros [<-|[<-|[<-|[<-|[]]]]]; discriminate E.
Qed.
Lemma upper_neutral : forall x p, map SpecSplit.upper x = p -> (forall c, List.In c p -> ~ List.In c ["'"; """"; "("; ")"]%char) -> level x.
Proof.
  intros x p E H. apply level_neutral. apply Forall_forall. intros c I. apply neutral_char. intros Q.
  apply (H (SpecSplit.upper c)); [rewrite <- E; apply in_map; exact I|].
  cbn [List.In] in *. destruct Q as [<-|[<-|[<-|[<-|[]]]]]; auto.
Qed.
Lemma level_in : forall q a d, Forall (fun c => c <> q /\ c <> "\"%char) a -> fold_left SpecSplit.step a (SpecSplit.In q d) = SpecSplit.In q d.
Proof.
  intros q a d F. induction F as [|c a [N B] F IH]; [reflexivity|]. cbn [fold_left]. unfold SpecSplit.step at 2.
  destruct (Ascii.eqb_spec c "\"); [contradiction|]. destruct (Ascii.eqb_spec c q); [contradiction|]. exact IH.
Qed.
Lemma open_quote : forall q d, q = "'"%char \/ q = """"%char -> SpecSplit.step (SpecSplit.Out d) q = SpecSplit.In q d.
Proof. intros q d [->| ->]; reflexivity. Qed.

Ltac strange H := cbn [List.In] in H; repeat (destruct H as [<-|H]; [cbn; intuition discriminate|]); contradiction.
Lemma sentence_level : forall t, sentence t -> level t.
Proof.
  intros t H. induction H as [t N| |x p b d I U D _|x p b d I U D _|q a Q A|w1 a w2 W1 _ IH W2|f w w1 a w2 I W W1 _ IH W2|c w a C W _ IH
                             |o a w1 w2 b I _ IHa W1 W2 _ IHb|a w1 w2 b w3 _ IHa W1 W2 _ IHb W3].
  - apply level_neutral. destruct t as [|c t]; [constructor|]. destruct N as (L & F & _). constructor; [apply letter_neutral; auto|].
    eapply Forall_impl; [|exact F]. intros e. apply letter_neutral.
  - apply level_neutral. constructor; [|constructor]. apply neutral_char. cbn. intuition discriminate.
  - apply level_app; [|eapply digits_level; exact D]. apply (upper_neutral _ _ U). intros c Ic.
    cbn [List.In prefixes] in I. destruct I as [[= <- <-]|[[= <- <-]|[[= <- <-]|[[= <- <-]|[[= <- <-]|[]]]]]]; strange Ic.
  - apply level_app; [eapply digits_level; exact D|]. apply (upper_neutral _ _ U). intros c Ic.
    cbn [List.In suffixes] in I. destruct I as [[= <- <-]|[[= <- <-]|[[= <- <-]|[]]]]; strange Ic.
  - intros d. cbn [fold_left]. rewrite (open_quote q d Q), fold_left_app, level_in by (eapply Forall_impl; [|exact A]; cbn; tauto).
    cbn [fold_left SpecSplit.step]. rewrite Ascii.eqb_refl. destruct (Ascii.eqb_spec q "\"); [subst q; destruct Q; discriminate|reflexivity].
  - replace (w1 ++ a ++ w2 ++ [")"%char]) with ((w1 ++ a ++ w2) ++ [")"%char]) by (rewrite <- !app_assoc; reflexivity). apply level_par.
    repeat apply level_app; first [assumption|apply level_blanks; assumption].
  - apply level_app; [|apply level_app; [apply level_blanks; exact W|]].
    + apply (upper_neutral f _ eq_refl). intros c Ic. cbn [List.In functions] in I.
      destruct I as [E|[E|[E|[E|[]]]]]; rewrite <- E in Ic; strange Ic.
    + replace (w1 ++ a ++ w2 ++ [")"%char]) with ((w1 ++ a ++ w2) ++ [")"%char]) by (rewrite <- !app_assoc; reflexivity). apply level_par.
      repeat apply level_app; first [assumption|apply level_blanks; assumption].
  - change (c :: w ++ a) with ([c] ++ w ++ a). repeat apply level_app; [|apply level_blanks; exact W|exact IH].
    apply level_neutral. constructor; [|constructor]. apply neutral_char. cbn [List.In]. destruct C as [->| ->]; intuition discriminate.
  - repeat apply level_app; try first [assumption|apply level_blanks; assumption].
    apply level_neutral. apply Forall_forall. intros c Ic. apply neutral_char. cbn [List.In signs] in I.
    repeat (destruct I as [<-|I]; [strange Ic|]). contradiction.
  - change (a ++ w1 ++ "{"%char :: w2 ++ b ++ w3 ++ ["}"%char]) with (a ++ w1 ++ ["{"%char] ++ w2 ++ b ++ w3 ++ ["}"%char]).
    repeat apply level_app; try first [assumption|apply level_blanks; assumption]; apply level_neutral; (constructor; [|constructor]); apply neutral_char; cbn; intuition discriminate.
Qed.
Theorem sentence_closed : forall t, sentence t -> closed t.
Proof. intros t H. apply (sentence_level t H 0). Qed.

(** ** What may follow a closing quote *)
Lemma sentence_nonempty : forall t, sentence t -> t <> [].
Proof.
  intros t H. destruct H; try discriminate.
  - intros ->. contradiction.
  - intros E. apply app_eq_nil in E. tauto.
  - intros E. apply app_eq_nil in E. tauto.
  - intros E. apply app_eq_nil in E. destruct E as [_ E]. apply app_eq_nil in E. destruct E as [_ E]. discriminate E.
  - intros E. apply app_eq_nil in E. destruct E as [_ E]. apply app_eq_nil in E. destruct E as [_ E]. apply app_eq_nil in E. destruct E as [E _].
    subst o. cbn in H. intuition discriminate.
  - intros E. apply app_eq_nil in E. destruct E as [_ E]. apply app_eq_nil in E. destruct E as [_ E]. discriminate E.
Qed.

Lemma lead_app : forall q a x A R, q = "'"%char \/ q = """"%char -> Forall (fun c => c <> q /\ c <> "\"%char) a -> sentence A ->
  (forall x', A = q :: a ++ q :: x' -> goes_on x') -> (exists w o y, R = w ++ o ++ y /\ SpecExpr.blanks w /\ (List.In o signs \/ o = ["{"%char]) /\ y <> []) ->
  A ++ R = q :: a ++ q :: x -> goes_on x.
Proof.
  intros q a x A R Q F SA IH (w & o & y & HR & W & O & Y) E. replace (q :: a ++ q :: x) with ((q :: a ++ [q]) ++ x) in E by (cbn [app]; rewrite <- app_assoc; reflexivity).
  apply app_eq_app in E. destruct E as (l & [[E1 E2]|[E1 E2]]).
  - assert (G : goes_on l) by (apply IH; rewrite E1; cbn [app]; rewrite <- app_assoc; reflexivity). right. destruct G as [->|(w' & o' & y' & -> & W' & O' & Y')].
    + exists w, o, y. rewrite E2, HR. auto.
    + exists w', o', (y' ++ R). rewrite E2, <- !app_assoc. repeat split; auto. destruct y'; [contradiction|discriminate].
  - destruct l as [|l0 l] using rev_ind.
    + right. exists w, o, y. rewrite E2 in HR. auto.
    + clear IHl. exfalso. apply sentence_nonempty in SA as Ne. destruct A as [|c A]; [contradiction|].
      cbn [app] in E1. injection E1 as <- E1. rewrite app_assoc in E1. apply app_inj_tail in E1. destruct E1 as [-> _].
      apply sentence_level in SA. specialize (SA 0). cbn [fold_left] in SA. rewrite (open_quote q 0 Q) in SA.
      apply Forall_app in F. destruct F as [F _]. rewrite (level_in q A 0 F) in SA. discriminate SA.
Qed.

Lemma lead_head : forall t, sentence t -> forall q a x, q = "'"%char \/ q = """"%char -> Forall (fun c => c <> q /\ c <> "\"%char) a -> t = q :: a ++ q :: x -> goes_on x.
Proof.
  intros t H. induction H as [t N| |p0 p b d I U D Nd|p0 p b d I U D Nd|q0 a0 Q A|w1 a0 w2 W1 _ IH W2|f w w1 a0 w2 I W W1 _ IH W2|c w a0 C W _ IH
                             |o a0 w1 w2 b I Ha IHa W1 W2 Hb IHb|a0 w1 w2 b w3 Ha IHa W1 W2 Hb IHb W3]; intros q a x Hq F E.
  - exfalso. subst t. destruct N as (L & _). destruct Hq as [->| ->]; discriminate L.
  - exfalso. injection E as <- _. destruct Hq as [Hq|Hq]; discriminate Hq.
  - exfalso. destruct p0 as [|c p0].
    + cbn [app] in E. subst d. inversion D as [|? ? (v & V & _) _]; subst. destruct Hq as [->| ->]; discriminate V.
    + injection E as -> _. subst p. cbn [map List.In prefixes] in I. destruct Hq as [->| ->]; intuition discriminate.
  - exfalso. destruct d as [|c d]; [contradiction|]. injection E as -> _. inversion D as [|? ? (v & V & _) _]; subst. destruct Hq as [->| ->]; discriminate V.
  - injection E as <- E. left. replace (a ++ q0 :: x) with ((a ++ [q0]) ++ x) in E by (rewrite <- app_assoc; reflexivity). apply app_eq_app in E. destruct E as (l & [[E1 E2]|[E1 E2]]).
    + exfalso. rewrite E1 in A. apply Forall_app in A. destruct A as [A _]. apply Forall_app in A. destruct A as [_ A]. inversion A as [|? ? (_ & X & _) _]. apply X. reflexivity.
    + destruct l as [|l0 l] using rev_ind; [|clear IHl].
      * exfalso. rewrite app_nil_r in E1. subst a0. apply Forall_app in A. destruct A as [_ A]. inversion A as [|? ? (_ & X & _) _]. apply X. reflexivity.
      * destruct x; [reflexivity|]. apply (f_equal (@List.length ascii)) in E2. rewrite !app_length in E2. cbn in E2. lia.
  - exfalso. injection E as <- _. destruct Hq as [Hq|Hq]; discriminate Hq.
  - exfalso. cbn [List.In functions] in I. destruct f as [|c f]; [intuition discriminate|]. injection E as -> _. cbn [map] in I. destruct Hq as [->| ->]; intuition discriminate.
  - exfalso. injection E as -> _. destruct Hq as [->| ->]; destruct C; discriminate.
  - eapply (lead_app q a x a0); [exact Hq|exact F|exact Ha|intros x' E'; eapply IHa; eassumption| |exact E].
    exists w1, o, (w2 ++ b). repeat split; auto. intros X. apply app_eq_nil in X. destruct X as [_ ->]. apply sentence_nonempty in Hb. apply Hb. reflexivity.
  - eapply (lead_app q a x a0); [exact Hq|exact F|exact Ha|intros x' E'; eapply IHa; eassumption| |exact E].
    exists w1, ["{"%char], (w2 ++ b ++ w3 ++ ["}"%char]). repeat split; auto. intros X. apply app_eq_nil in X. destruct X as [_ X]. apply app_eq_nil in X. destruct X as [-> _]. apply sentence_nonempty in Hb. apply Hb. reflexivity.
Qed.

(** ** Constants *)
Theorem accepted_closed : forall t s v s', simple t -> parse t s = (Ok v, s') -> closed t.
Proof. intros t s v s' S E. apply sentence_closed. eapply parse_sentence; eassumption. Qed.
Theorem accepted_follows : forall q a x s v s', q = "'"%char \/ q = """"%char -> ~ List.In q a -> ~ List.In "\"%char (a ++ x) ->
  parse (q :: a ++ q :: x) s = (Ok v, s') -> goes_on x.
Proof.
  intros q a x s v s' Q Na Nb E. eapply lead_head; [|exact Q| |reflexivity].
  - eapply parse_sentence; [|exact E]. left. intros H. apply Nb. cbn [List.In] in H. rewrite in_app_iff in *. cbn [List.In] in H.
    destruct H as [H|[H|[H|H]]]; auto; exfalso; subst q; destruct Q as [Q|Q]; discriminate Q.
  - apply Forall_forall. intros c I. split; intros ->; [apply Na; exact I|apply Nb; apply in_or_app; left; exact I].
Qed.
