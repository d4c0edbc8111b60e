(** The symbol table: a map, local names, names that keep their values. *)
From Coq Require Import String Ascii ZArith List Bool Lia ZifyBool.
From Verif Require Import Base State Tree Output Label Scode BaseFacts TreeFacts Walk Frame Run Pseudos Tables Macro Crasm CountFacts SpecNumbers SpecEmit SpecSymbols NumberFacts.
From Verif Require Parse Cpu6800 Eval SpecSplit SpecExpr SplitFacts FilterFacts.
Import ListNotations.
Open Scope Z_scope.

(** ** Decimal numbers *)
Lemma cz_digit : forall d, 0 <= d < 10 -> digit (cz (48 + d)) = Some d.
Proof.
  intros d D. unfold digit. fold (zc (cz (48 + d))). rewrite zc_cz_small by lia.
  destruct (_ && _) eqn:E; [f_equal; lia|lia].
Qed.
Lemma number_cons : forall b c d, number b (c :: d) =
  match digit c with Some x => x | None => 0 end * b ^ Z.of_nat (List.length d) + number b d.
Proof.
  intros b c d. unfold number. cbn [fold_left]. set (f := fun v c => _).
  assert (G : forall d v, fold_left f d v = v * b ^ Z.of_nat (List.length d) + fold_left f d 0).
  { clear. induction d as [|c d IH]; intros v; cbn [fold_left List.length]; [change (Z.of_nat 0) with 0; lia|].
    rewrite IH. rewrite (IH (f 0 c)). unfold f at 1 3. rewrite Nat2Z.inj_succ, Z.pow_succ_r by lia. lia. }
  rewrite G. reflexivity.
Qed.
Lemma dec_digits_number : forall n z acc, 0 <= z -> z < 2 ^ Z.of_nat n -> digits 10 acc ->
  digits 10 (dec_digits n z acc) /\
  number 10 (dec_digits n z acc) = z * 10 ^ Z.of_nat (List.length acc) + number 10 acc.
Proof.
  induction n as [|n IH]; intros z acc Z0 L D; cbn [dec_digits].
  - split; [exact D|]. change (2 ^ Z.of_nat 0) with 1 in L. lia.
  - cbv zeta. pose proof (Z.mod_pos_bound z 10 ltac:(lia)) as M.
    assert (Dc : digits 10 (cz (48 + z mod 10) :: acc)).
    { constructor; [|exact D]. exists (z mod 10). split; [apply cz_digit; exact M|lia]. }
    assert (N : number 10 (cz (48 + z mod 10) :: acc) = (z mod 10) * 10 ^ Z.of_nat (List.length acc) + number 10 acc).
    { rewrite number_cons, cz_digit by exact M. reflexivity. }
    destruct (z <? 10) eqn:E.
    + split; [exact Dc|]. rewrite N. rewrite (Z.mod_small z) by lia. reflexivity.
    + destruct (IH (z / 10) (cz (48 + z mod 10) :: acc)) as [D1 N1].
      * apply Z.div_pos; lia.
      * rewrite Nat2Z.inj_succ, Z.pow_succ_r in L by lia. apply Z.div_lt_upper_bound; lia.
      * exact Dc.
      * split; [exact D1|]. rewrite N1, N. cbn [List.length]. rewrite Nat2Z.inj_succ, Z.pow_succ_r by lia.
        pose proof (Z.div_mod z 10 ltac:(lia)). nia.
Qed.
Lemma dec_number : forall z, 0 <= z -> digits 10 (dec z) /\ number 10 (dec z) = z.
Proof.
  intros z Z0. unfold dec. destruct (z <? 0) eqn:E; [lia|].
  destruct (dec_digits_number (S (Z.to_nat (Z.log2 z))) z []) as [D N]; try assumption; [|constructor|].
  - rewrite Nat2Z.inj_succ, Z2Nat.id by apply Z.log2_nonneg.
    destruct (Z.eq_dec z 0) as [->|Nz]; [reflexivity|]. apply Z.log2_spec. lia.
  - split; [exact D|]. rewrite N. cbn [List.length]. change (Z.of_nat 0) with 0. change (number 10 []) with 0. lia.
Qed.
Lemma dec_inj : forall a b, 0 <= a -> 0 <= b -> dec a = dec b -> a = b.
Proof. intros a b A B E. destruct (dec_number a A) as [_ <-], (dec_number b B) as [_ <-]. rewrite E. reflexivity. Qed.

Lemma dec_digits_short : forall k n z acc, 0 <= z < 10 ^ Z.of_nat (S k) ->
  (List.length (dec_digits n z acc) <= List.length acc + S k)%nat.
Proof.
  induction k as [|k IH]; intros n z acc L.
  - destruct n as [|n]; cbn [dec_digits]; [lia|]. cbv zeta. change (10 ^ Z.of_nat 1) with 10 in L.
    destruct (z <? 10) eqn:E; [cbn [List.length]; lia|lia].
  - destruct n as [|n]; cbn [dec_digits]; [lia|]. cbv zeta. destruct (z <? 10) eqn:E; [cbn [List.length]; lia|].
    rewrite Nat2Z.inj_succ, Z.pow_succ_r in L by lia.
    assert (L' : 0 <= z / 10 < 10 ^ Z.of_nat (S k)) by (split; [apply Z.div_pos; lia|apply Z.div_lt_upper_bound; lia]).
    specialize (IH n (z / 10) (cz (48 + z mod 10) :: acc) L'). cbn [List.length] in IH. lia.
Qed.
Lemma dec_short : forall z, 0 <= z < 2 ^ 31 -> (1 <= List.length (dec z) <= 10)%nat.
Proof.
  intros z L. split; [apply CountFacts.dec_nonblank|]. unfold dec. destruct (z <? 0) eqn:E; [lia|].
  apply (dec_digits_short 9 _ z []). change (10 ^ Z.of_nat 10) with 10000000000. lia.
Qed.

(** ** Names and keys *)
(** The key of an identifier. *)
Definition key_of (i : ident) : str :=
  match i with Global t => t | Local seg t => dec seg ++ t end.

Lemma upper_map : forall n, upper n = map toupper n.
Proof. intros n. unfold upper. apply map_ext. apply SplitFacts.upper_toupper. Qed.

Lemma lkey_ident : forall seg n, 0 <= seg < 2 ^ 31 -> lkey seg n = key_of (ident_of seg n).
Proof.
  intros seg n S. unfold lkey, ident_of, local. destruct n as [|c n]; [reflexivity|].
  rewrite upper_map. pose proof (dec_short seg S).
  destruct (Ascii.eqb_spec c "."%char) as [->|N].
  - change (zc "."%char =? 46) with true. cbv iota. cbn [key_of]. change LABLEN with 48%nat.
    rewrite firstn_app. rewrite firstn_all2 by lia. reflexivity.
  - destruct (zc c =? 46) eqn:E; [|reflexivity]. elim N. apply zc_inj. change (zc "."%char) with 46. lia.
Qed.

(** Identifiers of legal names. *)
Definition figure (c : ascii) : Prop := 48 <= zc c <= 57.
Definition proper (i : ident) : Prop :=
  match i with
  | Global t => match t with c :: _ => 65 <= zc c | [] => False end
  | Local seg t => 0 <= seg < 2 ^ 31 /\ exists u, t = "."%char :: u
  end.

Lemma letter_upper : forall c, SpecExpr.letter c = true -> c <> "."%char -> 65 <= zc (toupper c).
Proof.
  intros c L N. assert (zc c <> 46) by (intros E; apply N, zc_inj; exact E).
  unfold SpecExpr.letter in L. unfold toupper, islower. clear N.
  match goal with |- context [if ?b then _ else _] => destruct b eqn:E end.
  - rewrite zc_cz_small by lia. lia.
  - unfold zc in *. lia.
Qed.

Lemma ident_proper : forall seg n, 0 <= seg < 2 ^ 31 -> legal n -> proper (ident_of seg n).
Proof.
  intros seg n S L. unfold ident_of, local, legal in *. destruct n as [|c n]; [contradiction|].
  pose proof (dec_short seg S) as D. rewrite upper_map. destruct (Ascii.eqb_spec c "."%char) as [->|N].
  - split; [exact S|]. destruct (48 - List.length (dec seg))%nat as [|k] eqn:E; [lia|]. eexists. reflexivity.
  - cbn [map firstn proper]. apply letter_upper; assumption.
Qed.

Lemma span_unique : forall (P : ascii -> Prop) x y c d u v, Forall P x -> Forall P y -> ~ P c -> ~ P d ->
  x ++ c :: u = y ++ d :: v -> x = y /\ c :: u = d :: v.
Proof.
  intros P. induction x as [|a x IH]; intros [|b y] c d u v X Y C D E; cbn [app] in E.
  - auto.
  - injection E as -> _. inversion Y; contradiction.
  - injection E as -> _. inversion X; contradiction.
  - injection E as -> E. inversion X; inversion Y; subst. destruct (IH y c d u v) as [-> ->]; auto.
Qed.
Lemma digits_figure : forall t, digits 10 t -> Forall figure t.
Proof.
  intros t D. unfold digits in D. eapply Forall_impl; [|exact D]. intros c (v & V & L). unfold digit in V. unfold figure. fold (zc c) in V.
  repeat match goal with H : context [if ?b then _ else _] |- _ => destruct b eqn:? end; try discriminate V; injection V as <-; lia.
Qed.

Lemma key_inj : forall i j, proper i -> proper j -> key_of i = key_of j -> i = j.
Proof.
  assert (X : forall t seg u, proper (Global t) -> proper (Local seg u) -> t <> dec seg ++ u).
  { intros t seg u P (S & w & ->) E. subst t. destruct (dec_number seg) as [D _]; [lia|]. apply digits_figure in D.
    pose proof (dec_short seg S). destruct (dec seg) as [|c t]; [cbn in *; lia|].
    inversion D; subst. cbn in P. unfold figure in *. lia. }
  intros [t|a t] [u|b u] P Q E; cbn [key_of] in E.
  - congruence.
  - elim (X _ _ _ P Q E).
  - elim (X _ _ _ Q P (eq_sym E)).
  - destruct P as (S & t' & ->), Q as (S' & u' & ->).
    destruct (dec_number a) as [D _]; [lia|]. destruct (dec_number b) as [D' _]; [lia|].
    apply digits_figure in D, D'. apply (span_unique figure) in E; try assumption.
    + destruct E as [E ->]. apply dec_inj in E; [subst; reflexivity|lia|lia].
    + unfold figure. cbn. lia.
    + unfold figure. cbn. lia.
Qed.
Lemma key_star : forall i, proper i -> key_of i <> starkey.
Proof.
  intros [t|a t] P E; cbn [key_of] in E.
  - subst t. cbn in P. lia.
  - destruct P as (S & u & ->). destruct (dec_number a) as [D _]; [lia|]. apply digits_figure in D.
    pose proof (dec_short a S). destruct (dec a) as [|c t]; [cbn in *; lia|]. inversion D; subst.
    injection E as -> _. unfold figure in *. cbn in *. lia.
Qed.

(** ** Errors leave the symbols alone *)
Definition steady : relation := fun _ s s' => s'.(inp) = s.(inp) /\
  forall k, k <> starkey -> tfind k s'.(sy) = tfind k s.(sy).
Lemma lsteps_steady : lsteps steady.
Proof.
  constructor; [constructor|..]; unfold steady; intros; try (split; reflexivity).
  - assumption.
  - destruct H as [I1 K1], H0 as [I2 K2]. split; [congruence|]. intros k N. rewrite K2, K1; auto.
  - split; [reflexivity|]. intros k N. cbn [sy set_sy]. rewrite tfind_tupd_other by exact N. reflexivity.
Qed.
Lemma error_steady : forall A m s, steady Fine s (snd (@error A m s)).
Proof. intros A m s. apply (error_parts steady lsteps_steady); intros; split; reflexivity. Qed.

Definition relatif_is (r : bool) : relation := fun _ s s' => a_relatif s.(fl) = r -> a_relatif s'.(fl) = r.
Lemma lsteps_relatif : forall r, lsteps (relatif_is r).
Proof. intros r. constructor; [constructor|..]; unfold relatif_is; cbn; auto. Qed.
Lemma error_relatif : forall A m s, a_relatif (fl (snd (@error A m s))) = a_relatif (fl s).
Proof.
  intros A m s. set (r := a_relatif (fl s)). pose proof (lsteps_relatif r) as L. pose proof (p_order _ L) as O.
  unfold error. unfold bind at 1. cbn [gets].
  match goal with |- context [?b s] => enough (W : pres (relatif_is r) _ b) by (apply (W s); reflexivity) end.
  apply (pres_bind _ O).
  - destruct (negb (a_noerror (fl s))); [|apply (pres_ret _ O)].
    destruct (80 <=? _); [apply (pres_ub _ O)|].
    apply (pres_bind _ O); [intros x; exact (fun e => e)|intros _; apply (pres_outputraw _ L)].
  - intros _. apply (pres_bind _ O); [apply (pres_outputline _ L)|]. intros _.
    apply (pres_bind _ O); [unfold when; destruct (negb _); [apply (pres_star_advance _ L)|apply (pres_ret _ O)]|]. intros _.
    apply (pres_bind _ O); [intros x; exact (fun _ => eq_refl)|]. intros _.
    apply (pres_bind _ O); [intros x; exact (fun e => e)|]. intros _ x. exact (fun e => e).
Qed.

(** ** The table is a map *)
Definition occur (e : event) (s : state) : state :=
  match e with
  | Define n f ty v => snd (deflabel n f ty v s)
  | Refer n => snd (findlabel n s)
  | Enter seg => set_inp (set_segment seg s.(inp)) s
  | Turn => snd (undeflabels s)
  end.
(** The identifiers of the legal names. *)
Definition image (i : ident) : Prop := exists seg n, 0 <= seg < 2 ^ 31 /\ legal n /\ i = ident_of seg n.
Lemma image_proper : forall i, image i -> proper i.
Proof. intros i (seg & n & B & N & ->). apply ident_proper; assumption. Qed.
Lemma image_of : forall seg n, 0 <= seg < 2 ^ 31 -> legal n -> image (ident_of seg n).
Proof. intros seg n B N. exists seg, n. auto. Qed.
Definition agrees (r : bool) (x : Z * SpecSymbols.table) (s : state) : Prop :=
  a_relatif (fl s) = r /\ fst x = s.(inp).(segment) /\ 0 <= fst x < 2 ^ 31 /\
  forall i, image i -> snd x i = option_map see (tfind (key_of i) s.(sy)).

Lemma put_same : forall i v m, put i v m i = Some v.
Proof. intros. unfold put. destruct (ident_dec i i); congruence. Qed.
Lemma put_other : forall i j v m, j <> i -> put i v m j = m j.
Proof. intros. unfold put. destruct (ident_dec j i); congruence. Qed.

Lemma occur_agrees : forall r e x s, sane e -> agrees r x s -> agrees r (after r e x) (occur e s).
Proof.
  intros r [n f ty v|n|seg'|] [seg m] s N (R & S & B & M); cbn [fst snd sane after occur] in *.
  - subst seg. rewrite deflabel_eq, lkey_ident by exact B. set (i := ident_of _ n).
    pose proof (image_of _ n B N : image i) as Pi. rewrite (M i Pi).
    unfold refused. destruct (tfind (key_of i) (sy s)) as [l|] eqn:F; cbn [option_map see v_defined v_fixed].
    + destruct (negb (f_undef (l_flags l)) && (f_noredef (l_flags l) || f_noredef f)) eqn:Ref.
      * assert (W : forall m0, agrees r (segment (inp s), m) (snd (@error str m0 s))).
        { intros m0. destruct (error_steady str m0 s) as [I K]. unfold agrees. cbn [fst snd]. rewrite error_relatif, I.
          repeat split; try assumption; try lia. intros j Pj. rewrite K by (apply key_star, image_proper; exact Pj). apply M. exact Pj. }
        destruct (l_type l); apply W.
      * repeat split; cbn [fst snd inp sy fl set_sy]; try assumption; try lia.
        intros j Pj. destruct (ident_dec j i) as [->|Ne].
        -- rewrite put_same, tfind_tupd_same, F. cbn [option_map]. unfold see. cbn. rewrite ?Bool.orb_false_r. reflexivity.
        -- rewrite put_other, tfind_tupd_other by (auto; intros E; apply Ne, key_inj; auto using image_proper). apply M. exact Pj.
    + repeat split; cbn [fst snd inp sy fl set_sy]; try assumption; try lia.
      intros j Pj. destruct (ident_dec j i) as [->|Ne].
      * rewrite put_same, tfind_tupd_same, tfind_tins_same by exact F. cbn [option_map]. unfold see. cbn. reflexivity.
      * assert (Nk : key_of j <> key_of i) by (intros E; apply Ne, key_inj; auto using image_proper).
        rewrite put_other, tfind_tupd_other, tfind_tins_other by auto. apply M. exact Pj.
  - subst seg. rewrite findlabel_eq, lkey_ident by exact B. set (i := ident_of _ n).
    pose proof (image_of _ n B N : image i) as Pi. rewrite (M i Pi).
    cbn [snd]. repeat split; cbn [fst snd inp sy fl set_sy]; try assumption; try lia.
    intros j Pj. destruct (tfind (key_of i) (sy s)) as [l|] eqn:F; cbn [option_map];
      (destruct (ident_dec j i) as [->|Ne];
       [|assert (Nk : key_of j <> key_of i) by (intros E; apply Ne, key_inj; auto using image_proper)]).
    + rewrite (M i Pi), tfind_tupd_same, F. reflexivity.
    + rewrite tfind_tupd_other by exact Nk. apply M. exact Pj.
    + rewrite put_same, tfind_tupd_same, tfind_tins_same by exact F. rewrite R. reflexivity.
    + rewrite put_other, tfind_tupd_other, tfind_tins_other by auto. apply M. exact Pj.
  - repeat split; cbn [fst snd inp sy fl set_sy]; try assumption; try lia.
  - repeat split; cbn [fst snd inp sy fl set_sy undeflabels upd_sy modify]; try assumption; try lia.
    intros i Pi. rewrite tfind_tmap, (M i Pi). destruct (tfind _ _) as [l|]; [|reflexivity].
    cbn [option_map]. unfold see, undef_node. cbn. rewrite Bool.negb_involutive. reflexivity.
Qed.

(** Performing events one after the other. *)
Definition history (es : list event) (s : state) : state := fold_left (fun s e => occur e s) es s.
Definition story (r : bool) (es : list event) (x : Z * SpecSymbols.table) := fold_left (fun x e => after r e x) es x.

Lemma history_agrees : forall r es x s, Forall sane es -> agrees r x s -> agrees r (story r es x) (history es s).
Proof.
  intros r. induction es as [|e es IH]; intros x s F A; [exact A|]. inversion F; subst.
  apply IH; [assumption|]. apply occur_agrees; assumption.
Qed.

(** The lookup of a name is the lookup in the map. *)
Lemma search_agrees : forall r x s n, agrees r x s -> legal n ->
  match searchlabel n s with
  | (Ok (_, q), _) => option_map see q = snd x (ident_of (fst x) n)
  | _ => False
  end.
Proof.
  intros r [seg m] s n (R & S & B & M) N. cbn [fst snd] in *. subst seg.
  unfold searchlabel, bind. cbn [gets ret]. rewrite lkey_ident by exact B. symmetry. apply M. apply image_of; assumption.
Qed.

(** The map a state stands for. *)
Definition ident_map (s : state) : SpecSymbols.table := fun i => option_map see (tfind (key_of i) s.(sy)).
Lemma agrees_start : forall s, 0 <= s.(inp).(segment) < 2 ^ 31 ->
  agrees (a_relatif (fl s)) (s.(inp).(segment), ident_map s) s.
Proof. intros s B. repeat split; cbn [fst snd]; lia. Qed.
Lemma agrees_any : forall s m, 0 <= s.(inp).(segment) < 2 ^ 31 ->
  (forall seg n, 0 <= seg < 2 ^ 31 -> legal n -> m (ident_of seg n) = option_map see (tfind (lkey seg n) s.(sy))) ->
  agrees (a_relatif (fl s)) (s.(inp).(segment), m) s.
Proof.
  intros s m B M. repeat split; cbn [fst snd]; try lia. intros i (seg & n & G & N & ->). rewrite M, lkey_ident by assumption. reflexivity.
Qed.

(** ** Segments are never numbered twice *)
Definition newer (s s' : state) : Prop :=
  s.(inp).(segment) <= s.(inp).(thiscall) ->
  s.(inp).(thiscall) <= s'.(inp).(thiscall) /\ s'.(inp).(segment) <= s'.(inp).(thiscall) /\
  (s'.(inp).(segment) = s.(inp).(segment) \/ s.(inp).(thiscall) < s'.(inp).(segment)).
Definition sameinp : relation := fun _ s s' => s'.(inp) = s.(inp).
Lemma lsteps_sameinp : lsteps sameinp.
Proof. constructor; [constructor|..]; unfold sameinp; intros; cbn; congruence. Qed.
Lemma error_inp : forall A m s, inp (snd (@error A m s)) = inp s.
Proof. intros A m s. apply (error_parts sameinp lsteps_sameinp); reflexivity. Qed.
Lemma newer_same : forall s s', s'.(inp) = s.(inp) -> newer s s'.
Proof. intros s s' E. unfold newer. rewrite E. lia. Qed.
Lemma newer_trans : forall a b c, newer a b -> newer b c -> newer a c.
Proof. unfold newer. intros a b c X Y. lia. Qed.
Lemma newer_refl : forall a, newer a a.
Proof. intros. apply newer_same. reflexivity. Qed.

Lemma setpc_inp : forall a s, (snd (setpc a s)).(inp) = s.(inp).
Proof.
  intros a s. apply (setpc_free sameinp (p_order _ lsteps_sameinp)). reflexivity.
Qed.
Lemma insert8_inp : forall x s, (snd (insert8 x s)).(inp) = s.(inp).
Proof.
  intros x s. apply (insert8_free sameinp (p_order _ lsteps_sameinp)); try reflexivity.
  - apply lsteps_osteps, lsteps_sameinp.
  - intros m s0. apply error_inp.
Qed.
Lemma steps_newer : steps (always newer).
Proof.
  assert (L : lsteps (always newer)).
  { constructor; [constructor|..]; unfold always; intros; try (apply newer_same; reflexivity).
    - assumption.
    - eapply newer_trans; eassumption. }
  assert (B : bsteps (always newer)).
  { constructor; [exact L|..]; unfold always; intros; try (apply newer_same; reflexivity).
    - unfold newer. cbn [inp set_inp]. inversion H; subst; cbn; lia.
    - unfold newer, popped. cbn. lia.
    - apply newer_same, setpc_inp.
    - apply newer_same, error_inp.
    - exact H. }
  constructor; [exact B|..]; unfold always; intros; try (apply newer_same; reflexivity).
  - apply newer_same, insert8_inp.
  - unfold newer, included. cbn. lia.
  - unfold newer, entered. cbn. lia.
  - revert H. unfold newer, back. cbn. lia.
Qed.

(** ** Definite symbols stay as they are *)
Definition keeps (s s' : state) : Prop := forall k l, k <> starkey -> tfind k s.(sy) = Some l -> definite l ->
  exists l', tfind k s'.(sy) = Some l' /\ is_still l l'.
Lemma still_refl : forall l, is_still l l.
Proof. intros l. repeat split. Qed.
Lemma still_trans : forall a b c, is_still a b -> is_still b c -> is_still a c.
Proof.
  intros a b c (A & B & C) (D & E & F). assert (T : l_type b = l_type a) by exact (f_equal v_type A).
  repeat split; try congruence. intros N. rewrite F, C by congruence. reflexivity.
Qed.
Lemma see_definite : forall l l', is_still l l' -> definite l -> definite l'.
Proof. unfold see, definite. intros l l' ([= _ _ U N _] & _) [A B]. destruct (f_undef (l_flags l')); [rewrite A in U; discriminate|]. split; congruence. Qed.
Lemma keeps_refl : forall a, keeps a a.
Proof. intros a k l N F D. exists l. split; [exact F|apply still_refl]. Qed.
Lemma keeps_same : forall s s', (forall k, k <> starkey -> tfind k s'.(sy) = tfind k s.(sy)) -> keeps s s'.
Proof. intros s s' E k l N F D. rewrite E by exact N. exists l. split; [exact F|apply still_refl]. Qed.
Lemma keeps_trans : forall a b c, keeps a b -> keeps b c -> keeps a c.
Proof.
  intros a b c X Y k l N F D. destruct (X k l N F D) as (l1 & F1 & E1).
  destruct (Y k l1 N F1 (see_definite _ _ E1 D)) as (l2 & F2 & E2). exists l2. split; [exact F2|]. eapply still_trans; eassumption.
Qed.
Lemma systep_keeps : forall s t, systep s.(sy) t -> keeps s (set_sy t s).
Proof.
  intros s t S k l N F (U & R). cbn [sy set_sy].
  assert (Upd : forall k0 f t0, tfind k t0 = Some l -> (k0 = k -> is_still l (f l)) ->
    exists l', tfind k (tupd k0 f t0) = Some l' /\ is_still l l').
  { intros k0 f t0 F0 E. destruct (str_dec k k0) as [->|Ne].
    - rewrite tfind_tupd_same, F0. eexists. split; [reflexivity|]. apply E. reflexivity.
    - rewrite tfind_tupd_other by exact Ne. exists l. split; [exact F0|apply still_refl]. }
  assert (Ins : forall k0 e t0, tfind k t0 = Some l -> tfind k (tins k0 e t0) = Some l).
  { intros k0 e t0 F0. destruct (str_dec k k0) as [->|Ne].
    - rewrite tins_present by congruence. exact F0.
    - rewrite tfind_tins_other by exact Ne. exact F0. }
  destruct S as [k0|k0 ty F0|k0 flags ty v p m U1 G|k0 lines l0 F0 T|k0 e F0|k0 l0 F0 U0].
  - apply Upd; [exact F|]. repeat split.
  - exists l. split; [apply Ins; exact F|apply still_refl].
  - apply Upd.
    + destruct (tfind k0 (sy s)); [exact F|apply Ins; exact F].
    + intros ->. destruct (G l F) as [G1|[G1 _]]; congruence.
  - apply Upd; [exact F|]. intros ->. repeat split. cbn. congruence.
  - exists l. split; [apply Ins; exact F|apply still_refl].
  - apply Upd; [exact F|]. intros ->. congruence.
Qed.

Definition sameothers : relation := fun _ s s' => forall k, k <> starkey -> tfind k s'.(sy) = tfind k s.(sy).
Lemma lsteps_sameothers : lsteps sameothers.
Proof.
  constructor; [constructor|..]; unfold sameothers; intros; try reflexivity.
  - auto.
  - rewrite H0, H; auto.
  - cbn [sy set_sy]. rewrite tfind_tupd_other by assumption. reflexivity.
Qed.
Lemma error_others : forall A m s k, k <> starkey -> tfind k (sy (snd (@error A m s))) = tfind k s.(sy).
Proof. intros A m s. apply (error_parts sameothers lsteps_sameothers); intros; intros k N; reflexivity. Qed.
Lemma insert8_others : forall x s k, k <> starkey -> tfind k (sy (snd (insert8 x s))) = tfind k s.(sy).
Proof.
  intros x s. apply (insert8_free sameothers (p_order _ lsteps_sameothers)); try (intros; intros k N; reflexivity).
  - apply lsteps_osteps, lsteps_sameothers.
  - intros m s0 k. apply error_others.
Qed.
Lemma steps_keeps : steps (always keeps).
Proof.
  assert (L : lsteps (always keeps)).
  { constructor; [constructor|..]; unfold always; intros; try (apply keeps_same; intros; reflexivity).
    - assumption.
    - eapply keeps_trans; eassumption.
    - apply keeps_same. intros k N. cbn [sy set_sy]. apply tfind_tupd_other. exact N. }
  assert (B : bsteps (always keeps)).
  { constructor; [exact L|..]; unfold always; intros; try (apply keeps_same; intros; reflexivity).
    - apply keeps_same. intros k N. rewrite setpc_sy. reflexivity.
    - apply keeps_same. intros k. apply error_others.
    - exact H. }
  constructor; [exact B|..]; unfold always; intros; try (apply keeps_same; intros; reflexivity).
  - apply systep_keeps. exact H.
  - apply keeps_same. intros k. apply insert8_others.
  - exact H.
Qed.

(** A definite symbol cannot be defined again. *)
Lemma deflabel_refuses : forall n f ty v s l, tfind (lkey s.(inp).(segment) n) s.(sy) = Some l -> definite l ->
  deflabel n f ty v s =
  error (s2l (match l.(l_type) with TAbs | TRel => "illegal label redefinition" | _ => "attempt to redefine a keyword" end)) s.
Proof.
  intros n f ty v s l F (U & R). rewrite deflabel_eq, F. unfold refused. rewrite U, R. cbn [negb andb orb].
  destruct (l_type l); reflexivity.
Qed.

Lemma lkey_star : forall seg n, lkey seg n = starkey -> n = s2l "*".
Proof.
  intros seg [|c n] E; [discriminate E|]. unfold lkey in E. destruct (zc c =? 46) eqn:Z.
  - exfalso. assert (Hd : forall t, firstn LABLEN (dec seg ++ t) <> starkey); [|elim (Hd _ E)]. clear.
    intros t E. pose proof (CountFacts.dec_nonblank seg) as L.
    destruct (dec seg) as [|c u] eqn:D; [cbn in L; lia|]. cbn [app] in E. change LABLEN with (S 47) in E.
    cbn [firstn] in E. injection E as -> _. unfold dec in D. destruct (seg <? 0); [discriminate D|].
    pose proof (dec_number (Z.abs seg) ltac:(lia)) as [X _].
    assert (Y : forall n z acc u, Forall figure acc -> dec_digits n z acc = "*"%char :: u -> False).
    { clear. induction n as [|n IH]; intros z acc u F E; cbn [dec_digits] in E.
      - subst acc. inversion F. unfold figure in *. cbn in *. lia.
      - cbv zeta in E. assert (Fg : figure (cz (48 + z mod 10))).
        { pose proof (Z.mod_pos_bound z 10 ltac:(lia)). unfold figure. rewrite zc_cz_small by lia. lia. }
        revert E Fg. generalize (cz (48 + z mod 10)). intros c E Fg. destruct (z <? 10).
        + injection E as -> _. unfold figure in Fg. cbn in Fg. lia.
        + eapply IH; [|exact E]. constructor; assumption. }
    eapply Y; [|exact D]. constructor.
  - assert (W : forall a k (t : str), firstn (S k) (a :: t) = starkey -> a = "*"%char /\ firstn k t = []).
    { clear. intros a k t E. cbn [firstn] in E. injection E as -> ->. auto. }
    destruct (W (toupper c) 47%nat (map toupper n) E) as [C N]. clear W E. destruct n; [|discriminate N]. f_equal.
    unfold toupper, islower in C. destruct (_ && _) eqn:I; [|subst c; reflexivity].
    apply (f_equal zc) in C. rewrite zc_cz_small in C by lia. cbn in C. lia.
Qed.

(** A label defined by its position. *)
Lemma herelabel_defines : forall n s u s', herelabel n s = (Ok u, s') ->
  lkey s.(inp).(segment) n <> starkey /\
  exists l, tfind (lkey s.(inp).(segment) n) s'.(sy) = Some l /\ definite l /\ l.(l_value) = starvalue s /\
    (l.(l_type) = TAbs \/ l.(l_type) = TRel).
Proof.
  intros n s u s' H. unfold herelabel, when in H.
  destruct (streq n (s2l "*")) eqn:Q.
  { unfold bind at 1 in H. unfold err in H. destruct (error _ s) as [[?|?] ?] eqn:X; [elim (Eval.error_never _ _ _ _ _ X)|discriminate H]. }
  unfold bind at 1 in H. cbn [ret] in H. unfold bind at 1 in H. cbn [gets] in H.
  assert (NS : lkey (segment (inp s)) n <> starkey).
  { intros E. apply lkey_star in E. subst n. discriminate Q. }
  split; [exact NS|].
  destruct (a_org_gv (fl s)).
  2:{ unfold bind at 1 in H. unfold err in H. destruct (error _ s) as [[?|?] ?] eqn:X; [elim (Eval.error_never _ _ _ _ _ X)|discriminate H]. }
  set (ty := if a_relatif (fl s) then TRel else TAbs) in *.
  rewrite bind_assoc in H. unfold bind at 1 in H. rewrite deflabel_eq in H. set (k := lkey _ n) in *.
  destruct (refused (tfind k (sy s)) (set_f_noredef true lf0)) as [m|] eqn:R.
  { destruct (error (s2l m) s) as [[?|?] ?] eqn:X; [elim (Eval.error_never _ _ _ _ _ X)|discriminate H]. }
  set (s1 := set_sy _ s) in H.
  assert (F : exists l, tfind k s1.(sy) = Some l /\ definite l /\ l_value l = starvalue s /\ l_type l = ty).
  { unfold s1. cbn [sy set_sy]. rewrite tfind_tupd_same. destruct (tfind k (sy s)) as [l0|] eqn:F0.
    - rewrite F0. cbn [option_map]. eexists. split; [reflexivity|]. split; [split; [reflexivity|]|split; reflexivity]. cbn. destruct (f_noredef _); reflexivity.
    - rewrite tfind_tins_same by exact F0. cbn [option_map]. eexists. split; [reflexivity|]. cbn. repeat split. }
  clearbody s1. destruct F as (l & F & D & V & T).
  assert (K : keeps s1 s').
  { match type of H with (?m s1) = _ => assert (W : pres (always keeps) _ m) end.
    - pose proof (p_lsteps _ (p_bsteps _ steps_keeps)) as L. pose proof (p_order _ L) as O.
      apply (pres_bind _ O); [apply (pres_ret _ O)|intros _]. apply (pres_bind _ O); [apply (pres_gets _ O)|intros x].
      match goal with |- context [if ?b then _ else _] => destruct b end; [|apply (pres_ret _ O)].
      apply (pres_bind _ O); [apply (pres_position _ L)|intros _; apply (pres_outputaddr _ L)].
    - specialize (W s1). rewrite H in W. exact W. }
  destruct (K k l NS F D) as (l' & F' & S'). exists l'. split; [exact F'|].
  split; [eapply see_definite; eassumption|]. destruct S' as ([= T' V' _ _ _] & _).
  split; [congruence|]. unfold ty in T. destruct (a_relatif (fl s)); [right|left]; congruence.
Qed.

(** ** Pseudo instructions *)
Definition keywords (s : state) : Prop :=
  Forall (fun e => exists l, tfind (s2l (fst e)) s.(sy) = Some l /\ is_still (snd e) l) pseudos.
Lemma pseudos_definite : Forall (fun e => definite (snd e) /\ s2l (fst e) <> starkey) pseudos.
Proof. repeat (constructor; [split; [split; reflexivity|discriminate]|]). constructor. Qed.

Lemma keywords_keeps : forall s s', keeps s s' -> keywords s -> keywords s'.
Proof.
  intros s s' K W. unfold keywords in *. pose proof pseudos_definite as D. rewrite Forall_forall in *.
  intros e I. destruct (W e I) as (l & F & S), (D e I) as (De & Ns).
  destruct (K _ l Ns F (see_definite _ _ S De)) as (l' & F' & S'). exists l'. split; [exact F'|].
  eapply still_trans; eassumption.
Qed.

Lemma keywords_init : forall fs text, keywords (snd (init_label_list pseudos (init_state fs text))).
Proof.
  intros fs text. unfold keywords.
  assert (E : sy (snd (init_label_list pseudos (init_state fs text))) =
              sy (snd (init_label_list pseudos (init_state (fun _ => None) [])))) by (vm_compute; reflexivity).
  rewrite E. clear E. set (t := sy _).
  assert (C : map (fun e => tfind (s2l (fst e)) t) pseudos = map (fun e => Some (snd e)) pseudos) by (vm_compute; reflexivity).
  apply Forall_forall. intros e I. exists (snd e). split; [|apply still_refl].
  exact (proj1 map_ext_in_iff C e I).
Qed.

Lemma keeps_started : forall k s, keeps s (started k s).
Proof.
  intros k s. apply keeps_same. intros k0 N. unfold started. rewrite passstart_eq. cbn [snd sy set_ct set_sy].
  unfold startstar. rewrite !tfind_tupd_other by exact N.
  destruct (tfind starkey (sy s)) eqn:E; [reflexivity|]. apply tfind_tins_other. exact N.
Qed.
Lemma keeps_passloop : forall n s, keeps s (snd (passloop n s)).
Proof. intros n s. exact (J_passloop _ (pres_walk _ steps_keeps) n s). Qed.
Lemma keeps_run : forall n k li ex s, keeps s (snd (run n k li ex s)).
Proof. intros n k li ex s. exact (J_run _ (pres_walk _ steps_keeps) n k li ex s). Qed.
Lemma keeps_pass : forall n k s, keeps s (snd (pass n k s)).
Proof.
  intros n k s. unfold pass, bind. pose proof (keeps_started k s) as A. unfold started in A. rewrite passstart_eq in *.
  eapply keeps_trans; [exact A|]. cbn [snd]. apply keeps_passloop.
Qed.
Lemma keeps_finish : forall s, keeps s (snd (finish s)).
Proof.
  pose proof (p_lsteps _ (p_bsteps _ steps_keeps)) as L.
  apply (finish_free _ L); intros; apply keeps_same; reflexivity.
Qed.
Lemma keywords_between : forall o s, keywords s -> keywords (snd (between o s)).
Proof.
  intros o s W. rewrite between_eq. unfold keywords in *. rewrite Forall_forall in *. intros e I.
  destruct (W e I) as (l & F & S). cbn [snd sy set_sy]. rewrite tfind_tmap, F. cbn [option_map].
  exists (undef_node l). split; [reflexivity|].
  assert (D : forallb (fun e => table_eqb (l_table (snd e)) TPseudos && negb (f_undef (l_flags (snd e)))) pseudos = true) by reflexivity.
  rewrite forallb_forall in D. specialize (D e I). apply andb_prop in D. destruct D as [D1 D2].
  destruct S as (S1 & S2 & S3). pose proof (f_equal v_pseudo S1) as T. cbn [see v_pseudo] in T.
  split; [|split; [exact S2|exact S3]]. rewrite <- S1. unfold see, undef_node. cbn. rewrite T, D1. cbn.
  pose proof (f_equal v_defined S1) as T2. cbn [see v_defined] in T2. rewrite T2, D2. reflexivity.
Qed.

Theorem keywords_last : forall n o fs text, keywords (snd (assemble n o (init_state fs text))).
Proof.
  intros n o fs text. unfold assemble. pose proof (keywords_init fs text) as K0. unfold bind at 1.
  destruct (init_label_list pseudos (init_state fs text)) as [[u|b] s1]; [|exact K0]. cbn [snd] in K0.
  unfold bind at 1. pose proof (keywords_keeps _ _ (keeps_pass n 1 s1) K0) as K1.
  destruct (pass n 1 s1) as [[u1|b] s2]; [|exact K1]. cbn [snd] in K1.
  unfold bind at 1. pose proof (keywords_between o s2 K1) as K2.
  destruct (between o s2) as [[u2|b] s3]; [|exact K2]. cbn [snd] in K2.
  unfold bind at 1. pose proof (keywords_keeps _ _ (keeps_pass n 2 s3) K2) as K3.
  destruct (pass n 2 s3) as [[u3|b] s4]; [|exact K3]. cbn [snd] in K3.
  exact (keywords_keeps _ _ (keeps_finish s4) K3).
Qed.

(** ** Separate names *)
Definition lookup (seg : Z) (n : str) (s : state) : option view :=
  match searchlabel n (set_inp (set_segment seg s.(inp)) s) with (Ok (_, q), _) => option_map see q | _ => None end.

Lemma lookup_map : forall r x s seg n, agrees r x s -> 0 <= seg < 2 ^ 31 -> legal n -> lookup seg n s = snd x (ident_of seg n).
Proof.
  intros r x s seg n (R & S & B & M) G N. unfold lookup, searchlabel, bind. cbn [gets ret inp set_inp segment set_segment sy].
  rewrite lkey_ident by exact G. symmetry. apply M. apply image_of; assumption.
Qed.

Lemma apart : forall e n a b m s, e = Refer n \/ (exists f ty v, e = Define n f ty v) ->
  s.(inp).(segment) = a -> 0 <= a < 2 ^ 31 -> 0 <= b < 2 ^ 31 -> legal n -> legal m ->
  ident_of a n <> ident_of b m -> lookup b m (occur e s) = lookup b m s.
Proof.
  intros e n a b m s He Hs A B N M D. subst a. pose proof (agrees_start s A) as G.
  assert (Sa : sane e) by (destruct He as [->|(f & ty & v & ->)]; exact N).
  rewrite (lookup_map _ _ _ b m (occur_agrees _ e _ _ Sa G) B M), (lookup_map _ _ _ b m G B M). cbn [snd].
  destruct He as [->|(f & ty & v & ->)]; cbn [after].
  - destruct (ident_map s _); cbn [snd]; [reflexivity|]. apply put_other. auto.
  - destruct (ident_map s _) as [o|]; cbn [snd]; [|apply put_other; auto].
    destruct (v_defined o && (v_fixed o || f_noredef f)); [reflexivity|apply put_other; auto].
Qed.

Lemma locals_apart : forall a b n m, a <> b -> local n = true -> local m = true -> ident_of a n <> ident_of b m.
Proof. intros a b n m D N M E. unfold ident_of in E. rewrite N, M in E. congruence. Qed.
Lemma local_global : forall a b n m, local n <> local m -> ident_of a n <> ident_of b m.
Proof. intros a b n m D E. unfold ident_of in E. destruct (local n), (local m); congruence. Qed.

Lemma newer_run : forall n k li ex s, newer s (snd (run n k li ex s)).
Proof. intros n k li ex s. exact (J_run _ (pres_walk _ steps_newer) n k li ex s). Qed.
Lemma newer_passloop : forall n s, newer s (snd (passloop n s)).
Proof. intros n s. exact (J_passloop _ (pres_walk _ steps_newer) n s). Qed.

(** The pseudo instructions that start a segment. *)
Lemma newsegment_fresh : forall s, s.(inp).(thiscall) < (snd (newsegment s)).(inp).(segment).
Proof. intros s. cbn. lia. Qed.

(** ** Redefinition *)
Lemma error_bad : forall A m s, exists b, fst (@error A m s) = Bad b.
Proof.
  intros A m s. destruct (error m s) as [[a|b] s'] eqn:E; [elim (Eval.error_never _ _ _ _ _ E)|]. exists b. reflexivity.
Qed.
Lemma herelabel_refuses : forall n s l, tfind (lkey s.(inp).(segment) n) s.(sy) = Some l -> definite l ->
  exists b, fst (herelabel n s) = Bad b.
Proof.
  intros n s l F D. destruct (herelabel n s) as [[u|b] s'] eqn:E; [exfalso|exists b; reflexivity].
  unfold herelabel, when in E. destruct (streq n (s2l "*")).
  { unfold bind at 1 in E. unfold err in E. destruct (error _ s) as [[?|?] ?] eqn:X; [elim (Eval.error_never _ _ _ _ _ X)|discriminate E]. }
  unfold bind at 1 in E. cbn [ret] in E. unfold bind at 1 in E. cbn [gets] in E. unfold bind at 1 in E.
  destruct (a_org_gv (fl s)).
  - unfold bind at 1 in E. rewrite (deflabel_refuses _ _ _ _ _ l F D) in E.
    destruct (error _ s) as [[?|?] ?] eqn:X; [elim (Eval.error_never _ _ _ _ _ X)|discriminate E].
  - unfold err in E. destruct (error _ s) as [[?|?] ?] eqn:X; [elim (Eval.error_never _ _ _ _ _ X)|discriminate E].
Qed.
Lemma Xequ_refuses : forall n oper s l, lkey s.(inp).(segment) n <> starkey ->
  tfind (lkey s.(inp).(segment) n) s.(sy) = Some l -> definite l -> exists b, fst (Xequ n oper s) = Bad b.
Proof.
  intros n oper s l NS F D. destruct (Xequ n oper s) as [[u|b] s'] eqn:E; [exfalso|exists b; reflexivity].
  unfold Xequ in E. unfold bind at 1 in E. destruct (Parse.parse (Cpu6800.otext oper) s) as [[r|b] s1] eqn:P; [|discriminate E].
  unfold bind at 1 in E. cbn [gets] in E. unfold bind at 1 in E.
  match type of E with (match ?x s1 with _ => _ end) = _ => set (w := x) in E end.
  pose proof (p_lsteps _ (p_bsteps _ steps_keeps)) as L. pose proof (p_order _ L) as O.
  pose proof lsteps_sameinp as L'. pose proof (p_order _ L') as O'.
  assert (K : keeps s s1).
  { pose proof (J_parse _ (pres_walk _ steps_keeps) (Cpu6800.otext oper) s) as X. rewrite P in X. exact X. }
  assert (I1 : s1.(inp) = s.(inp)) by (apply Eval.parse_keeps in P; apply P).
  assert (Wk : pres (always keeps) _ w /\ pres sameinp _ w).
  { unfold w, when. split; (match goal with |- context [if ?b then _ else _] => destruct b end);
      [|apply (pres_ret _ O)| |apply (pres_ret _ O')].
    - apply (pres_bind _ O); [apply (pres_position _ L)|intros _; apply (pres_outputaddr _ L)].
    - apply (pres_bind _ O'); [apply (pres_position _ L')|intros _; apply (pres_outputaddr _ L')]. }
  destruct Wk as [K2 I2]. specialize (K2 s1). specialize (I2 s1). unfold sameinp in I2.
  destruct (w s1) as [[u2|b] s2]; [|discriminate E]. cbn [fst snd how] in K2, I2.
  destruct (K _ l NS F D) as (l1 & F1 & S1). pose proof (see_definite _ _ S1 D) as D1.
  destruct (K2 _ l1 NS F1 D1) as (l2 & F2 & S2). pose proof (see_definite _ _ S2 D1) as D2.
  rewrite <- I1, <- I2 in F2. unfold bind at 1 in E. rewrite (deflabel_refuses _ _ _ _ _ l2 F2 D2) in E.
  destruct (error _ s2) as [[?|?] ?] eqn:X; [elim (Eval.error_never _ _ _ _ _ X)|discriminate E].
Qed.

Lemma lookup_key : forall seg n s, lookup seg n s = option_map see (tfind (lkey seg n) s.(sy)).
Proof. reflexivity. Qed.
Lemma lookup_definite : forall seg n s v, lookup seg n s = Some v -> v_defined v = true -> v_fixed v = true ->
  exists l, tfind (lkey seg n) s.(sy) = Some l /\ definite l /\ see l = v.
Proof.
  intros seg n s v L D F. rewrite lookup_key in L. destruct (tfind _ _) as [l|]; [|discriminate L]. injection L as <-.
  exists l. cbn [see v_defined v_fixed] in *. split; [reflexivity|]. split; [split; [|exact F]|reflexivity].
  destruct (f_undef (l_flags l)); [discriminate D|reflexivity].
Qed.

Lemma address_kept : forall n s u s1, herelabel n s = (Ok u, s1) ->
  exists ty p, (ty = TAbs \/ ty = TRel) /\ lookup s.(inp).(segment) n s1 = Some (mkView ty (starvalue s) true true p) /\
  (forall m k li ex, lookup s.(inp).(segment) n (snd (run m k li ex s1)) = lookup s.(inp).(segment) n s1) /\
  (forall m, lookup s.(inp).(segment) n (snd (passloop m s1)) = lookup s.(inp).(segment) n s1).
Proof.
  intros n s u s1 H. destruct (herelabel_defines n s u s1 H) as (NS & l & F & D & V & T).
  exists (l_type l), (table_eqb (l_table l) TPseudos). split; [exact T|]. rewrite !lookup_key, F. cbn [option_map].
  assert (G : forall s2, keeps s1 s2 -> lookup s.(inp).(segment) n s2 = Some (see l)).
  { intros s2 K. destruct (K _ l NS F D) as (l' & F' & S' & _). rewrite lookup_key, F'. cbn [option_map]. congruence. }
  split; [|split; intros; apply G; [apply keeps_run|apply keeps_passloop]].
  destruct D as (U & R). unfold see. rewrite U, R, V. reflexivity.
Qed.

Lemma redefinition_refused : forall n s v, lookup s.(inp).(segment) n s = Some v -> v_defined v = true -> v_fixed v = true ->
  (forall f ty x, exists b, fst (deflabel n f ty x s) = Bad b) /\
  (exists b, fst (herelabel n s) = Bad b) /\
  (n <> s2l "*" -> forall oper, exists b, fst (Xequ n oper s) = Bad b) /\
  (forall f ty x seg m, m <> s2l "*" -> lookup seg m (snd (deflabel n f ty x s)) = lookup seg m s).
Proof.
  intros n s v L D F. destruct (lookup_definite _ _ _ _ L D F) as (l & Fl & Dl & _).
  split; [|split; [|split]].
  - intros f ty x. rewrite (deflabel_refuses _ _ _ _ _ l Fl Dl). apply error_bad.
  - eapply herelabel_refuses; eassumption.
  - intros N oper. eapply Xequ_refuses; try eassumption. intros E. apply N. eapply lkey_star. exact E.
  - intros f ty x seg m N. rewrite (deflabel_refuses _ _ _ _ _ l Fl Dl), !lookup_key, error_others; [reflexivity|].
    intros E. apply N. eapply lkey_star. exact E.
Qed.

Lemma history_lookup : forall es s m, Forall sane es -> 0 <= s.(inp).(segment) < 2 ^ 31 ->
  (forall seg n, 0 <= seg < 2 ^ 31 -> legal n -> m (ident_of seg n) = lookup seg n s) ->
  forall seg n, 0 <= seg < 2 ^ 31 -> legal n ->
  lookup seg n (history es s) = snd (story (a_relatif (fl s)) es (s.(inp).(segment), m)) (ident_of seg n).
Proof.
  intros es s m F B M seg n G N. apply lookup_map with (r := a_relatif (fl s)); try assumption.
  apply history_agrees; [exact F|]. apply agrees_any; [exact B|exact M].
Qed.
Lemma segments_fresh : forall s, s.(inp).(segment) <= s.(inp).(thiscall) ->
  (forall n k li ex, let s' := snd (run n k li ex s) in
     s.(inp).(thiscall) <= s'.(inp).(thiscall) /\ s'.(inp).(segment) <= s'.(inp).(thiscall) /\
     (s'.(inp).(segment) = s.(inp).(segment) \/ s.(inp).(thiscall) < s'.(inp).(segment))) /\
  (forall n, let s' := snd (passloop n s) in
     s.(inp).(thiscall) <= s'.(inp).(thiscall) /\ s'.(inp).(segment) <= s'.(inp).(thiscall) /\
     (s'.(inp).(segment) = s.(inp).(segment) \/ s.(inp).(thiscall) < s'.(inp).(segment))) /\
  s.(inp).(thiscall) < (snd (newsegment s)).(inp).(segment).
Proof.
  intros s B. split; [|split].
  - intros n k li ex. apply newer_run. exact B.
  - intros n. apply newer_passloop. exact B.
  - apply newsegment_fresh.
Qed.
Lemma keywords_last_definite : forall n o fs text,
  Forall (fun e => definite (snd e) /\ exists l, tfind (s2l (fst e)) (snd (assemble n o (init_state fs text))).(sy) = Some l /\
            is_still (snd e) l) pseudos.
Proof.
  intros n o fs text. pose proof (keywords_last n o fs text) as K. pose proof pseudos_definite as D.
  unfold keywords in K. rewrite Forall_forall in *. intros e I. split; [apply D; exact I|apply K; exact I].
Qed.
