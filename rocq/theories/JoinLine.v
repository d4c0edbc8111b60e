(** The INCLUDE line and the blank line.  Nothing here is part of the model. *)
From Coq Require Import String Ascii ZArith List Bool Lia ZifyBool ZifyNat.
From Verif Require Import Base BaseFacts State Tree TreeFacts Filter FilterFacts Output Label Operator Parse Scode Tables.
From Verif Require Import Cpu6800 Pseudos Macro Crasm.
From Verif Require Import SpecChoice SpecJoin Walk Frame Run CountFacts SplitFacts CallFacts ChoiceFacts KeepFacts.
From Verif Require JoinFacts JoinFeed.
Import ListNotations.
Open Scope Z_scope.

Notation blur := JoinFacts.blur.
Notation place_of := JoinFacts.place_of.
Notation rough := JoinFacts.rough.

(** ** What does not show *)
Definition bare (s : state) : state := JoinFacts.put [] (maineof (inp s)) (blur s).
Definition hidden : relation := fun d s s' =>
  match d with Fine => bare s' = bare s /\ place_of s' = place_of s | Failed => False | Dead => True end.
Lemma hidden_osteps : osteps hidden.
Proof.
  constructor; [constructor|..]; try (intros; exact Logic.I).
  - split; reflexivity.
  - intros d a b c H1 H2. destruct d; cbn in *; [|exact H2|exact Logic.I]. destruct H1, H2. split; congruence.
  - intros s v _. split; reflexivity.
  - intros s t _. split; reflexivity.
  - intros s v. split; reflexivity.
Qed.
Notation HO := hidden_osteps.
Notation HQ := (o_order _ hidden_osteps).
Lemma hidden_out : pres hidden unit outputline.
Proof. apply (pres_outputline _ HO). Qed.
Lemma hidden_when_out : forall b, pres hidden unit (when b outputline).
Proof. intros []; [apply hidden_out|apply (pres_ret _ HQ)]. Qed.

(** [m] ends well only where [Q] holds, and never with an error. *)
Definition ends {A} (m : M A) (s : state) (Q : A -> state -> Prop) : Prop :=
  match m s with (Ok a, s') => Q a s' | (Bad (Err _), _) => False | _ => True end.
Lemma ends_bind : forall A B (m : M A) (k : A -> M B) s Q, ends m s (fun a s' => ends (k a) s' Q) -> ends (bind m k) s Q.
Proof.
  intros A B m k s Q H. unfold ends, bind in *. destruct (m s) as [[a|b] s1]; [exact H|]. destruct b; auto.
Qed.
Lemma ends_hidden : forall A (m : M A) s (Q : A -> state -> Prop), pres hidden A m ->
  (forall a s', bare s' = bare s -> place_of s' = place_of s -> m s = (Ok a, s') -> Q a s') -> ends m s Q.
Proof.
  intros A m s Q H K. specialize (H s). unfold ends. destruct (m s) as [[a|b] s1]; cbn [fst snd how hidden] in H.
  - destruct H. apply K; auto.
  - destruct b; cbn in H; auto.
Qed.
Lemma ends_step : forall A (m : M A) s a s' (Q : A -> state -> Prop), m s = (Ok a, s') -> Q a s' -> ends m s Q.
Proof. intros A m s a s' Q E H. unfold ends. rewrite E. exact H. Qed.

Lemma tupd_same : forall k f t, (forall l, tfind k t = Some l -> f l = l) -> tupd k f t = t.
Proof.
  intros k f t. induction t as [|l IHl k' v r IHr]; intros H; [reflexivity|]. cbn [tupd tfind] in *.
  destruct (strcmp k k').
  - rewrite (H v eq_refl). reflexivity.
  - rewrite (IHl H). reflexivity.
  - rewrite (IHr H). reflexivity.
Qed.
Lemma star_still : forall s (Q : unit -> state -> Prop), advance (ct s) = 0 -> Q tt s -> ends star_advance s Q.
Proof.
  intros s Q A H. unfold ends, star_advance, bind. cbn [gets]. rewrite A. destruct (in_s64 _); [|exact Logic.I].
  unfold upd_sy, modify. rewrite tupd_same; [destruct s; exact H|]. intros l F. unfold starvalue, star. rewrite F, Z.add_0_r.
  destruct l; reflexivity.
Qed.
Lemma linestart_advance : forall s u s', linestart s = (Ok u, s') -> advance (ct s') = 0.
Proof.
  intros s u s' E. change (linestart (set_ct (set_advance 0 s.(ct)) s) = (Ok u, s')) in E.
  pose proof (quietly_linestart (set_ct (set_advance 0 s.(ct)) s)) as [_ N]. rewrite E in N. cbn [snd] in N.
  destruct N as (_ & _ & _ & _ & _ & _ & _ & (a & b & -> & Z) & _). cbn. destruct Z as [Z|Z]; rewrite Z; reflexivity.
Qed.

(** ** The blank line *)
Lemma strip_idle : forall s1 w, Forall SpecSplit.blank w -> s1.(inp).(curline) = w \/ (exists r, s1.(inp).(curline) = w ++ ";"%char :: r) ->
  room s1 s1.(inp).(curline) -> exists s2, stripline s1 = (Ok [], s2) /\ bare s2 = bare s1 /\ place_of s2 = place_of s1.
Proof.
  intros s1 w B C Rm. unfold stripline. unfold bind, gets. destruct C as [C|[r C]].
  - rewrite filter2_lacks; [|exact Rm|vm_compute; discriminate|].
    + unfold upd_inp, modify, ret. rewrite C.
      assert (T : trimblanks w = []).
      { unfold trimblanks. rewrite (proj2 (SplitFacts.all_blank (rev w))); [reflexivity|].
        apply Forall_forall. intros c Hc. rewrite Forall_forall in B. apply B. apply in_rev. exact Hc. }
      rewrite T. eexists. split; [reflexivity|]. split; reflexivity.
    + rewrite C. unfold lacks. cbn [s2l list_ascii_of_string existsb].
      assert (K : existsb (charmatch ";") w = false).
      { clear - B. induction B as [|c w Hc _ IH]; [reflexivity|]. cbn [existsb]. rewrite IH.
        destruct Hc as [-> | ->]; reflexivity. }
      rewrite K. reflexivity.
  - pose proof (comment_cut w r B) as K. rewrite <- C in K.
    unfold filter2, bind. rewrite (filterc_some s1 _ _ [[]; r]); [|exact Rm|vm_compute; discriminate|exact K].
    cbn [ret]. eexists. split; [reflexivity|]. split; reflexivity.
Qed.
Lemma line_idle : forall self n ex s s1 w, linestart s = (Ok tt, s1) -> Forall SpecSplit.blank w ->
  s.(inp).(curline) = w \/ (exists r, s.(inp).(curline) = w ++ ";"%char :: r) -> zlen s.(inp).(curline) <= 249 ->
  ends (asmline self n true ex) s (fun f s2 => f = FNone /\ bare s2 = bare s1 /\ place_of s2 = place_of s1).
Proof.
  intros self n ex s s1 w L B C Z. destruct (linestart_zero s tt s1 L) as [Z1 Z2]. rewrite <- Z2 in C, Z.
  unfold asmline. apply ends_bind. apply (ends_step _ _ _ _ _ _ L). apply ends_bind.
  eapply ends_step; [reflexivity|].
  assert (Rm : room s1 s1.(inp).(curline)) by (unfold room; rewrite Z1; unfold zlen in *; lia).
  destruct (strip_idle s1 w B C Rm) as (s2 & E & B2 & P2). apply ends_bind. apply (ends_step _ _ _ _ _ _ E).
  apply ends_bind. apply ends_hidden; [apply hidden_out|]. intros u s3 B3 P3 _.
  eapply ends_step; [reflexivity|]. split; [reflexivity|]. split; congruence.
Qed.

(** ** The INCLUDE line *)
Definition include_entry : entry := ps "INCLUDE" (mkLF false false false true true false false false) HInclude 0.
Lemma include_listed : In include_entry pseudos.
Proof. unfold pseudos. repeat first [solve [left; reflexivity] | right]. Qed.
Lemma include_found : forall s k, kept s -> map SpecSplit.upper k = list_ascii_of_string "INCLUDE" ->
  exists key l, findmnemo k s = (Ok (Some (key, l)), s) /\ standing (snd include_entry) l.
Proof.
  intros s k K U. destruct (K _ include_listed) as (l & F & S). exists (identifier "include"), l. split; [|exact S].
  destruct (standing_flags _ _ include_listed S) as (A1 & _ & _ & A4 & _).
  apply findmnemo_found; auto; [discriminate|vm_compute; lia].
Qed.
Lemma letter_free : forall k, map SpecSplit.upper k = list_ascii_of_string "INCLUDE" ->
  Forall (fun c => SpecSplit.upper c = "I"%char \/ SpecSplit.upper c = "N"%char \/ SpecSplit.upper c = "C"%char \/ SpecSplit.upper c = "L"%char \/
                   SpecSplit.upper c = "U"%char \/ SpecSplit.upper c = "D"%char \/ SpecSplit.upper c = "E"%char) k.
Proof.
  intros k U. apply Forall_forall. intros c H. apply (in_map SpecSplit.upper) in H. rewrite U in H. cbn in H. intuition.
Qed.
Lemma letter_class : forall c, SpecSplit.upper c = "I"%char \/ SpecSplit.upper c = "N"%char \/ SpecSplit.upper c = "C"%char \/ SpecSplit.upper c = "L"%char \/
                   SpecSplit.upper c = "U"%char \/ SpecSplit.upper c = "D"%char \/ SpecSplit.upper c = "E"%char ->
  charmatch " " c = false /\ charmatch ";" c = false /\ charmatch "=" c = false /\ isblank c = false /\ qstep q0 c = q0 /\ keepchar c = true.
Proof.
  assert (X : forallb (fun n => let c := ascii_of_nat n in
     if existsb (Ascii.eqb (SpecSplit.upper c)) (list_ascii_of_string "INCLUDE") then
       negb (charmatch " " c) && negb (charmatch ";" c) && negb (charmatch "=" c) && negb (isblank c) &&
       (qzero (qstep q0 c) && (q_depth (qstep q0 c) =? 0)) && keepchar c else true) (seq 0 256) = true) by (vm_compute; reflexivity).
  intros c H. rewrite forallb_forall in X. specialize (X (nat_of_ascii c)). cbv zeta in X. rewrite ascii_nat_embedding in X.
  assert (L : (nat_of_ascii c < 256)%nat) by apply nat_ascii_bounded.
  specialize (X (proj2 (in_seq _ _ _) (conj (Nat.le_0_l _) L))).
  assert (Y : existsb (Ascii.eqb (SpecSplit.upper c)) (list_ascii_of_string "INCLUDE") = true).
  { apply existsb_exists. cbn. exists (SpecSplit.upper c). rewrite Ascii.eqb_refl. intuition. }
  rewrite Y in X. repeat (apply andb_prop in X; destruct X as [X ?]).
  repeat match goal with H : negb _ = true |- _ => apply negb_true_iff in H end. repeat split; auto.
  match goal with H : qzero _ && _ = true |- _ => apply andb_prop in H; destruct H as [Q _] end.
  unfold qzero in Q. repeat (apply andb_prop in Q; destruct Q as [Q ?]). destruct (qstep q0 c) as [a b d e]. cbn in *. unfold q0.
  f_equal; [destruct a|destruct b|destruct d|lia]; try reflexivity; discriminate.
Qed.
Lemma cut_word : forall k w2 name last rem cap kont, Forall (fun c => charmatch " " c = false /\ qstep q0 c = q0) k -> Forall SpecSplit.blank w2 -> w2 <> [] ->
  SpecSplit.tight name -> last = false ->
  wildloop kont [" "; "_"]%char last rem (k ++ w2 ++ name) q0 cap =
    let r := kont q0 name in
    mkFR (match r.(fr_caps) with Some l => Some ((rev cap ++ k) :: l) | None => None end) (1 + zlen cap + zlen k + r.(fr_used)) r.(fr_rem).
Proof.
  intros k. induction k as [|c k IH]; intros w2 name last rem cap kont F B N T ->.
  - cbn [app]. destruct w2 as [|b w2]; [contradiction|]. inversion B as [|? ? Hb B']; subst. cbn [app wildloop mlit].
    assert (X : charmatch " " b = true) by (destruct Hb as [-> | ->]; reflexivity).
    change (zc " " =? 95) with false. change (qzero q0) with true. cbn [andb]. rewrite X. cbv iota.
    change (zc "_" =? 95) with true. cbv iota.
    rewrite (skipblanks_app w2 name B'), (skipblanks_tight name T). rewrite app_nil_r. cbv zeta. f_equal. unfold zlen; cbn [List.length]; lia.
  - inversion F as [|? ? [C Q] F']; subst. cbn [app wildloop mlit]. change (zc " " =? 95) with false. change (qzero q0) with true. cbn [andb].
    rewrite C. cbv iota. rewrite Q. rewrite IH; auto. cbv zeta. cbn [rev]. rewrite <- app_assoc. f_equal.
    unfold zlen. cbn [List.length]. lia.
Qed.
Lemma split_word : forall k w2 name, Forall (fun c => charmatch " " c = false /\ qstep q0 c = q0) k -> Forall SpecSplit.blank w2 -> w2 <> [] ->
  SpecSplit.tight name -> fr_caps (filter_pure (k ++ w2 ++ name) (s2l "? _?")) = Some [k; name].
Proof.
  intros k w2 name F B N T. unfold filter_pure.
  change (segments (s2l "? _?")) with (@nil ascii, [[" "; "_"]%char; []]).
  change (fr_caps (wildloop (fwild [[]]) [" "; "_"]%char false (zlen (k ++ w2 ++ name)) (k ++ w2 ++ name) q0 []) = Some [k; name]).
  rewrite cut_word; auto.
Qed.
Lemma blank_class : forall c, SpecSplit.blank c -> charmatch ";" c = false /\ charmatch "=" c = false /\ keepchar c = true /\ (zc c =? 10) = false.
Proof. intros c [-> | ->]; repeat split. Qed.
Lemma absent : forall f k w2 name, f = ";"%char \/ f = "="%char -> map SpecSplit.upper k = list_ascii_of_string "INCLUDE" ->
  Forall SpecSplit.blank w2 -> Forall (fun c => c <> ";"%char /\ c <> "="%char) name -> existsb (charmatch f) (k ++ w2 ++ name) = false.
Proof.
  intros f k w2 name Hf U B N. apply not_true_is_false. intros E. apply existsb_exists in E. destruct E as (c & Ic & M).
  apply in_app_or in Ic. destruct Ic as [Ic|Ic].
  - pose proof (letter_free k U) as L. rewrite Forall_forall in L. destruct (letter_class c (L c Ic)) as (_ & X1 & X2 & _).
    destruct Hf as [-> | ->]; congruence.
  - apply in_app_or in Ic. destruct Ic as [Ic|Ic].
    + rewrite Forall_forall in B. destruct (blank_class c (B c Ic)) as (X1 & X2 & _). destruct Hf as [-> | ->]; congruence.
    + rewrite Forall_forall in N. destruct (N c Ic) as [N1 N2]. rewrite charmatch_sep in M by (destruct Hf as [-> | ->]; reflexivity).
      apply Ascii.eqb_eq in M. destruct Hf as [-> | ->]; congruence.
Qed.
Lemma lacks_one : forall t pat f, In f (s2l pat) -> (zc f =? 63) = false -> (zc f =? 95) = false -> existsb (charmatch f) t = false -> lacks t (s2l pat) = true.
Proof.
  intros t pat f I A B E. unfold lacks. apply existsb_exists. exists f. split; [exact I|]. rewrite A, B, E. reflexivity.
Qed.
Lemma tight_app : forall a b, a <> [] -> SpecSplit.tight a -> SpecSplit.tight (a ++ b).
Proof. intros [|c a] b N T; [contradiction|exact T]. Qed.
Lemma ends_eq : forall A (m m' : M A) s s' Q, m s = m' s' -> ends m' s' Q -> ends m s Q.
Proof. intros A m m' s s' Q E H. unfold ends in *. rewrite E. exact H. Qed.
Lemma split_include : forall s k w2 name, kept s -> room s (k ++ w2 ++ name) ->
  map SpecSplit.upper k = list_ascii_of_string "INCLUDE" -> Forall SpecSplit.blank w2 -> w2 <> [] ->
  name <> [] -> SpecSplit.tight name -> Forall (fun c => c <> ";"%char /\ c <> "="%char) name ->
  exists key l b, standing (snd include_entry) l /\
    splitline (k ++ w2 ++ name) s = (Ok (mkFields (Some (key, l)) None k (Some name)), set_ct (set_bufferpos b s.(ct)) s).
Proof.
  intros s k w2 name K R U B N Nn T Sp.
  assert (Fk : Forall (fun c => charmatch " " c = false /\ qstep q0 c = q0) k).
  { eapply Forall_impl; [|exact (letter_free k U)]. intros c H. destruct (letter_class c H) as (A1 & _ & _ & _ & A5 & _). auto. }
  pose proof (split_word k w2 name Fk B N T) as W.
  set (t := k ++ w2 ++ name) in *.
  set (b := bufferpos (ct s) + fr_used (filter_pure t (s2l "? _?"))).
  destruct (include_found (set_ct (set_bufferpos b s.(ct)) s) k K U) as (key & l & F & S).
  exists key, l, b. split; [exact S|]. unfold splitline, bind at 1.
  rewrite (filter2_lacks s t "?_=_?" R); [|vm_compute; discriminate|].
  2:{ apply (lacks_one t _ "="%char); [vm_compute; tauto|reflexivity|reflexivity|]. apply absent; auto. }
  unfold splitrest, splitmnemo, bind at 1. unfold bind at 1. unfold filter2, bind at 1.
  rewrite (filterc_some s t _ [k; name] R); [|vm_compute; discriminate|exact W]. fold b.
  assert (exists c k', k = c :: k') as (c & k' & Ek) by (destruct k; [discriminate U|eauto]).
  assert (exists d n', name = d :: n') as (d & n' & En) by (destruct name; [contradiction|eauto]).
  rewrite Ek, En. cbn [ret]. cbv iota beta. rewrite <- Ek, <- En. unfold bind at 1. rewrite F. cbn [ret]. reflexivity.
Qed.
Lemma line_include : forall self n s s1 L name F, linestart s = (Ok tt, s1) -> include_line L name -> s.(inp).(curline) = L ->
  zlen L <= 249 -> s.(files) name = Some F -> kept s ->
  ends (asmline self n true true) s (fun f s2 => f = FNone /\ bare s2 = bare s1 /\
    place_of s2 = (SFile false F false false (cz 0) 0 :: map rough (srcs (inp s1)), mainrest (inp s1), maineof (inp s1))).
Proof.
  intros self n s s1 L name F Ls (w1 & k & w2 & EL & B1 & U & B2 & N2 & Nn & T & Tr & P & Sp) C Z Fi K.
  destruct (linestart_zero s tt s1 Ls) as [Z1 Z2]. pose proof (linestart_advance _ _ _ Ls) as Ad.
  pose proof (quietly_linestart s) as [_ Ne]. rewrite Ls in Ne. cbn [snd] in Ne.
  destruct Ne as (N1' & _ & _ & N4' & _). assert (K1 : kept s1) by (unfold kept; rewrite N1'; exact K).
  rewrite <- N4' in Fi. rewrite C in Z2. clear K C N1' N4'.
  assert (Nk : k <> []) by (intros ->; discriminate U).
  assert (Tk : SpecSplit.tight k).
  { destruct k as [|c k]; [exact Logic.I|]. pose proof (letter_free _ U) as X. inversion X as [|? ? X1 _]; subst.
    destruct (letter_class c X1) as (_ & _ & _ & X4 & _). intros Y. apply blank_isblank in Y. congruence. }
  unfold asmline. apply ends_bind. apply (ends_step _ _ _ _ _ _ Ls). apply ends_bind. eapply ends_step; [reflexivity|].
  set (s2 := set_inp (set_curline L (inp s1)) s1).
  assert (E2 : stripline s1 = (Ok (k ++ w2 ++ name), s2)).
  { unfold stripline, bind at 1. cbn [gets]. rewrite Z2. unfold bind at 1.
    rewrite filter2_lacks; [|unfold room; rewrite Z1; unfold zlen in *; lia|vm_compute; discriminate|].
    2:{ apply (lacks_one L _ ";"%char); [vm_compute; tauto|reflexivity|reflexivity|].
        rewrite EL, existsb_app. rewrite (absent ";"%char k w2 name) by auto. rewrite orb_false_r.
        apply not_true_is_false. intros E. apply existsb_exists in E. destruct E as (c & Ic & M).
        rewrite Forall_forall in B1. destruct (blank_class c (B1 c Ic)) as (X1 & _). congruence. }
    assert (Tl : trimblanks L = L).
    { unfold trimblanks. rewrite skipblanks_tight; [apply rev_involutive|]. rewrite EL, !rev_app_distr, <- !app_assoc.
      apply tight_app; [|exact Tr]. intros X. apply Nn. rewrite <- (rev_involutive name), X. reflexivity. }
    rewrite Tl. unfold bind, upd_inp, modify. cbn [ret]. fold s2. rewrite EL at 1.
    rewrite (skipblanks_app w1 _ B1), skipblanks_tight; [reflexivity|]. apply tight_app; assumption. }
  apply ends_bind. apply (ends_step _ _ _ _ _ _ E2).
  assert (R2 : room s2 (k ++ w2 ++ name)).
  { unfold room. change (bufferpos (ct s2)) with (bufferpos (ct s1)). rewrite Z1. rewrite EL in Z. unfold zlen in *. rewrite app_length in Z. lia. }
  destruct (split_include s2 k w2 name K1 R2 U B2 N2 Nn T Sp) as (key & l & b & St & E3).
  assert (exists c k', k ++ w2 ++ name = c :: k') as (c & k' & Ek) by (destruct k; [contradiction|cbn [app]; eauto]).
  rewrite Ek. rewrite Ek in E3. cbv iota. apply ends_bind. apply (ends_step _ _ _ _ _ _ E3). cbn [q_mnemo q_label q_oper].
  set (s3 := set_ct _ s2). destruct St as [us El].
  unfold dispatch. rewrite El. cbn [set_l_flags l_flags snd include_entry ps set_f_used f_nolabel f_deflabel f_defcond f_defmacro l_type l_ptr l_modifier ogiven andb orb when].
  apply ends_bind. eapply ends_step; [reflexivity|]. apply ends_bind. eapply ends_step; [reflexivity|].
  apply ends_bind. cbn [exec]. unfold Xinclude. apply ends_bind. eapply ends_step; [reflexivity|].
  change (files s3) with (files s1). rewrite Fi.
  assert (A3 : advance (ct s3) = 0) by exact Ad.
  assert (Q3 : bare s3 = bare s1 /\ place_of s3 = place_of s1) by (split; reflexivity). clearbody s3. destruct Q3 as [Q3 Q4].
  generalize (a_list_on (fl s3)) (lineprefix (inp s3)) (linenumber (inp s3)). intros lo lp ln.
  apply ends_bind. apply ends_hidden.
  { unfold checkdepth. apply (pres_bind _ HQ); [apply (pres_gets _ HQ)|intros x]. unfold when. destruct (_ <=? _); [|apply (pres_ret _ HQ)].
    intros s'. exact Logic.I. }
  intros u1 s4 Q5 Q6 _. assert (A4 : advance (ct s4) = 0) by (rewrite <- A3; exact (f_equal (fun x => advance (ct x)) Q5)).
  apply ends_bind. apply ends_hidden; [apply hidden_when_out|]. intros u2 s5 Q7 Q8 _.
  assert (A5 : advance (ct s5) = 0) by (rewrite <- A4; exact (f_equal (fun x => advance (ct x)) Q7)).
  apply ends_bind. eapply ends_step; [reflexivity|]. set (s6 := set_inp _ s5).
  assert (Q9 : bare s6 = bare s1) by (change (bare s6) with (bare s5); congruence).
  assert (Q10 : place_of s6 = (SFile false F false false (cz 0) 0 :: map rough (srcs (inp s1)), mainrest (inp s1), maineof (inp s1))).
  { assert (X : place_of s5 = place_of s1) by congruence. injection X as X1 X2 X3. 
    change (place_of s6) with (SFile false F false false (cz 0) 0 :: map rough (srcs (inp s5)), mainrest (inp s5), maineof (inp s5)). rewrite X1, X2, X3. reflexivity. }
  assert (A6 : advance (ct s6) = 0) by exact A5. clearbody s6.
  apply ends_bind. eapply ends_step; [reflexivity|].
  eapply ends_hidden.
  { unfold when. destruct (negb _); [intros s'; split; reflexivity|apply (pres_ret _ HQ)]. }
  intros u3 s7 Q11 Q12 _. assert (A7 : advance (ct s7) = 0) by (rewrite <- A6; exact (f_equal (fun x => advance (ct x)) Q11)).
  apply ends_bind. apply star_still; [exact A7|]. apply ends_bind. apply ends_hidden; [apply hidden_out|]. intros u4 s8 Q13 Q14 _.
  eapply ends_step; [reflexivity|]. split; [reflexivity|]. split; congruence.
Qed.
