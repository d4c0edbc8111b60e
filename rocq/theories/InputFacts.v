(** Command line, lines of files, lines of macros. *)
From Coq Require Import String Ascii ZArith List Bool Lia ZifyBool ZifyNat.
From Verif Require Import Base BaseFacts State Tree Filter Output Label Scode Pseudos Macro Crasm.
From Verif Require Import Walk TreeFacts LineFacts Frame Run SpecInput.
Import ListNotations.
Open Scope Z_scope.
Ltac Zify.zify_post_hook ::= Z.div_mod_to_equations.

(** ** Command line *)
Definition is_s (f : switch) : bool := match f with NoWarnings => true | _ => false end.
Definition is_l (f : switch) : bool := match f with NoListing => true | _ => false end.
Definition is_x (f : switch) : bool := match f with Symbols => true | _ => false end.

Definition switched (fs : list switch) (o : options) : options :=
  mkOpt o.(o_scode) (o.(o_list) && negb (existsb is_l fs)) (o.(o_warn) && negb (existsb is_s fs))
        (o.(o_xref) || existsb is_x fs) o.(o_input).

Lemma switched_cons : forall f fs o, switched (f :: fs) o = switched fs (switched [f] o).
Proof.
  intros f fs [a b c d e]. unfold switched. cbn [o_scode o_list o_warn o_xref o_input existsb].
  destruct f, b, c, d; reflexivity.
Qed.

Lemma switched_nil : forall o, switched [] o = o.
Proof. intros [a b c d e]. unfold switched. cbn. destruct b, c, d; reflexivity. Qed.

Lemma cluster_switches : forall fs r next o,
  cluster (map letter fs ++ r) next o = cluster r next (switched fs o).
Proof.
  induction fs as [|f fs IH]; intros r next o; cbn [map app]; [rewrite switched_nil; reflexivity|].
  rewrite switched_cons, <- IH. destruct o as [a b c d e]. destruct f; cbn [letter cluster];
    [change (zc "s" =? 115) with true|change (zc "l" =? 115) with false; change (zc "l" =? 108) with true
    |change (zc "x" =? 115) with false; change (zc "x" =? 108) with false; change (zc "x" =? 120) with true];
    cbv iota; unfold switched; cbn; destruct b, c, d; reflexivity.
Qed.

Definition with_input (l : list text) (o : options) : options :=
  match l with n :: _ => mkOpt o.(o_scode) o.(o_list) o.(o_warn) o.(o_xref) (Some n) | [] => o end.
Definition with_output (l : list text) (o : options) : options :=
  match l with n :: _ => mkOpt (Some n) o.(o_list) o.(o_warn) o.(o_xref) o.(o_input) | [] => o end.

Definition step1 (a : argument) (o : options) : options :=
  with_input (inputs a) (with_output (outputs a) (switched (switches a) o)).
Definition count {A} (x : option A) : nat := match x with Some _ => 1 | None => 0 end%nat.

Lemma arguments_one : forall a rest o, named a ->
  (count o.(o_scode) + List.length (outputs a) <= 1)%nat ->
  (count o.(o_input) + List.length (inputs a) <= 1)%nat ->
  arguments (written a ++ rest) o = arguments rest (step1 a o).
Proof.
  intros [fs|fs n|n] rest o N O I; cbn [written app]; unfold step1; cbn [inputs outputs switches with_input with_output] in *.
  - cbn [arguments]. change (zc "-" =? 45) with true. cbv iota.
    pose proof (cluster_switches fs []) as C. rewrite app_nil_r in C. destruct rest as [|r rest]; rewrite C; reflexivity.
  - cbn [arguments]. change (zc "-" =? 45) with true. cbv iota. rewrite cluster_switches.
    destruct o as [[x|] b c d e]; cbn [o_scode count List.length] in O; [lia|]. reflexivity.
  - rewrite switched_nil. destruct o as [a b c d [e|]]; cbn [o_input count List.length] in I; [lia|].
    destruct n as [|x n]; cbn [arguments o_input]; [reflexivity|].
    destruct (zc x =? 45) eqn:E; [|reflexivity]. exfalso.
    assert (x = "-"%char) by (apply zc_inj; change (zc "-") with 45; lia). subst. exact N.
Qed.

Definition given (l : list argument) (o : options) : options :=
  with_input (all_inputs l) (with_output (all_outputs l) (switched (all_switches l) o)).

Lemma switched_app : forall a b o, switched b (switched a o) = switched (a ++ b) o.
Proof.
  intros a b [x l w y z]. unfold switched. cbn [o_scode o_list o_warn o_xref o_input].
  rewrite !existsb_app. destruct l, w, y; cbn; destruct (existsb is_l a), (existsb is_s a), (existsb is_x a); reflexivity.
Qed.

Lemma given_cons : forall a l o,
  (count o.(o_scode) + List.length (all_outputs (a :: l)) <= 1)%nat ->
  (count o.(o_input) + List.length (all_inputs (a :: l)) <= 1)%nat ->
  given (a :: l) o = given l (step1 a o).
Proof.
  intros a l o. unfold given, all_switches, all_inputs, all_outputs. cbn [flat_map].
  fold (all_switches l). fold (all_inputs l). fold (all_outputs l). rewrite <- switched_app.
  destruct a as [fs|fs n|n]; cbn [switches inputs outputs app List.length]; unfold step1;
    cbn [switches inputs outputs with_input with_output]; intros O I.
  - reflexivity.
  - destruct (all_outputs l) as [|x t] eqn:E; cbn [List.length] in O; [|lia].
    cbn [with_output]. unfold switched. reflexivity.
  - destruct (all_inputs l) as [|x t] eqn:E; cbn [List.length] in I; [|lia].
    rewrite switched_nil. cbn [with_input]. destruct (all_outputs l); reflexivity.
Qed.

Lemma arguments_items : forall l rest o, Forall named l ->
  (count o.(o_scode) + List.length (all_outputs l) <= 1)%nat ->
  (count o.(o_input) + List.length (all_inputs l) <= 1)%nat ->
  arguments (command l ++ rest) o = arguments rest (given l o).
Proof.
  induction l as [|a l IH]; intros rest o N O I.
  - unfold given. cbn. rewrite switched_nil. reflexivity.
  - rewrite given_cons by assumption. unfold command. cbn [flat_map]. fold (command l). rewrite <- app_assoc.
    inversion N as [|? ? N1 N2]; subst. unfold all_outputs, all_inputs in O, I. cbn [flat_map] in O, I.
    fold (all_outputs l) in O. fold (all_inputs l) in I. rewrite app_length in O, I.
    rewrite arguments_one; [|exact N1|lia|lia].
    apply IH; [exact N2| |].
    + assert (K : count (o_scode (step1 a o)) = (count (o_scode o) + List.length (outputs a))%nat); [|lia].
      destruct a as [fs|fs n|n]; cbn [outputs List.length step1] in *; unfold step1; cbn [inputs outputs switches with_input with_output switched o_scode]; try lia.
      cbn [count]. lia.
    + assert (K : count (o_input (step1 a o)) = (count (o_input o) + List.length (inputs a))%nat); [|lia].
      destruct a as [fs|fs n|n]; cbn [inputs List.length step1] in *; unfold step1; cbn [inputs outputs switches with_input with_output switched o_input]; try lia.
      cbn [count]. lia.
Qed.

Theorem program_runs : forall n fs l name, Forall named l -> all_inputs l = [name] ->
  (List.length (all_outputs l) <= 1)%nat ->
  program n fs (command l) =
  match fs name with
  | None => Seen (s2l "FATAL ERROR: can't open source file" ++ [nl]) 10 Untouched
  | Some t =>
      observe n (mkOpt (hd_error (all_outputs l)) (negb (existsb is_l (all_switches l)))
                       (negb (existsb is_s (all_switches l))) (existsb is_x (all_switches l)) (Some name))
        (init_state fs t)
  end.
Proof.
  intros n fs l name N I O. unfold program.
  pose proof (arguments_items l [] opt0 N) as A. rewrite app_nil_r in A. rewrite A; [|cbn; lia|rewrite I; cbn; lia].
  cbn [arguments].
  unfold lastarg, given. rewrite I. cbn [with_input o_input].
  destruct (all_outputs l); reflexivity.
Qed.

Theorem program_noinput : forall n fs l, Forall named l -> all_inputs l = [] ->
  (List.length (all_outputs l) <= 1)%nat ->
  program n fs (command l) = Seen (usage "No input!") 10 Untouched.
Proof.
  intros n fs l N I O. unfold program.
  pose proof (arguments_items l [] opt0 N) as A. rewrite app_nil_r in A. rewrite A; [|cbn; lia|rewrite I; cbn; lia].
  cbn [arguments].
  unfold lastarg, given. rewrite I. cbn [with_input]. destruct (all_outputs l); reflexivity.
Qed.

Lemma inputs_split : forall l, (2 <= List.length (all_inputs l))%nat ->
  exists a x b, l = a ++ Input x :: b /\ List.length (all_inputs a) = 1%nat.
Proof.
  induction l as [|[fs|fs m|m] l IH]; intros H; [cbn in H; lia|..];
    unfold all_inputs in H; cbn [flat_map inputs app List.length] in H; fold (all_inputs l) in H.
  - destruct (IH H) as (a & x & b & -> & E). exists (Switches fs :: a), x, b. split; [reflexivity|exact E].
  - destruct (IH H) as (a & x & b & -> & E). exists (Output fs m :: a), x, b. split; [reflexivity|exact E].
  - destruct (all_inputs l) as [|y t] eqn:K; [cbn in H; lia|]. clear H IH.
    assert (exists a x b, l = a ++ Input x :: b /\ all_inputs a = []) as (a & x & b & -> & E).
    { clear - K. revert y t K. induction l as [|[fs|fs m|m] l IH]; intros y t K; [discriminate K|..];
        unfold all_inputs in K; cbn [flat_map inputs app] in K; fold (all_inputs l) in K.
      - destruct (IH _ _ K) as (a & x & b & -> & E). exists (Switches fs :: a), x, b. split; [reflexivity|exact E].
      - destruct (IH _ _ K) as (a & x & b & -> & E). exists (Output fs m :: a), x, b. split; [reflexivity|exact E].
      - exists [], m, l. split; reflexivity. }
    exists (Input m :: a), x, b. split; [reflexivity|]. unfold all_inputs. cbn. fold (all_inputs a). rewrite E. reflexivity.
Qed.

Lemma all_app : forall A (f : argument -> list A) a b, flat_map f (a ++ b) = flat_map f a ++ flat_map f b.
Proof. intros A f a b. induction a as [|x a IH]; cbn; [reflexivity|]. rewrite IH, app_assoc. reflexivity. Qed.

Theorem program_twoinputs : forall n fs l, Forall named l -> (2 <= List.length (all_inputs l))%nat ->
  (List.length (all_outputs l) <= 1)%nat ->
  program n fs (command l) = Seen (usage "One input only") 10 Untouched.
Proof.
  intros n fs l N I O. destruct (inputs_split l I) as (a & x & b & -> & E).
  unfold all_outputs in O. rewrite all_app, app_length in O. fold (all_outputs a) in O.
  apply Forall_app in N. destruct N as [Na Nb]. inversion Nb as [|? ? Nx _]; subst.
  unfold program, command. rewrite all_app. cbn [flat_map written app]. fold (command a).
  rewrite arguments_items; [|exact Na|cbn; lia|cbn; lia]. unfold given.
  destruct (all_inputs a) as [|y [|z t]] eqn:K; cbn in E; try lia. cbn [with_input].
  destruct x as [|c x]; cbn [arguments o_input]; [reflexivity|].
  destruct (zc c =? 45) eqn:D; [|reflexivity]. exfalso.
  assert (c = "-"%char) by (apply zc_inj; change (zc "-") with 45; lia). subst. exact Nx.
Qed.

Theorem program_badletter : forall n fs l sw c t rest, Forall named l ->
  (List.length (all_inputs l) <= 1)%nat -> (List.length (all_outputs l) <= 1)%nat ->
  ~ In c (s2l "slxo") ->
  program n fs (command l ++ ("-"%char :: map letter sw ++ c :: t) :: rest) = Seen (usage "Bad Option(s)") 10 Untouched.
Proof.
  intros n fs l sw c t rest N I O B. unfold program.
  rewrite arguments_items; [|exact N|cbn; lia|cbn; lia]. cbn [arguments].
  change (zc "-" =? 45) with true. cbv iota.
  assert (K : forall k, In (cz k) (s2l "slxo") -> 0 <= k < 256 -> (zc c =? k) = false).
  { intros k J R. apply Z.eqb_neq. intros E. apply B. replace c with (cz k); [exact J|].
    apply zc_inj. rewrite zc_cz_small by lia. lia. }
  assert (C : forall next o, cluster (map letter sw ++ c :: t) next o = None).
  { intros next o. rewrite cluster_switches. cbn [cluster].
    rewrite (K 115), (K 108), (K 120), (K 111); try lia; try reflexivity; vm_compute; tauto. }
  destruct rest; rewrite C; reflexivity.
Qed.

(** ** Reading lines *)
Lemma fgets_spec : forall n s t r e, fgets n s = (t, r, e) ->
  s = t ++ r /\
  (if e then r = [] /\ ~ In newline t /\ (List.length t < n)%nat
   else (exists l, t = l ++ [newline] /\ ~ In newline l /\ (List.length t <= n)%nat) \/
        (~ In newline t /\ List.length t = n)).
Proof.
  induction n as [|n IH]; intros s t r e E; cbn [fgets] in E.
  - injection E as <- <- <-. split; [reflexivity|]. right. split; [intros []|reflexivity].
  - destruct s as [|c s]; [injection E as <- <- <-; split; [reflexivity|]; cbn; repeat split; [auto|lia]|].
    destruct (zc c =? 10) eqn:C.
    + injection E as <- <- <-. split; [reflexivity|]. left. exists []. cbn.
      assert (c = newline) by (apply zc_inj; change (zc newline) with 10; lia). subst. repeat split; [intros []|lia].
    + destruct (fgets n s) as [[t' r'] e'] eqn:F. injection E as <- <- <-. apply IH in F. destruct F as [-> F].
      split; [reflexivity|].
      assert (D : c <> newline) by (intros ->; discriminate C).
      destruct e'.
      * destruct F as (-> & N & L). repeat split; [intros [K|K]; [apply D, K|apply N, K]|cbn; lia].
      * destruct F as [(l & -> & N & L)|[N L]].
        -- left. exists (c :: l). repeat split; [intros [K|K]; [apply D, K|apply N, K]|cbn in *; lia].
        -- right. split; [intros [K|K]; [apply D, K|apply N, K]|cbn; lia].
Qed.

Lemma kept_keepchar : forall c, keepchar c = kept c.
Proof. intros [[] [] [] [] [] [] [] []]; reflexivity. Qed.

Lemma filter_uptonl : forall l, ~ In nul l -> ~ In newline l ->
  List.filter keepchar (uptonl l) = visible l /\ List.filter keepchar (uptonl (l ++ [newline])) = visible (l ++ [newline]).
Proof.
  induction l as [|c l IH]; intros A B; [split; reflexivity|].
  cbn [app uptonl visible List.filter]. destruct (zc c =? 0) eqn:E.
  { elim A. left. symmetry. apply zc_inj. change (zc nul) with 0. lia. }
  destruct (zc c =? 10) eqn:F.
  { elim B. left. symmetry. apply zc_inj. change (zc newline) with 10. lia. }
  cbn [orb List.filter]. rewrite kept_keepchar.
  destruct IH as [I1 I2]; [intros K; apply A; right; exact K|intros K; apply B; right; exact K|].
  unfold visible in *. rewrite I1, I2. split; reflexivity.
Qed.

Lemma outputraw_total : forall t s, exists s', outputraw t s = (Ok tt, s').
Proof.
  intros t s. unfold outputraw. unfold bind at 1. cbn [gets].
  destruct (a_list_on (fl s)); [|eexists; reflexivity].
  destruct (ppos (ls s) =? 0); unfold bind, print, upd_ls, gets, ret; unfold modify; cbv beta iota;
    match goal with |- context [if ?b then _ else _] => destruct b end; eexists; reflexivity.
Qed.

Lemma warning_total : forall m s, exists s', warning m s = (Ok tt, s').
Proof.
  intros m s. unfold warning. unfold bind at 1. cbn [gets].
  destruct (negb (a_nowarning (fl s))); [apply outputraw_total|eexists; reflexivity].
Qed.

(** The listing leaves everything else alone. *)
Definition listed (s s' : state) : Prop :=
  s'.(fl) = s.(fl) /\ s'.(wr) = s.(wr) /\ s'.(sy) = s.(sy) /\ s'.(inp) = s.(inp) /\
  s'.(ct) = set_bufferpos s'.(ct).(bufferpos) s.(ct) /\ s'.(cp) = s.(cp) /\ s'.(files) = s.(files) /\
  s'.(maintext) = s.(maintext) /\ s'.(emitted) = s.(emitted) /\ s'.(reported) = s.(reported).

Lemma listed_refl : forall s, listed s s.
Proof. intros s. unfold listed. destruct s as [? ? ? ? ? [] ? ? ? ? ?]. repeat split. Qed.
Lemma listed_trans : forall a b c, listed a b -> listed b c -> listed a c.
Proof.
  unfold listed. intros a b c (A1 & A2 & A3 & A4 & A5 & A6 & A7 & A8 & A9 & A0)
    (B1 & B2 & B3 & B4 & B5 & B6 & B7 & B8 & B9 & B0).
  repeat split; try congruence. rewrite B5. cbn [set_bufferpos bufferpos]. rewrite A5. reflexivity.
Qed.

Lemma listed_osteps : osteps (always listed).
Proof.
  constructor; unfold always.
  - constructor; unfold always.
    + apply listed_refl.
    + intros a b H. exact H.
    + intros d a b c. apply listed_trans.
  - intros s v _. unfold listed. destruct s as [? ? ? ? ? [] ? ? ? ? ?]. repeat split.
  - intros s v _. unfold listed. destruct s as [? ? ? ? ? [] ? ? ? ? ?]. repeat split.
  - intros s v. unfold listed. destruct s as [? ? ? ? ? [] ? ? ? ? ?]. repeat split.
  - intros s v. unfold listed. destruct s as [? ? ? ? ? [] ? ? ? ? ?]. repeat split.
Qed.

Lemma readline_spec : forall rest s t r e, fgets 249 rest = (t, r, e) ->
  exists s1 s', listed s s1 /\ readline rest s = (Ok (r, e), s') /\
    s' = set_inp (set_linenumber (s.(inp).(linenumber) + 1)
                    (set_curline (List.filter keepchar (uptonl t)) s.(inp))) s1.
Proof.
  intros rest s t r e E. unfold readline. rewrite E. cbv beta iota.
  destruct (negb _); cbn [when]; unfold bind.
  - destruct (warning_total "Unprintable characters removed" s) as [s1 W]. rewrite W.
    pose proof (pres_warning _ listed_osteps "Unprintable characters removed" s) as L. rewrite W in L. unfold always in L. cbn [snd] in L.
    exists s1. eexists. split; [exact L|]. split; [reflexivity|].
    destruct L as (_ & _ & _ & I & _). rewrite <- I. reflexivity.
  - exists s. eexists. split; [apply listed_refl|]. split; reflexivity.
Qed.

(** What one call reads. *)
Definition piece_read (text p rest : SpecInput.text) (ended : bool) : Prop :=
  text = p ++ rest /\ if ended then tail p /\ rest = [] else whole p \/ part p.

Lemma fgets_piece : forall s t r e, fgets 249 s = (t, r, e) -> ~ In nul s ->
  piece_read s t r e /\ List.filter keepchar (uptonl t) = visible t.
Proof.
  intros s t r e E N. apply fgets_spec in E. destruct E as [-> E]. split.
  - split; [reflexivity|]. destruct e.
    + destruct E as (A & B & C). split; [split; assumption|exact A].
    + exact E.
  - assert (Nt : ~ In nul t) by (intros K; apply N, in_or_app; left; exact K). destruct e.
    + destruct E as (A & B & C). apply filter_uptonl; assumption.
    + destruct E as [(l & -> & B & C)|[B C]].
      * apply filter_uptonl; [|exact B]. intros K. apply Nt, in_or_app. left. exact K.
      * apply filter_uptonl; assumption.
Qed.

Theorem linegets_main : forall s, s.(inp).(srcs) = [] -> ~ In nul s.(inp).(mainrest) ->
  exists p rest ended s1, piece_read s.(inp).(mainrest) p rest ended /\ listed s s1 /\
    linegets s = (Ok tt, set_inp
      (set_mainrest rest (set_maineof ended (set_linenumber (s.(inp).(linenumber) + 1)
         (set_curline (visible p) s.(inp))))) s1).
Proof.
  intros s S N. destruct (fgets 249 s.(inp).(mainrest)) as [[t r] e] eqn:E.
  destruct (fgets_piece _ _ _ _ E N) as [P V].
  destruct (readline_spec _ s _ _ _ E) as (s1 & s' & L & R & Q).
  exists t, r, e, s1. split; [exact P|]. split; [exact L|].
  unfold linegets. unfold bind, gets. rewrite S. cbn [popended ret]. rewrite S, R. rewrite <- V, Q. reflexivity.
Qed.

Theorem linegets_file : forall s rest e0 ol op on l, s.(inp).(srcs) = SFile false rest e0 ol op on :: l ->
  ~ In nul rest ->
  exists p rest' ended s1, piece_read rest p rest' ended /\ listed s s1 /\
    linegets s = (Ok tt, set_inp
      (set_srcs (SFile ended rest' ended ol op on :: l) (set_linenumber (s.(inp).(linenumber) + 1)
         (set_curline (visible p) s.(inp)))) s1).
Proof.
  intros s rest e0 ol op on l S N. destruct (fgets 249 rest) as [[t r] e] eqn:E.
  destruct (fgets_piece _ _ _ _ E N) as [P V].
  destruct (readline_spec _ s _ _ _ E) as (s1 & s' & L & R & Q).
  exists t, r, e, s1. split; [exact P|]. split; [exact L|].
  unfold linegets. unfold bind, gets. rewrite S. cbn [popended ret]. rewrite S, R. rewrite <- V, Q. reflexivity.
Qed.

(** All lines of the main file. *)
Inductive reads : state -> list SpecInput.text -> Prop :=
| rd_last : forall s s', linegets s = (Ok tt, s') -> s'.(inp).(maineof) = true -> reads s [s'.(inp).(curline)]
| rd_more : forall s s' l, linegets s = (Ok tt, s') -> s'.(inp).(maineof) = false -> reads s' l ->
    reads s (s'.(inp).(curline) :: l).

Theorem reads_file : forall s, s.(inp).(srcs) = [] -> ~ In nul s.(inp).(mainrest) ->
  exists ps, pieces_of s.(inp).(mainrest) ps /\ reads s (map visible ps).
Proof.
  intros s. remember (List.length s.(inp).(mainrest)) as n eqn:E. revert s E.
  induction n as [n IH] using lt_wf_ind. intros s E S N.
  destruct (linegets_main s S N) as (p & rest & e & s1 & [P Q] & L & R). destruct e.
  - destruct Q as [T ->]. rewrite app_nil_r in P. exists [p]. split; [rewrite P; apply po_end; exact T|].
    pose proof (rd_last s _ R eq_refl) as D. exact D.
  - set (s' := set_inp _ s1) in R.
    assert (H : (List.length rest < n)%nat).
    { rewrite E, P, app_length. destruct Q as [(l & -> & _)|[_ Q]]; [rewrite app_length; cbn; lia|lia]. }
    destruct (IH _ H s') as (ps & A & B); [reflexivity|exact S| |].
    { intros K. apply N. rewrite P. apply in_or_app. right. exact K. }
    exists (p :: ps). split; [rewrite P; apply po_more; [exact Q|exact A]|].
    cbn [map]. exact (rd_more s s' _ R eq_refl B).
Qed.

Lemma pieces_concat : forall t ps, pieces_of t ps -> List.concat ps = t.
Proof. intros t ps P. induction P; cbn; [apply app_nil_r|]. rewrite IHP. reflexivity. Qed.

(** ** Macro lines *)
Lemma zc_digit : forall i, (i <= 9)%nat -> zc (digit i) = 48 + Z.of_nat i.
Proof. intros i H. do 10 (destruct i as [|i]; [reflexivity|]). lia. Qed.

Lemma firstn_firstn_add : forall A (a b : list A) n, (List.length a <= n)%nat ->
  firstn n (a ++ b) = a ++ firstn (n - List.length a) b.
Proof. intros A a b n H. rewrite firstn_app, firstn_all2 by lia. reflexivity. Qed.

Lemma special_code : forall c, (zc c =? 35) || (zc c =? 42) || ((49 <=? zc c) && (zc c <=? 57)) = true -> special c.
Proof.
  intros c H. unfold special.
  destruct (zc c =? 35) eqn:A; [left; apply zc_inj; change (zc "#") with 35; lia|].
  destruct (zc c =? 42) eqn:B; [right; left; apply zc_inj; change (zc "*") with 42; lia|].
  right. right. exists (Z.to_nat (zc c - 49)). split; [lia|]. apply zc_inj. rewrite zc_digit by lia. lia.
Qed.

Lemma msubst_cut : forall args all, (List.length args <= 9)%nat -> forall l len, readable l -> 0 <= len <= 241 ->
  fst (msubst args all len (shaped l)) = firstn (Z.to_nat (241 - len)) (expansion args all l) /\
  (len + zlen (expansion args all l) <= 240 -> snd (msubst args all len (shaped l)) = false).
Proof.
  intros args all LA. induction l as [|p l IH]; intros len R L.
  { cbn. rewrite firstn_nil. split; reflexivity. }
  destruct R as [R C].
  unfold shaped, expansion. cbn [flat_map]. fold (shaped l). fold (expansion args all l).
  assert (Z241 : 240 <? len = true -> firstn (Z.to_nat (241 - len)) (meant args all p ++ expansion args all l) = [] /\
            (len + zlen (meant args all p ++ expansion args all l) <= 240 -> true = false)).
  { intros H. replace (Z.to_nat (241 - len)) with 0%nat by lia. split; [reflexivity|]. intros K. unfold zlen in K. lia. }
  destruct (240 <? len) eqn:LL.
  { destruct (Z241 eq_refl) as [-> T].
    destruct p as [c|i| |]; cbn [shape app msubst]; rewrite LL; split; try reflexivity; exact T. }
  clear Z241.
  assert (One : forall (x : ascii) t, len + zlen ([x] ++ t) = len + 1 + zlen t) by (intros; unfold zlen; cbn; lia).
  assert (F1 : forall (x : ascii) t, firstn (Z.to_nat (241 - len)) ([x] ++ t) = x :: firstn (Z.to_nat (241 - (len + 1))) t).
  { intros x t. rewrite firstn_firstn_add by (cbn [List.length]; lia). cbn [app List.length]. f_equal. f_equal. lia. }
  assert (FA : forall (a : str) t, firstn (Z.to_nat (241 - len)) (a ++ t) =
             firstn (Z.to_nat (241 - len)) a ++ firstn (Z.to_nat (241 - (len + zlen (firstn (Z.to_nat (241 - len)) a)))) t).
  { intros a t. rewrite firstn_app. f_equal. destruct (Nat.le_gt_cases (List.length a) (Z.to_nat (241 - len))) as [H|H].
    - rewrite (firstn_all2 a) by lia. unfold zlen. f_equal. lia.
    - unfold zlen. rewrite firstn_length. replace (_ - List.length a)%nat with 0%nat by lia.
      match goal with |- _ = firstn ?n _ => replace n with 0%nat by lia end. reflexivity. }
  assert (LA1 : forall a : str, 0 <= len + zlen (firstn (Z.to_nat (241 - len)) a) <= 241)
    by (intros a; unfold zlen; rewrite firstn_length; lia).
  destruct p as [c|i| |]; cbn [shape app meant].
  - cbn [msubst]. rewrite LL. destruct (zc c =? 92) eqn:B; cbn [negb].
    + assert (c = "\"%char) by (apply zc_inj; change (zc "\") with 92; lia). specialize (C H).
      destruct (shaped l) as [|d t] eqn:Sh.
      * rewrite <- Sh in *. clear C. destruct l as [|[] l]; cbn in Sh; try discriminate Sh.
        cbn [expansion flat_map]. change (c :: []) with ([c] ++ []). rewrite F1, firstn_nil. split; reflexivity.
      * assert (K : (zc d =? 35) || (zc d =? 42) || ((49 <=? zc d) && (zc d <=? 57)) = false).
        { destruct (_ || _) eqn:K; [|reflexivity]. elim C. apply special_code. exact K. }
        apply orb_false_iff in K. destruct K as [K K3]. apply orb_false_iff in K. destruct K as [K1 K2].
        rewrite K1, K2, K3. cbn [orb]. destruct (IH (len + 1) R) as [I1 I2]; [lia|].
        destruct (msubst args all (len + 1) (d :: t)) as [x b]. cbn [fst snd] in *. subst x.
        change (c :: expansion args all l) with ([c] ++ expansion args all l). rewrite F1, One. split; [reflexivity|].
        exact I2.
    + destruct (IH (len + 1) R) as [I1 I2]; [lia|]. destruct (msubst args all (len + 1) (shaped l)) as [x b].
      cbn [fst snd] in *. subst x. change (c :: expansion args all l) with ([c] ++ expansion args all l).
      rewrite F1, One. split; [reflexivity|exact I2].
  - cbn [msubst]. rewrite LL. change (zc "\" =? 92) with true. cbn [negb].
    pose proof (zc_digit (S i) ltac:(lia)) as ZD. rewrite !ZD.
    destruct (48 + Z.of_nat (S i) =? 35) eqn:K1; [lia|]. destruct (48 + Z.of_nat (S i) =? 42) eqn:K2; [lia|].
    destruct ((49 <=? 48 + Z.of_nat (S i)) && (48 + Z.of_nat (S i) <=? 57)) eqn:K3; [|lia]. cbn [orb].
    replace (Z.to_nat (48 + Z.of_nat (S i) - 49)) with i by lia.
    set (a := nth i args []). destruct (IH (len + zlen (firstn (Z.to_nat (241 - len)) a)) R (LA1 a)) as [I1 I2].
    destruct (msubst args all _ (shaped l)) as [x b]. cbn [fst snd] in *. subst x. rewrite FA. split; [reflexivity|].
    intros H. apply I2. unfold zlen in H |- *. rewrite app_length in H. rewrite firstn_length.
    change (List.length (nth i args [])) with (List.length a) in H. lia.
  - cbn [msubst]. rewrite LL. change (zc "\" =? 92) with true. change (zc "#" =? 35) with true. cbn [negb].
    destruct (IH (len + 1) R) as [I1 I2]; [lia|]. destruct (msubst args all (len + 1) (shaped l)) as [x b].
    cbn [fst snd] in *. subst x.
    change (digit (List.length args) :: expansion args all l) with ([digit (List.length args)] ++ expansion args all l).
    rewrite F1, One. split; [|exact I2]. f_equal.
    apply zc_inj. rewrite zc_digit by lia. rewrite zc_cz_small; unfold zlen; lia.
  - cbn [msubst]. rewrite LL. change (zc "\" =? 92) with true. change (zc "*" =? 35) with false.
    change (zc "*" =? 42) with true. cbn [negb orb].
    destruct (IH (len + zlen (firstn (Z.to_nat (241 - len)) all)) R (LA1 all)) as [I1 I2].
    destruct (msubst args all _ (shaped l)) as [x b]. cbn [fst snd] in *. subst x. rewrite FA. split; [reflexivity|].
    intros H. apply I2. unfold zlen in H |- *. rewrite app_length in H. rewrite firstn_length. lia.
Qed.

Lemma every_line : forall q, exists l, readable l /\ shaped l = q.
Proof.
  intros q. remember (List.length q) as n eqn:E. revert q E.
  induction n as [n IH] using lt_wf_ind. intros q E.
  destruct q as [|c q]; [exists []; split; [exact I|reflexivity]|].
  destruct (zc c =? 92) eqn:B.
  - assert (c = "\"%char) by (apply zc_inj; change (zc "\") with 92; lia). subst c.
    destruct q as [|d q].
    + exists [Lit "\"%char]. split; [|reflexivity]. cbn. split; [exact I|]. intros _. exact I.
    + destruct ((zc d =? 35) || (zc d =? 42) || ((49 <=? zc d) && (zc d <=? 57))) eqn:K.
      * destruct (IH (List.length q)) with (q := q) as (l & R & S); [cbn in E; lia|reflexivity|].
        apply special_code in K. destruct K as [-> |[-> |(i & Li & ->)]].
        -- exists (Count :: l). split; [split; [exact R|exact I]|]. cbn. fold (shaped l). rewrite S. reflexivity.
        -- exists (Whole :: l). split; [split; [exact R|exact I]|]. cbn. fold (shaped l). rewrite S. reflexivity.
        -- exists (Arg i :: l). split; [split; [exact R|exact Li]|]. cbn [shaped flat_map shape app].
           fold (shaped l). rewrite S. reflexivity.
      * destruct (IH (List.length (d :: q))) with (q := d :: q) as (l & R & S); [cbn in E; cbn; lia|reflexivity|].
        exists (Lit "\"%char :: l). split.
        -- split; [exact R|]. intros _. rewrite S. intros [-> |[-> |(i & Li & ->)]]; [discriminate K..|].
           rewrite zc_digit in K by lia. lia.
        -- cbn [shaped flat_map shape app]. fold (shaped l). rewrite S. reflexivity.
  - destruct (IH (List.length q)) with (q := q) as (l & R & S); [cbn in E; lia|reflexivity|].
    exists (Lit c :: l). split.
    + split; [exact R|]. intros ->. discriminate B.
    + cbn [shaped flat_map shape app]. fold (shaped l). rewrite S. reflexivity.
Qed.

Theorem linegets_macro : forall s l lines args all ol op on r,
  s.(inp).(srcs) = SMac (shaped l :: lines) args all ol op on :: r -> readable l -> (List.length args <= 9)%nat ->
  exists s1, listed s s1 /\
    linegets s = (Ok tt, set_inp (set_curline (firstn 241 (expansion args all l))
      (set_srcs (SMac lines args all ol op on :: r) s.(inp))) s1).
Proof.
  intros s l lines args all ol op on r S R LA.
  destruct (msubst_cut args all LA l 0 R ltac:(lia)) as [M _].
  unfold linegets. unfold bind, gets. rewrite S. cbn [popended ret]. rewrite S.
  destruct (msubst args all 0 (shaped l)) as [t b]. cbn [fst] in M. change (Z.to_nat (241 - 0)) with 241%nat in M.
  subst t. unfold upd_inp. unfold modify at 1. destruct b; cbn [when].
  - match goal with |- context [warning ?m ?s] => destruct (warning_total m s) as [s1 W]; rewrite W;
      pose proof (pres_warning _ listed_osteps m s) as L; rewrite W in L; unfold always in L; cbn [snd] in L end.
    exists (set_inp s.(inp) s1). split.
    + destruct L as (A1 & A2 & A3 & A4 & A5 & A6 & A7 & A8 & A9 & A0). unfold listed. repeat split; assumption.
    + unfold modify. destruct L as (_ & _ & _ & A4 & _). rewrite A4. reflexivity.
  - exists s. split; [apply listed_refl|]. reflexivity.
Qed.
