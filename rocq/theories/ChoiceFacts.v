(** Loading the vocabulary of a processor. *)
From Coq Require Import String Ascii ZArith List Bool Lia ZifyBool.
From Verif Require Import Base State Tree Filter Output Label Tables Cpu6800 Cpu6502 CpuZ80 Pseudos Macro Crasm TreeFacts Walk Frame Run CpuFacts.
From Verif Require Import SpecForms SpecCpu SpecChoice.
From Verif Require SplitFacts FormFacts Z80Facts SymFacts Eval SpecSplit.
Import ListNotations.
Open Scope Z_scope.

(** ** The order in which a table is loaded *)
Fixpoint inner_list (n : nat) (i incr : nat) (l : list entry) : list entry :=
  match n with
  | O => []
  | S n' =>
      match i with
      | O => []
      | S j => match nth_error l j with None => [] | Some e => e :: inner_list n' (i + incr) incr l end
      end
  end.
Fixpoint outer_list (n : nat) (incr : nat) (l : list entry) : list entry :=
  match n with
  | O => []
  | S n' =>
      if Nat.leb incr 1 then []
      else inner_list (S (List.length l)) (Nat.div2 incr) incr l ++ outer_list n' (Nat.div2 incr) l
  end.
Definition loaded (l : list entry) : list entry := outer_list 32 (init_incr 32 1 (List.length l)) l.
Fixpoint load (es : list entry) : M unit :=
  match es with
  | [] => ret tt
  | e :: es' => init_entry e ;;; load es'
  end.

Lemma load_app : forall a b s, load (a ++ b) s = (load a ;;; load b) s.
Proof.
  induction a as [|e a IH]; intros b s; [reflexivity|]. cbn [app load]. rewrite bind_assoc.
  unfold bind at 1 2. destruct (init_entry e s) as [[u|x] s1]; [apply IH|reflexivity].
Qed.
Lemma inner_load : forall n i incr l s, init_inner n i incr l s = load (inner_list n i incr l) s.
Proof.
  induction n as [|n IH]; intros i incr l s; [reflexivity|]. cbn [init_inner inner_list].
  destruct i as [|j]; [reflexivity|]. destruct (nth_error l j) as [e|]; [|reflexivity]. cbn [load].
  unfold bind. destruct (init_entry e s) as [[u|x] s1]; [apply IH|reflexivity].
Qed.
Lemma outer_load : forall n incr l s, init_outer n incr l s = load (outer_list n incr l) s.
Proof.
  induction n as [|n IH]; intros incr l s; [reflexivity|]. cbn [init_outer outer_list].
  destruct (Nat.leb incr 1); [reflexivity|]. rewrite load_app. unfold bind. rewrite inner_load.
  destruct (load _ s) as [[u|x] s1]; [apply IH|reflexivity].
Qed.
Lemma init_load : forall l s, init_label_list l s = load (loaded l) s.
Proof. intros l s. apply outer_load. Qed.

(** ** What loading does to the symbols *)
Definition cleared (l : label) : label := set_l_flags (set_f_undef false l.(l_flags)) l.
Definition key (e : entry) : str := map toupper (s2l (fst e)).
Definition regular (e : entry) : bool :=
  match s2l (fst e) with [] => false | c :: _ => negb (zc c =? 46) && negb (zc c =? 42) end &&
  (zlen (s2l (fst e)) <=? 48) && negb ((snd e).(l_flags).(f_undef)).

Lemma regular_key : forall e seg, regular e = true -> lkey seg (s2l (fst e)) = key e /\ key e <> starkey.
Proof.
  intros [n l] seg R. unfold regular, key, lkey in *. cbn [fst snd] in *. destruct (s2l n) as [|c t]; [discriminate R|].
  apply andb_prop in R. destruct R as [R _]. apply andb_prop in R. destruct R as [R L]. apply andb_prop in R. destruct R as [R1 R2].
  assert (Z1 : (zc c =? 46) = false) by (destruct (zc c =? 46); [discriminate R1|reflexivity]). rewrite Z1. cbn [app].
  split.
  - apply firstn_all2. rewrite map_length. unfold zlen in L. unfold LABLEN. lia.
  - cbn [map]. intros X. injection X as X _. assert (C : c = "*"%char).
    { unfold toupper, islower in X. destruct (_ && _) eqn:I; [|exact X].
      apply (f_equal zc) in X. rewrite BaseFacts.zc_cz_small in X by lia. cbn in X. lia. }
    subst c. discriminate R2.
Qed.

(** One entry. *)
Lemma entry_effect : forall e s u s', regular e = true -> init_entry e s = (Ok u, s') ->
  (forall k, k <> key e -> k <> starkey -> tfind k s'.(sy) = tfind k s.(sy)) /\
  tfind (key e) s'.(sy) = Some (match tfind (key e) s.(sy) with
    | None => snd e
    | Some l => if table_eqb l.(l_table) (snd e).(l_table) && l.(l_flags).(f_undef) then cleared l else l
    end).
Proof.
  intros e s u s' R E. unfold init_entry in E. unfold searchlabel in E. unfold bind at 1 in E. unfold bind at 1 in E. cbn [gets ret] in E.
  destruct (regular_key e (segment (inp s)) R) as [K NS]. cbn zeta in E. rewrite K in E.
  destruct (tfind (key e) (sy s)) as [l|] eqn:T.
  - destruct (_ && _).
    + injection E as _ <-. cbn [sy set_sy upd_sy modify]. split.
      * intros k N _. apply tfind_tupd_other. exact N.
      * rewrite tfind_tupd_same, T. reflexivity.
    + pose proof (pres_warning _ SymFacts.lsteps_sameothers "user's symbol overrides new keyword" s) as W. rewrite E in W.
      split; [intros k _ N; apply W; exact N|]. rewrite W by exact NS. exact T.
  - injection E as _ <-. cbn [sy set_sy upd_sy modify]. split.
    + intros k N _. apply tfind_tins_other. exact N.
    + rewrite tfind_tins_same by exact T. reflexivity.
Qed.

(** A symbol while entries are loaded that belong to the tables [t] or have other names. *)
Lemma load_other : forall es k s u s', forallb regular es = true -> (forall e, In e es -> key e <> k) -> k <> starkey ->
  load es s = (Ok u, s') -> tfind k s'.(sy) = tfind k s.(sy).
Proof.
  induction es as [|e es IH]; intros k s u s' R N NS E; [injection E as _ <-; reflexivity|].
  cbn [forallb] in R. apply andb_prop in R. destruct R as [R1 R2]. cbn [load] in E. step E x s1 E1.
  destruct (entry_effect _ _ _ _ R1 E1) as [A _]. rewrite (IH _ _ _ _ R2 (fun e' I => N e' (or_intror I)) NS E).
  apply A; [|exact NS]. intros X. exact (N e (or_introl eq_refl) (eq_sym X)).
Qed.

(** All the entries of name [k] are [e]. *)
Definition outcome (e : entry) (q : option label) : option label :=
  Some (match q with
        | None => snd e
        | Some l => if table_eqb l.(l_table) (snd e).(l_table) && l.(l_flags).(f_undef) then cleared l else l
        end).
Lemma outcome_twice : forall e q, (snd e).(l_flags).(f_undef) = false -> outcome e (outcome e q) = outcome e q.
Proof.
  intros e [l|] U; unfold outcome; f_equal.
  - destruct (table_eqb (l_table l) (l_table (snd e)) && f_undef (l_flags l)) eqn:B.
    + change (f_undef (l_flags (cleared l))) with false. rewrite andb_false_r. reflexivity.
    + rewrite B. reflexivity.
  - rewrite U, andb_false_r. reflexivity.
Qed.
Lemma load_own : forall es e s u s', forallb regular es = true -> In e es ->
  (forall e', In e' es -> key e' = key e -> e' = e) ->
  load es s = (Ok u, s') -> tfind (key e) s'.(sy) = outcome e (tfind (key e) s.(sy)).
Proof.
  induction es as [|x es IH]; intros e s u s' R I D E; [contradiction I|].
  cbn [forallb] in R. apply andb_prop in R. destruct R as [R1 R2]. cbn [load] in E. step E y s1 E1.
  destruct (entry_effect _ _ _ _ R1 E1) as [A B].
  assert (D' : forall e', In e' es -> key e' = key e -> e' = e) by (intros e' I'; apply D; right; exact I').
  assert (NS : forall e, regular e = true -> key e <> starkey) by (intros e0 R0; exact (proj2 (regular_key e0 0 R0))).
  assert (Rx : forall e, In e (x :: es) -> regular e = true).
  { intros e0 [<-|I0]; [exact R1|]. rewrite forallb_forall in R2. apply R2. exact I0. }
  destruct (str_dec (key x) (key e)) as [Q|Q].
  - assert (x = e) as -> by (apply D; [left; reflexivity|exact Q]).
    assert (U : (snd e).(l_flags).(f_undef) = false).
    { unfold regular in R1. apply andb_prop in R1. destruct R1 as [_ R1]. destruct (f_undef _); [discriminate R1|reflexivity]. }
    change (tfind (key e) (sy s1) = outcome e (tfind (key e) (sy s))) in B.
    assert (W : In e es \/ ~ In e es).
    { assert (Dec : In e es \/ forall e', In e' es -> key e' <> key e).
      { clear - D'. induction es as [|z es IH]; [right; intros e' []|].
        destruct IH as [IH|IH]; [intros e' I'; apply D'; right; exact I'|left; right; exact IH|].
        destruct (str_dec (key z) (key e)) as [Z|Z].
        - left. left. apply D'; [left; reflexivity|exact Z].
        - right. intros e' [<-|I']; [exact Z|apply IH; exact I']. }
      destruct Dec as [Dec|Dec]; [left; exact Dec|right]. intros I'. exact (Dec e I' eq_refl). }
    destruct W as [W|W].
    + rewrite (IH e _ _ _ R2 W D' E), B. apply outcome_twice. exact U.
    + assert (W' : forall e', In e' es -> key e' <> key e); [|rewrite (load_other es (key e) s1 u s' R2 W' (NS e R1) E); exact B].
      intros e' I' K. apply W. rewrite <- (D' e' I' K). exact I'.
  - destruct I as [->|I]; [contradiction Q; reflexivity|].
    rewrite (IH e _ _ _ R2 I D' E). rewrite A; [reflexivity|intros X; apply Q; symmetry; exact X|]. apply NS, Rx. right. exact I.
Qed.

(** ** The vocabularies *)
Definition vocabulary (p : processor) : list entry :=
  match p with
  | P6800 => m6800 | P6801 | P6803 => m6800 ++ m6801
  | P6500 | P6502 => m6502 | P65C02 => m6502 ++ m65c02 | PZ80 => mz80
  end.
Definition sequence (p : processor) : list entry :=
  match p with
  | P6800 => loaded m6800 | P6801 | P6803 => loaded m6800 ++ loaded m6801
  | P6500 | P6502 => loaded m6502 | P65C02 => loaded m6502 ++ loaded m65c02 | PZ80 => loaded mz80
  end.

Lemma inner_in : forall n i incr l e, In e (inner_list n i incr l) -> In e l.
Proof.
  induction n as [|n IH]; intros i incr l e I; [contradiction I|]. cbn [inner_list] in I.
  destruct i as [|j]; [contradiction I|]. destruct (nth_error l j) as [x|] eqn:N; [|contradiction I].
  destruct I as [<-|I]; [eapply nth_error_In; exact N|eapply IH; exact I].
Qed.
Lemma outer_in : forall n incr l e, In e (outer_list n incr l) -> In e l.
Proof.
  induction n as [|n IH]; intros incr l e I; [contradiction I|]. cbn [outer_list] in I.
  destruct (Nat.leb incr 1); [contradiction I|]. apply in_app_or in I. destruct I as [I|I]; [eapply inner_in; exact I|eapply IH; exact I].
Qed.
Lemma sequence_in : forall p e, In e (sequence p) -> In e (vocabulary p).
Proof.
  intros p e I. destruct p; cbn [sequence vocabulary] in *; try (eapply outer_in; exact I);
    apply in_or_app; apply in_app_or in I; destruct I as [I|I]; [left|right|left|right|left|right]; eapply outer_in; exact I.
Qed.

Fixpoint nodup (l : list str) : bool :=
  match l with [] => true | k :: l' => negb (existsb (streq k) l') && nodup l' end.
Lemma nodup_same : forall l, nodup (map key l) = true -> forall e e', In e l -> In e' l -> key e' = key e -> e' = e.
Proof.
  induction l as [|x l IH]; intros N e e' I I' K; [contradiction I|]. cbn [map nodup] in N. apply andb_prop in N. destruct N as [N1 N2].
  assert (X : forall y, In y l -> key y <> key x).
  { intros y Iy Ky. apply negb_true_iff in N1.
    assert (existsb (streq (key x)) (map key l) = true); [|congruence]. apply existsb_exists. exists (key y).
    split; [apply in_map; exact Iy|]. rewrite Ky. apply BaseFacts.streq_refl. }
  destruct I as [<-|I], I' as [<-|I']; [reflexivity|elim (X e' I' K)|elim (X e I (eq_sym K))|].
  apply IH; assumption.
Qed.

Definition sane (p : processor) : bool :=
  forallb regular (sequence p) && nodup (map key (vocabulary p)) &&
  forallb (fun n => existsb (fun e => if String.eqb (fst e) n then ltype_eqb (snd e).(l_type) TMnemo &&
                                      table_eqb (snd e).(l_table) (home p n) else false) (sequence p)) (repertoire p).
Lemma all_sane : forall p, sane p = true.
Proof. intros []; vm_compute; reflexivity. Qed.

(** ** The directive *)
Lemma filter0_others : forall t pat s b s', filter0 t pat s = (Ok b, s') ->
  (forall k, k <> starkey -> tfind k s'.(sy) = tfind k s.(sy)) /\ s'.(ct).(passnumber) = s.(ct).(passnumber).
Proof.
  intros t pat s b s' E. destruct (PseudoFacts.filter0_ok _ _ _ _ _ E) as [(_ & _ & _ & _ & _ & P & _) _].
  split; [|exact P]. unfold filter0 in E. step E r s1 E1. injection E as _ <-.
  pose proof (pres_filterc _ SymFacts.lsteps_sameothers t (s2l pat) s) as W. rewrite E1 in W. exact W.
Qed.

Lemma spells_upper : forall p t, forallb (fun c => negb (zc c =? 95)) p = true -> spells p t ->
  map SpecSplit.upper t = map SpecSplit.upper p.
Proof.
  intros p t F S. induction S as [|p w t B S IH|c p d t N U S IH]; [reflexivity|discriminate F|].
  cbn [forallb] in F. apply andb_prop in F. destruct F as [_ F]. cbn [map]. rewrite (IH F), U. reflexivity.
Qed.

Definition choices : list (processor * M unit) :=
  [(P6800, init6800 0); (P6801, init6800 1); (P6803, init6800 1); (P6500, init6502 0); (P6502, init6502 1);
   (P65C02, init6502 2); (PZ80, initz80 0)].
Lemma choices_list : cpulist = map (fun x => (called (fst x), snd x)) choices.
Proof. reflexivity. Qed.

Lemma findcpu_ok : forall t p l s i s', spells (t_ (called p)) t ->
  findcpu t (map (fun x => (called (fst x), snd x)) l) s = (Ok i, s') ->
  In (p, i) l /\ (forall k, k <> starkey -> tfind k s'.(sy) = tfind k s.(sy)) /\ s'.(ct).(passnumber) = s.(ct).(passnumber).
Proof.
  intros t p. induction l as [|[q j] l IH]; intros s i s' S E; cbn [map findcpu fst snd] in E.
  { elim (Eval.error_never _ _ _ _ _ E). }
  step E b s1 E1. destruct (filter0_others _ _ _ _ _ E1) as [A P].
  assert (Fo : FormFacts.form_of (s2l (called q)) = Some (Fixed (t_ (called q)))) by (destruct q; reflexivity).
  apply (Z80Facts.filter0_form _ _ _ _ _ _ Fo) in E1. destruct b.
  - destruct E1 as [a Fi]. inversion Fi; subst. injection E as <- <-.
    assert (q = p); [|subst; split; [left; reflexivity|split; assumption]].
    assert (Nu : forall p, forallb (fun c => negb (zc c =? 95)) (t_ (called p)) = true) by (intros []; reflexivity).
    pose proof (spells_upper _ _ (Nu p) S) as X.
    match goal with H : spells (t_ (called q)) t |- _ => pose proof (spells_upper _ _ (Nu q) H) as Y end. rewrite X in Y.
    destruct p, q; try reflexivity; discriminate Y.
  - destruct (IH _ _ _ S E) as (I & B & Q). split; [right; exact I|]. split; [|congruence].
    intros k N. rewrite B, A; auto.
Qed.

Lemma init_sequence : forall p i, In (p, i) choices -> forall s u s', i s = (Ok u, s') ->
  exists s1, s1.(sy) = s.(sy) /\ load (sequence p) s1 = (Ok tt, s').
Proof.
  intros p i I s u s' E.
  assert (Two : forall l1 l2 s1, sy s1 = sy s -> (init_label_list l1 ;;; init_label_list l2) s1 = (Ok u, s') ->
    exists s1, s1.(sy) = s.(sy) /\ load (loaded l1 ++ loaded l2) s1 = (Ok tt, s')).
  { intros l1 l2 s1 Y X. exists s1. split; [exact Y|]. rewrite load_app. step X v s2 X1. rewrite init_load in X1, X.
    unfold bind. rewrite X1, X. destruct u. reflexivity. }
  assert (One : forall l1 s1, sy s1 = sy s -> (init_label_list l1 ;;; ret tt) s1 = (Ok u, s') ->
    exists s1, s1.(sy) = s.(sy) /\ load (loaded l1) s1 = (Ok tt, s')).
  { intros l1 s1 Y X. exists s1. split; [exact Y|]. step X v s2 X1. rewrite init_load in X1. injection X as _ <-. destruct v. exact X1. }
  assert (One' : forall l1 s1, sy s1 = sy s -> init_label_list l1 s1 = (Ok u, s') ->
    exists s1, s1.(sy) = s.(sy) /\ load (loaded l1) s1 = (Ok tt, s')).
  { intros l1 s1 Y X. exists s1. split; [exact Y|]. rewrite init_load in X. destruct u. exact X. }
  unfold choices in I. cbn [In] in I.
  repeat match goal with H : _ \/ _ |- _ => destruct H as [H|H] end; try contradiction;
    injection I as <- <-; unfold init6800, init6502, initz80, when in E; cbn [Z.eqb Pos.eqb] in E;
    repeat match type of E with
      | bind (upd_fl _) _ _ = _ => let x1 := fresh in let t1 := fresh in let F1 := fresh in step E x1 t1 F1; injection F1 as _ <-
      | bind (upd_cp _) _ _ = _ => let x1 := fresh in let t1 := fresh in let F1 := fresh in step E x1 t1 F1; injection F1 as _ <-
      end; cbn [sequence];
    match type of E with
    | bind (init_label_list _) (fun _ => ret tt) _ = _ => eapply One; [|exact E]; reflexivity
    | bind (init_label_list _) _ _ = _ => eapply Two; [|exact E]; reflexivity
    | _ => eapply One'; [|exact E]; reflexivity
    end.
Qed.

Lemma Xcpu_open : forall t s u s', Xcpu (Some t) s = (Ok u, s') ->
  a_cpu_gv (fl s) = false /\ exists i s1 s2, findcpu t cpulist s = (Ok i, s1) /\ i s2 = (Ok u, s') /\ s2.(sy) = s1.(sy) /\
    (passnumber (ct s1) = 2 -> a_cpu_gv (fl s2) = true).
Proof.
  intros t s u s' E. unfold Xcpu in E. unfold bind at 1 in E. cbn [gets] in E.
  destruct (a_cpu_gv (fl s)) eqn:G; cbn [when] in E.
  { step E x s1 E1. elim (Eval.error_never _ _ _ _ _ E1). }
  split; [reflexivity|]. unfold bind at 1 in E. cbn [ret] in E. step E i s1 E1. unfold bind at 1 in E. cbn [gets] in E.
  step E v s2 E2. exists i, s1, s2. split; [exact E1|]. split; [exact E|].
  destruct (passnumber (ct s1) =? 2) eqn:P; cbn [when] in E2; injection E2 as _ <-.
  - split; reflexivity.
  - split; [reflexivity|]. apply Z.eqb_neq in P. intros X. contradiction.
Qed.

Definition entry_of (p : processor) (n : string) (e : entry) : Prop :=
  In e (vocabulary p) /\ fst e = n /\ (snd e).(l_type) = TMnemo /\ (snd e).(l_table) = home p n.

Lemma lkey_name : forall m n g, map SpecSplit.upper m = identifier n ->
  match list_ascii_of_string n with [] => False | c :: _ => c <> "."%char end -> (String.length n <= 48)%nat -> lkey g m = identifier n.
Proof.
  intros m n g U D L.
  assert (X : map toupper m = identifier n).
    { rewrite <- U. apply map_ext. intros c. symmetry. apply SplitFacts.upper_toupper. }
    unfold lkey. rewrite X. destruct m as [|c m].
    - destruct (list_ascii_of_string n) as [|d r] eqn:Q; [contradiction D|]. unfold identifier in U. rewrite Q in U. discriminate U.
    - assert (Z : (zc c =? 46) = false).
      { destruct (zc c =? 46) eqn:Z; [|reflexivity]. exfalso.
        assert (c = "."%char) as -> by (apply BaseFacts.zc_inj; change (zc "."%char) with 46; lia).
        unfold identifier in X. destruct (list_ascii_of_string n) as [|d r]; [contradiction D|]. injection X as X _.
        rewrite SplitFacts.upper_toupper in X. change (toupper ".") with "."%char in X. unfold toupper, islower in X. destruct (_ && _) eqn:I; [|exact (D (eq_sym X))].
        apply (f_equal zc) in X. rewrite BaseFacts.zc_cz_small in X by lia. cbn in X. lia. }
      rewrite Z. cbn [app]. apply firstn_all2. unfold identifier. rewrite map_length.
      assert (W : forall n, List.length (list_ascii_of_string n) = String.length n) by (clear; induction n; cbn; congruence).
      rewrite W. exact L.
Qed.
Lemma findmnemo_found : forall m n s l, map SpecSplit.upper m = identifier n ->
  match list_ascii_of_string n with [] => False | c :: _ => c <> "."%char end -> (String.length n <= 48)%nat ->
  tfind (identifier n) s.(sy) = Some l -> l.(l_flags).(f_undef) = false -> l.(l_type) = TMnemo ->
  findmnemo m s = (Ok (Some (identifier n, l)), s).
Proof.
  intros m n s l U D L T F Y.
  pose proof (lkey_name m n (segment (inp s)) U D L) as K.
  unfold findmnemo, searchlabel. unfold bind at 1. unfold bind at 1. cbn [gets ret]. cbn zeta. rewrite K, T.
  unfold usable. cbn [snd]. rewrite F, Y. reflexivity.
Qed.

Lemma repertoire_names : forall p, forallb (fun n =>
  match list_ascii_of_string n with [] => false | c :: _ => negb (zc c =? 46) && negb (zc c =? 42) end &&
  Nat.leb (String.length n) 48 && forallb (fun c => negb (zc c =? 95)) (list_ascii_of_string n)) (repertoire p) = true.
Proof. intros []; vm_compute; reflexivity. Qed.

Lemma selected_usable : forall p t s s' n m, spells (t_ (called p)) t -> Xcpu (Some t) s = (Ok tt, s') ->
  In n (repertoire p) -> spells (t_ n) m -> unshadowed p n s ->
  exists l, findmnemo m s' = (Ok (Some (identifier n, l)), s') /\ l.(l_type) = TMnemo /\ l.(l_table) = home p n /\
    (tfind (identifier n) s.(sy) = None -> In (n, l) (vocabulary p)) /\
    (forall l0, tfind (identifier n) s.(sy) = Some l0 -> l.(l_ptr) = l0.(l_ptr) /\ l.(l_modifier) = l0.(l_modifier)).
Proof.
  intros p t s s' n m S E I Sm U. apply Xcpu_open in E. destruct E as (_ & i & s1 & s2 & F & E & Y & _).
  rewrite choices_list in F. destruct (findcpu_ok _ _ _ _ _ _ S F) as (Ip & A & _).
  destruct (init_sequence _ _ Ip _ _ _ E) as (s3 & Y3 & L).
  pose proof (all_sane p) as H. unfold sane in H. apply andb_prop in H. destruct H as [H H3]. apply andb_prop in H. destruct H as [H1 H2].
  rewrite forallb_forall in H3. specialize (H3 n I). apply existsb_exists in H3. destruct H3 as (e & Ie & Q).
  destruct (String.eqb (fst e) n) eqn:Q1; [|discriminate Q]. apply andb_prop in Q. destruct Q as [Q2 Q3].
  apply String.eqb_eq in Q1.
  assert (Q2' : l_type (snd e) = TMnemo) by (destruct (l_type (snd e)); try discriminate Q2; reflexivity).
  assert (Q3' : l_table (snd e) = home p n) by (destruct (l_table (snd e)), (home p n); try discriminate Q3; reflexivity).
  pose proof (load_own _ e s3 tt s' H1 Ie) as R. specialize (R (fun e' I' K => nodup_same _ H2 e e' (sequence_in _ _ Ie) (sequence_in _ _ I') K)).
  specialize (R L).
  assert (K : key e = identifier n).
  { unfold key, identifier. rewrite Q1. apply map_ext. intros c. symmetry. apply SplitFacts.upper_toupper. }
  pose proof (repertoire_names p) as N. rewrite forallb_forall in N. specialize (N n I). apply andb_prop in N. destruct N as [N N3].
  apply andb_prop in N. destruct N as [N1 N2].
  assert (NS : identifier n <> starkey).
  { rewrite <- K. apply (regular_key e 0). rewrite forallb_forall in H1. apply H1. exact Ie. }
  rewrite K, Y3, Y, A in R by exact NS.
  assert (D : match list_ascii_of_string n with [] => False | c :: _ => c <> "."%char end).
  { destruct (list_ascii_of_string n) as [|c r]; [discriminate N1|]. intros ->. discriminate N1. }
  assert (Um : map SpecSplit.upper m = identifier n) by (apply (spells_upper _ _ N3 Sm)).
  assert (Le : (String.length n <= 48)%nat) by (apply Nat.leb_le; exact N2).
  assert (Ue : f_undef (l_flags (snd e)) = false).
  { rewrite forallb_forall in H1. specialize (H1 e Ie). unfold regular in H1. apply andb_prop in H1. destruct H1 as [_ H1].
    destruct (f_undef _); [discriminate H1|reflexivity]. }
  unfold unshadowed in U. unfold outcome in R. destruct (tfind (identifier n) (sy s)) as [l0|].
  - destruct U as [U1 U2]. assert (T : table_eqb (l_table l0) (l_table (snd e)) = true) by (rewrite U2, Q3'; destruct (home p n); reflexivity).
    rewrite T in R. cbn [andb] in R. destruct (f_undef (l_flags l0)) eqn:Fu.
    + exists (cleared l0). split; [apply findmnemo_found; auto|]. split; [exact U1|]. split; [exact U2|].
      split; [discriminate|]. intros l1 [= <-]. split; reflexivity.
    + exists l0. split; [apply findmnemo_found; auto|]. split; [exact U1|]. split; [exact U2|].
      split; [discriminate|]. intros l1 [= <-]. split; reflexivity.
  - exists (snd e). split; [apply findmnemo_found; auto|]. split; [exact Q2'|]. split; [exact Q3'|].
    split; [|discriminate]. intros _. rewrite <- Q1. rewrite <- surjective_pairing. apply sequence_in. exact Ie.
Qed.

(** ** Once *)
Definition chosen (s s' : state) : Prop := a_cpu_gv (fl s) = true -> a_cpu_gv (fl s') = true.
Lemma chosen_steps : steps (always chosen).
Proof.
  assert (L : lsteps (always chosen)).
  { constructor; [constructor|..]; unfold always, chosen; intros; auto. }
  pose proof (p_order _ L) as O.
  assert (W : forall s w, always chosen Fine s (set_wr w s)) by (intros s w X; exact X).
  assert (F : forall s v, flstep (fl s) v -> always chosen Fine s (set_fl v s)).
  { intros s v [(_ & _ & _ & _ & _ & K) _] X. apply K. exact X. }
  assert (Er : forall m, pres (always chosen) unit (error m)).
  { apply error_parts; [exact L|exact F|intros s m X; exact X]. }
  constructor; [constructor; [exact L|exact F|..]|..]; unfold always, chosen; intros; auto.
  - apply (setpc_free _ O W); assumption.
  - apply (Er m s). assumption.
  - apply (insert8_free _ O W L); try assumption; intros; intros X; exact X.
Qed.

Lemma chosen_run : forall n k li ex s, chosen s (snd (run n k li ex s)).
Proof. intros n k li ex s. exact (J_run _ (pres_walk _ chosen_steps) n k li ex s). Qed.
Lemma chosen_loop : forall n s, chosen s (snd (passloop n s)).
Proof. intros n s. exact (J_passloop _ (pres_walk _ chosen_steps) n s). Qed.

Lemma init_chosen : forall p i, In (p, i) choices -> pres (always chosen) _ i.
Proof.
  intros p i I. pose proof (pres_walk _ chosen_steps) as W. unfold choices in I. cbn [In] in I.
  repeat match goal with H : _ \/ _ |- _ => destruct H as [H|H] end; try contradiction; injection I as <- <-;
    lazymatch goal with
    | |- pres _ _ (init6800 ?c) => exact (w_init6800 _ W c)
    | |- pres _ _ (init6502 ?c) => exact (w_init6502 _ W c)
    | |- pres _ _ (initz80 ?c) => exact (w_initz80 _ W c)
    end.
Qed.

Lemma findcpu_in : forall t l s i s', findcpu t (map (fun x => (called (fst x), snd x)) l) s = (Ok i, s') ->
  (exists p, In (p, i) l) /\ s'.(ct).(passnumber) = s.(ct).(passnumber).
Proof.
  intros t. induction l as [|[q j] l IH]; intros s i s' E; cbn [map findcpu fst snd] in E.
  { elim (Eval.error_never _ _ _ _ _ E). }
  step E b s1 E1. destruct (filter0_others _ _ _ _ _ E1) as [_ P]. destruct b.
  - injection E as <- <-. split; [exists q; left; reflexivity|exact P].
  - destruct (IH _ _ _ E) as [[p I] Q]. split; [exists p; right; exact I|congruence].
Qed.

Lemma cpu_once : forall o s s', Xcpu o s = (Ok tt, s') -> passnumber (ct s) = 2 -> a_cpu_gv (fl s') = true.
Proof.
  intros [t|] s s' E P; [|elim (Eval.error_never _ _ _ _ _ E)].
  apply Xcpu_open in E. destruct E as (_ & i & s1 & s2 & F & E & _ & G). rewrite choices_list in F.
  destruct (findcpu_in _ _ _ _ _ F) as [[p Ip] Q]. pose proof (init_chosen _ _ Ip s2) as C. rewrite E in C.
  apply C. apply G. congruence.
Qed.

Lemma cpu_refused : forall o s, a_cpu_gv (fl s) = true ->
  Xcpu o s = error (s2l (match o with None => "Need CPU name" | Some _ => "One CPU only!" end)) s.
Proof.
  intros [t|] s G; [|reflexivity]. unfold Xcpu. unfold bind at 1. cbn [gets]. rewrite G. cbn [when]. apply error_bind.
Qed.

Lemma cpu_twice : forall o s s1, Xcpu o s = (Ok tt, s1) -> passnumber (ct s) = 2 ->
  (forall n k li ex o2, let s2 := snd (run n k li ex s1) in
     Xcpu o2 s2 = error (s2l (match o2 with None => "Need CPU name" | Some _ => "One CPU only!" end)) s2) /\
  (forall n o2, let s2 := snd (passloop n s1) in
     Xcpu o2 s2 = error (s2l (match o2 with None => "Need CPU name" | Some _ => "One CPU only!" end)) s2).
Proof.
  intros o s s1 E P. pose proof (cpu_once _ _ _ E P) as G. split; intros; apply cpu_refused.
  - apply chosen_run. exact G.
  - apply chosen_loop. exact G.
Qed.

Lemma listed_in : forall n l, listed n l = true -> In n l.
Proof. intros n l H. apply existsb_exists in H. destruct H as (x & I & E). apply String.eqb_eq in E. subst x. exact I. Qed.
