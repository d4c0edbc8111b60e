(** At the end of the first pass no included file is open, if the source ends with the end of a
    line.  Nothing here is part of the model. *)
From Coq Require Import String Ascii ZArith List Bool Lia ZifyBool ZifyNat.
From Verif Require Import Base State Tree Filter Output Label Operator Parse Scode Tables.
From Verif Require Import Cpu6800 Cpu6502 CpuZ80 Pseudos Macro Xref Crasm.
From Verif Require Import Walk TreeFacts Frame Run SpecEmit Eval EmitFacts SymFacts Local SpecStar InputFacts SpecJoin SpecInput SpecPlace PlaceFacts.
From Verif Require JoinFacts KeepFacts JoinRun JoinProg CallFacts.
Import ListNotations.
Open Scope Z_scope.

Definition over (s : state) : Prop := s.(inp).(srcs) = [] /\ s.(inp).(mainrest) = [].
Definition Z : relation := fun d s s' => s.(inp).(maineof) = false ->
  match d with
  | Fine => s'.(inp).(maineof) = false
  | Failed => s'.(inp).(maineof) = true -> over s'
  | Dead => True
  end.
Lemma Z_order : order Z.
Proof. constructor; unfold Z; intros; auto; destruct d; auto. Qed.
Notation O := Z_order.
Lemma zS : forall A (m : M A), pres S A m -> pres Z A m.
Proof.
  intros A m H s E. specialize (H s). destruct (how (fst (m s))); [| |exact I].
  - destruct H as [H _]. unfold spot in H. injection H as _ _ H _ _ _. congruence.
  - destruct H as [H _]. unfold spot in H. injection H as _ _ H _ _ _. intros X. congruence.
Qed.

Lemma popended_main : forall l s u s', popended l s = (Ok u, s') -> mainrest (inp s') = mainrest (inp s) /\ maineof (inp s') = maineof (inp s) /\ (srcs (inp s) = [] -> l = [] -> s' = s).
Proof.
  induction l as [|x l IH]; intros s u s' E; [injection E as <- <-; auto|].
  destruct x as [[] b c d e f|a b c d e f]; try (injection E as <- <-; auto).
  cbn [popended] in E. unfold bind, upd_inp, upd_fl, modify in E. cbv beta iota in E. apply IH in E. destruct E as (E1 & E2 & _). cbn in E1, E2.
  split; [exact E1|]. split; [exact E2|discriminate].
Qed.
Lemma linegets_over : forall s u s', linegets s = (Ok u, s') -> (maineof (inp s) = true -> over s) ->
  maineof (inp s') = true -> over s' /\ (tail (mainrest (inp s)) -> mainrest (inp s) = [] -> curline (inp s') = []) /\
    (tail (mainrest (inp s))).
Proof.
  intros s u s' E H T. unfold linegets in E. unfold bind at 1 in E. cbn [gets] in E. unfold bind at 1 in E.
  destruct (popended (srcs (inp s)) s) as [[u1|b] s1] eqn:E1; [|discriminate E]. unfold bind at 1 in E. cbn [gets] in E.
  destruct (popended_main _ _ _ _ E1) as (Q1 & Q2 & Q3).
  assert (NF : forall x l, srcs (inp s1) = x :: l -> maineof (inp s1) = true -> False).
  { intros x l X Y. rewrite Q2 in Y. destruct (H Y) as [Y1 Y2]. rewrite (Q3 Y1 Y1) in X. congruence. }
  destruct (srcs (inp s1)) as [|[e0 r e1 ol op on|lines args all ol op on] l] eqn:Es.
  - unfold bind in E. destruct (fgets 249 (mainrest (inp s1))) as [[p r] e'] eqn:G.
    destruct (readline_spec _ s1 _ _ _ G) as (s2 & s3 & Li & R & ->). rewrite R in E. cbv beta iota in E. unfold upd_inp, modify in E. injection E as <- <-.
    cbn in T. subst e'. apply fgets_spec in G. destruct G as (G1 & G2 & G3 & G4). subst r. rewrite app_nil_r in G1. rewrite <- Q1.
    split; [split; [cbn; exact Es|reflexivity]|]. split; [|rewrite G1; split; assumption]. intros _ K. rewrite G1 in K. cbn. rewrite K. reflexivity.
  - exfalso. apply (NF _ _ eq_refl). unfold bind in E. destruct (fgets 249 r) as [[p r'] e'] eqn:G.
    destruct (readline_spec _ s1 _ _ _ G) as (s2 & s3 & Li & R & ->). rewrite R in E. cbv beta iota in E. unfold upd_inp, modify in E. injection E as <- <-.
    cbn in T. exact T.
  - exfalso. apply (NF _ _ eq_refl). destruct lines as [|q lines]; [discriminate E|]. unfold bind at 1, upd_inp, modify in E. cbv beta iota in E.
    set (s2 := set_inp _ s1) in E. destruct (msubst args all 0 q) as [t long].
    unfold bind in E. assert (K : pres S _ (when long (warning "Too long line"))) by r. specialize (K s2).
    destruct (when long (warning "Too long line") s2) as [[u3|b] s3]; [|discriminate E]. cbn [fst snd how] in K. injection E as <- <-.
    destruct K as [K _]. unfold spot in K. injection K as _ _ K _ _ _. cbn in T, K. congruence.
Qed.

Definition zends (s : state) {A} (x : res A * state) : Prop := Z (how (fst x)) s (snd x).
Lemma zends_trans : forall A s s1 (x : res A * state), Z Fine s s1 -> zends s1 x -> zends s x.
Proof. intros A s s1 x H K. exact (p_trans Z Z_order _ _ _ _ H K). Qed.
(** A line and the test for the end of the file. *)
Lemma Z_next : forall A m (k : M A), pres Z A k -> pres Z A (linegets ;;; e <- mainfeof ;; if e : bool then err m else k).
Proof.
  intros A m k K s. match goal with |- Z (how (fst ?x)) _ _ => change (zends s x) end. unfold bind at 1.
  pose proof (JoinFacts.linegets_is s) as N. destruct (linegets s) as [[u|b] s1] eqn:G; [|destruct b; [contradiction|..]; intros _; exact I].
  unfold mainfeof, bind. cbn [gets]. destruct (maineof (inp s1)) eqn:T; [|apply (zends_trans _ s s1); [intros _; exact T|exact (K s1)]].
  intros E. assert (H : maineof (inp s) = true -> over s) by congruence.
  destruct (linegets_over _ _ _ G H T) as (Ov & _). pose proof (S_error A (s2l m) s1) as X. unfold err.
  destruct (error_bad A (s2l m) s1) as [b B]. destruct (error (s2l m) s1) as [x s2]. cbn [fst snd] in *. subst x. cbn [how] in *.
  destruct b; try exact I. intros _. destruct X as [X _]. unfold spot in X. injection X as X1 X2 _ _ _ _. destruct Ov. split; congruence.
Qed.

Ltac z1 :=
  lazymatch goal with
  | |- pres Z _ (bind linegets _) => apply Z_next
  | |- pres Z _ (bind _ _) => apply (pres_bind Z O); [|intros]
  | |- pres Z _ (match ?x with _ => _ end) => destruct x
  | |- pres Z _ _ => apply zS; solve [r]
  end.
Ltac z := repeat first [z1 | progress (cbv beta zeta)].

Lemma Z_macrolines : forall n li acc, pres Z _ (macrolines n li acc).
Proof. induction n as [|n IH]; intros li acc; cbn [macrolines]; z; first [apply zS, S_zerobuffer|apply IH]. Qed.
Lemma Z_Xmacro : forall n li ex lab o, pres Z _ (Xmacro n li ex lab o).
Proof. intros. unfold Xmacro. z; first [apply Z_macrolines|apply zS, S_deflabel]. Qed.
Lemma Z_Xinclude : forall o, pres Z _ (Xinclude o).
Proof.
  intros o. unfold Xinclude. z; try (apply zS, S_checkdepth).
  intros sx E. exact E.
Qed.
Lemma Z_exec : forall h m lab o, pres Z _ (exec h m lab o).
Proof.
  intros h m lab o. assert (D : h = HInclude \/ h <> HInclude) by (destruct h; auto; right; discriminate).
  destruct D as [->|N]; [apply Z_Xinclude|apply zS, S_exec, N].
Qed.
Lemma if_over : forall n li ex s, over s -> Z Fine s s -> maineof (inp s) = true ->
  match run n KIf li ex s with (Ok _, _) => False | (Bad (Err _), s') => over s' | _ => True end.
Proof.
  intros n li ex s Ov _ T. destruct n as [|n]; [exact I|]. cbn [run]. unfold ifround, bind at 1.
  pose proof (JoinFacts.linegets_is s) as N. destruct (linegets s) as [[u|b] s1] eqn:G; [|destruct b; [contradiction|..]; exact I].
  assert (T1 : maineof (inp s1) = true).
  { unfold linegets in G. destruct Ov as [O1 O2]. unfold bind at 1 in G. cbn [gets] in G. rewrite O1 in G. cbn [popended] in G. unfold bind at 1 in G. cbn [ret] in G.
    unfold bind at 1 in G. cbn [gets] in G. rewrite O1, O2 in G. unfold bind in G.
    destruct (readline_spec [] s [] [] true eq_refl) as (s2 & s3 & _ & R & _). rewrite R in G. unfold upd_inp, modify in G. injection G as _ <-. reflexivity. }
  destruct (linegets_over _ _ _ G (fun _ => Ov) T1) as (Ov1 & _). unfold mainfeof, bind. cbn [gets]. rewrite T1.
  pose proof (S_error flag (s2l "Unexpected End of File") s1) as X. unfold err. destruct (error_bad flag (s2l "Unexpected End of File") s1) as [b B].
  destruct (error (s2l "Unexpected End of File") s1) as [x s2]. cbn [fst snd] in *. subst x. cbn [how] in X. destruct b; try exact I.
  destruct X as [X _]. unfold spot in X. injection X as X1 X2 _ _ _ _. destruct Ov1. split; congruence.
Qed.

Lemma Z_macrocall : forall n key ptr li o, pres Z _ (macrocall (run n) key ptr li o).
Proof.
  intros n key ptr li o. unfold macrocall. apply (pres_bind Z O); [apply zS; r|intros _]. apply (pres_bind Z O); [apply zS; r|intros s].
  apply (pres_bind Z O); [apply zS, S_checkdepth|intros _]. apply (pres_bind Z O); [apply zS, S_macroargs|intros args].
  apply (pres_bind Z O); [apply zS; r|intros ml]. apply (pres_bind Z O); [apply zS; r|intros _].
  intros s3. match goal with |- Z (how (fst ?x)) _ _ => change (zends s3 x) end. unfold bind at 1. unfold upd_inp at 1, modify at 1. cbv beta iota. set (s4 := set_inp _ s3).
  assert (M4 : JoinFacts.inmac s4). { unfold JoinFacts.inmac. cbn. apply Exists_cons_hd. exact I. }
  apply (zends_trans _ s3 s4); [intros E; exact E|]. clearbody s4. clear s3.
  unfold bind at 1. assert (K6 : pres S _ newsegment) by (unfold newsegment; r). specialize (K6 s4). destruct (newsegment s4) as [[u5|b] s5] eqn:E5; [|discriminate E5].
  cbn [fst snd how] in K6. destruct K6 as [K6 _]. unfold spot in K6. injection K6 as Q1 Q2 Q3 Q4 Q5 Q6.
  assert (M5 : JoinFacts.inmac s5) by (unfold JoinFacts.inmac; rewrite Q1; exact M4). apply (zends_trans _ s4 s5); [intros E; congruence|].
  clear Q1 Q2 Q3 Q4 Q5 Q6 E5 M4 s4. unfold bind at 1. cbn [gets]. unfold bind at 1.
  destruct (run n KMac (li && a_macrolist_on (fl s5)) true s5) as [[f|b] s6] eqn:E6.
  2:{ intros _. destruct b; try exact I. elim (mac_no_err _ _ _ _ _ _ E6). }
  pose proof (J_run _ JoinFacts.steady_walk n KMac (li && a_macrolist_on (fl s5)) true s5) as K8. rewrite E6 in K8. cbn [fst snd how] in K8.
  destruct K8 as [_ K8]. destruct (K8 M5) as (_ & T2 & _). apply (zends_trans _ s5 s6); [intros E; congruence|]. clear E6 K8 M5 T2 s5.
  match goal with |- zends _ (?m s6) => assert (K : pres Z _ m); [|exact (K s6)] end.
  apply (pres_bind Z O); [intros sx E; exact E|intros _]. z.
Qed.

Lemma Z_run : forall n, (forall li ex, pres Z _ (run n KLine li ex)) /\ (forall li ex, pres Z _ (run n KIf li ex)).
Proof.
  induction n as [|n [IHl IHi]]; [split; intros li ex s E; exact I|]. split; intros li ex; cbn [run].
  - unfold asmline. z; try (apply zS; first [apply S_linestart|apply S_stripline|apply S_splitline|r; apply S_herelabel]).
    unfold dispatch. z; try (apply zS; r; apply S_herelabel); try apply Z_exec; try apply Z_macrocall.
    unfold execblock, Xelse, Xendc, Xendm, Xexitm, leave. z; try apply Z_Xmacro; unfold Xif; z; try apply IHi; unfold iflist; z; apply zS; r; apply S_testtrue.
  - unfold ifround. apply Z_next. intros s. match goal with |- Z (how (fst ?x)) _ _ => change (zends s x) end. unfold bind at 1, catch.
    pose proof (IHl li ex s) as K. destruct (run n KLine li ex s) as [[f|[e| | | |]] s1]; cbn [fst snd how] in K; try (intros _; exact I).
    + apply (zends_trans _ s s1); [exact K|]. match goal with |- zends _ (?m s1) => assert (X : pres Z _ m); [|exact (X s1)] end. destruct f; z; apply IHi.
    + set (s2 := set_ct _ s1). intros E. specialize (K E). change (maineof (inp s1)) with (maineof (inp s2)) in K.
      assert (K' : maineof (inp s2) = true -> over s2) by (intros T; destruct (K T); split; assumption).
      destruct (maineof (inp s2)) eqn:T; [|exact (IHi li ex s2 T)].
      pose proof (if_over n li ex s2 (K' eq_refl) (fun H => H) T) as X. destruct (run n KIf li ex s2) as [[f|[]] s3]; try exact I; [contradiction|]. intros _. exact X.
Qed.

(** ** The first pass *)
Definition shut (s : state) : Prop := s.(inp).(maineof) = true -> over s.
Lemma empty_line : forall n s r s', s.(inp).(curline) = [] -> run n KLine true true s = (r, s') -> over s ->
  match r with Ok f => f = FNone /\ over s' | Bad (Err _) => False | _ => True end.
Proof.
  intros n s x s' C E [O1 O2]. destruct n as [|n]; [injection E as <- <-; exact I|]. cbn [run] in E.
  destruct (CallFacts.blank_line (run n) n true true s [] (Forall_nil _) (or_introl C)) as [A (_ & _ & _ & _ & _ & _ & _ & _ & c & B)]; [rewrite C; discriminate|].
  rewrite E in A, B. cbn [fst snd] in A, B. destruct x as [f|[]]; try exact I.
  - split; [destruct A as [A|A]; [injection A as ->; reflexivity|discriminate A]|]. unfold over. rewrite B. split; assumption.
  - destruct A as [A|A]; discriminate A.
Qed.

(** The source is empty or ends with the end of a line. *)
Lemma read_left : forall t n r e, read_to t n r e -> exists b, t = b ++ r.
Proof.
  intros t n r e H. induction H as [|n p rest H [b ->] W|n p e H IH T]; [exists []; reflexivity|exists (b ++ p); apply app_assoc|exists t; symmetry; apply app_nil_r].
Qed.
Lemma last_line : forall main b p, at_start main -> main = b ++ p -> tail p -> p = [].
Proof.
  intros main b p A E [N _]. destruct p as [|c p] using rev_ind; [reflexivity|]. exfalso.
  destruct A as [A|[t A]]; [rewrite A in E; destruct b; [destruct p|]; discriminate E|].
  rewrite A, app_assoc in E. apply app_inj_tail in E. destruct E as [_ <-]. apply N, in_or_app. right. left. reflexivity.
Qed.
Lemma located_left : forall fs main n l r e, located fs main n l r e -> exists b, main = b ++ r.
Proof. intros fs main n l r e H. induction H; [exact (read_left _ _ _ _ H)|assumption|assumption]. Qed.

Lemma round_shut : forall fs main n s x s', at_start main -> placed fs main s -> shut s -> catch (passline n) s = (Ok x, s') -> shut s'.
Proof.
  intros fs main n s x s' A P H E T. unfold catch in E. unfold passline in E. unfold bind at 1 in E.
  pose proof (JoinFacts.linegets_is s) as N. destruct (linegets s) as [[u|b] s1] eqn:G; [|destruct b; [contradiction|..]; discriminate E].
  destruct (maineof (inp s1)) eqn:T1.
  - destruct (linegets_over _ _ _ G H T1) as (Ov & C & Tl). destruct P as [_ P]. destruct (located_left _ _ _ _ _ _ P) as [b Eb].
    specialize (C Tl (last_line _ _ _ A Eb Tl)). unfold bind in E. pose proof (fun r s2 R => empty_line n s1 r s2 C R Ov) as K.
    destruct (run n KLine true true s1) as [[f|b'] s2].
    + destruct (K _ _ eq_refl) as [-> K2]. injection E as <- <-. exact K2.
    + specialize (K _ _ eq_refl). destruct b'; try discriminate E. contradiction.
  - assert (Zp : pres Z _ (f <- run n KLine true true ;; match f with FNone => ret tt | _ => err "ELSE, ENDC, ENDM, EXITM illegal here" end)).
    { apply (pres_bind Z O); [apply Z_run|intros f]. apply zS. destruct f; r. }
    specialize (Zp s1 T1). match type of Zp with match how (fst ?x) with _ => _ end => destruct x as [[v|[]] s2] end; cbn [fst snd how] in Zp; try discriminate E.
    + injection E as _ <-. congruence.
    + injection E as _ <-. destruct (Zp T). split; assumption.
Qed.
Lemma loop_shut : forall fs main n s s', at_start main -> placed fs main s -> shut s -> passloop n s = (Ok tt, s') -> srcs (inp s') = [].
Proof.
  intros fs main n. induction n as [|n IH]; intros s s' A P H E; [discriminate E|]. cbn [passloop] in E. unfold bind at 1 in E.
  pose proof (L_catch fs main _ _ (L_passline fs main n) s) as K. destruct (catch (passline n) s) as [[x|b] s1] eqn:C; [|discriminate E].
  cbn [fst snd how] in K. destruct (K P) as (P1 & _). pose proof (round_shut fs main n s x s1 A P H C) as H1.
  destruct x as [v|]; [|exact (IH s1 s' A P1 H1 E)]. unfold bind in E. unfold mainfeof in E. cbn [gets] in E.
  destruct (maineof (inp s1)) eqn:T; [|exact (IH s1 s' A P1 H1 E)]. injection E as <-. apply H1. exact T.
Qed.

Theorem second_starts : forall n o fs main s, at_start main -> pass_starts n o fs main 2 s -> s.(inp).(srcs) = [].
Proof.
  intros n o fs main s A [[X _]|(_ & s0 & s1 & E1 & E2 & E3)]; [discriminate X|].
  assert (G : srcs (inp s0) = []).
  { rewrite first_eq in E1. apply EmitFacts.seq_ok in E1. destruct E1 as (u & t0 & E0 & E1). destruct u.
    unfold pass in E1. apply EmitFacts.seq_ok in E1. destruct E1 as (u1 & t1 & E5 & E1). destruct u1.
    assert (Q : srcs (inp t1) = [] /\ maineof (inp t1) = false).
    { pose proof E5 as E5'. rewrite passstart_eq in E5'. apply (f_equal snd) in E5'. cbn [snd] in E5'. rewrite <- E5'. split; [|reflexivity].
      pose proof (S_init pseudos directives_named (init_state fs main)) as K. rewrite E0 in K. destruct K as [K _]. unfold spot in K. injection K as K _ _ _ _ _. exact K. }
    destruct Q as [Q1 Q2]. assert (P : pass_starts n o fs main 1 t1) by (left; split; [reflexivity|]; exists t0; split; assumption).
    destruct (start_placed _ _ _ _ _ _ P Q1) as [P1 _]. apply (loop_shut fs main n t1 s0 A P1); [intros T; congruence|exact E1]. }
  rewrite passstart_eq in E3. apply (f_equal snd) in E3. cbn [snd] in E3. rewrite <- E3. cbn.
  pose proof (JoinProg.between_srcs o s0) as B. rewrite E2 in B. cbn [snd] in B. congruence.
Qed.

Theorem pass_line : forall n o fs main k s0 m t a, short_lines main -> (forall name t, fs name = Some t -> short_lines t) ->
  pass_starts n o fs main k s0 -> k = 1 \/ at_start main -> rounds n s0 m t -> linegets t = (Ok tt, a) ->
  a.(ct).(passnumber) = k /\
  exists T before p rest, source_of fs main a T /\ T = before ++ p ++ rest /\
    (whole p \/ tail p /\ rest = []) /\ (p <> [] -> at_start before /\ a.(inp).(linenumber) = newlines before + 1) /\
    (~ In nul p -> a.(inp).(curline) = visible p).
Proof.
  intros n o fs main k s0 m t a S1 S2 H K R E. apply (round_line n o fs main k s0 m t a S1 S2 H); [|exact R|exact E].
  destruct H as [(-> & t0 & E0 & E5)|H].
  - rewrite passstart_eq in E5. apply (f_equal snd) in E5. cbn [snd] in E5. rewrite <- E5. 
    pose proof (S_init pseudos directives_named (init_state fs main)) as X. rewrite E0 in X. destruct X as [X _]. unfold spot in X. injection X as X _ _ _ _ _. exact X.
  - destruct K as [->|K]; [destruct H as [H _]; discriminate H|]. pose proof H as [-> _]. apply (second_starts n o fs main s0 K). right. exact H.
Qed.

(** Rounds by computation. *)
Fixpoint turns (m n : nat) (s : state) : option (nat * state) :=
  match m with
  | Datatypes.O => Some (n, s)
  | Datatypes.S m' =>
      match n with
      | Datatypes.O => None
      | Datatypes.S n' =>
          match catch (passline n') s with
          | (Ok x, s1) => if (match x with None => true | Some _ => negb s1.(inp).(maineof) end) then turns m' n' s1 else None
          | _ => None
          end
      end
  end.
Lemma turns_rounds : forall m n s n' s', turns m n s = Some (n', s') -> rounds n s n' s'.
Proof.
  induction m as [|m IH]; intros n s n' s' E; cbn [turns] in E; [injection E as <- <-; constructor|].
  destruct n as [|n]; [discriminate E|]. destruct (catch (passline n) s) as [[x|b] s1] eqn:C; [|discriminate E].
  destruct (match x with None => true | Some _ => _ end) eqn:T; [|discriminate E]. apply (rounds_more n s x s1 n' s' C); [|exact (IH _ _ _ _ E)].
  destruct x; [right; destruct (maineof (inp s1)); [discriminate T|reflexivity]|left; reflexivity].
Qed.
(** The state after the line that follows [m] rounds has been read. *)
Definition next_line (m n : nat) (s : state) : option state :=
  match turns m n s with
  | Some (_, t) => match linegets t with (Ok tt, a) => Some a | _ => None end
  | None => None
  end.
Lemma next_reads : forall m n s (Q : state -> bool), match next_line m n s with Some a => Q a | None => false end = true ->
  exists n' t a, rounds n s n' t /\ linegets t = (Ok tt, a) /\ Q a = true.
Proof.
  intros m n s Q E. unfold next_line in E. destruct (turns m n s) as [[n' t]|] eqn:T; [|discriminate E].
  destruct (linegets t) as [[[]|b] a] eqn:G; [|discriminate E]. exists n', t, a. split; [exact (turns_rounds _ _ _ _ _ T)|]. split; [exact G|exact E].
Qed.
