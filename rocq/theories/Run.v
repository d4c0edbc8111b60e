(** The assembly as a whole: start of a pass, the step between the passes, the end. *)
From Coq Require Import String Ascii ZArith List Bool Lia.
From Verif Require Import Base State Tree Filter Output Label Scode Tables Cpu6800 Pseudos Macro Xref Crasm.
From Verif Require Import Walk TreeFacts Frame.
Import ListNotations.
Open Scope Z_scope.

(** An invariant [I], the form [F] it has after an assembly error, and what is left of
    it, [D], when the program stops. *)
Definition holds (I F D : state -> Prop) : relation := fun d s s' =>
  I s -> match d with Fine => I s' | Failed => F s' | Dead => D s' end.

Lemma holds_order : forall I F D : state -> Prop, (forall s, I s -> D s) -> order (holds I F D).
Proof.
  intros I F D ID. constructor; unfold holds.
  - auto.
  - intros a b H J. auto.
  - intros d a b c H1 H2 J. apply H2, H1, J.
Qed.

Lemma setpc_eq : forall a s,
  setpc a s =
  if u64 a =? s.(wr).(pc) then (Ok tt, s)
  else (flushscoderaw ;;; upd_wr (set_pc (u64 a)) ;;; upd_wr (set_rawstart (u64 a)) ;;;
        upd_wr (set_raw [])) s.
Proof. intros a s. unfold setpc. unfold bind at 1. cbn [gets]. destruct (_ =? _); reflexivity. Qed.

(** What the start of a pass does to the symbol table. *)
Definition startstar (rel : bool) (t : tree) : tree :=
  tupd starkey (fun l => set_l_flags (set_f_undef true (set_f_noredef false
                           (set_f_forward false l.(l_flags)))) l)
    (tupd starkey (fun l => set_l_flags (set_f_used true l.(l_flags)) l)
       (match tfind starkey t with
        | None => tins starkey (mkLabel lf_fwd (if rel then TRel else TAbs) 0 PNull 0 TUser) t
        | Some _ => t
        end)).

(** The start of a pass in one equation. *)
Lemma passstart_eq : forall k s,
  passstart k s =
  (Ok tt,
   set_ct (set_passnumber k (set_errnumber 0 (set_warnnumber 0 s.(ct))))
    (set_sy (startstar s.(fl).(a_relatif) s.(sy))
     (set_inp (set_macrolevel 0 (set_thiscall 0 (set_segment 0 (set_includelevel 0
                (set_linenumber 0 (set_lineprefix (cz 0)
                   (set_mainrest s.(maintext) (set_maineof false s.(inp)))))))))
      (set_fl (set_a_iflist_on true (set_a_macrolist_on false
                 (if s.(fl).(a_nolist) then set_a_code_on true s.(fl)
                  else set_a_list_on true (set_a_code_on true s.(fl))))) s)))).
Proof.
  intros k s. unfold passstart.
  unfold bind, upd_fl, upd_inp, upd_sy, upd_ct, gets, when. unfold modify.
  cbn [fl inp set_inp set_fl].
  change (a_nolist (set_a_code_on true (fl s))) with (a_nolist (fl s)).
  destruct (a_nolist (fl s)); cbn [negb ret]; cbv beta iota; rewrite findlabel_eq; reflexivity.
Qed.

Lemma between_eq : forall o s,
  between o s =
  (Ok tt, set_sy (tmap undef_node s.(sy))
    (set_fl (let f1 := set_a_noerror false s.(fl) in
             let f2 := if ogiven o.(o_scode) then set_a_nocode false f1 else f1 in
             let f3 := if o.(o_list) then set_a_nolist false f2 else f2 in
             if o.(o_warn) then set_a_nowarning false f3 else f3) s)).
Proof.
  intros o s. unfold between, undeflabels, bind, upd_fl, upd_sy, when. unfold modify.
  destruct (ogiven (o_scode o)), (o_list o), (o_warn o); reflexivity.
Qed.

(** The state after the first pass. *)
Definition first (n : nat) : M unit := init_label_list pseudos ;;; pass n 1.

Lemma first_eq : forall n s, first n s = (init_label_list pseudos ;;; pass n 1) s.
Proof. reflexivity. Qed.

Lemma assemble_split : forall n o s,
  assemble n o s = (first n ;;; between o ;;; pass n 2 ;;; finish) s.
Proof.
  intros n o s. unfold assemble, first. rewrite bind_assoc. reflexivity.
Qed.


(** ** Operations of the writer seen from outside *)
Section Free.
Variable P : relation.
Variable O : order P.
Hypothesis W : forall s w, P Fine s (set_wr w s).

Ltac q := repeat first
  [ match goal with |- pres P _ (bind _ _) => apply (pres_bind P O); [|intros] end
  | apply (pres_ret P O) | apply (pres_gets P O) | apply (pres_ub P O)
  | match goal with |- pres P _ (upd_wr _) => intros ?s; apply W end
  | progress (unfold when)
  | match goal with |- pres P _ (match ?x with _ => _ end) => destruct x end ].

Lemma scwrite_free : forall t, pres P _ (scwrite t).
Proof. unfold scwrite. intros. q. Qed.
Lemma flush_free : pres P _ flushscoderaw.
Proof. unfold flushscoderaw. q; try apply scwrite_free. Qed.
Lemma setpc_free : forall a, pres P _ (setpc a).
Proof. unfold setpc. intros. q; apply flush_free. Qed.
Lemma close_free : pres P _ closescodefile.
Proof. unfold closescodefile. q; try apply flush_free; apply scwrite_free. Qed.

Hypothesis L : osteps P.
Hypothesis E : forall s e, P Fine s (set_emitted e s).
Hypothesis A : forall s v, P Fine s (set_ct (set_advance v s.(ct)) s).
Hypothesis Er : forall m, pres P unit (error m).
Lemma insert8_free : forall x, pres P _ (insert8 x).
Proof.
  unfold insert8. intros. q.
  - unfold err. apply Er.
  - intros s. apply E.
  - apply flush_free.
  - apply (pres_outputbyte P L).
  - intros s. apply A.
Qed.
End Free.

(** The end of a run, when nothing depends on the object file. *)
Lemma finish_free : forall P, lsteps P -> (forall s w, P Fine s (set_wr w s)) ->
  (forall s, P Fine s (set_fl (set_a_list_on true s.(fl)) s)) -> pres P _ finish.
Proof.
  intros P L W F. pose proof (p_order P L) as O. unfold finish.
  apply (pres_bind P O); [apply (pres_gets P O)|intros w].
  apply (pres_bind P O).
  - destruct (scode w); [apply (close_free P O W)|apply (pres_ret P O)].
  - intros _. apply (pres_bind P O); [intros s; apply F|intros _; apply (pres_results P L)].
Qed.

(** The states at the start of the loop of a pass. *)
Definition started (k : Z) (s : state) : state := snd (passstart k s).
Definition turned (o : options) (s : state) : state := started 2 (snd (between o s)).

(** ** Assembly errors do not leave the loop of a pass *)
Lemma init_unfailing : forall l, pres unfailing _ (init_label_list l).
Proof.
  intros l. apply (init_pres_label_list _ lsteps_unfailing (fun _ _ => True)); [discriminate|discriminate|unfold fine_list; auto].
Qed.

Lemma passloop_unfailing : forall n, pres unfailing _ (passloop n).
Proof.
  pose proof (p_order _ lsteps_unfailing) as O.
  induction n as [|n IH]; cbn [passloop]; [apply (pres_fuel _ O)|].
  apply (pres_bind _ O).
  - intros s. unfold catch. destruct (passline n s) as [[a|[]] s']; discriminate.
  - intros [a|]; [|exact IH].
    apply (pres_bind _ O); [|intros []; [apply (pres_ret _ O)|exact IH]].
    apply (pres_gets _ O).
Qed.

Lemma finish_unfailing : pres unfailing _ finish.
Proof.
  apply finish_free; [apply lsteps_unfailing|..]; intros; discriminate.
Qed.

Theorem no_error : forall n o s m s', assemble n o s <> (Bad (Err m), s').
Proof.
  intros n o. assert (K : pres unfailing _ (assemble n o)).
  { pose proof (p_order _ lsteps_unfailing) as O. unfold assemble.
    apply (pres_bind _ O); [apply init_unfailing|intros _].
    apply (pres_bind _ O); [|intros _].
    { unfold pass. apply (pres_bind _ O); [|intros _; apply passloop_unfailing].
      intros s. rewrite passstart_eq. discriminate. }
    apply (pres_bind _ O); [|intros _].
    { intros s. rewrite between_eq. discriminate. }
    apply (pres_bind _ O); [|intros _; apply finish_unfailing].
    unfold pass. apply (pres_bind _ O); [|intros _; apply passloop_unfailing].
    intros s. rewrite passstart_eq. discriminate. }
  intros s m s' E. apply (K s). rewrite E. reflexivity.
Qed.

Section Whole.
Variables I0 F0 I1 F1 I2 F2 I3 D : state -> Prop.
Hypothesis S0 : steps (holds I0 F0 D).
Hypothesis S1 : steps (holds I1 F1 D).
Hypothesis S2 : steps (holds I2 F2 D).
Hypothesis H1 : forall s, I0 s -> I1 (started 1 s).

Lemma first_holds : forall n s, I0 s ->
  match first n s with (Ok _, s') => I1 s' | (Bad _, s') => D s' end.
Proof.
  intros n s J. unfold first, bind at 1.
  pose proof (init_pres_table _ (p_lsteps _ (p_bsteps _ S0)) (p_sy _ S0) pseudos directives_named s J) as A.
  pose proof (init_unfailing pseudos s) as N.
  destruct (init_label_list pseudos s) as [[u|b] s1]; cbn [fst snd how] in A, N.
  2:{ destruct b; try exact A. contradiction N. reflexivity. }
  unfold pass, bind. pose proof (H1 s1 A) as B. unfold started in B. rewrite passstart_eq in *.
  cbn [snd] in B. set (s2 := set_ct _ _) in *. clearbody s2. clear N.
  pose proof (J_passloop _ (pres_walk _ S1) n s2 B) as C. pose proof (passloop_unfailing n s2) as N.
  destruct (passloop n s2) as [[u'|b] s3]; cbn [fst snd how] in C, N; [exact C|].
  destruct b; try exact C. contradiction N. reflexivity.
Qed.

Variable o : options.
Hypothesis H2 : forall s, I1 s -> I2 (turned o s).
Hypothesis H3 : forall s, I2 s -> match finish s with (Ok _, s') => I3 s' | (Bad _, s') => D s' end.

Lemma second_holds : forall n s, I1 s ->
  match (between o ;;; pass n 2) s with (Ok _, s') => I2 s' | (Bad _, s') => D s' end.
Proof.
  intros n s A. unfold bind at 1, pass, bind. pose proof (H2 s A) as B. unfold turned, started in B.
  rewrite between_eq in *. cbn [snd] in B. rewrite passstart_eq in *. cbn [snd] in B.
  set (s2 := set_ct _ _) in *. clearbody s2.
  pose proof (J_passloop _ (pres_walk _ S2) n s2 B) as C. pose proof (passloop_unfailing n s2) as N.
  destruct (passloop n s2) as [[u'|b] s3]; cbn [fst snd how] in C, N; [exact C|].
  destruct b; try exact C. contradiction N. reflexivity.
Qed.

Theorem run_holds : forall n s, I0 s ->
  match assemble n o s with (Ok _, s') => I3 s' | (Bad _, s') => D s' end.
Proof.
  intros n s J. rewrite assemble_split. unfold bind at 1. pose proof (first_holds n s J) as A.
  destruct (first n s) as [[u|b] s1]; [|exact A].
  pose proof (second_holds n s1 A) as B.
  assert (E : (between o ;;; pass n 2 ;;; finish) s1 = ((between o ;;; pass n 2) ;;; finish) s1)
    by (symmetry; apply bind_assoc).
  rewrite E. unfold bind at 1. destruct ((between o ;;; pass n 2) s1) as [[u'|b] s2]; [|exact B].
  apply H3. exact B.
Qed.
End Whole.
