(** Relations between the states before and after an operation that are respected by
    the elementary stores are respected by the whole assembler. *)
From Coq Require Import String Ascii ZArith List Bool Lia.
From Verif Require Import Base State Tree Filter Output Label Operator Parse Scode Tables.
From Verif Require Import Cpu6800 Cpu6502 CpuZ80 Pseudos Macro Xref Crasm Walk TreeFacts LineFacts.
Import ListNotations.
Open Scope Z_scope.

(** The changes a single operation can make to the symbol table, apart from the value
    of [*] moving on. *)
Inductive systep (t : tree) : tree -> Prop :=
| ss_used : forall k, systep t (tupd k (fun l => set_l_flags (set_f_used true l.(l_flags)) l) t)
| ss_new : forall k ty, tfind k t = None ->
    systep t (tins k (mkLabel lf_fwd ty 0 PNull 0 TUser) t)
| ss_def : forall k flags ty v p (m : option Z), flags.(f_undef) = false ->
    (forall l, tfind k t = Some l ->
       l.(l_flags).(f_undef) = true \/
       (l.(l_flags).(f_noredef) = false /\ flags.(f_noredef) = false)) ->
    systep t (tupd k (fun l => mkLabel (def_flags l.(l_flags) flags) ty
                                 (match m with Some m => m | None => l.(l_modifier) end) p v l.(l_table))
                (match tfind k t with
                 | Some _ => t
                 | None => tins k (mkLabel (set_f_undef true lf0) ty 0 PNull 0 TUser) t
                 end))
| ss_mac : forall k lines l, tfind k t = Some l -> l.(l_type) = TMacro ->
    systep t (tupd k (set_l_ptr (PMac lines)) t)
| ss_key : forall k e, tfind k t = None ->
    (e.(l_table) = TPseudos -> In k (map (fun e => lkey 0 (s2l (fst e))) pseudos)) ->
    systep t (tins k e t)
| ss_rekey : forall k l, tfind k t = Some l -> l.(l_flags).(f_undef) = true ->
    systep t (tupd k (fun l => set_l_flags (set_f_undef false l.(l_flags)) l) t).

(** The flags the assembler cannot change during a pass, and that it cannot clear. *)
Definition keepflags (a b : aflags) : Prop :=
  a.(a_nolist) = b.(a_nolist) /\ a.(a_nowarning) = b.(a_nowarning) /\
  a.(a_noerror) = b.(a_noerror) /\ a.(a_nocode) = b.(a_nocode) /\ a.(a_addr24) = b.(a_addr24) /\
  (a.(a_cpu_gv) = true -> b.(a_cpu_gv) = true).

(** The stores to the flags, apart from the restoration of F_LIST_ON at the end of a
    file or macro. *)
Definition flstep (a b : aflags) : Prop :=
  keepflags a b /\
  (b.(a_list_on) = a.(a_list_on) \/ b.(a_list_on) = false \/ a.(a_nolist) = false \/
   a.(a_noerror) = false).

(** What a source entry restores when it is left, and its kind. *)
Definition saved (x : source) : bool * bool * ascii * Z :=
  match x with
  | SFile _ _ _ ol op on => (false, ol, op, on)
  | SMac _ _ _ ol op on => (true, ol, op, on)
  end.

(** The stores to the line reader that leave the stack of sources alone. *)
Inductive instep (i : input) : input -> Prop :=
| is_line : forall j, j.(mainrest) = i.(mainrest) -> j.(maineof) = i.(maineof) ->
    j.(srcs) = i.(srcs) -> j.(macrolevel) = i.(macrolevel) -> j.(thiscall) = i.(thiscall) ->
    j.(segment) = i.(segment) -> j.(includelevel) = i.(includelevel) ->
    zlen j.(curline) <= Z.max 249 (zlen i.(curline)) -> instep i j
| is_main : forall r e, i.(srcs) = [] -> zlen r <= zlen i.(mainrest) -> instep i (set_mainrest r (set_maineof e i))
| is_top : forall x y l, i.(srcs) = x :: l -> saved y = saved x -> instep i (set_srcs (y :: l) i)
| is_segment :
    instep i (set_segment (i.(thiscall) + 1) (set_thiscall (i.(thiscall) + 1) i)).

(** The end of an included file. *)
Definition popped (ol : bool) (op : ascii) (on : Z) (l : list source) (s : state) : state :=
  set_fl (set_a_list_on ol s.(fl))
    (set_inp (set_linenumber on (set_lineprefix op
               (set_includelevel (s.(inp).(includelevel) - 1) (set_srcs l s.(inp))))) s).

(** The start of an included file. *)
Definition included (text : str) (s : state) : state :=
  set_inp (set_srcs (SFile false text false s.(fl).(a_list_on)
                       s.(inp).(lineprefix) s.(inp).(linenumber) :: s.(inp).(srcs))
             (set_linenumber 0 (set_includelevel (s.(inp).(includelevel) + 1) s.(inp)))) s.

(** The start of a macro. *)
Definition entered (lines args : list str) (all : str) (s : state) : state :=
  set_inp (set_srcs (SMac lines args all s.(fl).(a_list_on)
                       s.(inp).(lineprefix) s.(inp).(linenumber) :: s.(inp).(srcs))
             (set_lineprefix (cz 77) (set_macrolevel (s.(inp).(macrolevel) + 1) s.(inp)))) s.

(** The end of a macro called in state [s0]; [c] becomes the current line. *)
Definition back (s0 : state) (c : str) (s : state) : state :=
  set_fl (set_a_list_on s0.(fl).(a_list_on) s.(fl))
    (set_inp (set_macrolevel (s.(inp).(macrolevel) - 1)
               (set_linenumber s0.(inp).(linenumber)
                 (set_lineprefix s0.(inp).(lineprefix)
                   (set_srcs s0.(inp).(srcs)
                     (set_segment s0.(inp).(segment) (set_curline c s.(inp))))))) s).

(** How an operation ends: it returns, it calls [error], or the program stops. *)
Inductive ending := Fine | Failed | Dead.

Definition how {A} (r : res A) : ending :=
  match r with Ok _ => Fine | Bad (Err _) => Failed | Bad _ => Dead end.

Definition relation : Type := ending -> state -> state -> Prop.

Record order (P : relation) : Prop := {
  p_refl : forall s, P Fine s s;
  p_dead : forall a b, P Fine a b -> P Dead a b;
  p_trans : forall d a b c, P Fine a b -> P d b c -> P d a c
}.

(** What the listing routines do to the state. *)
Record lsteps (P : relation) : Prop := {
  p_order : order P;
  p_ls : forall s v, v.(stdout) = s.(ls).(stdout) -> P Fine s (set_ls v s);
  p_print : forall s t, s.(fl).(a_list_on) = true ->
    P Fine s (set_ls (set_stdout (t :: s.(ls).(stdout)) s.(ls)) s);
  p_fatal : forall s m, P Dead s (set_ls (set_stdout
    ((s2l "FATAL ERROR: " ++ s2l m ++ [nl]) :: s.(ls).(stdout)) s.(ls)) s);
  p_bufferpos : forall s v, P Fine s (set_ct (set_bufferpos v s.(ct)) s);
  p_star : forall s, in_s64 (starvalue s + s.(ct).(advance)) = true ->
    P Fine s (set_sy (tupd starkey (set_l_value (starvalue s + s.(ct).(advance))) s.(sy)) s)
}.

(** The same without the moves of [*]. *)
Record osteps (P : relation) : Prop := {
  o_order : order P;
  o_ls : forall s v, v.(stdout) = s.(ls).(stdout) -> P Fine s (set_ls v s);
  o_print : forall s t, s.(fl).(a_list_on) = true ->
    P Fine s (set_ls (set_stdout (t :: s.(ls).(stdout)) s.(ls)) s);
  o_fatal : forall s m, P Dead s (set_ls (set_stdout
    ((s2l "FATAL ERROR: " ++ s2l m ++ [nl]) :: s.(ls).(stdout)) s.(ls)) s);
  o_bufferpos : forall s v, P Fine s (set_ct (set_bufferpos v s.(ct)) s)
}.

Lemma lsteps_osteps : forall P, lsteps P -> osteps P.
Proof. intros P [A B C D E F]. constructor; assumption. Qed.
Coercion lsteps_osteps : lsteps >-> osteps.

(** What is done to a line that is read and skipped. *)
Record qsteps (P : relation) : Prop := {
  q_lsteps : lsteps P;
  q_org : forall s b, P Fine s (set_fl (set_a_org_gv b s.(fl)) s);
  q_inp : forall s v, instep s.(inp) v -> v.(segment) = s.(inp).(segment) ->
    v.(thiscall) = s.(inp).(thiscall) -> P Fine s (set_inp v s);
  q_pop : forall s r e ol op on l, s.(inp).(srcs) = SFile true r e ol op on :: l ->
    P Fine s (popped ol op on l s);
  q_advance0 : forall s, P Fine s (set_ct (set_advance 0 s.(ct)) s);
  q_setpc : forall s a, P (how (fst (setpc a s))) s (snd (setpc a s));
  q_error : forall s m, P (how (fst (@error unit m s))) s (snd (@error unit m s));
  q_catch : forall s s', P Failed s s' ->
    P Fine s (set_ct (set_errnumber (s'.(ct).(errnumber) + 1) s'.(ct)) s')
}.

(** What is done outside the instructions proper. *)
Record bsteps (P : relation) : Prop := {
  p_lsteps : lsteps P;
  p_fl : forall s v, flstep s.(fl) v -> P Fine s (set_fl v s);
  p_inp : forall s v, instep s.(inp) v -> P Fine s (set_inp v s);
  p_pop : forall s r e ol op on l, s.(inp).(srcs) = SFile true r e ol op on :: l ->
    P Fine s (popped ol op on l s);
  p_advance0 : forall s, P Fine s (set_ct (set_advance 0 s.(ct)) s);
  p_setpc : forall s a, P (how (fst (setpc a s))) s (snd (setpc a s));
  p_error : forall s m, P (how (fst (@error unit m s))) s (snd (@error unit m s));
  p_catch : forall s s', P Failed s s' ->
    P Fine s (set_ct (set_errnumber (s'.(ct).(errnumber) + 1) s'.(ct)) s')
}.

Lemma bsteps_qsteps : forall P, bsteps P -> qsteps P.
Proof.
  intros P [A B C D E F G I]. constructor; auto.
  intros s b. apply B. split; [repeat split; auto|]. left. reflexivity.
Qed.
Coercion bsteps_qsteps : bsteps >-> qsteps.

(** The log of the references. *)
Definition noted (k : str) (l : label) (s : state) : state :=
  set_looked (mkLook s.(ct).(passnumber) k l :: s.(looked)) s.
Definition usable_now (l : label) : Prop := l.(l_flags).(f_undef) && negb l.(l_flags).(f_forward) = false.

Record steps (P : relation) : Prop := {
  p_bsteps : bsteps P;
  p_cp : forall s v, P Fine s (set_cp v s);
  p_calcresult : forall s v, P Fine s (set_ct (set_calcresult v s.(ct)) s);
  p_advance : forall s v, P Fine s (set_ct (set_advance v s.(ct)) s);
  p_sy : forall s t, systep s.(sy) t -> P Fine s (set_sy t s);
  p_looked : forall s k l, tfind k s.(sy) = Some l -> usable_now l -> P Fine s (noted k l s);
  p_insert8 : forall s x, P (how (fst (insert8 x s))) s (snd (insert8 x s));
  p_include : forall s text, zlen s.(inp).(srcs) + 1 < MAXSOURCEDEEP ->
    P Fine s (included text s);
  p_enter : forall s lines args all, zlen s.(inp).(srcs) + 1 < MAXSOURCEDEEP ->
    P Fine s (entered lines args all s);
  p_back : forall s0 s c, P Fine s0 s -> c = s0.(inp).(curline) \/ c = s.(inp).(curline) ->
    P Fine s0 (back s0 c s)
}.

Definition pres (P : relation) (A : Type) (m : M A) : Prop :=
  forall s, P (how (fst (m s))) s (snd (m s)).

(** A single relation for all endings. *)
Definition always (R : state -> state -> Prop) : relation := fun _ => R.

Create HintDb presdb discriminated.
#[global] Hint Constants Opaque : presdb.

Section Order.
Variable P : relation.
Variable H : order P.

Lemma pres_ext : forall A (m m' : M A), (forall s, m s = m' s) -> pres P A m -> pres P A m'.
Proof. intros A m m' E Hm s. rewrite <- E. apply Hm. Qed.

Lemma pres_ret : forall A (a : A), pres P A (ret a).
Proof. intros A a s. apply (p_refl P H). Qed.

Lemma pres_ub : forall A w, pres P A (stop (UB w)).
Proof. intros A b s. apply (p_dead P H). apply (p_refl P H). Qed.
Lemma pres_hang : forall A, pres P A (stop Hang).
Proof. intros A s. apply (p_dead P H). apply (p_refl P H). Qed.
Lemma pres_fuel : forall A, pres P A (stop NoFuel).
Proof. intros A s. apply (p_dead P H). apply (p_refl P H). Qed.

Lemma pres_gets : forall A (f : state -> A), pres P A (gets f).
Proof. intros A f s. apply (p_refl P H). Qed.

Lemma pres_bind : forall A B (m : M A) (k : A -> M B),
  pres P A m -> (forall a, pres P B (k a)) -> pres P B (bind m k).
Proof.
  intros A B m k Hm Hk s. specialize (Hm s). unfold bind.
  destruct (m s) as [[a|b] s']; cbn [fst snd how] in *; [|exact Hm].
  apply (p_trans P H) with s'; [exact Hm|]. apply Hk.
Qed.

Lemma pres_get : forall A C (f : state -> A) (k : A -> M C),
  (forall s, P (how (fst (k (f s) s))) s (snd (k (f s) s))) -> pres P C (bind (gets f) k).
Proof. intros A C f k Hk s. apply Hk. Qed.

(** The effect of [m] from [s], seen from an earlier state. *)
Definition from (s0 : state) {A} (m : M A) (s : state) : Prop :=
  P (how (fst (m s))) s0 (snd (m s)).

Lemma from_bind : forall s0 A B (m : M A) (k : A -> M B) s, from s0 m s ->
  (forall a s', m s = (Ok a, s') -> from s0 (k a) s') -> from s0 (bind m k) s.
Proof.
  intros s0 A B m k s Hm Hk. unfold from, bind in *.
  destruct (m s) as [[a|b] s'] eqn:E; [|exact Hm]. apply Hk. reflexivity.
Qed.

Lemma from_step : forall s0 A C (m : M A) (k : A -> M C) s a s', m s = (Ok a, s') ->
  from s0 (k a) s' -> from s0 (bind m k) s.
Proof. intros s0 A C m k s a s' E Hk. unfold from, bind in *. rewrite E. exact Hk. Qed.

Lemma from_pres : forall s0 A (m : M A) s, P Fine s0 s -> pres P A m -> from s0 m s.
Proof. intros s0 A m s H0 Hm. unfold from. apply (p_trans P H) with s; auto. Qed.

Lemma pres_ok : forall A (m : M A) s0 s a s', P Fine s0 s -> pres P A m -> m s = (Ok a, s') ->
  P Fine s0 s'.
Proof.
  intros A m s0 s a s' H0 Hm E. specialize (Hm s). rewrite E in Hm.
  apply (p_trans P H) with s; assumption.
Qed.
End Order.

(** A reference to a symbol, from its parts. *)
Lemma cstlabel_pres : forall P, order P -> (forall n, pres P _ (findlabel n)) ->
  (forall s v, P Fine s (set_ct (set_calcresult v s.(ct)) s)) -> (forall A m, pres P A (error m)) ->
  (forall s k l, tfind k s.(sy) = Some l -> usable_now l -> P Fine s (noted k l s)) ->
  forall t n, pres P _ (cstlabel t n).
Proof.
  intros P O F C E K t n. unfold cstlabel. apply (pres_bind P O); [apply F|intros k].
  intros s. match goal with |- P (how (fst (?c s))) _ _ => destruct (c s) as [r0 s2] eqn:X end.
  cbn [fst snd]. unfold bind at 1 in X. cbn [gets] in X. destruct (tfind k (sy s)) as [l|] eqn:T.
  2:{ injection X as <- <-. exact (pres_ub P O _ _ s). }
  unfold bind at 1, putres in X. unfold bind at 1 in X. set (r := mkRes _ _ _ _ _) in X.
  assert (G : exists s1, when t (upd_ct (set_calcresult r)) s = (Ok tt, s1) /\ P Fine s s1 /\ sy s1 = sy s).
  { destruct t; [exists (set_ct (set_calcresult r (ct s)) s)|exists s]; (split; [reflexivity|]); split; auto; try reflexivity. apply (p_refl P O). }
  destruct G as (s1 & G1 & G & Y). rewrite G1 in X. cbn [ret] in X.
  destruct (f_undef (l_flags l) && negb (f_forward (l_flags l))) eqn:U.
  - pose proof (E result (s2l "Undefined label") s1) as Q. unfold err in X. rewrite X in Q. eapply (p_trans P O); [exact G|exact Q].
  - unfold bind, modify in X. cbn [ret] in X. injection X as <- <-. eapply (p_trans P O); [exact G|].
    apply (K s1 k l); [rewrite Y; exact T|exact U].
Qed.

(** [P] while the listing is on. *)
Definition lit (P : relation) : relation := fun d s s' =>
  s.(fl).(a_list_on) = true ->
  P d s s' /\ match d with Fine => s'.(fl) = s.(fl) | _ => True end.

Lemma lit_order : forall P, order P -> order (lit P).
Proof.
  intros P H. constructor; unfold lit.
  - intros s _. split; [apply (p_refl P H)|reflexivity].
  - intros a b Hab L. destruct (Hab L) as [Hp Hf]. split; [apply (p_dead P H); exact Hp|exact I].
  - intros d a b c Hab Hbc L. destruct (Hab L) as [Hp Hf]. rewrite <- Hf in L.
    destruct (Hbc L) as [Hp' Hf']. split; [apply (p_trans P H) with b; assumption|].
    destruct d; [congruence|exact I|exact I].
Qed.

Section Listing.
Variable P : relation.
Variable H : osteps P.
Let O : order P := o_order P H.
Let O' : order (lit P) := lit_order P O.

Lemma lit_upd_ls : forall f, (forall l, (f l).(stdout) = l.(stdout)) -> pres (lit P) unit (upd_ls f).
Proof. intros f Hf s L. split; [apply (o_ls P H); apply Hf|reflexivity]. Qed.
Lemma lit_print : forall t, pres (lit P) unit (print t).
Proof. intros t s L. split; [apply (o_print P H); exact L|reflexivity]. Qed.

Lemma lit_use : forall A (m : M A) s, pres (lit P) A m -> s.(fl).(a_list_on) = true ->
  P (how (fst (m s))) s (snd (m s)).
Proof. intros A m s Hm L. apply Hm. exact L. Qed.

Lemma pres_upd_ls : forall f, (forall l, (f l).(stdout) = l.(stdout)) -> pres P unit (upd_ls f).
Proof. intros f Hf s. apply (o_ls P H). apply Hf. Qed.
Lemma pres_bufferpos : forall v, pres P unit (upd_ct (set_bufferpos v)).
Proof. intros v s. apply (o_bufferpos P H). Qed.

Lemma pres_outputraw : forall t, pres P _ (outputraw t).
Proof.
  intros t. unfold outputraw. apply pres_get. intros s.
  destruct (a_list_on (fl s)) eqn:L; [|apply (p_refl P O)].
  apply lit_use; [|exact L].
  repeat first
    [ apply (pres_bind _ O'); [|intros]
    | match goal with |- pres _ _ (if ?b then _ else _) => destruct b end
    | apply lit_print
    | apply (pres_gets _ O')
    | apply (pres_ret _ O')
    | apply lit_upd_ls; reflexivity ].
Qed.

Ltac q1 :=
  lazymatch goal with
  | |- pres P _ (bind _ _) => apply (pres_bind P O); [ | intros ]
  | |- pres P _ (ret _) => apply (pres_ret P O)
  | |- pres P _ (gets _) => apply (pres_gets P O)
  | |- pres P _ (when _ _) => unfold when
  | |- pres P _ (stop (UB _)) => apply (pres_ub P O)
  | |- pres P _ (stop Hang) => apply (pres_hang P O)
  | |- pres P _ (stop NoFuel) => apply (pres_fuel P O)
  | |- pres P _ (upd_ls _) => apply pres_upd_ls; reflexivity
  | |- pres P _ (upd_ct (set_bufferpos _)) => apply pres_bufferpos
  | |- pres P _ (match ?x with _ => _ end) => destruct x
  | |- forall _, _ => intros
  end.
Ltac q := repeat first [q1 | solve [auto with presdb] | progress (cbv beta zeta)].

Lemma pres_fatal : forall A m, pres P A (fatal m).
Proof. intros A m s. apply (o_fatal P H). Qed.
Lemma pres_lbwrite : forall i c, pres P _ (lbwrite i c).
Proof. unfold lbwrite. q. Qed.
Hint Resolve pres_fatal pres_lbwrite pres_outputraw : presdb.
Lemma pres_outputEOL : pres P _ outputEOL.
Proof. unfold outputEOL. q. Qed.
Hint Resolve pres_outputEOL : presdb.
Lemma pres_eoploop : forall n, pres P _ (eoploop n).
Proof. induction n; cbn [eoploop]; q. Qed.
Hint Resolve pres_eoploop : presdb.
Lemma pres_outputEOP : pres P _ outputEOP.
Proof.
  unfold outputEOP. apply pres_get. intros s.
  destruct (a_list_on (fl s)) eqn:L; [|apply (p_refl P O)].
  destruct (negb _); [apply pres_eoploop|].
  apply lit_use; [|exact L]. apply lit_print.
Qed.
Lemma pres_outspace : pres P _ outspace.
Proof. unfold outspace. q. Qed.
Hint Resolve pres_outputEOP pres_outspace : presdb.
Lemma pres_outspaces : forall n, pres P _ (outspaces n).
Proof. induction n; cbn [outspaces]; q. Qed.
Hint Resolve pres_outspaces : presdb.
Lemma pres_position : forall n, pres P _ (position n).
Proof. unfold position. q. Qed.
Lemma pres_outtab : forall n, pres P _ (outtab n).
Proof. induction n; cbn [outtab]; q. Qed.
Lemma pres_filterc : forall s p, pres P _ (filterc s p).
Proof. unfold filterc. q. Qed.
Hint Resolve pres_position pres_outtab pres_filterc : presdb.
Lemma pres_outpats : forall l t, pres P _ (outpats l t).
Proof. induction l; intros; cbn [outpats]; q. Qed.
Hint Resolve pres_outpats : presdb.
Lemma pres_wrapline : forall c, pres P _ (wrapline c).
Proof. unfold wrapline. q. Qed.
Hint Resolve pres_wrapline : presdb.
Lemma pres_outputcar : forall c, pres P _ (outputcar c).
Proof. unfold outputcar. q. Qed.
Hint Resolve pres_outputcar : presdb.
Lemma pres_output : forall s, pres P _ (output s).
Proof. induction s; cbn [output]; q. Qed.
Hint Resolve pres_output : presdb.
Lemma pres_outputline : pres P _ outputline.
Proof. unfold outputline. q. Qed.
Lemma pres_outputaddr : forall a, pres P _ (outputaddr a).
Proof. unfold outputaddr. q. Qed.
Hint Resolve pres_outputline pres_outputaddr : presdb.
Lemma pres_warning : forall m, pres P _ (warning m).
Proof. unfold warning. q. Qed.
Hint Resolve pres_warning : presdb.

Lemma pres_outputbyte : forall b, pres P _ (outputbyte b).
Proof. unfold outputbyte. q. Qed.

Lemma pres_results : pres P _ results.
Proof. unfold results, resline. q. Qed.
Lemma pres_printlabel : forall n l, pres P _ (printlabel n l).
Proof. unfold printlabel. q. Qed.
Hint Resolve pres_printlabel : presdb.
Lemma pres_xref2 : forall t, pres P _ (xref2 t).
Proof. induction t; cbn [xref2]; q. Qed.
Hint Resolve pres_xref2 : presdb.
Lemma pres_xref : pres P _ xref.
Proof. unfold xref. q. Qed.
End Listing.

Lemma pres_star_advance : forall P, lsteps P -> pres P _ star_advance.
Proof.
  intros P H. pose proof (p_order P H) as O. unfold star_advance. apply pres_get. intros s. cbv zeta.
  destruct (in_s64 _) eqn:E; [|apply (p_dead P O); apply (p_refl P O)].
  apply (p_star P H). exact E.
Qed.

(** The listing routines never raise an assembly error. *)
Definition unfailing : relation := fun d _ _ => d <> Failed.
Lemma lsteps_unfailing : lsteps unfailing.
Proof. constructor; [constructor|..]; unfold unfailing; intros; try discriminate; assumption. Qed.

(** [findlabel] and [deflabel] as plain functions of the state. *)
Lemma findlabel_eq : forall n s,
  findlabel n s =
  (Ok (lkey s.(inp).(segment) n),
   set_sy (tupd (lkey s.(inp).(segment) n) (fun l => set_l_flags (set_f_used true l.(l_flags)) l)
             (match tfind (lkey s.(inp).(segment) n) s.(sy) with
              | None => tins (lkey s.(inp).(segment) n)
                          (mkLabel lf_fwd (if s.(fl).(a_relatif) then TRel else TAbs) 0 PNull 0 TUser) s.(sy)
              | Some _ => s.(sy)
              end)) s).
Proof.
  intros n s. unfold findlabel, searchlabel, makelabel, upd_sy, bind, gets, modify, ret.
  set (k := lkey _ n). destruct (tfind k (sy s)); reflexivity.
Qed.

(** Does [deflabel] refuse to redefine the node found? *)
Definition refused (q : option label) (flags : lflags) : option string :=
  match q with
  | None => None
  | Some l =>
      if negb l.(l_flags).(f_undef) && (l.(l_flags).(f_noredef) || flags.(f_noredef)) then
        match l.(l_type) with
        | TAbs | TRel => Some "illegal label redefinition"%string
        | _ => Some "attempt to redefine a keyword"%string
        end
      else None
  end.

Lemma deflabel_eq : forall n flags ty v s,
  deflabel n flags ty v s =
  match refused (tfind (lkey s.(inp).(segment) n) s.(sy)) flags with
  | Some m => error (s2l m) s
  | None =>
      (Ok (lkey s.(inp).(segment) n),
       set_sy (tupd (lkey s.(inp).(segment) n)
                 (fun l => mkLabel (def_flags l.(l_flags) flags) ty l.(l_modifier) PNull v l.(l_table))
                 (match tfind (lkey s.(inp).(segment) n) s.(sy) with
                  | Some _ => s.(sy)
                  | None => tins (lkey s.(inp).(segment) n) (mkLabel (set_f_undef true lf0) ty 0 PNull 0 TUser) s.(sy)
                  end)) s)
  end.
Proof.
  intros n flags ty v s. unfold deflabel, searchlabel, makelabel.
  unfold bind at 1 2. cbn [gets ret]. set (k := lkey _ n). unfold refused.
  destruct (tfind k (sy s)) as [l|]; [|reflexivity].
  destruct (negb _ && _); [|reflexivity].
  destruct (l_type l); unfold err; apply error_bind.
Qed.

Lemma refused_none : forall t k flags, refused (tfind k t) flags = None ->
  forall l, tfind k t = Some l -> l.(l_flags).(f_undef) = true \/
       (l.(l_flags).(f_noredef) = false /\ flags.(f_noredef) = false).
Proof.
  intros t k flags R l E. rewrite E in R. unfold refused in R.
  destruct (f_undef (l_flags l)), (f_noredef (l_flags l)), (f_noredef flags); cbn in R; auto;
    destruct (l_type l); discriminate.
Qed.

Lemma tupd_tupd : forall k f g t, tupd k f (tupd k g t) = tupd k (fun l => f (g l)) t.
Proof.
  intros k f g. induction t as [|l IHl k' v r IHr]; [reflexivity|]. cbn [tupd].
  destruct (strcmp k k') eqn:E; cbn [tupd]; rewrite E; congruence.
Qed.

(** The listing routines do not store to the flags, nor to the line reader. *)
Definition sameflags : relation := fun _ s s' => s'.(fl) = s.(fl).
Lemma lsteps_sameflags : lsteps sameflags.
Proof. constructor; [constructor|..]; unfold sameflags; intros; cbn; congruence. Qed.

Lemma keepflags_refl : forall a, keepflags a a.
Proof. intros a. repeat split; auto. Qed.

(** [error] is made of listing work, changes of flags and the entry in the log. *)
Section Error.
Variable P : relation.
Variable L : lsteps P.
Hypothesis flags : forall s b, flstep s.(fl) (set_a_list_on b s.(fl)) ->
  P Fine s (set_fl (set_a_list_on b s.(fl)) s).
Hypothesis logged : forall s m, P Failed s
  (set_reported (mkRep s.(ct).(passnumber) s.(inp).(linenumber) m :: s.(reported)) s).
Let O : order P := p_order P L.

(** [error]: everything but the last stores is listing work. *)
Lemma error_parts0 : forall A m, pres P A (error m).
Proof.
  intros A m s. change (from P s (@error A m) s). unfold error, err.
  apply (from_bind P); [apply (from_pres P O); [apply (p_refl P O)|apply (pres_gets P O)]|].
  intros x s' [= <- <-].
  set (r := padl 7 (dec (linenumber (inp s))) ++ s2l " ERROR: " ++ capital m).
  set (wh := when (negb (s.(ct).(advance) =? 0)) star_advance).
  set (lg := modify (fun s => set_reported (mkRep s.(ct).(passnumber) s.(inp).(linenumber) m :: s.(reported)) s)).
  assert (Q : forall s1, P Fine s s1 -> s1.(fl) = s.(fl) \/ a_noerror s.(fl) = false /\
        s1.(fl) = set_a_list_on true s.(fl) ->
     from P s (outputline ;;; wh ;;; upd_fl (fun _ => s.(fl)) ;;; lg ;;; @stop A (Err m)) s1).
  { intros s1 H1 K1.
    apply (from_bind P); [apply (from_pres P O); [exact H1|apply (pres_outputline P L)]|].
    intros u s2 E2. pose proof (pres_ok P O _ _ _ _ _ _ H1 (pres_outputline P L) E2) as H2.
    pose proof (pres_outputline sameflags lsteps_sameflags s1) as K2. rewrite E2 in K2.
    assert (Hw : forall P', lsteps P' -> pres P' _ wh).
    { intros P' L'. unfold wh, when. destruct (negb _).
      - apply (pres_star_advance P' L').
      - apply (pres_ret P' (p_order _ L')). }
    apply (from_bind P); [apply (from_pres P O); [exact H2|apply (Hw P L)]|].
    intros u2 s3 E3. pose proof (pres_ok P O _ _ _ _ _ _ H2 (Hw P L) E3) as H3.
    pose proof (Hw sameflags lsteps_sameflags s2) as K3. rewrite E3 in K3.
    unfold from, bind, upd_fl, lg, modify, stop. cbn [fst snd how].
    set (s4 := set_fl (fl s) s3).
    apply (p_trans P O) with s4; [|apply (logged s4)].
    apply (p_trans P O) with s3; [assumption|].
    unfold sameflags in *. cbn [snd] in *.
    assert (E4 : s4 = set_fl (set_a_list_on (a_list_on (fl s)) (fl s3)) s3).
    { unfold s4. rewrite K3, K2. destruct K1 as [K1|[K0 K1]]; rewrite K1; destruct (fl s); reflexivity. }
    rewrite E4. apply flags. rewrite K3, K2.
    destruct K1 as [K1|[K0 K1]]; rewrite K1.
    - split; [repeat split; auto|]. left. reflexivity.
    - split; [repeat split; auto|]. right. right. right. exact K0. }
  destruct (a_noerror (fl s)) eqn:En; cbn [negb]; [apply Q; [apply (p_refl P O)|left; reflexivity]|].
  assert (Hfl : P Fine s (set_fl (set_a_list_on true s.(fl)) s)).
  { apply flags. split; [repeat split; auto|]. right. right. right. exact En. }
  destruct (80 <=? zlen r).
  { apply (from_bind P); [|intros a s' [=]]. apply (from_pres P O); [apply (p_refl P O)|apply (pres_ub P O)]. }
  apply (from_bind P).
  - apply (from_bind P); [exact Hfl|]. intros u s' [= <- <-].
    apply (from_pres P O); [exact Hfl|apply (pres_outputraw P L)].
  - intros u s1 E1. unfold bind, upd_fl, modify in E1.
    apply Q.
    + exact (pres_ok P O _ _ _ _ _ _ Hfl (pres_outputraw P L _) E1).
    + pose proof (pres_outputraw _ lsteps_sameflags (markline r) (set_fl (set_a_list_on true s.(fl)) s)) as K1.
      rewrite E1 in K1. unfold sameflags in K1. cbn [snd fl set_fl] in K1. right. split; [reflexivity|].
      exact K1.
Qed.
End Error.

Lemma error_parts : forall P, lsteps P ->
  (forall s v, flstep s.(fl) v -> P Fine s (set_fl v s)) ->
  (forall s m, P Failed s
    (set_reported (mkRep s.(ct).(passnumber) s.(inp).(linenumber) m :: s.(reported)) s)) ->
  forall A m, pres P A (error m).
Proof. intros P L F G. apply error_parts0; auto. Qed.

Section Basic.
Variable P : relation.
Variable B : qsteps P.
Let L : lsteps P := q_lsteps P B.
Let O : order P := p_order P L.

Lemma pres_error : forall A m, pres P A (error m).
Proof.
  intros A m s.
  rewrite <- (error_bind unit A m (fun _ => stop NoFuel) s). pose proof (q_error P B s m) as E.
  unfold bind. destruct (error m s) as [[u|b] s']; cbn [fst snd how stop] in *; [|exact E].
  apply (p_dead P O). exact E.
Qed.

Lemma quiet_org : forall b, pres P unit (upd_fl (set_a_org_gv b)).
Proof. intros b s. apply (q_org P B). Qed.
Lemma quiet_inp : forall f, (forall i, instep i (f i)) ->
  (forall i, (f i).(segment) = i.(segment)) -> (forall i, (f i).(thiscall) = i.(thiscall)) ->
  pres P unit (upd_inp f).
Proof. intros f Hf H1 H2 s. apply (q_inp P B); auto. Qed.

Lemma pres_catch : forall A (m : M A), pres P A m -> pres P _ (catch m).
Proof.
  intros A m Hm s. specialize (Hm s). unfold catch.
  destruct (m s) as [[a|[]] s']; cbn [fst snd how] in *; try exact Hm.
  apply (q_catch P B). exact Hm.
Qed.

Ltac ins := apply quiet_inp; intros;
  [apply is_line; (reflexivity || apply Z.le_max_r)|reflexivity|reflexivity]; fail.
Ltac q1 :=
  lazymatch goal with
  | |- pres P _ (bind _ _) => apply (pres_bind P O); [ | intros ]
  | |- pres P _ (ret _) => apply (pres_ret P O)
  | |- pres P _ (gets _) => apply (pres_gets P O)
  | |- pres P _ (when _ _) => unfold when
  | |- pres P _ (stop (UB _)) => apply (pres_ub P O)
  | |- pres P _ (stop Hang) => apply (pres_hang P O)
  | |- pres P _ (stop NoFuel) => apply (pres_fuel P O)
  | |- pres P _ (upd_ls _) => apply (pres_upd_ls P L); reflexivity
  | |- pres P _ (upd_inp _) => ins
  | |- pres P _ (upd_fl (set_a_org_gv _)) => apply quiet_org
  | |- pres P _ (upd_ct (set_bufferpos _)) => apply (pres_bufferpos P L)
  | |- pres P _ (upd_ct (set_advance 0)) => intros ?s; apply (q_advance0 P B)
  | |- pres P _ (fatal _) => apply (pres_fatal P L)
  | |- pres P _ (error _) => apply pres_error
  | |- pres P _ (err _) => unfold err; apply pres_error
  | |- pres P _ (warning _) => apply (pres_warning P L)
  | |- pres P _ outputline => apply (pres_outputline P L)
  | |- pres P _ outputEOL => apply (pres_outputEOL P L)
  | |- pres P _ (position _) => apply (pres_position P L)
  | |- pres P _ (outputaddr _) => apply (pres_outputaddr P L)
  | |- pres P _ (filterc _ _) => apply (pres_filterc P L)
  | |- pres P _ star_advance => apply (pres_star_advance P L)
  | |- pres P _ (setpc _) => intros ?s; apply (q_setpc P B)
  | |- pres P _ (match ?x with _ => _ end) => destruct x
  | |- forall _, _ => intros
  end.
Ltac q := repeat first [q1 | solve [auto with presdb] | progress (cbv beta zeta)].

Lemma pres_filter0 : forall s p, pres P _ (filter0 s p).
Proof. unfold filter0. q. Qed.
Lemma pres_filter2 : forall s p, pres P _ (filter2 s p).
Proof. unfold filter2. q. Qed.
Lemma pres_zerobuffer : pres P _ zerobuffer.
Proof. unfold zerobuffer. q. Qed.
Lemma pres_mainfeof : pres P _ mainfeof.
Proof. unfold mainfeof. q. Qed.
Hint Resolve pres_filter0 pres_filter2 pres_zerobuffer pres_mainfeof : presdb.
Lemma pres_linestart : pres P _ linestart.
Proof. unfold linestart. q. Qed.

Lemma from_popended : forall l s0 s, P Fine s0 s -> s.(inp).(srcs) = l -> from P s0 (popended l) s.
Proof.
  induction l as [|[[] r e ol op on|] l IH]; intros s0 s H0 El; cbn [popended];
    try (apply (from_pres P O); [exact H0|apply (pres_ret P O)]).
  assert (E : forall k : M unit, from P s0 (upd_inp (fun i => set_linenumber on (set_lineprefix op
              (set_includelevel (i.(includelevel) - 1) (set_srcs l i)))) ;;;
            upd_fl (set_a_list_on ol) ;;; k) s = from P s0 k (popped ol op on l s)) by reflexivity.
  rewrite E. apply IH; [|reflexivity].
  apply (p_trans P O) with s; [exact H0|]. eapply (q_pop P B). exact El.
Qed.

Lemma pres_readline : forall r, pres P _ (readline r).
Proof.
  intros r. unfold readline. destruct (fgets 249 r) as [[t rest] e] eqn:E. q.
  apply quiet_inp; intros; try reflexivity. apply is_line; try reflexivity. cbn [curline set_curline set_linenumber].
  pose proof (readline_len _ _ _ _ E). lia.
Qed.

(** The stack of sources is not changed by [readline]. *)
Definition samesrcs : relation := fun _ s s' => s'.(inp).(srcs) = s.(inp).(srcs) /\ s'.(inp).(mainrest) = s.(inp).(mainrest).
Lemma lsteps_samesrcs : lsteps samesrcs.
Proof.
  constructor; [constructor|..]; unfold samesrcs; intros; cbn; auto.
  match goal with A : _ /\ _, B : _ /\ _ |- _ => destruct A, B end. split; congruence.
Qed.
Lemma readline_srcs : forall r s, samesrcs (how (fst (readline r s))) s (snd (readline r s)).
Proof.
  intros r. unfold readline. destruct (fgets 249 r) as [[t rest] e]. cbv zeta.
  pose proof lsteps_samesrcs as K. pose proof (p_order _ K) as KO.
  change (pres samesrcs (str * bool) (when (negb (zlen (uptonl t) =? zlen (List.filter keepchar (uptonl t))))
      (warning "Unprintable characters removed") ;;;
    upd_inp (fun i => set_linenumber (i.(linenumber) + 1) (set_curline (List.filter keepchar (uptonl t)) i)) ;;;
    ret (rest, e))).
  apply (pres_bind _ KO); [unfold when; destruct (negb _); [apply (pres_warning _ K)|apply (pres_ret _ KO)]|intros _].
  apply (pres_bind _ KO); [intros s; split; reflexivity|intros _; apply (pres_ret _ KO)].
Qed.
Lemma fgets_rest : forall n r, zlen (snd (fst (fgets n r))) <= zlen r.
Proof.
  unfold zlen. induction n as [|n IH]; intros r; cbn [fgets]; [cbn [fst snd]; lia|]. destruct r as [|c r]; [cbn; lia|].
  destruct (zc c =? 10); [cbn [fst snd List.length]; lia|]. specialize (IH r). destruct (fgets n r) as [[t r'] e]. cbn [fst snd List.length] in *. lia.
Qed.
Lemma readline_rest : forall r s r' e s', readline r s = (Ok (r', e), s') -> zlen r' <= zlen r.
Proof.
  intros r s r' e s' E. unfold readline in E. pose proof (fgets_rest 249 r) as F. destruct (fgets 249 r) as [[t r1] e1].
  unfold bind, upd_inp, modify in E. destruct (when _ _ s) as [[u|b] s1]; [|discriminate E]. injection E as <- _ _. exact F.
Qed.

Lemma pres_linegets : pres P _ linegets.
Proof.
  intros s. change (from P s linegets s). unfold linegets.
  apply (from_bind P); [apply (p_refl P O)|]. intros l s' [= <- <-].
  apply (from_bind P); [apply from_popended; [apply (p_refl P O)|reflexivity]|].
  intros u s1 E1.
  assert (H1 : P Fine s s1).
  { pose proof (from_popended (srcs (inp s)) s s (p_refl P O s) eq_refl) as F.
    unfold from in F. rewrite E1 in F. exact F. }
  clear E1. apply (from_bind P); [exact H1|]. intros i s' [= <- <-].
  destruct (srcs (inp s1)) as [|[en rest eo ol op on|[|q lines] args all ol op on] l'] eqn:El.
  - apply (from_bind P); [apply (from_pres P O); [exact H1|apply pres_readline]|].
    intros [rest' e'] s2 E2.
    pose proof (pres_ok P O _ _ _ _ _ _ H1 (pres_readline (mainrest (inp s1))) E2) as H2.
    pose proof (readline_srcs (mainrest (inp s1)) s1) as K. rewrite E2 in K. destruct K as [K K']. cbn [snd] in K, K'.
    apply (p_trans P O) with s2; [exact H2|]. apply (q_inp P B); try reflexivity. apply is_main; [congruence|].
    rewrite K'. exact (readline_rest _ _ _ _ _ E2).
  - apply (from_bind P); [apply (from_pres P O); [exact H1|apply pres_readline]|].
    intros [rest' e'] s2 E2.
    pose proof (pres_ok P O _ _ _ _ _ _ H1 (pres_readline rest) E2) as H2.
    pose proof (readline_srcs rest s1) as K. rewrite E2 in K. destruct K as [K _]. cbn [snd] in K.
    rewrite El in K. apply (p_trans P O) with s2; [exact H2|].
    apply (q_inp P B); try reflexivity. eapply is_top; [exact K|]. reflexivity.
  - apply (from_pres P O); [exact H1|apply (pres_ub P O)].
  - assert (H2 : P Fine s (set_inp (set_srcs (SMac lines args all ol op on :: l') (inp s1)) s1)).
    { apply (p_trans P O) with s1; [exact H1|]. apply (q_inp P B); try reflexivity.
      eapply is_top; [exact El|]. reflexivity. }
    apply (from_bind P); [exact H2|]. intros u' s2 [= <- <-].
    pose proof (msubst_len args all q 0 ltac:(lia)) as Len.
    destruct (msubst args all 0 q) as [t long].
    apply (from_pres P O); [exact H2|]. q.
    apply quiet_inp; intros; try reflexivity. apply is_line; try reflexivity. cbn [curline set_curline fst] in *. lia.
Qed.
Hint Resolve pres_linestart pres_linegets : presdb.

Lemma pres_macrolines : forall n li acc, pres P _ (macrolines n li acc).
Proof. induction n as [|n IH]; intros; cbn [macrolines]; q. Qed.
Lemma pres_checkdepth : pres P _ checkdepth.
Proof. unfold checkdepth. q. Qed.
Lemma pres_macroargs : forall n o acc, pres P _ (macroargs n o acc).
Proof. induction n; intros; cbn [macroargs]; q. Qed.
End Basic.

Lemma pres_upd_fl : forall P, bsteps P -> forall f, (forall a, flstep a (f a)) ->
  pres P unit (upd_fl f).
Proof. intros P B f Hf s. apply (p_fl P B). apply Hf. Qed.
Lemma pres_upd_inp : forall P, bsteps P -> forall f, (forall i, instep i (f i)) ->
  pres P unit (upd_inp f).
Proof. intros P B f Hf s. apply (p_inp P B). apply Hf. Qed.

(** The type of a symbol does not change while the lines of a macro are read. *)
Definition sametype : relation := fun _ s s' =>
  forall k, option_map l_type (tfind k s'.(sy)) = option_map l_type (tfind k s.(sy)).
Lemma setpc_sy : forall a s, (snd (setpc a s)).(sy) = s.(sy).
Proof.
  intros a s. unfold setpc, flushscoderaw, scwrite, bind, gets, upd_wr, modify, ret, stop.
  destruct (u64 a =? pc (wr s)); [reflexivity|].
  destruct (raw (wr s)); [reflexivity|].
  destruct (a_code_hex (fl s)); [destruct (negb _)|]; cbn [wr set_wr set_rawextended scode];
    destruct (scode (wr s)); cbn [wr set_wr set_scode set_rawextended scode]; reflexivity.
Qed.
Lemma lsteps_sametype : lsteps sametype.
Proof.
  constructor; [constructor|..]; unfold sametype; intros; try reflexivity.
  - apply H.
  - rewrite H0. apply H.
  - cbn [sy set_sy]. destruct (str_dec k starkey) as [->|N].
    + rewrite tfind_tupd_same. destruct (tfind starkey (sy s)); reflexivity.
    + rewrite tfind_tupd_other by exact N. reflexivity.
Qed.
Lemma bsteps_sametype : bsteps sametype.
Proof.
  constructor; [apply lsteps_sametype|..]; try (unfold sametype; intros; reflexivity).
  - intros s a k. rewrite setpc_sy. reflexivity.
  - intros s m. apply (error_parts sametype lsteps_sametype); unfold sametype; reflexivity.
  - intros s s' H k. apply H.
Qed.

(** Macro calls evaluate their arguments without touching the line reader or the flags. *)
Definition samefi : relation := fun d s s' =>
  match d with Failed => True | _ => s'.(fl) = s.(fl) /\ s'.(inp) = s.(inp) end.

(** Filling the symbol table with keywords. *)
Section Init.
Variable P : relation.
Variable L : lsteps P.
Variable Good : str -> label -> Prop.
Hypothesis SK : forall s k e, tfind k s.(sy) = None -> Good k e -> P Fine s (set_sy (tins k e s.(sy)) s).
Hypothesis SR : forall s k l, tfind k s.(sy) = Some l -> l.(l_flags).(f_undef) = true ->
  P Fine s (set_sy (tupd k (fun l => set_l_flags (set_f_undef false l.(l_flags)) l) s.(sy)) s).
Let O : order P := p_order P L.

Ltac q := repeat first
  [ match goal with |- pres P _ (bind _ _) => apply (pres_bind P O); [|intros] end
  | apply (pres_ret P O)
  | match goal with |- pres P _ (match ?x with _ => _ end) => destruct x end
  | solve [auto] ].

Definition fine_list (l : list entry) : Prop :=
  forall seg n e, In (n, e) l -> Good (lkey seg (s2l n)) e.
Lemma init_pres_entry : forall e, (forall seg, Good (lkey seg (s2l (fst e))) (snd e)) -> pres P _ (init_entry e).
Proof.
  intros e Ge. unfold init_entry, searchlabel. intros s.
  match goal with |- P _ _ (snd (?m s)) => change (from P s m s) end.
  apply (from_bind P); [apply (from_pres P O); [apply (p_refl P O)|]; unfold searchlabel; apply (pres_bind P O); [apply (pres_gets P O)|intros; apply (pres_ret P O)]|].
  intros a s' [= <- <-]. set (k := lkey _ _).
  destruct (tfind k (sy s)) as [l|] eqn:E.
  - destruct (table_eqb _ _ && f_undef (l_flags l)) eqn:Bo.
    + apply andb_true_iff in Bo. destruct Bo as [_ Bo].
      eapply SR; eassumption.
    + apply (from_pres P O); [apply (p_refl P O)|]. apply (pres_warning P L).
  - apply SK; [exact E|]. apply Ge.
Qed.

Lemma init_pres_inner : forall l, fine_list l -> forall n i incr, pres P _ (init_inner n i incr l).
Proof.
  intros l Fl. induction n as [|n IH]; intros; cbn [init_inner]; [q|]. destruct i as [|j]; [q|].
  destruct (nth_error l j) as [[x y]|] eqn:E; [|q]. apply nth_error_In in E. q.
  apply init_pres_entry. intros seg. apply Fl, E.
Qed.

Lemma init_pres_label_list : forall l, fine_list l -> pres P _ (init_label_list l).
Proof.
  intros l Fl. unfold init_label_list. generalize 32%nat at 1 as n. generalize (init_incr 32 1 (List.length l)) as i.
  intros i n. revert i. induction n as [|n IH]; intros; cbn [init_outer]; q. apply init_pres_inner, Fl.
Qed.

End Init.

(** The keyword tables. *)
Definition in_its_place (k : str) (e : label) : Prop :=
  e.(l_table) = TPseudos -> In k (map (fun e => lkey 0 (s2l (fst e))) pseudos).
Lemma other_tables : forall l, l = m6800 \/ l = m6801 \/ l = m6502 \/ l = m65c02 \/ l = mz80 -> fine_list in_its_place l.
Proof.
  assert (F : Forall (fun e : entry => l_table (snd e) <> TPseudos) (m6800 ++ m6801 ++ m6502 ++ m65c02 ++ mz80)).
  { repeat (apply Forall_cons; [discriminate|]). apply Forall_nil. }
  rewrite Forall_forall in F. intros l Ll seg n e H A. exfalso. apply (F (n, e)); [|exact A].
  rewrite !in_app_iff. destruct Ll as [->|[->|[->|[->| ->]]]]; auto 6.
Qed.
Lemma directives_named : fine_list in_its_place pseudos.
Proof.
  intros seg n e H _. apply in_map_iff. exists (n, e). split; [|exact H]. cbn [fst].
  unfold pseudos in H. cbn [In] in H.
  repeat (destruct H as [H|H]; [injection H as <- _; reflexivity|]). contradiction.
Qed.
Lemma init_pres_table : forall P, lsteps P -> (forall s t, systep s.(sy) t -> P Fine s (set_sy t s)) ->
  forall l, fine_list in_its_place l -> pres P _ (init_label_list l).
Proof.
  intros P L S l Fl. apply (init_pres_label_list P L in_its_place); [| |exact Fl].
  - intros s k e N G. apply S. constructor; assumption.
  - intros s k l0 E U. apply S. eapply ss_rekey; eassumption.
Qed.

Section Frame.
Variable P : relation.
Variable H : steps P.
Let B : bsteps P := p_bsteps P H.
Let L : lsteps P := p_lsteps P B.
Let O : order P := p_order P L.

Lemma pres_upd_cp : forall f, pres P unit (upd_cp f).
Proof. intros f s. apply (p_cp P H). Qed.
Lemma pres_calcresult : forall v, pres P unit (upd_ct (set_calcresult v)).
Proof. intros v s. apply (p_calcresult P H). Qed.
Lemma pres_advance : forall v, pres P unit (upd_ct (set_advance v)).
Proof. intros v s. apply (p_advance P H). Qed.
Lemma pres_upd_sy : forall f, (forall t, systep t (f t)) -> pres P unit (upd_sy f).
Proof. intros f Hf s. apply (p_sy P H). apply Hf. Qed.

Ltac fls := apply (pres_upd_fl P B); intros; (split; [repeat split; auto|]); cbn; auto; fail.
Ltac ins := apply (pres_upd_inp P B); intros; (apply is_line; (reflexivity || apply Z.le_max_r)) || apply is_segment; fail.
Ltac q1 :=
  lazymatch goal with
  | |- pres P _ (bind _ _) => apply (pres_bind P O); [ | intros ]
  | |- pres P _ (ret _) => apply (pres_ret P O)
  | |- pres P _ (gets _) => apply (pres_gets P O)
  | |- pres P _ (when _ _) => unfold when
  | |- pres P _ (stop (UB _)) => apply (pres_ub P O)
  | |- pres P _ (stop Hang) => apply (pres_hang P O)
  | |- pres P _ (stop NoFuel) => apply (pres_fuel P O)
  | |- pres P _ (upd_ls _) => apply (pres_upd_ls P L); reflexivity
  | |- pres P _ (upd_cp _) => apply pres_upd_cp
  | |- pres P _ (upd_inp _) => ins
  | |- pres P _ (upd_fl _) => fls
  | |- pres P _ (upd_ct (set_bufferpos _)) => apply (pres_bufferpos P L)
  | |- pres P _ (upd_ct (set_calcresult _)) => apply pres_calcresult
  | |- pres P _ (upd_ct (set_advance _)) => apply pres_advance
  | |- pres P _ (fatal _) => apply (pres_fatal P L)
  | |- pres P _ (error _) => apply (pres_error P B)
  | |- pres P _ (err _) => unfold err; apply (pres_error P B)
  | |- pres P _ (warning _) => apply (pres_warning P L)
  | |- pres P _ outputline => apply (pres_outputline P L)
  | |- pres P _ (position _) => apply (pres_position P L)
  | |- pres P _ (outputaddr _) => apply (pres_outputaddr P L)
  | |- pres P _ (filterc _ _) => apply (pres_filterc P L)
  | |- pres P _ (match ?x with _ => _ end) => destruct x
  | |- forall _, _ => intros
  end.
Ltac q := repeat first [q1 | solve [auto with presdb] | progress (cbv beta zeta)].

Lemma pres_findlabel : forall n, pres P _ (findlabel n).
Proof.
  intros n s. rewrite findlabel_eq. cbn [fst snd how]. set (k := lkey _ n).
  destruct (tfind k (sy s)) as [l|] eqn:E.
  - apply (p_sy P H). constructor.
  - set (b := tins k _ (sy s)).
    change (set_sy ?a s) with (set_sy a (set_sy b s)).
    apply (p_trans P O) with (set_sy b s).
    + apply (p_sy P H). constructor. exact E.
    + apply (p_sy P H (set_sy b s)). cbn [sy set_sy]. constructor.
Qed.

(** Definition followed by the stores of EQU. *)
Lemma pres_equ : forall n flags ty v p m, flags.(f_undef) = false ->
  pres P _ (k <- deflabel n flags ty v ;; upd_sy (tupd k (fun l => set_l_ptr p (set_l_modifier m l)))).
Proof.
  intros n flags ty v p m U s. unfold bind. rewrite deflabel_eq. set (k := lkey _ n).
  destruct (refused (tfind k (sy s)) flags) as [msg|] eqn:R.
  - pose proof (pres_error P B str (s2l msg) s) as E.
    assert (X : match error (A := str) (s2l msg) s with
        | (Ok k, s') => upd_sy (tupd k (fun l => set_l_ptr p (set_l_modifier m l))) s'
        | (Bad b, s') => (Bad b, s')
        end = error (A := unit) (s2l msg) s) by apply error_bind.
    rewrite X. apply (pres_error P B).
  - unfold upd_sy, modify. cbn [fst snd how sy set_sy]. rewrite tupd_tupd.
    change (set_sy ?a (set_sy ?b s)) with (set_sy a s).
    apply (p_sy P H). apply (ss_def (sy s) k flags ty v p (Some m)); [exact U|].
    apply refused_none. exact R.
Qed.

Lemma pres_deflabel : forall n flags ty v, flags.(f_undef) = false -> pres P _ (deflabel n flags ty v).
Proof.
  intros n flags ty v U s. rewrite deflabel_eq. set (k := lkey _ n).
  destruct (refused (tfind k (sy s)) flags) as [msg|] eqn:R; [apply (pres_error P B)|].
  cbn [fst snd how]. apply (p_sy P H). apply (ss_def (sy s) k flags ty v PNull None); [exact U|].
  apply refused_none. exact R.
Qed.

Lemma pres_herelabel : forall n, pres P _ (herelabel n).
Proof. unfold herelabel. q; apply pres_deflabel; reflexivity. Qed.

Lemma pres_defmacro : forall label n li,
  pres P _ (k <- deflabel (firstn LABLEN label) lf0 TMacro 0 ;;
         lab <- macrolines n li [] ;;
         let '(lines, a, b) := lab : list str * str * str in
         match a, b with
         | [], [] => upd_sy (tupd k (set_l_ptr (PMac lines))) ;;; ret FNone
         | _, _ => err "illegal ENDM instruction"
         end).
Proof.
  intros label n li s.
  match goal with |- P _ _ (snd (?m s)) => change (from P s m s) end.
  apply (from_bind P); [apply pres_deflabel; reflexivity|]. intros k s1 E1.
  pose proof (pres_deflabel (firstn LABLEN label) lf0 TMacro 0 eq_refl s) as H1. rewrite E1 in H1.
  cbn [fst snd how] in H1.
  assert (T : option_map l_type (tfind k s1.(sy)) = Some TMacro).
  { rewrite deflabel_eq in E1. set (k0 := lkey _ _) in E1.
    destruct (refused (tfind k0 (sy s)) lf0) as [msg|] eqn:R.
    - pose proof (pres_error unfailing) as U. exfalso. clear -E1.
      pose proof (error_bind str unit (s2l msg) (fun _ => ret tt) s) as X.
      unfold bind in X. rewrite E1 in X. clear E1.
      unfold error, bind, gets, stop, upd_fl, modify in X.
      revert X. generalize outputraw outputline star_advance. intros o1 o2 o3.
      repeat match goal with
         | |- context [match ?x with _ => _ end] =>
             lazymatch x with context [match _ with _ => _ end] => fail | _ => destruct x end
         end; discriminate.
    - injection E1 as <- <-. cbn [sy set_sy]. rewrite tfind_tupd_same.
      destruct (tfind k0 (sy s)) as [l|] eqn:E.
      + rewrite E. reflexivity.
      + rewrite tfind_tins_same by exact E. reflexivity. }
  clear E1. apply (from_bind P); [apply (from_pres P O); [exact H1|apply (pres_macrolines P B)]|].
  intros [[lines a] b] s2 E2.
  pose proof (pres_ok P O _ _ _ _ _ _ H1 (pres_macrolines P B n li []) E2) as H2.
  pose proof (pres_macrolines sametype bsteps_sametype n li [] s1 k) as K. rewrite E2 in K.
  cbn [snd] in K. rewrite T in K.
  destruct a, b; try solve [apply (from_pres P O); [exact H2|]; q].
  unfold from, bind, upd_sy, modify. cbn [fst snd how ret].
  apply (p_trans P O) with s2; [exact H2|]. apply (p_sy P H).
  destruct (tfind k (sy s2)) as [l|] eqn:E; [|discriminate K]. injection K as K.
  apply ss_mac with l; assumption.
Qed.

(** [checkdepth] returns only when there is room. *)
Lemma checkdepth_ok : forall s a s', checkdepth s = (Ok a, s') ->
  s' = s /\ zlen s.(inp).(srcs) + 1 < MAXSOURCEDEEP.
Proof.
  intros s a s'. unfold checkdepth, bind, gets, when, fatal.
  destruct (MAXSOURCEDEEP <=? zlen (srcs (inp s)) + 1) eqn:E.
  - intros [=].
  - intros [= _ <-]. split; [reflexivity|]. apply Z.leb_gt in E. exact E.
Qed.

(** Operations that leave flags and line reader alone. *)
Definition fixed {A} (m : M A) : Prop := forall s a s', m s = (Ok a, s') ->
  s'.(fl) = s.(fl) /\ s'.(inp) = s.(inp).
Definition fixedrel : relation := fun d s s' =>
  match d with Fine => s'.(fl) = s.(fl) /\ s'.(inp) = s.(inp) | _ => True end.
Lemma lsteps_fixedrel : lsteps fixedrel.
Proof.
  constructor; [constructor|..]; unfold fixedrel; intros; cbn; auto.
  destruct d; auto. intuition congruence.
Qed.
Lemma fixed_outputline : fixed outputline.
Proof.
  intros s a s' E. pose proof (pres_outputline _ lsteps_fixedrel s) as K. rewrite E in K. exact K.
Qed.
Lemma fixed_bind : forall A B (m : M A) (k : A -> M B), fixed m -> (forall a, fixed (k a)) ->
  fixed (bind m k).
Proof.
  intros A C m k Hm Hk s a s' E. unfold bind in E.
  destruct (m s) as [[b|b] s1] eqn:E1; [|discriminate E].
  destruct (Hm _ _ _ E1) as [F1 I1]. destruct (Hk b _ _ _ E) as [F2 I2]. split; congruence.
Qed.
Lemma fixed_error : forall A m, fixed (@error A m).
Proof.
  intros A m s a s' E. exfalso. revert E. unfold error, bind, gets, stop, upd_fl, modify.
  generalize outputraw outputline star_advance. intros o1 o2 o3.
  repeat match goal with
     | |- context [match ?x with _ => _ end] =>
         lazymatch x with context [match _ with _ => _ end] => fail | _ => destruct x end
     end; discriminate.
Qed.
Lemma fixed_filter2 : forall t p, fixed (filter2 t p).
Proof.
  intros t p. unfold filter2. apply fixed_bind.
  - intros s a s' E. pose proof (pres_filterc _ lsteps_fixedrel t (s2l p) s) as K. rewrite E in K. exact K.
  - intros a. repeat match goal with |- fixed (match ?x with _ => _ end) => destruct x end;
      intros s b s' E; first [discriminate E | injection E as <- <-; split; reflexivity].
Qed.
Lemma fixed_macroargs : forall n o acc, fixed (macroargs n o acc).
Proof.
  induction n as [|n IH]; intros o acc; cbn [macroargs]; destruct o.
  - intros s b s' [= <- <-]. split; reflexivity.
  - intros s b s' [=].
  - intros s b s' [= <- <-]. split; reflexivity.
  - apply fixed_bind.
    + unfold when. destruct (8 <? zlen acc); [apply fixed_error|].
      intros s a' s' [= <- <-]. split; reflexivity.
    + intros _. apply fixed_bind; [apply fixed_filter2|]. intros [[x y]|]; [apply IH|].
      intros s a' s' [= <- <-]. split; reflexivity.
Qed.

Lemma pres_include : forall o, pres P _ (Xinclude o).
Proof.
  intros [name|]; [|unfold Xinclude; q]. intros s. change (from P s (Xinclude (Some name)) s).
  unfold Xinclude. apply (from_bind P); [apply (p_refl P O)|]. intros x s' [= <- <-].
  destruct (files s name) as [text|]; [|apply (from_pres P O); [apply (p_refl P O)|q]].
  apply (from_bind P); [apply (from_pres P O); [apply (p_refl P O)|apply (pres_checkdepth P B)]|].
  intros u s1 E1. apply checkdepth_ok in E1. destruct E1 as [-> D].
  apply (from_bind P); [apply (from_pres P O); [apply (p_refl P O)|]; q|].
  intros u2 s2 E2.
  assert (K : P Fine s s2 /\ s2.(fl) = s.(fl) /\ s2.(inp) = s.(inp)).
  { destruct (a_list_on (fl s)); cbn [when] in E2.
    - split; [|apply fixed_outputline in E2; exact E2].
      exact (pres_ok P O _ _ _ _ _ _ (p_refl P O s) (pres_outputline P L) E2).
    - injection E2 as <- <-. split; [apply (p_refl P O)|auto]. }
  clear E2. destruct K as (H2 & F2 & I2).
  assert (H3 : P Fine s (included text s2)).
  { apply (p_trans P O) with s2; [exact H2|]. apply (p_include P H). rewrite I2. exact D. }
  assert (E : forall k : M unit, from P s (upd_inp (fun i => set_srcs (SFile false text false s.(fl).(a_list_on)
                                        s.(inp).(lineprefix) s.(inp).(linenumber) :: i.(srcs))
                      (set_linenumber 0 (set_includelevel (i.(includelevel) + 1) i))) ;;; k) s2
              = from P s k (included text s2)).
  { intros k. unfold from, bind, upd_inp, modify, included. rewrite F2, I2. reflexivity. }
  rewrite E. apply (from_pres P O); [exact H3|]. q.
Qed.

Lemma pres_macrocall : forall self key ptr li oper,
  (forall k l e, pres P _ (self k l e)) -> pres P _ (macrocall self key ptr li oper).
Proof.
  intros self key ptr li oper Hself. unfold macrocall.
  apply (pres_bind P O); [apply pres_upd_sy; constructor|intros _].
  intros s. match goal with |- P _ _ (snd (?m s)) => change (from P s m s) end.
  apply (from_bind P); [apply (p_refl P O)|]. intros x s' [= <- <-].
  apply (from_bind P); [apply (from_pres P O); [apply (p_refl P O)|apply (pres_checkdepth P B)]|].
  intros u s1 E1. apply checkdepth_ok in E1. destruct E1 as [-> D].
  apply (from_bind P); [apply (pres_macroargs P B)|]. intros args s1 E1.
  pose proof (pres_ok P O _ _ _ _ _ _ (p_refl P O s) (pres_macroargs P B _ _ _) E1) as H1.
  apply fixed_macroargs in E1. destruct E1 as [F1 I1].
  apply (from_bind P); [exact H1|]. intros ml s' [= <- <-].
  apply (from_bind P); [apply (from_pres P O); [exact H1|]; q|].
  intros u2 s2 E2.
  assert (K : P Fine s s2 /\ s2.(fl) = s1.(fl) /\ s2.(inp) = s1.(inp)).
  { destruct (a_macrolist_on (fl s1) && li); cbn [when] in E2.
    - split; [|apply fixed_outputline in E2; exact E2].
      exact (pres_ok P O _ _ _ _ _ _ H1 (pres_outputline P L) E2).
    - injection E2 as <- <-. auto. }
  clear E2. destruct K as (H2 & F2 & I2).
  rewrite F1 in F2. rewrite I1 in I2. clear F1 I1.
  set (lines := match ptr with PMac l => l | _ => [] end).
  set (s3 := entered lines args (firstn 59 (otext oper)) s2).
  assert (H3 : P Fine s s3).
  { apply (p_trans P O) with s2; [exact H2|]. apply (p_enter P H). rewrite I2. exact D. }
  apply (from_step P) with tt s3.
  { unfold upd_inp, modify, s3, entered. rewrite F2, I2. reflexivity. }
  clearbody s3. clear H2 F2 I2 H1 s2 s1.
  apply (from_bind P); [apply (from_pres P O); [exact H3|]; unfold newsegment; q|].
  intros u3 s4 E4.
  assert (H4 : P Fine s s4).
  { refine (pres_ok P O _ _ _ _ _ _ H3 _ E4). unfold newsegment. q. }
  clear E4. apply (from_bind P); [exact H4|]. intros ml' s' [= <- <-].
  apply (from_bind P); [apply (from_pres P O); [exact H4|apply Hself]|].
  intros f s5 E5.
  pose proof (pres_ok P O _ _ _ _ _ _ H4 (Hself _ _ _) E5) as H5. clear E5.
  pose proof (p_back P H _ _ _ H5 (or_intror eq_refl)) as H6.
  pose proof (p_back P H _ _ _ H5 (or_introl eq_refl)) as H7.
  eapply (from_step P); [reflexivity|]. eapply (from_step P); [reflexivity|].
  match goal with |- from P s _ ?s' => set (s6 := s') end.
  assert (H6' : P Fine s s6).
  { assert (E6 : back s (curline (inp s5)) s5 = s6); [|rewrite <- E6; exact H6].
    unfold s6, back. destruct s5 as [? ? ? ? [] ? ? ? ? ? ?]. reflexivity. }
  assert (H7' : P Fine s (set_inp (set_curline s.(inp).(curline) s6.(inp)) s6)) by exact H7.
  clearbody s6.
  destruct f; try (apply (from_pres P O); [exact H6'|]; q; fail);
    (eapply (from_step P); [reflexivity|]);
    (destruct (a_macrolist_on (fl s6)); cbn [negb when];
     [apply (from_pres P O); [exact H6'|apply (pres_ret P O)]|]);
    (eapply (from_step P); [reflexivity|]);
    apply (from_pres P O); try exact H7'; q.
Qed.

Lemma pres_stripline : pres P _ stripline.
Proof.
  intros s. change (from P s stripline s). unfold stripline.
  eapply (from_step P); [reflexivity|].
  apply (from_bind P); [apply (pres_filter2 P B)|]. intros m s1 E1.
  pose proof (pres_ok P O _ _ _ _ _ _ (p_refl P O s) (pres_filter2 P B _ _) E1) as H1.
  apply fixed_filter2 in E1. destruct E1 as [_ I1].
  destruct m as [[t x]|]; [apply (from_pres P O); [exact H1|q]|].
  apply (from_bind P); [|intros u s2 E2; apply (from_pres P O); [|q]].
  - apply (p_trans P O) with s1; [exact H1|]. apply (p_inp P B). apply is_line; try reflexivity.
    cbn [curline set_curline]. rewrite <- I1. pose proof (trimblanks_len (curline (inp s1))). lia.
  - injection E2 as <- <-.
    apply (p_trans P O) with s1; [exact H1|]. apply (p_inp P B). apply is_line; try reflexivity.
    cbn [curline set_curline]. rewrite <- I1. pose proof (trimblanks_len (curline (inp s1))). lia.
Qed.

Theorem pres_walk : walk (pres P).
Proof.
  constructor; intros.
  - eapply pres_ext; eassumption.
  - apply (pres_ret P O).
  - apply (pres_bind P O); assumption.
  - apply (pres_gets P O).
  - apply (pres_bind P O); [apply (pres_gets P O)|assumption].
  - apply (pres_ub P O).
  - apply (pres_hang P O).
  - apply (pres_fuel P O).
  - apply (pres_fatal P L).
  - apply (pres_error P B).
  - apply (pres_warning P L).
  - apply (pres_catch P B); assumption.
  - apply (pres_outputline P L).
  - apply (pres_outputEOL P L).
  - apply (pres_outputEOP P L).
  - unfold settitle. q.
  - unfold setpage. q.
  - apply (pres_filterc P L).
  - unfold zerobuffer. q.
  - q.
  - q.
  - apply (pres_linestart P B).
  - intros s. apply (p_insert8 P H).
  - apply (pres_star_advance P L).
  - apply pres_findlabel.
  - apply (cstlabel_pres P O pres_findlabel (p_calcresult P H)); [q|apply (p_looked P H)].
  - apply pres_herelabel.
  - q.
  - apply pres_equ; reflexivity.
  - apply pres_defmacro.
  - unfold init6800. q; apply (init_pres_table P L (p_sy P H)), other_tables; auto 6.
  - unfold init6502. q; apply (init_pres_table P L (p_sy P H)), other_tables; auto 6.
  - unfold initz80. q; apply (init_pres_table P L (p_sy P H)), other_tables; auto 6.
  - q.
  - unfold flip_lohi. q.
  - q.
  - q.
  - unfold newsegment. q.
  - intros s. unfold bind, gets, when. destruct (negb (a_nolist (fl s))) eqn:E; [|apply (p_refl P O)].
    apply (p_fl P B). split; [repeat split; auto|]. right. right. left.
    destruct (a_nolist (fl s)); [discriminate E|reflexivity].
  - q.
  - q.
  - q.
  - q.
  - q.
  - q.
  - q.
  - apply (pres_linegets P B).
  - apply pres_stripline.
  - apply pres_include.
  - match goal with T : forall o, pres P _ (testtrue o), S : forall k l e, pres P _ (self k l e) |- _ =>
      pose proof T; pose proof S end. unfold Xif, iflist. q.
  - apply pres_macrocall. assumption.
Qed.
End Frame.
