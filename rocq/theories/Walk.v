(** A structural principle over the whole assembler: a property of computations that is
    closed under sequencing and error catching and holds of a list of basic operations
    holds of every operation of the assembler, in particular of [run] and [passloop].
    Nothing here is part of the model. *)
From Coq Require Import String Ascii ZArith List Bool Lia.
From Verif Require Import Base State Tree Filter Output Label Operator Parse Scode Tables.
From Verif Require Import Cpu6800 Cpu6502 CpuZ80 Pseudos Macro Xref Crasm.
Import ListNotations.
Open Scope Z_scope.

Create HintDb walkdb discriminated.
#[global] Hint Constants Opaque : walkdb.

(** The state without what only concerns the listing: the listing flags, also those saved
    with the open files and macros, the listing itself and the scratch space of [filter]. *)
Definition hush (f : aflags) : aflags := set_a_list_on false (set_a_nolist true (set_a_nowarning true f)).
Definition hushed_source (x : source) : source :=
  match x with
  | SFile a b c _ d e => SFile a b c false d e
  | SMac a b c _ d e => SMac a b c false d e
  end.
Definition no_listing : listing := mkLs 0 0 0 0 0 [] false false [] 0 0 [] [] [].
Definition view (s : state) : state :=
  mkSt (hush s.(fl)) no_listing s.(wr) s.(sy) (set_srcs (map hushed_source s.(inp).(srcs)) s.(inp))
       (set_bufferpos 0 s.(ct)) s.(cp) s.(files) s.(maintext) s.(emitted) s.(reported) s.(looked).

(** Of [view], what the operations look at that are not listed below: also without the lines
    to come and the number and the prefix of the line. *)
Definition glance (s : state) : state :=
  mkSt (hush s.(fl)) no_listing s.(wr) s.(sy)
       (mkIn [] s.(inp).(maineof) [] s.(inp).(curline) 0 (cz 0) s.(inp).(macrolevel) s.(inp).(thiscall) s.(inp).(segment) 0)
       (set_bufferpos 0 s.(ct)) s.(cp) (fun _ => None) [] [] [] [].

Section Basic.
Variable J : forall {A : Type}, M A -> Prop.

Record walk : Prop := {
  w_ext : forall A (m m' : M A), (forall s, m s = m' s) -> J m -> J m';
  w_ret : forall A (a : A), J (ret a);
  w_bind : forall A B (m : M A) (k : A -> M B), J m -> (forall a, J (k a)) -> J (bind m k);
  w_gets : forall A (f : state -> A), (forall s, f s = f (glance s)) -> J (gets f);
  w_look : forall A B (f : state -> A) (k : A -> M B), (forall s, k (f s) = k (f (glance s))) ->
      (forall a, J (k a)) -> J (bind (gets f) k);
  w_ub : forall A w, J (@stop A (UB w));
  w_hang : forall A, J (@stop A Hang);
  w_fuel : forall A, J (@stop A NoFuel);
  w_fatal : forall A m, J (@fatal A m);
  w_error : forall A m, J (@error A m);
  w_warning : forall m, J (warning m);
  w_catch : forall A (m : M A), J m -> J (catch m);
  w_outputline : J outputline;
  w_outputEOL : J outputEOL;
  w_outputEOP : J outputEOP;
  w_settitle : forall t, J (settitle t);
  w_setpage : forall a b, J (setpage a b);
  w_filterc : forall s p, J (filterc s p);
  w_zerobuffer : J zerobuffer;
  w_calcresult : forall r, J (upd_ct (set_calcresult r));
  w_advance : forall v, J (upd_ct (set_advance v));
  w_linestart : J linestart;
  w_insert8 : forall x, J (insert8 x);
  w_star_advance : J star_advance;
  w_findlabel : forall n, J (findlabel n);
  w_cstlabel : forall t n, J (cstlabel t n);
  w_herelabel : forall n, J (herelabel n);
  w_showvalue : forall (b : bool) v,
      J (s <- gets (fun s => s) ;;
         when (b && ((s.(inp).(macrolevel) =? 0) || s.(fl).(a_macrolist_on)) && (s.(ls).(lpos) =? 0))
              (position 2 ;;; outputaddr v));
  w_equ : forall label (r : result),
      J (k <- deflabel label (equ_flags r.(r_flags)) r.(r_type) r.(r_value) ;;
         upd_sy (tupd k (fun l => set_l_ptr r.(r_ptr) (set_l_modifier r.(r_modifier) l))));
  w_defmacro : forall label n li,
      J (k <- deflabel (firstn LABLEN label) lf0 TMacro 0 ;;
         lab <- macrolines n li [] ;;
         let '(lines, a, b) := lab : list str * str * str in
         match a, b with
         | [], [] => upd_sy (tupd k (set_l_ptr (PMac lines))) ;;; ret FNone
         | _, _ => err "illegal ENDM instruction"
         end);
  w_init6800 : forall c, J (init6800 c);
  w_init6502 : forall c, J (init6502 c);
  w_initz80 : forall c, J (initz80 c);
  w_cp : forall f, J (upd_cp f);
  w_flip_lohi : J flip_lohi;
  w_cpu_gv : J (upd_fl (set_a_cpu_gv true));
  w_code_on : forall b, J (upd_fl (set_a_code_on b));
  w_newsegment : J newsegment;
  w_list_on : J (f <- gets fl ;; when (negb f.(a_nolist)) (upd_fl (set_a_list_on true)));
  w_list_off : J (upd_fl (set_a_list_on false));
  w_macrolist : forall b, J (upd_fl (set_a_macrolist_on b));
  w_iflist : forall b, J (upd_fl (set_a_iflist_on b));
  w_includelist : forall b, J (upd_fl (set_a_includelist_on b));
  w_nooutput : J (upd_fl (fun f => set_a_code_scode false (set_a_code_hex false f)));
  w_hex : J (upd_fl (set_a_code_hex true));
  w_scode : J (upd_fl (set_a_code_scode true));
  w_linegets : J linegets;
  w_stripline : J stripline;
  w_include : forall oper, J (Xinclude oper);
  w_if : forall self li ex oper, (forall o, J (testtrue o)) ->
      (forall k l e, J (self k l e)) -> J (Xif self li ex oper);
  w_macrocall : forall self key ptr li oper,
      (forall k l e, J (self k l e)) -> J (macrocall self key ptr li oper)
}.

Variable W : walk.

Ltac w1 :=
  lazymatch goal with
  | |- J (bind (gets _) _) => apply (w_look W); [ intros; reflexivity | intros ]
  | |- J (bind _ _) => apply (w_bind W); [ | intros ]
  | |- J (ret _) => apply (w_ret W)
  | |- J (gets _) => apply (w_gets W); intros; reflexivity
  | |- J (when _ _) => unfold when
  | |- J (stop (UB _)) => apply (w_ub W)
  | |- J (stop Hang) => apply (w_hang W)
  | |- J (stop NoFuel) => apply (w_fuel W)
  | |- J (fatal _) => apply (w_fatal W)
  | |- J (err _) => unfold err; apply (w_error W)
  | |- J (error _) => apply (w_error W)
  | |- J (warning _) => apply (w_warning W)
  | |- J outputline => apply (w_outputline W)
  | |- J outputEOL => apply (w_outputEOL W)
  | |- J outputEOP => apply (w_outputEOP W)
  | |- J (settitle _) => apply (w_settitle W)
  | |- J (setpage _ _) => apply (w_setpage W)
  | |- J (filterc _ _) => apply (w_filterc W)
  | |- J zerobuffer => apply (w_zerobuffer W)
  | |- J (upd_ct (set_calcresult _)) => apply (w_calcresult W)
  | |- J (upd_ct (set_advance _)) => apply (w_advance W)
  | |- J linestart => apply (w_linestart W)
  | |- J (insert8 _) => apply (w_insert8 W)
  | |- J star_advance => apply (w_star_advance W)
  | |- J (findlabel _) => apply (w_findlabel W)
  | |- J (cstlabel _ _) => apply (w_cstlabel W)
  | |- J (herelabel _) => apply (w_herelabel W)
  | |- J (upd_cp _) => apply (w_cp W)
  | |- J flip_lohi => apply (w_flip_lohi W)
  | |- J newsegment => apply (w_newsegment W)
  | |- J (upd_fl (set_a_cpu_gv true)) => apply (w_cpu_gv W)
  | |- J (upd_fl (set_a_code_on _)) => apply (w_code_on W)
  | |- J (upd_fl (set_a_list_on false)) => apply (w_list_off W)
  | |- J (upd_fl (set_a_macrolist_on _)) => apply (w_macrolist W)
  | |- J (upd_fl (set_a_iflist_on _)) => apply (w_iflist W)
  | |- J (upd_fl (set_a_includelist_on _)) => apply (w_includelist W)
  | |- J (upd_fl (set_a_code_hex true)) => apply (w_hex W)
  | |- J (upd_fl (set_a_code_scode true)) => apply (w_scode W)
  | |- J linegets => apply (w_linegets W)
  | |- J (init6800 _) => apply (w_init6800 W)
  | |- J (init6502 _) => apply (w_init6502 W)
  | |- J (initz80 _) => apply (w_initz80 W)
  | |- J (Xinclude _) => apply (w_include W)
  | |- J (match ?x with _ => _ end) => destruct x
  | |- J (let (_, _) := ?x in _) => destruct x
  | |- forall _, _ => intros
  end.
Ltac w := repeat first [w1 | solve [auto with walkdb] | progress (cbv beta zeta)].

Lemma J_filter0 : forall s p, J (filter0 s p).
Proof. unfold filter0. w. Qed.
Lemma J_filter1 : forall s p, J (filter1 s p).
Proof. unfold filter1. w. Qed.
Lemma J_filter2 : forall s p, J (filter2 s p).
Proof. unfold filter2. w. Qed.
Lemma J_putres : forall t r, J (putres t r).
Proof. unfold putres. w. Qed.
Lemma J_checktype : forall r t, J (checktype r t).
Proof. unfold checktype. w. Qed.
Hint Resolve J_filter0 J_filter1 J_filter2 J_putres J_checktype : walkdb.
Lemma J_constant : forall t r v, J (constant t r v).
Proof. unfold constant. w. Qed.
Lemma J_chk64 : forall v, J (chk64 v).
Proof. unfold chk64. w. Qed.
Hint Resolve J_constant J_chk64 : walkdb.
Lemma J_apply1 : forall t o r, J (apply1 t o r).
Proof. unfold apply1. w. Qed.
Lemma J_apply2 : forall t o a b, J (apply2 t o a b).
Proof. unfold apply2. w. Qed.
Hint Resolve J_apply1 J_apply2 : walkdb.

Lemma J_trygroup : forall e l, J (trygroup e l).
Proof. induction l as [|[f o] l IH]; cbn [trygroup]; w. Qed.
Lemma J_trycst : forall t r e l, J (trycst t r e l).
Proof. induction l as [|[f o] l IH]; cbn [trycst]; w. Qed.
Hint Resolve J_trygroup J_trycst : walkdb.
Lemma J_parserows : forall rec t r e rows, (forall t r e, J (rec t r e)) ->
  J (parserows rec t r e rows).
Proof. intros rec t r e rows H. induction rows as [|[]]; cbn [parserows]; w. Qed.
Lemma J_parse2 : forall n t r e, J (parse2 n t r e).
Proof.
  induction n; intros; cbn [parse2]; w. apply J_parserows; assumption.
Qed.
Hint Resolve J_parse2 : walkdb.
Lemma J_parse : forall e, J (parse e).
Proof. unfold parse. w. Qed.
Hint Resolve J_parse : walkdb.

Lemma J_insert16 : forall x, J (insert16 x).
Proof. unfold insert16. w. Qed.
Hint Resolve J_insert16 : walkdb.
Lemma J_insert32 : forall x, J (insert32 x).
Proof. unfold insert32. w. Qed.
Hint Resolve J_insert32 : walkdb.

Lemma J_branch : forall c o, J (branch c o).
Proof. unfold branch. w. Qed.
Lemma J_single : forall c o, J (single c o).
Proof. unfold single. w. Qed.
Lemma J_findmode_loop : forall o l, J (findmode_loop o l).
Proof. induction l as [|[f a] l IH]; cbn [findmode_loop]; w. Qed.
Hint Resolve J_branch J_single J_findmode_loop : walkdb.
Lemma J_findmode : forall o, J (findmode o).
Proof. unfold findmode. w. Qed.
Lemma J_codemode : forall c a v, J (codemode c a v).
Proof. unfold codemode. w. Qed.
Hint Resolve J_findmode J_codemode : walkdb.
Lemma J_standard68 : forall c o, J (standard68 c o).
Proof. unfold standard68. w. Qed.
Lemma J_standard2 : forall c o, J (standard2 c o).
Proof. unfold standard2. w. Qed.
Lemma J_standard3 : forall c o, J (standard3 c o).
Proof. unfold standard3. w. Qed.
Lemma J_findmode65 : forall o l, J (findmode65 o l).
Proof. induction l as [|[f a] l IH]; cbn [findmode65]; w. Qed.
Hint Resolve J_standard68 J_standard2 J_standard3 J_findmode65 : walkdb.
Lemma J_standard65 : forall c o, J (standard65 c o).
Proof. unfold standard65. w. Qed.
Hint Resolve J_standard65 : walkdb.

Lemma J_clrall : J clrall.
Proof. unfold clrall. w. Qed.
Lemma J_getindexed : forall o l, J (getindexed o l).
Proof. induction l as [|[f a] l IH]; cbn [getindexed]; w. Qed.
Hint Resolve J_clrall J_getindexed : walkdb.
Lemma J_getreg : forall o, J (getreg o).
Proof. unfold getreg. w. Qed.
Lemma J_docode : forall c, J (docode c).
Proof. unfold docode. w. Qed.
Hint Resolve J_getreg J_docode : walkdb.
Lemma J_simple : forall c o, J (simple c o).
Proof. unfold simple. w. Qed.
Lemma J_z_im : forall o, J (z_im o).
Proof. unfold z_im. w. Qed.
Lemma J_z_rst : forall o, J (z_rst o).
Proof. unfold z_rst. w. Qed.
Lemma J_findcond : forall t l i, J (findcond t i l).
Proof. induction l as [|c l IH]; intros; cbn [findcond]; w. Qed.
Hint Resolve J_simple J_z_im J_z_rst J_findcond : walkdb.
Lemma J_searchcond : forall n o, J (searchcond n o).
Proof. unfold searchcond. w. Qed.
Hint Resolve J_searchcond : walkdb.
Lemma J_z_jr : forall o, J (z_jr o).
Proof. unfold z_jr. w. Qed.
Lemma J_z_ret : forall o, J (z_ret o).
Proof. unfold z_ret. w. Qed.
Lemma J_condjump : forall a b o, J (condjump a b o).
Proof. unfold condjump. w. Qed.
Hint Resolve J_z_jr J_z_ret J_condjump : walkdb.
Lemma J_z_call : forall o, J (z_call o).
Proof. unfold z_call. w. Qed.
Lemma J_z_jp : forall o, J (z_jp o).
Proof. unfold z_jp. w. Qed.
Lemma J_z_ex_af : forall o, J (z_ex_af o).
Proof. unfold z_ex_af. w. Qed.
Hint Resolve J_z_call J_z_jp J_z_ex_af : walkdb.
Lemma J_z_ex : forall o, J (z_ex o).
Proof. unfold z_ex. w. Qed.
Lemma J_z_inout : forall c o, J (z_inout c o).
Proof. unfold z_inout. w. Qed.
Lemma J_z_bitop : forall c o, J (z_bitop c o).
Proof. unfold z_bitop. w. Qed.
Lemma J_z_onreg8 : forall c o, J (z_onreg8 c o).
Proof. unfold z_onreg8. w. Qed.
Lemma J_z_logical : forall c o, J (z_logical c o).
Proof. unfold z_logical. w. Qed.
Hint Resolve J_z_ex J_z_inout J_z_bitop J_z_onreg8 J_z_logical : walkdb.
Lemma J_z_stackop : forall c o, J (z_stackop c o).
Proof. unfold z_stackop. w. Qed.
Lemma J_z_arith : forall c o, J (z_arith c o).
Proof. unfold z_arith. w. Qed.
Lemma J_z_incr : forall c o, J (z_incr c o).
Proof. unfold z_incr. w. Qed.
Lemma J_z_ld : forall o, J (z_ld o).
Proof. unfold z_ld. w. Qed.
Hint Resolve J_z_stackop J_z_arith J_z_incr J_z_ld : walkdb.

Lemma bind_assoc : forall A B C (m : M A) (k : A -> M B) (h : B -> M C) s,
  bind (bind m k) h s = bind m (fun a => bind (k a) h) s.
Proof.
  intros. unfold bind. destruct (m s) as [[a|b] s']; reflexivity.
Qed.

Lemma error_bind : forall A B m (k : A -> M B) s, bind (error m) k s = error m s.
Proof.
  intros A B m k s. unfold error, stop, when, bind, gets, upd_fl, modify, ret.
  generalize outputraw outputline star_advance. intros o1 o2 o3.
  repeat match goal with
         | |- context [match ?x with _ => _ end] =>
             lazymatch x with context [match _ with _ => _ end] => fail | _ => destruct x end
         end; reflexivity.
Qed.

Lemma J_Xequ : forall l o, J (Xequ l o).
Proof.
  intros l o. unfold Xequ.
  apply (w_bind W); [w|intros a]. cbv zeta.
  set (r := set_r_flags _ a).
  eapply (w_ext W); [intros s; apply bind_assoc|].
  apply (w_bind W).
  - exact (w_showvalue W (ltype_eqb r.(r_type) TAbs || ltype_eqb r.(r_type) TRel) r.(r_value)).
  - intros _. exact (w_equ W l (mkRes (equ_flags a.(r_flags)) a.(r_type) a.(r_modifier) a.(r_ptr) a.(r_value))).
Qed.
Lemma J_stocke : forall t m, J (stocke t m).
Proof. unfold stocke. w. Qed.
Hint Resolve J_Xequ J_stocke : walkdb.
Lemma J_dcloop : forall n o m, J (dcloop n o m).
Proof. induction n as [|n IH]; intros; cbn [dcloop]; w. Qed.
Hint Resolve J_dcloop : walkdb.
Lemma J_Xdc : forall m o, J (Xdc m o).
Proof. unfold Xdc. w. Qed.
Lemma J_dsloop : forall n i, J (dsloop n i).
Proof. induction n as [|n IH]; intros; cbn [dsloop]; w. Qed.
Hint Resolve J_Xdc J_dsloop : walkdb.
Lemma J_Xds : forall o, J (Xds o).
Proof. unfold Xds. w. Qed.
Lemma J_Xnam : forall o, J (Xnam o).
Proof. unfold Xnam. w. Qed.
Lemma J_ascloop : forall d s, J (ascloop d s).
Proof.
  intros d s. remember (List.length s) as n. revert s Heqn.
  induction n as [n IH] using lt_wf_ind. intros s ->.
  destruct s as [|c [|c2 s]]; cbn [ascloop]; w.
  all: apply IH with (m := List.length s) || apply IH with (m := List.length (c2 :: s)); cbn; lia || reflexivity.
Qed.
Hint Resolve J_Xds J_Xnam J_ascloop : walkdb.
Lemma J_Xasc : forall o, J (Xasc o).
Proof. unfold Xasc. w. Qed.
Lemma J_Xcode : forall o, J (Xcode o).
Proof. unfold Xcode. w. Qed.
Lemma J_Xdummy : forall o, J (Xdummy o).
Proof. unfold Xdummy. w. Qed.
Lemma J_onoff : forall a b o, J a -> J b -> J (onoff a b o).
Proof. unfold onoff. w. Qed.
Lemma J_Xlist : forall o, J (Xlist o).
Proof. intros. apply J_onoff; [apply (w_list_on W)|w]. Qed.
Lemma J_Xmlist : forall o, J (Xmlist o).
Proof. intros. apply J_onoff; w. Qed.
Lemma J_Xclist : forall o, J (Xclist o).
Proof. intros. apply J_onoff; w. Qed.
Lemma J_Xilist : forall o, J (Xilist o).
Proof. intros. apply J_onoff; w. Qed.
Lemma J_Xpage : forall o, J (Xpage o).
Proof. unfold Xpage. w. Qed.
Lemma J_skiploop : forall n, J (skiploop n).
Proof. induction n as [|n IH]; intros; cbn [skiploop]; w. Qed.
Hint Resolve J_skiploop : walkdb.
Lemma J_Xskip : forall o, J (Xskip o).
Proof. unfold Xskip. w. Qed.
Lemma J_Xoutput : forall o, J (Xoutput o).
Proof. unfold Xoutput. w; apply (w_nooutput W). Qed.
Lemma J_Xalign : forall o, J (Xalign o).
Proof. unfold Xalign. w. Qed.
Lemma J_findcpu : forall A t l (k : M unit -> M A),
  (forall i, In i (map snd l) -> J (k i)) -> J (bind (findcpu t l) k).
Proof.
  induction l as [|[n i] l IH]; intros k H; cbn [findcpu].
  - apply (w_ext W) with (m := error (s2l "Unknown CPU name")); [|apply (w_error W)].
    intros s. symmetry. apply error_bind.
  - apply (w_ext W) with (m := bind (filter0 t n) (fun b : bool =>
      bind (if b then ret i else findcpu t l) k)).
    + intros s. symmetry. apply bind_assoc.
    + apply (w_bind W); [w|]. intros [|].
      * apply (w_ext W) with (m := k i); [reflexivity|]. apply H. left. reflexivity.
      * apply IH. intros j Hj. apply H. right. exact Hj.
Qed.
Lemma J_Xcpu : forall o, J (Xcpu o).
Proof.
  intros [t|]; unfold Xcpu; [|w].
  apply (w_look W); [reflexivity|intros f]. apply (w_bind W); [w|intros _].
  apply J_findcpu.
  all: intros i Hi; cbn [map snd cpulist In] in Hi.
  all: repeat destruct Hi as [<-|Hi]; w.
  destruct Hi.
Qed.
Lemma J_Xfail : forall o, J (Xfail o).
Proof. unfold Xfail. w. Qed.
Hint Resolve J_Xasc J_Xcode J_Xdummy J_Xlist J_Xmlist J_Xclist J_Xilist J_Xpage J_Xskip
  J_Xoutput J_Xalign J_Xcpu J_Xfail : walkdb.

Lemma J_Xelse : forall o, J (Xelse o).
Proof. unfold Xelse. w. Qed.
Lemma J_Xendc : forall o, J (Xendc o).
Proof. unfold Xendc. w. Qed.
Lemma J_findcompar : forall t l, J (findcompar t l).
Proof. induction l as [|[f a] l IH]; cbn [findcompar]; w. Qed.
Hint Resolve J_Xelse J_Xendc J_findcompar : walkdb.
Lemma J_testtrue : forall o, J (testtrue o).
Proof. unfold testtrue. w. Qed.
Lemma J_mainfeof : J mainfeof.
Proof. unfold mainfeof. w. Qed.
Lemma J_iflist : J iflist.
Proof. unfold iflist. w. Qed.
Hint Resolve J_testtrue J_mainfeof J_iflist : walkdb.

Lemma J_leave : forall f li ex, J (leave f li ex).
Proof. unfold leave. w. Qed.
Hint Resolve J_leave : walkdb.
Lemma J_Xexitm : forall li ex o, J (Xexitm li ex o).
Proof. unfold Xexitm. w. Qed.
Lemma J_Xendm : forall li ex o, J (Xendm li ex o).
Proof. unfold Xendm. w. Qed.
Lemma J_macrolines : forall n li acc, J (macrolines n li acc).
Proof. induction n as [|n IH]; intros; cbn [macrolines]; w. Qed.
Hint Resolve J_Xexitm J_Xendm J_macrolines : walkdb.
Lemma J_Xmacro : forall n li ex l o, J (Xmacro n li ex l o).
Proof.
  intros n li ex l o. unfold Xmacro.
  apply (w_bind W); [w|intros _]. apply (w_look W); [reflexivity|intros m].
  apply (w_bind W); [w|intros _]. apply (w_bind W); [w|intros _].
  destruct ex.
  - eapply (w_ext W); [|apply (w_defmacro W) with (label := l) (n := n) (li := li)].
    intros s. rewrite bind_assoc. unfold bind, ret.
    destruct (deflabel (firstn LABLEN l) lf0 TMacro 0 s) as [[k|b] s1]; [|reflexivity].
    destruct (macrolines n li [] s1) as [[[[lines a] b]|b] s2]; reflexivity.
  - apply (w_ext W) with (m := lab <- macrolines n li [] ;;
         let '(lines, a, b) := lab : list str * str * str in
         match a, b with
         | [], [] => ret FNone
         | _, _ => err "illegal ENDM instruction"
         end).
    + intros s. unfold bind, ret.
      destruct (macrolines n li [] s) as [[[[lines a] b]|b] s2]; [|reflexivity].
      destruct a, b; reflexivity.
    + w.
Qed.
Hint Resolve J_Xmacro : walkdb.

Section Self.
Variable self : kind -> bool -> bool -> M flag.
Hypothesis Hself : forall k li ex, J (self k li ex).
Lemma J_self : forall k li ex, J (self k li ex).
Proof. exact Hself. Qed.
Lemma J_catchself : forall k li ex, J (catch (self k li ex)).
Proof. intros. apply (w_catch W). apply Hself. Qed.
Hint Resolve J_self J_catchself : walkdb.
Lemma J_ifround : forall li ex, J (ifround self li ex).
Proof. unfold ifround. w. Qed.
Lemma J_macround : forall li ex, J (macround self li ex).
Proof. unfold macround. w. Qed.
Lemma J_Xif : forall li ex o, J (Xif self li ex o).
Proof. intros. apply (w_if W); [exact J_testtrue|exact Hself]. Qed.
Lemma J_macrocall : forall k p li o, J (macrocall self k p li o).
Proof. intros. apply (w_macrocall W). exact Hself. Qed.
Hint Resolve J_Xif J_macrocall : walkdb.

Lemma J_searchlabel : forall n, J (searchlabel n).
Proof. unfold searchlabel. w. Qed.
Hint Resolve J_searchlabel : walkdb.
Lemma J_findmnemo : forall m, J (findmnemo m).
Proof. unfold findmnemo. w. Qed.
Hint Resolve J_findmnemo : walkdb.
Lemma J_exec : forall h m l o, J (exec h m l o).
Proof. intros h m l o. destruct h; cbn [exec]; w. Qed.
Lemma J_execblock : forall n h li ex l o, J (execblock self n h li ex l o).
Proof. intros n h li ex l o. destruct h; cbn [execblock]; w. Qed.
Hint Resolve J_exec J_execblock : walkdb.
Lemma J_splitmnemo : forall s, J (splitmnemo s).
Proof. unfold splitmnemo. w. Qed.
Hint Resolve J_splitmnemo : walkdb.
Lemma J_splitrest : forall s, J (splitrest s).
Proof. unfold splitrest. w. Qed.
Hint Resolve J_splitrest : walkdb.
Lemma J_splitline : forall s, J (splitline s).
Proof. unfold splitline. w. Qed.
Lemma J_dispatch : forall n li ex k l lab o, J (dispatch self n li ex k l lab o).
Proof. unfold dispatch. w. Qed.
Lemma J_stripline : J stripline.
Proof. apply (w_stripline W). Qed.
Hint Resolve J_splitline J_dispatch J_stripline : walkdb.
Lemma J_asmline : forall n li ex, J (asmline self n li ex).
Proof. unfold asmline. w. Qed.
End Self.

Theorem J_run : forall n k li ex, J (run n k li ex).
Proof.
  induction n as [|n IH]; intros; cbn [run]; w.
  - apply J_asmline; assumption.
  - apply J_ifround; assumption.
  - apply J_macround; assumption.
Qed.

Theorem J_passline : forall n, J (passline n).
Proof. intros. unfold passline. w. apply J_run. Qed.

Theorem J_passloop : forall n, J (passloop n).
Proof.
  induction n as [|n IH]; cbn [passloop]; w. apply (w_catch W). apply J_passline.
Qed.
End Basic.
