(** The same principle as in Walk.v for the operations that do not read the source: a
    property of computations that is closed under sequencing and holds of the basic
    operations, of [parse] and of [Xdc] holds of every single instruction.  The messages are
    constants, so the property need hold of short messages only; and nothing is asked of
    exhausted steps.  Nothing here is part of the model. *)
From Coq Require Import String Ascii ZArith List Bool Lia.
From Verif Require Import Base State Tree Filter Output Label Operator Parse Scode Tables.
From Verif Require Import Cpu6800 Cpu6502 CpuZ80 Pseudos Macro Xref Crasm.
From Verif Require Import Walk.
Import ListNotations.
Open Scope Z_scope.

Create HintDb localdb discriminated.
#[global] Hint Constants Opaque : localdb.

(** The undefined operations of the instructions themselves. *)
Definition local_ub : list string :=
  ["getreg: shift count"; "EQU without label"; "block instruction as mnemonic";
   "DS: negative count"; "asc: read past operand"]%string.

Section Local.
Variable J : forall {A : Type}, M A -> Prop.

Record local : Prop := {
  w_ext : forall A (m m' : M A), (forall s, m s = m' s) -> J m -> J m';
  w_ret : forall A (a : A), J (ret a);
  w_bind : forall A B (m : M A) (k : A -> M B), J m -> (forall a, J (k a)) -> J (bind m k);
  w_gets : forall A (f : state -> A), J (gets f);
  w_ub : forall A w, existsb (String.eqb w) local_ub = true -> J (@stop A (UB w));
  w_fatal : forall A m, J (@fatal A m);
  w_err : forall A m, zlen (s2l m) <=? 64 = true -> J (@err A m);
  w_warning : forall m, J (warning m);
  w_outputline : J outputline;
  w_outputEOL : J outputEOL;
  w_outputEOP : J outputEOP;
  w_position : forall n, J (position n);
  w_outputaddr : forall a, J (outputaddr a);
  w_settitle : forall t, J (settitle t);
  w_setpage : forall a b, J (setpage a b);
  w_filterc : forall s p, J (filterc s p);
  w_zerobuffer : J zerobuffer;
  w_calcresult : forall r, J (upd_ct (set_calcresult r));
  w_insert8 : forall x, J (insert8 x);
  w_findlabel : forall n, J (findlabel n);
  w_init6800 : forall c, J (init6800 c);
  w_init6502 : forall c, J (init6502 c);
  w_initz80 : forall c, J (initz80 c);
  w_cp : forall f, J (upd_cp f);
  w_flip_lohi : J flip_lohi;
  w_cpu_gv : J (upd_fl (set_a_cpu_gv true));
  w_code_on : forall b, J (upd_fl (set_a_code_on b));
  w_newsegment : J newsegment;
  w_list_on : J (f <- gets fl ;; when (negb f.(a_nolist)) (upd_fl (set_a_list_on true)));
  w_list_off : J (upd_fl (set_a_list_on false));
  w_macrolist : forall b, J (upd_fl (set_a_macrolist_on b));
  w_iflist : forall b, J (upd_fl (set_a_iflist_on b));
  w_includelist : forall b, J (upd_fl (set_a_includelist_on b));
  w_nooutput : J (upd_fl (fun f => set_a_code_scode false (set_a_code_hex false f)));
  w_hex : J (upd_fl (set_a_code_hex true));
  w_scode : J (upd_fl (set_a_code_scode true));
  w_lineprefix : forall c, J (upd_inp (set_lineprefix c));
  w_parse : forall e, J (parse e);
  w_dc : forall m o, J (Xdc m o)
}.

Variable W : local.

Ltac w1 :=
  lazymatch goal with
  | |- J (bind _ _) => apply (w_bind W); [ | intros ]
  | |- J (ret _) => apply (w_ret W)
  | |- J (gets _) => apply (w_gets W)
  | |- J (when _ _) => unfold when
  | |- J (stop (UB _)) => apply (w_ub W); reflexivity
  | |- J (parse _) => apply (w_parse W)
  | |- J (Xdc _ _) => apply (w_dc W)
  | |- J (fatal _) => apply (w_fatal W)
  | |- J (err _) => apply (w_err W); reflexivity
  | |- J (warning _) => apply (w_warning W)
  | |- J outputline => apply (w_outputline W)
  | |- J outputEOL => apply (w_outputEOL W)
  | |- J outputEOP => apply (w_outputEOP W)
  | |- J (position _) => apply (w_position W)
  | |- J (outputaddr _) => apply (w_outputaddr W)
  | |- J (settitle _) => apply (w_settitle W)
  | |- J (setpage _ _) => apply (w_setpage W)
  | |- J (filterc _ _) => apply (w_filterc W)
  | |- J zerobuffer => apply (w_zerobuffer W)
  | |- J (upd_ct (set_calcresult _)) => apply (w_calcresult W)
  | |- J (insert8 _) => apply (w_insert8 W)
  | |- J (findlabel _) => apply (w_findlabel W)
  | |- J (upd_cp _) => apply (w_cp W)
  | |- J flip_lohi => apply (w_flip_lohi W)
  | |- J newsegment => apply (w_newsegment W)
  | |- J (upd_fl (set_a_cpu_gv true)) => apply (w_cpu_gv W)
  | |- J (upd_fl (set_a_code_on _)) => apply (w_code_on W)
  | |- J (upd_fl (set_a_list_on false)) => apply (w_list_off W)
  | |- J (upd_fl (set_a_macrolist_on _)) => apply (w_macrolist W)
  | |- J (upd_fl (set_a_iflist_on _)) => apply (w_iflist W)
  | |- J (upd_fl (set_a_includelist_on _)) => apply (w_includelist W)
  | |- J (upd_fl (set_a_code_hex true)) => apply (w_hex W)
  | |- J (upd_fl (set_a_code_scode true)) => apply (w_scode W)
  | |- J (upd_inp (set_lineprefix _)) => apply (w_lineprefix W)
  | |- J (init6800 _) => apply (w_init6800 W)
  | |- J (init6502 _) => apply (w_init6502 W)
  | |- J (initz80 _) => apply (w_initz80 W)
  | |- J (match ?x with _ => _ end) => destruct x
  | |- J (let (_, _) := ?x in _) => destruct x
  | |- forall _, _ => intros
  end.
Ltac w := repeat first [w1 | solve [auto with localdb] | progress (cbv beta zeta)].

Lemma J_filter0 : forall s p, J (filter0 s p).
Proof. unfold filter0. w. Qed.
Lemma J_filter1 : forall s p, J (filter1 s p).
Proof. unfold filter1. w. Qed.
Lemma J_filter2 : forall s p, J (filter2 s p).
Proof. unfold filter2. w. Qed.
Lemma J_putres : forall t r, J (putres t r).
Proof. unfold putres. w. Qed.
Lemma J_checktype : forall r t, J (checktype r t).
Proof. unfold checktype. w. Qed.
Hint Resolve J_filter0 J_filter1 J_filter2 J_putres J_checktype : localdb.
Lemma J_insert16 : forall x, J (insert16 x).
Proof. unfold insert16. w. Qed.
Hint Resolve J_insert16 : localdb.
Lemma J_insert32 : forall x, J (insert32 x).
Proof. unfold insert32. w. Qed.
Hint Resolve J_insert32 : localdb.

Lemma J_branch : forall c o, J (branch c o).
Proof. unfold branch. w. Qed.
Lemma J_single : forall c o, J (single c o).
Proof. unfold single. w. Qed.
Lemma J_findmode_loop : forall o l, J (findmode_loop o l).
Proof. induction l as [|[f a] l IH]; cbn [findmode_loop]; w. Qed.
Hint Resolve J_branch J_single J_findmode_loop : localdb.
Lemma J_findmode : forall o, J (findmode o).
Proof. unfold findmode. w. Qed.
Lemma J_codemode : forall c a v, J (codemode c a v).
Proof. unfold codemode. w. Qed.
Hint Resolve J_findmode J_codemode : localdb.
Lemma J_standard68 : forall c o, J (standard68 c o).
Proof. unfold standard68. w. Qed.
Lemma J_standard2 : forall c o, J (standard2 c o).
Proof. unfold standard2. w. Qed.
Lemma J_standard3 : forall c o, J (standard3 c o).
Proof. unfold standard3. w. Qed.
Lemma J_findmode65 : forall o l, J (findmode65 o l).
Proof. induction l as [|[f a] l IH]; cbn [findmode65]; w. Qed.
Hint Resolve J_standard68 J_standard2 J_standard3 J_findmode65 : localdb.
Lemma J_standard65 : forall c o, J (standard65 c o).
Proof. unfold standard65. w. Qed.
Hint Resolve J_standard65 : localdb.

Lemma J_clrall : J clrall.
Proof. unfold clrall. w. Qed.
Lemma J_getindexed : forall o l, J (getindexed o l).
Proof. induction l as [|[f a] l IH]; cbn [getindexed]; w. Qed.
Hint Resolve J_clrall J_getindexed : localdb.
Lemma J_getreg : forall o, J (getreg o).
Proof. unfold getreg. w. Qed.
Lemma J_docode : forall c, J (docode c).
Proof. unfold docode. w. Qed.
Hint Resolve J_getreg J_docode : localdb.
Lemma J_simple : forall c o, J (simple c o).
Proof. unfold simple. w. Qed.
Lemma J_z_im : forall o, J (z_im o).
Proof. unfold z_im. w. Qed.
Lemma J_z_rst : forall o, J (z_rst o).
Proof. unfold z_rst. w. Qed.
Lemma J_findcond : forall t l i, J (findcond t i l).
Proof. induction l as [|c l IH]; intros; cbn [findcond]; w. Qed.
Hint Resolve J_simple J_z_im J_z_rst J_findcond : localdb.
Lemma J_searchcond : forall n o, J (searchcond n o).
Proof. unfold searchcond. w. Qed.
Hint Resolve J_searchcond : localdb.
Lemma J_z_jr : forall o, J (z_jr o).
Proof. unfold z_jr. w. Qed.
Lemma J_z_ret : forall o, J (z_ret o).
Proof. unfold z_ret. w. Qed.
Lemma J_condjump : forall a b o, J (condjump a b o).
Proof. unfold condjump. w. Qed.
Hint Resolve J_z_jr J_z_ret J_condjump : localdb.
Lemma J_z_call : forall o, J (z_call o).
Proof. unfold z_call. w. Qed.
Lemma J_z_jp : forall o, J (z_jp o).
Proof. unfold z_jp. w. Qed.
Lemma J_z_ex_af : forall o, J (z_ex_af o).
Proof. unfold z_ex_af. w. Qed.
Hint Resolve J_z_call J_z_jp J_z_ex_af : localdb.
Lemma J_z_ex : forall o, J (z_ex o).
Proof. unfold z_ex. w. Qed.
Lemma J_z_inout : forall c o, J (z_inout c o).
Proof. unfold z_inout. w. Qed.
Lemma J_z_bitop : forall c o, J (z_bitop c o).
Proof. unfold z_bitop. w. Qed.
Lemma J_z_onreg8 : forall c o, J (z_onreg8 c o).
Proof. unfold z_onreg8. w. Qed.
Lemma J_z_logical : forall c o, J (z_logical c o).
Proof. unfold z_logical. w. Qed.
Hint Resolve J_z_ex J_z_inout J_z_bitop J_z_onreg8 J_z_logical : localdb.
Lemma J_z_stackop : forall c o, J (z_stackop c o).
Proof. unfold z_stackop. w. Qed.
Lemma J_z_arith : forall c o, J (z_arith c o).
Proof. unfold z_arith. w. Qed.
Lemma J_z_incr : forall c o, J (z_incr c o).
Proof. unfold z_incr. w. Qed.
Lemma J_z_ld : forall o, J (z_ld o).
Proof. unfold z_ld. w. Qed.
Hint Resolve J_z_stackop J_z_arith J_z_incr J_z_ld : localdb.

Lemma J_Xequ : forall l o, (forall r : result,
    J (k <- deflabel l (equ_flags r.(r_flags)) r.(r_type) r.(r_value) ;;
       upd_sy (tupd k (fun l => set_l_ptr r.(r_ptr) (set_l_modifier r.(r_modifier) l))))) -> J (Xequ l o).
Proof.
  intros l o w_equ. unfold Xequ.
  apply (w_bind W); [w|intros a]. cbv zeta.
  apply (w_bind W); [w|intros s].
  apply (w_bind W); [w|intros _].
  exact (w_equ (mkRes (equ_flags a.(r_flags)) a.(r_type) a.(r_modifier) a.(r_ptr) a.(r_value))).
Qed.
Lemma J_stocke : forall t m, J (stocke t m).
Proof. unfold stocke. w. Qed.
Hint Resolve J_stocke : localdb.
Lemma J_dsloop : forall n i, J (dsloop n i).
Proof. induction n as [|n IH]; intros; cbn [dsloop]; w. Qed.
Hint Resolve J_dsloop : localdb.
Lemma J_Xds : forall o, (forall v, J (upd_ct (set_advance v))) -> J (Xds o).
Proof. intros o H. unfold Xds. w; apply H. Qed.
Lemma J_Xnam : forall o, J (Xnam o).
Proof. unfold Xnam. w. Qed.
Lemma J_ascloop : forall d s, J (ascloop d s).
Proof.
  intros d s. remember (List.length s) as n. revert s Heqn.
  induction n as [n IH] using lt_wf_ind. intros s ->.
  destruct s as [|c [|c2 s]]; cbn [ascloop]; w.
  all: apply IH with (m := List.length s) || apply IH with (m := List.length (c2 :: s)); cbn; lia || reflexivity.
Qed.
Hint Resolve J_Xnam J_ascloop : localdb.
Lemma J_Xasc : forall o, J (Xasc o).
Proof. unfold Xasc. w. Qed.
Lemma J_Xcode : forall o, J (Xcode o).
Proof. unfold Xcode. w. Qed.
Lemma J_Xdummy : forall o, J (Xdummy o).
Proof. unfold Xdummy. w. Qed.
Lemma J_onoff : forall a b o, J a -> J b -> J (onoff a b o).
Proof. unfold onoff. w. Qed.
Lemma J_Xlist : forall o, J (Xlist o).
Proof. intros. apply J_onoff; [apply (w_list_on W)|w]. Qed.
Lemma J_Xmlist : forall o, J (Xmlist o).
Proof. intros. apply J_onoff; w. Qed.
Lemma J_Xclist : forall o, J (Xclist o).
Proof. intros. apply J_onoff; w. Qed.
Lemma J_Xilist : forall o, J (Xilist o).
Proof. intros. apply J_onoff; w. Qed.
Lemma J_Xpage : forall o, J (Xpage o).
Proof. unfold Xpage. w. Qed.
Lemma J_skiploop : forall n, J (skiploop n).
Proof. induction n as [|n IH]; intros; cbn [skiploop]; w. Qed.
Hint Resolve J_skiploop : localdb.
Lemma J_Xskip : forall o, J (Xskip o).
Proof. unfold Xskip. w. Qed.
Lemma J_Xoutput : forall o, J (Xoutput o).
Proof. unfold Xoutput. w; apply (w_nooutput W). Qed.
Lemma J_Xalign : forall o, J (Xalign o).
Proof. unfold Xalign. w. Qed.
Lemma J_findcpu : forall A t l (k : M unit -> M A),
  (forall i, In i (map snd l) -> J (k i)) -> J (bind (findcpu t l) k).
Proof.
  induction l as [|[n i] l IH]; intros k H; cbn [findcpu].
  - apply (w_ext W) with (m := err "Unknown CPU name"); [|apply (w_err W); reflexivity].
    intros s. symmetry. apply error_bind.
  - apply (w_ext W) with (m := bind (filter0 t n) (fun b : bool =>
      bind (if b then ret i else findcpu t l) k)).
    + intros s. symmetry. apply bind_assoc.
    + apply (w_bind W); [w|]. intros [|].
      * apply (w_ext W) with (m := k i); [reflexivity|]. apply H. left. reflexivity.
      * apply IH. intros j Hj. apply H. right. exact Hj.
Qed.
Lemma J_Xcpu : forall o, J (Xcpu o).
Proof.
  intros [t|]; unfold Xcpu; [|w].
  apply (w_bind W); [w|intros f]. apply (w_bind W); [w|intros _].
  apply J_findcpu.
  all: intros i Hi; cbn [map snd cpulist In] in Hi.
  all: repeat destruct Hi as [<-|Hi]; w.
  destruct Hi.
Qed.
Hint Resolve J_Xasc J_Xcode J_Xdummy J_Xlist J_Xmlist J_Xclist J_Xilist J_Xpage J_Xskip
  J_Xoutput J_Xalign J_Xcpu : localdb.

Lemma J_Xelse : forall o, J (Xelse o).
Proof. unfold Xelse. w. Qed.
Lemma J_Xendc : forall o, J (Xendc o).
Proof. unfold Xendc. w. Qed.
Lemma J_findcompar : forall t l, J (findcompar t l).
Proof. induction l as [|[f a] l IH]; cbn [findcompar]; w. Qed.
Hint Resolve J_Xelse J_Xendc J_findcompar : localdb.
Lemma J_testtrue : forall o, J (testtrue o).
Proof. unfold testtrue. w. Qed.
Lemma J_mainfeof : J mainfeof.
Proof. unfold mainfeof. w. Qed.
Lemma J_iflist : J iflist.
Proof. unfold iflist. w. Qed.
Hint Resolve J_testtrue J_mainfeof J_iflist : localdb.

Lemma J_leave : forall f li ex, J (leave f li ex).
Proof. unfold leave. w. Qed.
Hint Resolve J_leave : localdb.
Lemma J_Xexitm : forall li ex o, J (Xexitm li ex o).
Proof. unfold Xexitm. w. Qed.
Lemma J_Xendm : forall li ex o, J (Xendm li ex o).
Proof. unfold Xendm. w. Qed.

Lemma J_searchlabel : forall n, J (searchlabel n).
Proof. unfold searchlabel. w. Qed.
Hint Resolve J_searchlabel : localdb.
Lemma J_findmnemo : forall m, J (findmnemo m).
Proof. unfold findmnemo. w. Qed.
Hint Resolve J_findmnemo : localdb.
Lemma J_exec : forall h m l o, (h = HFail -> J (Xfail o)) -> (h = HInclude -> J (Xinclude o)) ->
  (h = HEqu -> forall t, l = Some t -> J (Xequ t o)) -> (h = HDs -> J (Xds o)) -> J (exec h m l o).
Proof. intros h m l o F I E D. destruct h; cbn [exec]; w. Qed.
Lemma J_splitmnemo : forall s, J (splitmnemo s).
Proof. unfold splitmnemo. w. Qed.
Hint Resolve J_splitmnemo : localdb.
Lemma J_splitrest : forall s, J (splitrest s).
Proof. unfold splitrest. w. Qed.
Hint Resolve J_splitrest : localdb.
Lemma J_splitline : forall s, J (splitline s).
Proof. unfold splitline. w. Qed.
End Local.
