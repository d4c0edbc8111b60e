(** The same principle as in Local.v for the instructions that only store bytes.  Nothing
    here is part of the model. *)
From Coq Require Import String Ascii ZArith List Bool Lia.
From Verif Require Import Base State Tree Filter Output Label Operator Parse Scode Tables.
From Verif Require Import Cpu6800 Cpu6502 CpuZ80 Pseudos Macro Xref Crasm SpecListing.
Import ListNotations.
Open Scope Z_scope.

Create HintDb storedb discriminated.
#[global] Hint Constants Opaque : storedb.

Section Store.
Variable J : forall {A : Type}, M A -> Prop.

Record store : Prop := {
  w_ret : forall A (a : A), J (ret a);
  w_bind : forall A B (m : M A) (k : A -> M B), J m -> (forall a, J (k a)) -> J (bind m k);
  w_gets : forall A (f : state -> A), J (gets f);
  w_ub : forall A w, J (@stop A (UB w));
  w_err : forall A m, J (@err A m);
  w_warning : forall m, J (warning m);
  w_filterc : forall s p, J (filterc s p);
  w_calcresult : forall r, J (upd_ct (set_calcresult r));
  w_insert8 : forall x, J (insert8 x);
  w_findlabel : forall n, J (findlabel n);
  w_cp : forall f, J (upd_cp f);
  w_parse : forall e, J (parse e);
  w_dc : forall m o, J (Xdc m o)
}.

Variable W : store.

Ltac w1 :=
  lazymatch goal with
  | |- J (bind _ _) => apply (w_bind W); [ | intros ]
  | |- J (ret _) => apply (w_ret W)
  | |- J (gets _) => apply (w_gets W)
  | |- J (when _ _) => unfold when
  | |- J (stop (UB _)) => apply (w_ub W)
  | |- J (parse _) => apply (w_parse W)
  | |- J (Xdc _ _) => apply (w_dc W)
  | |- J (err _) => apply (w_err W)
  | |- J (warning _) => apply (w_warning W)
  | |- J (filterc _ _) => apply (w_filterc W)
  | |- J (upd_ct (set_calcresult _)) => apply (w_calcresult W)
  | |- J (insert8 _) => apply (w_insert8 W)
  | |- J (findlabel _) => apply (w_findlabel W)
  | |- J (upd_cp _) => apply (w_cp W)
  | |- J (match ?x with _ => _ end) => destruct x
  | |- J (let (_, _) := ?x in _) => destruct x
  | |- forall _, _ => intros
  end.
Ltac w := repeat first [w1 | solve [auto with storedb] | progress (cbv beta zeta)].

Lemma J_filter0 : forall s p, J (filter0 s p).
Proof. unfold filter0. w. Qed.
Lemma J_filter1 : forall s p, J (filter1 s p).
Proof. unfold filter1. w. Qed.
Lemma J_filter2 : forall s p, J (filter2 s p).
Proof. unfold filter2. w. Qed.
Lemma J_putres : forall t r, J (putres t r).
Proof. unfold putres. w. Qed.
Lemma J_checktype : forall r t, J (checktype r t).
Proof. unfold checktype. w. Qed.
Hint Resolve J_filter0 J_filter1 J_filter2 J_putres J_checktype : storedb.
Lemma J_insert16 : forall x, J (insert16 x).
Proof. unfold insert16. w. Qed.
Hint Resolve J_insert16 : storedb.
Lemma J_insert32 : forall x, J (insert32 x).
Proof. unfold insert32. w. Qed.
Hint Resolve J_insert32 : storedb.

Lemma J_branch : forall c o, J (branch c o).
Proof. unfold branch. w. Qed.
Lemma J_single : forall c o, J (single c o).
Proof. unfold single. w. Qed.
Lemma J_findmode_loop : forall o l, J (findmode_loop o l).
Proof. induction l as [|[f a] l IH]; cbn [findmode_loop]; w. Qed.
Hint Resolve J_branch J_single J_findmode_loop : storedb.
Lemma J_findmode : forall o, J (findmode o).
Proof. unfold findmode. w. Qed.
Lemma J_codemode : forall c a v, J (codemode c a v).
Proof. unfold codemode. w. Qed.
Hint Resolve J_findmode J_codemode : storedb.
Lemma J_standard68 : forall c o, J (standard68 c o).
Proof. unfold standard68. w. Qed.
Lemma J_standard2 : forall c o, J (standard2 c o).
Proof. unfold standard2. w. Qed.
Lemma J_standard3 : forall c o, J (standard3 c o).
Proof. unfold standard3. w. Qed.
Lemma J_findmode65 : forall o l, J (findmode65 o l).
Proof. induction l as [|[f a] l IH]; cbn [findmode65]; w. Qed.
Hint Resolve J_standard68 J_standard2 J_standard3 J_findmode65 : storedb.
Lemma J_standard65 : forall c o, J (standard65 c o).
Proof. unfold standard65. w. Qed.
Hint Resolve J_standard65 : storedb.

Lemma J_clrall : J clrall.
Proof. unfold clrall. w. Qed.
Lemma J_getindexed : forall o l, J (getindexed o l).
Proof. induction l as [|[f a] l IH]; cbn [getindexed]; w. Qed.
Hint Resolve J_clrall J_getindexed : storedb.
Lemma J_getreg : forall o, J (getreg o).
Proof. unfold getreg. w. Qed.
Lemma J_docode : forall c, J (docode c).
Proof. unfold docode. w. Qed.
Hint Resolve J_getreg J_docode : storedb.
Lemma J_simple : forall c o, J (simple c o).
Proof. unfold simple. w. Qed.
Lemma J_z_im : forall o, J (z_im o).
Proof. unfold z_im. w. Qed.
Lemma J_z_rst : forall o, J (z_rst o).
Proof. unfold z_rst. w. Qed.
Lemma J_findcond : forall t l i, J (findcond t i l).
Proof. induction l as [|c l IH]; intros; cbn [findcond]; w. Qed.
Hint Resolve J_simple J_z_im J_z_rst J_findcond : storedb.
Lemma J_searchcond : forall n o, J (searchcond n o).
Proof. unfold searchcond. w. Qed.
Hint Resolve J_searchcond : storedb.
Lemma J_z_jr : forall o, J (z_jr o).
Proof. unfold z_jr. w. Qed.
Lemma J_z_ret : forall o, J (z_ret o).
Proof. unfold z_ret. w. Qed.
Lemma J_condjump : forall a b o, J (condjump a b o).
Proof. unfold condjump. w. Qed.
Hint Resolve J_z_jr J_z_ret J_condjump : storedb.
Lemma J_z_call : forall o, J (z_call o).
Proof. unfold z_call. w. Qed.
Lemma J_z_jp : forall o, J (z_jp o).
Proof. unfold z_jp. w. Qed.
Lemma J_z_ex_af : forall o, J (z_ex_af o).
Proof. unfold z_ex_af. w. Qed.
Hint Resolve J_z_call J_z_jp J_z_ex_af : storedb.
Lemma J_z_ex : forall o, J (z_ex o).
Proof. unfold z_ex. w. Qed.
Lemma J_z_inout : forall c o, J (z_inout c o).
Proof. unfold z_inout. w. Qed.
Lemma J_z_bitop : forall c o, J (z_bitop c o).
Proof. unfold z_bitop. w. Qed.
Lemma J_z_onreg8 : forall c o, J (z_onreg8 c o).
Proof. unfold z_onreg8. w. Qed.
Lemma J_z_logical : forall c o, J (z_logical c o).
Proof. unfold z_logical. w. Qed.
Hint Resolve J_z_ex J_z_inout J_z_bitop J_z_onreg8 J_z_logical : storedb.
Lemma J_z_stackop : forall c o, J (z_stackop c o).
Proof. unfold z_stackop. w. Qed.
Lemma J_z_arith : forall c o, J (z_arith c o).
Proof. unfold z_arith. w. Qed.
Lemma J_z_incr : forall c o, J (z_incr c o).
Proof. unfold z_incr. w. Qed.
Lemma J_z_ld : forall o, J (z_ld o).
Proof. unfold z_ld. w. Qed.
Hint Resolve J_z_stackop J_z_arith J_z_incr J_z_ld : storedb.

Lemma J_dsloop : forall n i, J (dsloop n i).
Proof. induction n as [|n IH]; intros; cbn [dsloop]; w. Qed.
Hint Resolve J_dsloop : storedb.
Lemma J_Xds : forall o, (forall v, J (upd_ct (set_advance v))) -> J (Xds o).
Proof. intros o H. unfold Xds. w; apply H. Qed.
Lemma J_ascloop : forall d s, J (ascloop d s).
Proof.
  intros d s. remember (List.length s) as n. revert s Heqn.
  induction n as [n IH] using lt_wf_ind. intros s ->.
  destruct s as [|c [|c2 s]]; cbn [ascloop]; w.
  all: apply IH with (m := List.length s) || apply IH with (m := List.length (c2 :: s)); cbn; lia || reflexivity.
Qed.
Hint Resolve J_ascloop : storedb.
Lemma J_Xasc : forall o, J (Xasc o).
Proof. unfold Xasc. w. Qed.
Lemma J_Xalign : forall o, J (Xalign o).
Proof. unfold Xalign. w. Qed.
Hint Resolve J_Xasc J_Xalign : storedb.

Lemma J_exec : forall h m l o, (h = HDs -> J (Xds o)) -> stores h = true -> J (exec h m l o).
Proof. intros h m l o D S. destruct h; try discriminate S; cbn [exec]; w. Qed.
End Store.
