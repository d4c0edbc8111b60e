(** C65: NAM, PAGE and SKIP give the listing its form. *)
From Coq Require Import String Ascii ZArith List Bool.
From Verif Require Import Base State Tree Filter Output Label Parse Pseudos Cpu6800 Macro Crasm SpecEmit SpecStar SpecLine SpecSheet SpecListing SheetFacts Frame LineText Witness PropStar PropLine.
From Verif Require SpecSplit.
Import ListNotations.
Open Scope Z_scope.

(** A line with NAM that is accepted has an operand of at most 30 characters, and this is
    the title from then on. *)
Theorem C65_nam : forall n li s f s' q key l, run (S n) KLine li true s = (Ok f, s') -> taken_apart s q ->
  q.(q_mnemo) = Some (key, l) -> of_its_own q -> l.(l_ptr) = PFun HNam -> q.(q_label) = None ->
  exists t, q.(q_oper) = Some t /\ zlen t <= 30 /\ s'.(ls).(title) = t.
Proof. exact (fun n => nam_line (run n) n). Qed.
Print Assumptions C65_nam.

Example C65_nam_applies : let s := second 2 ["* = 16"; " nam My program"]%string in let q := parts s "nam My program" in
  taken_apart s q /\ of_its_own q /\ match q.(q_mnemo) with Some (_, l) => l.(l_ptr) = PFun HNam | None => False end /\ q.(q_label) = None /\
  fst (run 5 KLine true true s) = Ok FNone /\ s.(ls).(title) = [] /\ (snd (run 5 KLine true true s)).(ls).(title) = s2l "My program".
Proof.
  intros s q. split; [apart s "nam My program"%string|]. vm_compute. repeat split; discriminate.
Qed.

(** A line with PAGE and two operands that is accepted gives the lines of a page and the
    columns of a line the values of its operands, truncated to 32 bits; a page has 10 to
    200 lines, or there are no pages, and a line has 39 to 1000 columns. *)
Theorem C65_page_partial : forall n li s f s' q key l t, run (S n) KLine li true s = (Ok f, s') -> taken_apart s q ->
  q.(q_mnemo) = Some (key, l) -> of_its_own q -> l.(l_ptr) = PFun HPage -> q.(q_label) = None -> q.(q_oper) = Some t ->
  exists a b v w, SpecSplit.first_cut [","%char] t a b /\ worth s a v /\ worth s b w /\
    s'.(ls).(plen) = trunc32 v /\ s'.(ls).(llen) = trunc32 w /\ page_lines s'.(ls).(plen) /\ page_columns s'.(ls).(llen).
Proof. exact (fun n => page_line (run n) n). Qed.
Print Assumptions C65_page_partial.

Example C65_page_applies : let s := second 2 ["* = 16"; " page 60,100"]%string in let q := parts s "page 60,100" in
  taken_apart s q /\ of_its_own q /\ match q.(q_mnemo) with Some (_, l) => l.(l_ptr) = PFun HPage | None => False end /\ q.(q_label) = None /\
  q.(q_oper) = Some (s2l "60,100") /\ fst (run 5 KLine true true s) = Ok FNone /\
  form s = ([], 66, 76) /\ form (snd (run 5 KLine true true s)) = ([], 60, 100).
Proof.
  intros s q. split; [apart s "page 60,100"%string|]. vm_compute. repeat split; discriminate.
Qed.

(** The numbers themselves need not be between these bounds: only 32 bits of them count,
    and a page of [2 ^ 32 + 50] lines is a page of 50 lines. *)
Definition overlong : state := second 2 ["* = 16"; " page 65536*65536+50,90"]%string.
Theorem C65_page_refuted : exists s q key l, fst (run 5 KLine true true s) = Ok FNone /\ taken_apart s q /\
  q.(q_mnemo) = Some (key, l) /\ of_its_own q /\ l.(l_ptr) = PFun HPage /\ q.(q_oper) = Some (s2l "65536*65536+50,90") /\
  match fst (parse (s2l "65536*65536+50") s) with Ok r => r.(r_type) = TAbs /\ r.(r_value) = 2 ^ 32 + 50 | Bad _ => False end /\
  (snd (run 5 KLine true true s)).(ls).(plen) = 50 /\ (snd (run 5 KLine true true s)).(ls).(llen) = 90.
Proof.
  exists overlong, (parts overlong "page 65536*65536+50,90").
  destruct (q_mnemo (parts overlong "page 65536*65536+50,90")) as [[key l]|] eqn:E; [|vm_compute in E; discriminate E].
  exists key, l. split; [vm_compute; reflexivity|]. split; [apart overlong "page 65536*65536+50,90"%string|].
  split; [reflexivity|]. revert key l E. vm_compute. intros key l [= <- <-]. repeat split; discriminate.
Qed.
Print Assumptions C65_page_refuted.

(** SKIP composes as many empty lines as its operand says, at most 100, and no line when the
    operand is out of these bounds. *)
Theorem C65_skip : forall o s u s', fresh_line s -> Xskip o s = (Ok u, s') ->
  exists r, value_at s (otext o) r /\ fresh_line s' /\
    composes (if (0 <=? trunc32 r.(r_value)) && (trunc32 r.(r_value) <=? 100) then repeat [] (Z.to_nat (trunc32 r.(r_value))) else []) s s'.
Proof. exact skip_run. Qed.
Print Assumptions C65_skip.

Example C65_skip_applies : let s := second 2 ["* = 16"; " skip 3"]%string in
  fresh_line s /\ fst (Xskip (Some (s2l "1+2")) s) = Ok tt /\
  (snd (Xskip (Some (s2l "1+2")) s)).(ls).(composed) = repeat (76, []) 3 ++ s.(ls).(composed) /\
  fst (Xskip (Some (s2l "101")) s) = Ok tt /\ (snd (Xskip (Some (s2l "101")) s)).(ls).(composed) = s.(ls).(composed).
Proof. vm_compute. repeat split. Qed.

(** PAGE alone fills the page up with empty lines: the next line is the first of a page. *)
Theorem C65_eject : forall s u s', fresh_line s -> s.(fl).(a_list_on) = true -> s.(ls).(plen) <> 0 -> Xpage None s = (Ok u, s') ->
  s'.(ls).(ppos) = 0 /\ fresh_line s' /\ exists k, composes (repeat [] k) s s'.
Proof. exact eject_run. Qed.
Print Assumptions C65_eject.

Example C65_eject_applies : let s0 := second 2 ["* = 16"; " page"]%string in
  let s := snd (outputraw (s2l "text") (set_fl (set_a_list_on true s0.(fl)) s0)) in
  fresh_line s /\ s.(fl).(a_list_on) = true /\ s.(ls).(plen) = 66 /\ s.(ls).(ppos) = 3 /\ fst (Xpage None s) = Ok tt /\
  (snd (Xpage None s)).(ls).(ppos) = 0 /\ (snd (Xpage None s)).(ls).(composed) = repeat (76, []) 61 ++ s.(ls).(composed).
Proof. vm_compute. repeat split. Qed.
