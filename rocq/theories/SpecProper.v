(** What an accepted directive was given (property C72). *)
From Coq Require Import String Ascii ZArith List Bool.
From Verif Require Import Base State Tree Label Parse SpecEmit SpecLine SpecForms SpecCpu SpecAccept SpecChoice SpecNumbers SpecSheet SpecReason.
From Verif Require SpecSplit.
Import ListNotations.
Open Scope Z_scope.

(** The operand [o], and for EQU the label [a], are ones the directive [h] has a meaning for. *)
Inductive proper (s : state) (a : option str) (o : option str) : handler -> Prop :=
| pr_data : forall ts rs, SpecSplit.items comma (given o) ts -> Forall2 (value_at s) ts rs -> proper s a o HDc
| pr_space : forall r, SpecSplit.uncut comma (given o) -> value_at s (given o) r -> 0 <= trunc32 r.(r_value) -> proper s a o HDs
| pr_space_of : forall x y r r', SpecSplit.first_cut comma (given o) x y -> value_at s x r -> value_at s y r' ->
    0 <= trunc32 r.(r_value) -> proper s a o HDs
| pr_string : forall t, o = Some t -> a_string t -> proper s a o HAsc
| pr_align : says "EVEN" o \/ says "ODD" o -> proper s a o HAlign
| pr_onoff : forall h, List.In h [HList; HMlist; HClist; HIlist] -> says "ON" o \/ says "OFF" o -> proper s a o h
| pr_output : says "HEX" o \/ says "SCODE" o -> proper s a o HOutput
| pr_section : forall h, h = HCode \/ h = HDummy -> says_nothing o -> proper s a o h
| pr_nam : forall t, o = Some t -> zlen t <= 30 -> proper s a o HNam
| pr_page : o = None -> proper s a o HPage
| pr_page_size : forall t x y r r', o = Some t -> SpecSplit.first_cut comma t x y -> value_at s x r -> value_at s y r' ->
    page_lines (trunc32 r.(r_value)) -> page_columns (trunc32 r'.(r_value)) -> proper s a o HPage
| pr_skip : forall r, value_at s (given o) r -> proper s a o HSkip
| pr_include : forall t x, o = Some t -> s.(files) t = Some x -> proper s a o HInclude
| pr_cpu : forall t p, s.(fl).(a_cpu_gv) = false -> o = Some t -> spells (t_ (called p)) t -> proper s a o HCpu
| pr_equ : forall n r s1, a = Some n -> parse (given o) s = (Ok r, s1) ->
    (forall l, tfind (lkey s.(inp).(segment) n) s1.(sy) = Some l -> l.(l_flags).(f_undef) = false -> l.(l_flags).(f_noredef) = false) ->
    proper s a o HEqu.
