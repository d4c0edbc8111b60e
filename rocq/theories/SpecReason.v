(** Why a directive may be refused (property C66). *)
From Coq Require Import String Ascii ZArith List Bool.
From Verif Require Import Base State Tree Label Parse SpecEmit SpecLine SpecForms SpecCpu SpecAccept SpecChoice SpecNumbers SpecSheet.
From Verif Require SpecSplit.
Import ListNotations.
Open Scope Z_scope.

Notation comma := [","%char].

(** [a] is one of the items of the list [t]. *)
Inductive item : text -> text -> Prop :=
| it_only : forall t, SpecSplit.uncut comma t -> item t t
| it_first : forall t a b, SpecSplit.first_cut comma t a b -> item t a
| it_later : forall t a b c, SpecSplit.first_cut comma t a b -> item b c -> item t c.

(** A string: quoted characters with known codes. *)
Definition a_string (t : text) : Prop :=
  exists q l vs, (q = "'"%char \/ q = """"%char) /\ t = quoted q l /\ Forall (within q) l /\ map char_code l = map Some vs.

(** Every directive but FAIL needs one of these reasons to be refused; [a] is the label. *)
Inductive reason (s : state) (a : option str) (o : option str) : handler -> Prop :=
| re_data : forall t, item (given o) t -> unusable s t -> reason s a o HDc
| re_space : SpecSplit.uncut comma (given o) -> unusable s (given o) -> reason s a o HDs
| re_space_of : forall x y, SpecSplit.first_cut comma (given o) x y -> unusable s x \/ unusable s y -> reason s a o HDs
| re_string : (forall t, o = Some t -> ~ a_string t) -> reason s a o HAsc
| re_align : ~ says "EVEN" o -> ~ says "ODD" o -> reason s a o HAlign
| re_onoff : forall h, List.In h [HList; HMlist; HClist; HIlist] -> ~ says "ON" o -> ~ says "OFF" o -> reason s a o h
| re_output : ~ says "HEX" o -> ~ says "SCODE" o -> reason s a o HOutput
| re_section : forall h, h = HCode \/ h = HDummy -> ~ says_nothing o -> reason s a o h
| re_nam : (forall t, o = Some t -> 30 < zlen t) -> reason s a o HNam
| re_page_uncut : forall t, o = Some t -> SpecSplit.uncut comma t -> reason s a o HPage
| re_page : forall t x y, o = Some t -> SpecSplit.first_cut comma t x y -> unusable s x \/ unusable s y -> reason s a o HPage
| re_page_size : forall t x y r r', o = Some t -> SpecSplit.first_cut comma t x y -> value_at s x r -> value_at s y r' ->
    ~ (page_lines (trunc32 r.(r_value)) /\ page_columns (trunc32 r'.(r_value))) -> reason s a o HPage
| re_skip : unusable s (given o) -> reason s a o HSkip
| re_include : (forall t, o = Some t -> s.(files) t = None) -> reason s a o HInclude
| re_cpu_twice : s.(fl).(a_cpu_gv) = true -> reason s a o HCpu
| re_cpu : (forall t p, o = Some t -> ~ spells (t_ (called p)) t) -> reason s a o HCpu
| re_equ : forall s1 s2 m, same s s1 -> parse (given o) s1 = (Bad (Err m), s2) -> reason s a o HEqu
| re_equ_twice : forall n r s1 l, a = Some n -> parse (given o) s = (Ok r, s1) -> tfind (lkey s.(inp).(segment) n) s1.(sy) = Some l ->
    l.(l_flags).(f_undef) = false -> l.(l_flags).(f_noredef) = true -> reason s a o HEqu.

(** The directives; FAIL is always refused. *)
Definition a_directive (h : handler) : bool :=
  match h with
  | HEqu | HAsc | HAlign | HClist | HCode | HCpu | HDc | HDummy | HDs | HIlist | HInclude | HList | HMlist | HNam | HPage | HOutput | HSkip => true
  | _ => false
  end.
