(** What the condition of an IF says (C30).  Nothing here is part of the model. *)
From Coq Require Import String Ascii ZArith List Bool.
From Verif Require Import Base State Tree Parse SpecEmit.
From Verif Require SpecSplit.
Import ListNotations.
Open Scope Z_scope.

Definition chars (s : string) : list ascii := list_ascii_of_string s.

(** The comparisons, in the order in which they are looked for. *)
Definition comparisons : list (list ascii * (Z -> Z -> Prop)) :=
  [(chars ">=", Z.ge); (chars "<=", Z.le); (chars "==", @eq Z); (chars "!=", fun a b => a <> b);
   (chars "=", @eq Z); (chars "<>", fun a b => a <> b); (chars "<", Z.lt); (chars ">", Z.gt)].

(** [t] reads [a op b], where [R] is the meaning of [op]. *)
Inductive compares (t a b : list ascii) (R : Z -> Z -> Prop) : Prop :=
| comp : forall l1 op l2, comparisons = l1 ++ (op, R) :: l2 ->
    (forall x, List.In x l1 -> SpecSplit.uncut (fst x) t) -> SpecSplit.first_cut op t a b ->
    compares t a b R.

(** [t] contains no comparison. *)
Definition plain (t : list ascii) : Prop := forall x, List.In x comparisons -> SpecSplit.uncut (fst x) t.

(** No number carries a leftover of a register: the hypothesis under which IF decides by
    value alone. *)
Definition numeric (ty : ltype) : Prop := ty = TAbs \/ ty = TRel.
Definition tidy (s : state) : Prop := forall k l, tfind k s.(sy) = Some l -> numeric l.(l_type) -> l.(l_modifier) = 0.
Definition clean (s : state) : Prop := s.(ct).(calcresult).(r_modifier) = 0 /\ tidy s.

(** [r] is what the text [t] means, a number or a register, in a state that differs from
    [s] only in what was stored and listed meanwhile. *)
Definition result_at (s : state) (t : list ascii) (r : result) : Prop :=
  exists s1 s2, same s s1 /\ parse t s1 = (Ok r, s2).

(** No symbol in it is defined only later in the program. *)
Definition settled (r : result) : Prop := ~ (r.(r_flags).(f_undef) = true /\ r.(r_flags).(f_forward) = true).
