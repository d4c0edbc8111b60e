(** What a reference to a symbol should see (properties C17 and C18).  The model keeps a log
    of the references made by expressions: the pass, the identifier, and the symbol as it was
    found (State.v, [looked]). *)
From Coq Require Import ZArith List Bool Ascii String.
From Verif Require Import Base State Tree.
Import ListNotations.
Open Scope Z_scope.

(** The identifier [k] is in the symbol table. *)
Definition met (k : str) (s : state) : Prop := tfind k s.(sy) <> None.
(** ... and has a definition. *)
Definition defined_with (k : str) (ty : ltype) (v : Z) (s : state) : Prop :=
  exists l, tfind k s.(sy) = Some l /\ l.(l_flags).(f_undef) = false /\ l.(l_type) = ty /\ l.(l_value) = v.

(** The reference found a symbol already defined in its pass. *)
Definition after_definition (e : look) : Prop := e.(lk_label).(l_flags).(f_undef) = false.
(** The symbol cannot be given a second definition. *)
Definition fixed (e : look) : Prop := e.(lk_label).(l_flags).(f_noredef) = true.
Definition used_value (e : look) : Z := e.(lk_label).(l_value).
Definition used_type (e : look) : ltype := e.(lk_label).(l_type).

(** The identifier denotes a symbol that cannot be given a second definition. *)
Definition fixed_in (s : state) (k : str) : Prop :=
  exists l, tfind k s.(sy) = Some l /\ l.(l_flags).(f_noredef) = true.

(** The symbols other than [*] have the same values in the two tables. *)
Definition same_addresses (s1 s : state) : Prop := forall k l1 l, k <> s2l "*" ->
  tfind k s1.(sy) = Some l1 -> l1.(l_flags).(f_undef) = false -> tfind k s.(sy) = Some l ->
  l.(l_value) = l1.(l_value).
