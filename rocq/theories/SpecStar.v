(** What it means for [*] to follow the bytes of a line. *)
From Coq Require Import String ZArith List Bool.
From Verif Require Import Base State Tree Crasm.
Import ListNotations.
Open Scope Z_scope.

(** The bytes [es], first one first, lie one after the other from address [a] on. *)
Fixpoint consecutive (a : Z) (es : list emission) : Prop :=
  match es with
  | [] => True
  | e :: es' => e.(em_pc) = a mod 2 ^ 64 /\ consecutive (a + 1) es'
  end.

(** The name [*] is in the symbol table, as it is from the start of the first pass. *)
Definition has_star (s : state) : Prop := exists l, tfind starkey s.(sy) = Some l.

(** Between [s] and [s'] bytes were stored from the address [*] had, and [*] moved past
    them. *)
Definition star_follows (s s' : state) : Prop :=
  exists es, s'.(emitted) = rev es ++ s.(emitted) /\ consecutive (starvalue s) es /\
             starvalue s' = starvalue s + Z.of_nat (List.length es) /\ has_star s'.

(** The current line is taken apart into [q]. *)
Definition taken_apart (s : state) (q : fields) : Prop :=
  exists s1 t s2 s3, linestart s = (Ok tt, s1) /\ stripline s1 = (Ok t, s2) /\ t <> [] /\
                     splitline t s2 = (Ok q, s3).

(** A line of its own: no macro call, no conditional and no macro definition. *)
Definition of_its_own (q : fields) : Prop :=
  match q.(q_mnemo) with
  | Some (_, l) => l.(l_type) <> TMacro /\ l.(l_flags).(f_defcond) = false /\ l.(l_flags).(f_defmacro) = false
  | None => True
  end.

(** An assignment to [*]. *)
Definition sets_star (q : fields) : Prop :=
  exists k l, q.(q_mnemo) = Some (k, l) /\ l.(l_ptr) = PFun HEqu /\ q.(q_label) = Some (s2l "*").
