(** What the lines of a block that is not executed are (property C67). *)
From Coq Require Import String Ascii ZArith List Bool.
From Verif Require Import Base State Tree Label Macro Crasm SpecStar SpecSkip SpecMacro.
From Verif Require SpecInput.
Import ListNotations.
Open Scope Z_scope.

(** The line [c], read where [s] has not been touched, is taken apart into [q]. *)
Definition line_in (s : state) (c : str) (q : fields) : Prop :=
  exists a, untouched s a /\ a.(inp).(curline) = c /\ taken_apart a q.

(** The line [c] carries the directive [h], one of those that open or close something. *)
Definition word (s : state) (c : str) (h : handler) : Prop :=
  exists q k l, line_in s c q /\ q.(q_mnemo) = Some (k, l) /\
    (l.(l_flags).(f_defcond) = true \/ l.(l_flags).(f_defmacro) = true) /\ l.(l_ptr) = PFun h.
Definition other (s : state) (c : str) : Prop :=
  ~ word s c HIf /\ ~ word s c HElse /\ ~ word s c HEndc /\ ~ word s c HMacro.

(** A block with its last line: ELSE if the mark is true, ENDC if it is false.  Every IF
    between has its own ENDC, perhaps with an ELSE before, and every MACRO its own ENDM. *)
Inductive block (s : state) : list str -> bool -> Prop :=
| bl_else : forall c, word s c HElse -> block s [c] true
| bl_endc : forall c, word s c HEndc -> block s [c] false
| bl_other : forall c l e, other s c -> block s l e -> block s (c :: l) e
| bl_if : forall c l l' e, word s c HIf -> block s l false -> block s l' e -> block s (c :: l ++ l') e
| bl_if_else : forall c l l' l'' e, word s c HIf -> block s l true -> block s l' false -> block s l'' e ->
    block s (c :: l ++ l' ++ l'') e
| bl_macro : forall c m ls l e, word s c HMacro -> Forall2 uncommented m ls -> body ls -> block s l e ->
    block s (c :: m ++ l) e.

(** The source has been read from [s] to [s'], line by line. *)
Definition passed_over (s s' : state) (ls : list str) : Prop :=
  exists ps, s.(inp).(mainrest) = List.concat ps ++ s'.(inp).(mainrest) /\
    Forall (fun p => SpecInput.whole p \/ SpecInput.part p) ps /\ ls = map SpecInput.visible ps /\
    s'.(inp).(srcs) = s.(inp).(srcs).
