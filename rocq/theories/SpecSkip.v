(** What it means for lines of source to have no effect on the assembly (C29): the
    symbol table (labels, macros and the program counter [*]), the bytes emitted, the
    processor settings, the scope of local names and every switch but those of the
    listing and of "ORG given" are as before.  Nothing here is part of the model. *)
From Coq Require Import ZArith List Bool.
From Verif Require Import Base State.

Record untouched (s s' : state) : Prop := {
  u_symbols : s'.(sy) = s.(sy);
  u_emitted : s'.(emitted) = s.(emitted);
  u_cpu : s'.(cp) = s.(cp);
  u_scope : s'.(inp).(segment) = s.(inp).(segment) /\ s'.(inp).(thiscall) = s.(inp).(thiscall);
  u_switches : s'.(fl) =
    set_a_list_on s'.(fl).(a_list_on) (set_a_org_gv s'.(fl).(a_org_gv) s.(fl));
  u_pass : s'.(ct).(passnumber) = s.(ct).(passnumber);
  u_files : s'.(files) = s.(files)
}.

(** Nothing happened and the reader stands at the same line of the source. *)
Definition standing (s s' : state) : Prop :=
  untouched s s' /\ s'.(inp).(srcs) = s.(inp).(srcs) /\ s'.(inp).(mainrest) = s.(inp).(mainrest) /\
  s'.(inp).(maineof) = s.(inp).(maineof).
