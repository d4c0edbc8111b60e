(** When an instruction that the processor has may be refused. *)
From Coq Require Import String Ascii ZArith List Bool.
From Verif Require Import Base State Parse SpecEmit SpecForms SpecCpu.
Import ListNotations.
Open Scope Z_scope.

(** The operand [t] is in error, or is not a number. *)
Inductive unusable (s : state) (t : text) : Prop :=
| un_error : forall s1 s2 m, same s s1 -> parse t s1 = (Bad (Err m), s2) -> unusable s t
| un_type : forall s1 s2 r, same s s1 -> parse t s1 = (Ok r, s2) -> r.(r_type) <> TAbs -> unusable s t.

(** The operand of a relative branch is unusable or too far away. *)
Definition distant (s : state) (t : text) : Prop :=
  unusable s t \/
  exists r, value_at s t r /\ forall d, -128 <= d <= 127 -> (s.(wr).(pc) + 2 + d) mod 2 ^ 32 <> r.(r_value) mod 2 ^ 32.

(** * 6800, 6801.  The modes a written form stands for. *)
Definition modes_of68 (w : written68) : list mode68 :=
  match w with WImmediate => [Imm8; Imm16] | WIndex | WIndexed => [Indexed] | WAddress => [Direct; Extended] end.

(** [allowed68 sheet n s o P]: the sheet has the instruction [n] with the operand [o], and
    [P] is the only reason why it may be refused in [s]. *)
Inductive allowed68 (sheet : list (string * mode68 * Z)) (n : string) (s : state) : option text -> Prop -> Prop :=
| a68_none : forall op, In (n, Inherent, op) sheet -> allowed68 sheet n s None False
| a68_rel : forall op o, In (n, Relative, op) sheet -> allowed68 sheet n s o (distant s (given o))
| a68_index : forall op t a, In (n, Indexed, op) sheet -> first_fit t forms68 WIndex a -> allowed68 sheet n s (Some t) False
| a68_indexed : forall op t a, In (n, Indexed, op) sheet -> first_fit t forms68 WIndexed a ->
    allowed68 sheet n s (Some t) (exists b, first_fit t forms68 WIndexed b /\
      (unusable s b \/ exists r, value_at s b r /\ 256 <= r.(r_value) mod 2 ^ 16))
| a68_other : forall w m op t a, w = WImmediate \/ w = WAddress -> In m (modes_of68 w) -> In (n, m, op) sheet -> first_fit t forms68 w a ->
    allowed68 sheet n s (Some t) (exists b, first_fit t forms68 w b /\ unusable s b).

(** * 6500, 6502, 65C02 *)
Inductive unusable65 (s : state) (t : text) (acc : Prop) : Prop :=
| un65_error : forall s1 s2 m, same s s1 -> parse t s1 = (Bad (Err m), s2) -> unusable65 s t acc
| un65_type : forall s1 s2 r, same s s1 -> parse t s1 = (Ok r, s2) -> r.(r_type) <> TAbs ->
    ~ (acc /\ r.(r_type) = TRegs /\ r.(r_modifier) = 0) -> unusable65 s t acc.

Inductive allowed65 (sheet : list (string * mode65 * Z)) (n : string) (s : state) : option text -> Prop -> Prop :=
| a65_none : forall op, In (n, Implied, op) sheet -> allowed65 sheet n s None False
| a65_rel : forall op o, In (n, Rel, op) sheet -> allowed65 sheet n s o (distant s (given o))
| a65_acc : forall op, In (n, Acc, op) sheet -> allowed65 sheet n s None False
| a65_nothing : forall op t a, In (n, Acc, op) sheet -> first_fit t forms65 WNothing a -> allowed65 sheet n s (Some t) False
| a65_imm : forall op t a, In (n, Imm, op) sheet -> first_fit t forms65 WImm a ->
    allowed65 sheet n s (Some t) (exists b, first_fit t forms65 WImm b /\ unusable s b)
| a65_long : forall w m op t a, absolute w = Some m -> In (n, m, op) sheet -> first_fit t forms65 w a ->
    allowed65 sheet n s (Some t) (exists b, first_fit t forms65 w b /\ unusable65 s b (w = WPlain /\ exists op', In (n, Acc, op') sheet))
| a65_short : forall w m op t a, zero_page w = Some m -> In (n, m, op) sheet -> first_fit t forms65 w a ->
    allowed65 sheet n s (Some t) (exists b, first_fit t forms65 w b /\ (unusable s b \/ exists r, value_at s b r /\ ~ short r)).
