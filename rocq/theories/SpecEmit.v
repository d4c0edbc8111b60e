(** What it means to store bytes. *)
From Coq Require Import ZArith List Bool.
From Verif Require Import Base State Tree Parse.
Import ListNotations.
Open Scope Z_scope.

(** Consecutive bytes from address [a] on, in chronological order. *)
Fixpoint placed (pass : Z) (code : bool) (a : Z) (bs : list Z) : list emission :=
  match bs with
  | [] => []
  | b :: bs' => mkEm pass (a mod 2 ^ 64) b code :: placed pass code (a + 1) bs'
  end.

(** Between [s] and [s'] exactly the bytes [bs] were produced and the program counter and
    the length of the line moved accordingly. *)
Definition emits (bs : list Z) (s s' : state) : Prop :=
  s'.(emitted) = rev (placed s.(ct).(passnumber) s.(fl).(a_code_on) s.(wr).(pc) bs) ++ s.(emitted) /\
  s'.(wr).(pc) = (s.(wr).(pc) + Z.of_nat (List.length bs)) mod 2 ^ 64 /\
  s'.(ct).(advance) = s.(ct).(advance) + Z.of_nat (List.length bs).

(** The bytes of a number of [n] bytes, least or most significant first. *)
Fixpoint little (n : nat) (v : Z) : list Z :=
  match n with
  | O => []
  | S n' => v mod 256 :: little n' (v / 256)
  end.
Definition word (n : nat) (low_first : bool) (v : Z) : list Z :=
  if low_first then little n v else rev (little n v).

(** The program counter is a 64-bit number. *)
Definition pc_range (s : state) : Prop := 0 <= s.(wr).(pc) < 2 ^ 64.

(** What the evaluation of an operand leaves alone: everything but the listing, the matcher
    and [calcresult], the marks of use and fresh symbols. *)
Definition unused (l : label) : label := set_l_flags (set_f_used false l.(l_flags)) l.
Definition keeps (t t' : tree) : Prop :=
  forall k l, tfind k t = Some l -> option_map unused (tfind k t') = Some (unused l).

Definition same (s s' : state) : Prop :=
  s'.(fl) = s.(fl) /\ s'.(inp) = s.(inp) /\ s'.(cp) = s.(cp) /\ s'.(files) = s.(files) /\
  s'.(maintext) = s.(maintext) /\ s'.(ct).(passnumber) = s.(ct).(passnumber) /\ keeps s.(sy) s'.(sy).
Definition still (s s' : state) : Prop :=
  s'.(wr) = s.(wr) /\ s'.(ct).(advance) = s.(ct).(advance) /\ s'.(emitted) = s.(emitted).

(** [r] is the value of [t], an absolute number, in a state that differs from [s] only in
    what was stored and listed meanwhile. *)
Definition value_at (s : state) (t : str) (r : result) : Prop :=
  exists s1 s2, same s s1 /\ parse t s1 = (Ok r, s2) /\ r.(r_type) = TAbs.

(** The 32-bit number a value is truncated to. *)
Definition trunc32 (v : Z) : Z := (v + 2 ^ 31) mod 2 ^ 32 - 2 ^ 31.
