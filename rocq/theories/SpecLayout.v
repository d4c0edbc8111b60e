(** The layout of a program (property C63). *)
From Coq Require Import ZArith List Bool Ascii String.
From Verif Require Import Base State Tree Label Macro Crasm.
From Verif Require Import SpecStar SpecJoin.
Import ListNotations.
Open Scope Z_scope.

(** The complaints of the first pass that come after the bytes of the instruction, and that
    only concern the value of the operand: the value is not known yet when the operand refers
    to a symbol defined further down. *)
Definition late (e : str) : Prop :=
  e = s2l "too long branch" \/ e = s2l "Bad RST vector" \/ e = s2l "Bad interruption mode".

(** The symbols that are used before they are defined turn out to be numbers, not registers or
    bits, and [*] is not given a value that depends on them. *)
Definition forward_numbers (F : tree) : Prop := forall k l, tfind k F = Some l -> l.(l_flags).(f_forward) = true ->
  k <> starkey /\ l.(l_type) = TAbs.

(** An instruction written without the name of a processor in front of it. *)
Definition undotted (t : str) : Prop := ~ In "."%char t.
Definition plainly (t : str) (m : option (str * label)) : Prop := m <> None -> undotted t.
Definition direct (q : fields) : Prop := plainly q.(q_text) q.(q_mnemo).

(** A line of its own (no macro call, no conditional, no macro definition) that does not
    include a file. *)
Definition ordinary (q : fields) : Prop :=
  direct q /\ of_its_own q /\ match q.(q_mnemo) with Some (_, l) => l.(l_ptr) <> PFun HInclude | None => True end.

(** A line that reserves room, and a value that does not depend on symbols defined further
    down. *)
Definition reserves (q : fields) : Prop := exists k l, q.(q_mnemo) = Some (k, l) /\ l.(l_ptr) = PFun HDs.
Definition settled (r : result) : Prop := f_forward r.(r_flags) = false.

(** The lines of the pass that starts in [s] are ordinary, and the room they reserve does not
    depend on what comes later. *)
Definition straight (n : nat) (s : state) : Prop := forall m t a q,
  rounds n s (S m) t -> linegets t = (Ok tt, a) -> taken_apart a q ->
  ordinary q /\ (reserves q -> forall f b, run m KLine true true a = (Ok f, b) -> settled b.(ct).(calcresult)).

(** A line that assigns a value to the symbol [t]. *)
Definition assigns (q : fields) (t : str) : Prop :=
  q.(q_label) = Some t /\ exists k l, q.(q_mnemo) = Some (k, l) /\ l.(l_ptr) = PFun HEqu.

(** The pass that starts in [s] does not assign to the symbol stored under [k] a value that
    depends on what comes later. *)
Definition steadily (n : nat) (s : state) (k : str) : Prop := forall m t a q x f b,
  rounds n s (S m) t -> linegets t = (Ok tt, a) -> taken_apart a q -> assigns q x ->
  run m KLine true true a = (Ok f, b) -> lkey b.(inp).(segment) x = k -> settled b.(ct).(calcresult).

(** What the pass that starts in [s] complains about. *)
Definition complains (n : nat) (s : state) (e : str) : Prop :=
  exists m t t', rounds n s (S m) t /\ passline m t = (Bad (Err e), t').

(** The addresses of the bytes stored in pass [k], last one first. *)
Definition addresses (k : Z) (l : list emission) : list Z :=
  map em_pc (List.filter (fun e => em_pass e =? k) l).

(** The value of [*] before each line of the pass that starts in [s]. *)
Definition place (s : state) : option Z := if starundef s then None else Some (starvalue s).
Inductive stations : nat -> state -> list (option Z) -> Prop :=
| stations_last : forall n s u s1, catch (passline n) s = (Ok (Some u), s1) -> s1.(inp).(maineof) = true ->
    stations (S n) s [place s]
| stations_more : forall n s r s1 l, catch (passline n) s = (Ok r, s1) -> r = None \/ s1.(inp).(maineof) = false ->
    stations n s1 l -> stations (S n) s (place s :: l).
