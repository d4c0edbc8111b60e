(** INCLUDE lines (property C38). *)
From Coq Require Import String Ascii NArith ZArith List Bool.
From Verif Require Import Base State Label Macro Crasm Run.
From Verif Require SpecSplit.
Import ListNotations.
Open Scope Z_scope.

Notation text := (list ascii).
Definition newline : ascii := ascii_of_nat 10.

(** A character that may stand in a line: a tab or a printable ASCII character. *)
Definition plain (c : ascii) : Prop := c = ascii_of_nat 9 \/ (32 <= N_of_ascii c <= 126)%N.

(** [L] asks for the file [name]: the word INCLUDE in any case with blanks around it, then the
    name.  The name has no semicolon, which would start a comment, and no equals sign, which
    would make the line a definition. *)
Definition include_line (L name : text) : Prop :=
  exists w1 k w2, L = w1 ++ k ++ w2 ++ name /\ Forall SpecSplit.blank w1 /\
    map SpecSplit.upper k = list_ascii_of_string "INCLUDE" /\ Forall SpecSplit.blank w2 /\ w2 <> [] /\
    name <> [] /\ SpecSplit.tight name /\ SpecSplit.tight (rev name) /\ Forall plain name /\
    Forall (fun c => c <> ";"%char /\ c <> "="%char) name.

(** A line without instruction: blanks, perhaps followed by a comment. *)
Definition idle_line (C : text) : Prop :=
  Forall plain C /\
  exists w, Forall SpecSplit.blank w /\ (C = w \/ exists r, C = w ++ ";"%char :: r).

(** Some rounds of the loop of a pass (crasm.c:265-279), without its end: [n] and [m] are the
    recursion budgets before and after. *)
Inductive rounds : nat -> state -> nat -> state -> Prop :=
| rounds_none : forall n s, rounds n s n s
| rounds_more : forall n s r s1 m s2, catch (passline n) s = (Ok r, s1) ->
    r = None \/ s1.(inp).(maineof) = false -> rounds n s1 m s2 -> rounds (S n) s m s2.

(** The pass that starts in [s] comes, by its own loop, to the point where the rest [X] of the
    source file is to be read next: no included file is left. *)
Definition file_done (x : source) : Prop := match x with SFile true _ _ _ _ _ => True | _ => False end.
Definition comes_to (n : nat) (s : state) (X : text) : Prop :=
  exists m s', rounds n s m s' /\ s'.(inp).(mainrest) = X /\ Forall file_done s'.(inp).(srcs).

(** The start of the passes of a run: after the initialisation of the symbol table, and after
    the first pass. *)
Definition pass_starts (n : nat) (o : options) (fs : text -> option text) (main : text) (k : Z) (s : state) : Prop :=
  (k = 1 /\ exists s0, init_label_list Tables.pseudos (init_state fs main) = (Ok tt, s0) /\ passstart 1 s0 = (Ok tt, s)) \/
  (k = 2 /\ exists s0 s1, first n (init_state fs main) = (Ok tt, s0) /\ between o s0 = (Ok tt, s1) /\ passstart 2 s1 = (Ok tt, s)).

(** Errors without the numbers of their lines. *)
Definition complaint (r : report) : Z * text := (r.(rp_pass), r.(rp_text)).
(** What two runs agree on: the symbol table, the object stream, the bytes, the number of errors
    and the errors. *)
Definition same_outcome (s t : state) : Prop :=
  s.(sy) = t.(sy) /\ s.(wr) = t.(wr) /\ s.(emitted) = t.(emitted) /\ s.(ct).(errnumber) = t.(ct).(errnumber) /\
  map complaint s.(reported) = map complaint t.(reported).

(** The state in which the lines of [F] stand before the rest of the file being read. *)
Definition inline (F : text) (s : state) : state :=
  match s.(inp).(srcs) with
  | SFile a r c x y z :: low => set_inp (set_srcs (SFile a (F ++ newline :: r) c x y z :: low) s.(inp)) s
  | _ => set_inp (set_mainrest (F ++ newline :: s.(inp).(mainrest)) s.(inp)) s
  end.
(** Two computations end alike: with the same result, or with the same error message. *)
Definition agree {A} (x y : res A * state) : Prop :=
  match x, y with
  | (Ok a, s), (Ok b, t) => a = b /\ same_outcome s t
  | (Bad (Err m), s), (Bad (Err m'), t) => m = m' /\ same_outcome s t
  | (Ok _, _), (Bad (Err _), _) | (Bad (Err _), _), (Ok _, _) => False
  | _, _ => True
  end.
