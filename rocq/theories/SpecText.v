(** Operand texts as sequences of bare characters and quoted strings. *)
From Coq Require Import String Ascii List.
From Verif Require Import SpecNumbers.
Import ListNotations.

Inductive chunk := Bare (c : ascii) | Quoted (q : ascii) (l : list piece).

Definition spelled (l : list chunk) : list ascii :=
  flat_map (fun k => match k with Bare c => [c] | Quoted q p => quoted q p end) l.

(** Bare characters are neither quotes nor backslashes; quoted strings are well formed and
    do not end with an escaped backslash. *)
Definition proper (k : chunk) : Prop :=
  match k with
  | Bare c => c <> "'"%char /\ c <> """"%char /\ c <> "\"%char
  | Quoted q p => (q = "'"%char \/ q = """"%char) /\ Forall (within q) p /\
                  (forall p', p <> p' ++ [Esc "\"%char])
  end.

Definition unquoted (t : list ascii) : Prop := Forall (fun c => c <> "'"%char /\ c <> """"%char) t.
