(** Programs that write down a piece of memory (property C70). *)
From Coq Require Import String Ascii ZArith List Bool.
Import ListNotations.
Open Scope Z_scope.

Definition text := list ascii.
Definition figure (n : Z) : ascii := nth (Z.to_nat n) (list_ascii_of_string "0123456789ABCDEF") "0"%char.
Definition two (b : Z) : text := [figure (b / 16); figure (b mod 16)].
Definition four (a : Z) : text := two (a / 256) ++ two (a mod 256).

(** The first line gives the address, every other line a byte. *)
Definition origin_line (a : Z) : text := list_ascii_of_string "*=$" ++ four a.
Definition data_line (b : Z) : text := list_ascii_of_string " db $" ++ two b.
Definition ended (l : text) : text := l ++ [ascii_of_nat 10].
Definition image_source (a : Z) (bs : list Z) : text :=
  ended (origin_line a) ++ List.concat (map (fun b => ended (data_line b)) bs).

(** The bytes and their addresses. *)
Fixpoint from (a : Z) (bs : list Z) : list (Z * Z) :=
  match bs with [] => [] | b :: bs' => (a, b) :: from (a + 1) bs' end.

(** Several pieces, one after the other. *)
Definition piece := (Z * list Z)%type.
Definition memory_source (m : list piece) : text := List.concat (map (fun p => image_source (fst p) (snd p)) m).
Definition memory (m : list piece) : list (Z * Z) := List.concat (map (fun p => from (fst p) (snd p)) m).

(** A piece of bytes within 64 KiB. *)
Definition fitting (p : piece) : Prop :=
  0 <= fst p < 65536 /\ fst p + Z.of_nat (List.length (snd p)) <= 65536 /\ Forall (fun b => 0 <= b < 256) (snd p).

(** The address behind the last piece; [a] if there is none. *)
Fixpoint behind (a : Z) (m : list piece) : Z :=
  match m with [] => a | p :: m' => behind (fst p + Z.of_nat (List.length (snd p))) m' end.
