(** Helpers to state concrete runs: no properties here. *)
From Coq Require Import String Ascii ZArith List Bool.
From Verif Require Import Base State Output Crasm.
Import ListNotations.
Open Scope Z_scope.

(** A source text from its lines. *)
Definition src (l : list string) : str := flat_map (fun t => s2l t ++ [nl]) l.

(** [crasm -l -s -o x y] *)
Definition quiet : options := mkOpt (Some (s2l "x")) false false false (Some (s2l "y")).

(** No file but the source. *)
Definition nofiles : str -> option str := fun _ => None.

(** A run with a recursion budget ample for the examples. *)
Definition final (l : list string) : res unit * state :=
  assemble 60 quiet (init_state nofiles (src l)).
Definition shown (l : list string) : seen :=
  observe 60 quiet (init_state nofiles (src l)).
