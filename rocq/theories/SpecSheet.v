(** The form of the listing (property C65). *)
From Coq Require Import String Ascii ZArith List Bool.
From Verif Require Import Base State Tree Parse SpecEmit SpecLine.
Import ListNotations.
Open Scope Z_scope.

(** The title, the lines on a page (0 for no pages) and the columns of a line. *)
Definition form (s : state) : str * Z * Z := (s.(ls).(title), s.(ls).(plen), s.(ls).(llen)).

(** The expression [t] stands for the number [v] on the line that begins in [s]. *)
Definition worth (s : state) (t : str) (v : Z) : Prop :=
  exists s0 r, near s s0 /\ value_at s0 t r /\ v = r.(r_value).

(** The lines that a page and the columns that a line may have. *)
Definition page_lines (n : Z) : Prop := n = 0 \/ 10 <= n <= 200.
Definition page_columns (n : Z) : Prop := 39 <= n <= 1000.

(** The lines composed from [s] to [s'] are [l]. *)
Definition composes (l : list str) (s s' : state) : Prop :=
  s'.(ls).(composed) = rev (map (fun t => (s.(ls).(llen), t)) l) ++ s.(ls).(composed).
