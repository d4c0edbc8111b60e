(** The symbol tree as a data structure (label.c:39, 83-132, 170, 287). *)
From Coq Require Import ZArith List Bool Ascii String.
From Verif Require Import Base State.
Import ListNotations.
Open Scope Z_scope.

(** Descent of searchlabel, label.c:116-131. *)
Fixpoint tfind (k : str) (t : tree) : option label :=
  match t with
  | Leaf => None
  | Node l k' v r =>
      match strcmp k k' with
      | Eq => Some v
      | Gt => tfind k r
      | Lt => tfind k l
      end
  end.

(** Writing through a node pointer: apply [f] to the node named [k], if any
    (label.c:195, 230-236 and every other store to a label field). *)
Fixpoint tupd (k : str) (f : label -> label) (t : tree) : tree :=
  match t with
  | Leaf => Leaf
  | Node l k' v r =>
      match strcmp k k' with
      | Eq => Node l k' (f v) r
      | Gt => Node l k' v (tupd k f r)
      | Lt => Node (tupd k f l) k' v r
      end
  end.

(** [*addrpos = q] after a failed search, label.c:170, 287. *)
Fixpoint tins (k : str) (v : label) (t : tree) : tree :=
  match t with
  | Leaf => Node Leaf k v Leaf
  | Node l k' v' r =>
      match strcmp k k' with
      | Eq => t
      | Gt => Node l k' v' (tins k v r)
      | Lt => Node (tins k v l) k' v' r
      end
  end.

(** Apply a function to every node (label.c:301-319). *)
Fixpoint tmap (f : label -> label) (t : tree) : tree :=
  match t with
  | Leaf => Leaf
  | Node l k v r => Node (tmap f l) k (f v) (tmap f r)
  end.

(** In-order list of nodes (xref.c:115-123). *)
Fixpoint telems (t : tree) : list (str * label) :=
  match t with
  | Leaf => []
  | Node l k v r => telems l ++ (k, v) :: telems r
  end.

(** Key of the label [*] (crasm.c:256). *)
Definition starkey : str := s2l "*".

(** The node [starlabel] points to (crasm.c:47); [None] before the first pass. *)
Definition star (s : state) : option label := tfind starkey s.(sy).

(** [starlabel->value] (crasm.c:293, 385, 565). *)
Definition starvalue (s : state) : Z :=
  match star s with Some l => l.(l_value) | None => 0 end.

(** [starlabel->flags & UNDEF] (crasm.c:378). *)
Definition starundef (s : state) : bool :=
  match star s with Some l => l.(l_flags).(f_undef) | None => true end.
