(** The symbol table as a map from names to symbols. *)
From Coq Require Import String Ascii ZArith List Bool.
From Verif Require Import Base State SpecNumbers.
From Verif Require SpecSplit SpecExpr.
Import ListNotations.
Open Scope Z_scope.

Definition text := list ascii.

(** Legal names start with a letter, an underscore or a period; local ones with a period. *)
Definition legal (n : text) : Prop := match n with c :: _ => SpecExpr.letter c = true | [] => False end.
Definition local (n : text) : bool := match n with c :: _ => Ascii.eqb c "."%char | [] => false end.

(** What a name denotes: upper and lower case are the same and 48 characters count; a local
    name belongs to a segment, whose number counts among the 48 characters. *)
Inductive ident := Global (t : text) | Local (segment : Z) (t : text).
Definition upper : text -> text := map SpecSplit.upper.
Definition ident_of (segment : Z) (n : text) : ident :=
  if local n then Local segment (firstn (48 - List.length (dec segment)) (upper n))
  else Global (firstn 48 (upper n)).

Definition ident_dec : forall a b : ident, {a = b} + {a <> b}.
Proof. repeat decide equality. Defined.

(** A symbol as far as its users are concerned. *)
Record view := mkView { v_type : ltype; v_value : Z; v_defined : bool; v_fixed : bool; v_pseudo : bool }.
Definition see (l : label) : view :=
  mkView l.(l_type) l.(l_value) (negb l.(l_flags).(f_undef)) l.(l_flags).(f_noredef)
         (table_eqb l.(l_table) TPseudos).

Definition table := ident -> option view.
Definition put (i : ident) (v : view) (m : table) : table := fun j => if ident_dec j i then Some v else m j.

(** What happens to symbols: definitions, references, changes of segment, a new pass. *)
Inductive event :=
| Define (n : text) (flags : lflags) (ty : ltype) (v : Z)
| Refer (n : text)
| Enter (segment : Z)
| Turn.

(** A definition replaces the symbol, unless it is already defined and may not be redefined.
    A first reference announces a symbol; [rel] is its kind.  A new pass undefines all
    symbols but the pseudo instructions. *)
Definition after (rel : bool) (e : event) (x : Z * table) : Z * table :=
  let (seg, m) := x in
  match e with
  | Define n f ty v =>
      let i := ident_of seg n in
      (seg, match m i with
            | Some o => if o.(v_defined) && (o.(v_fixed) || f.(f_noredef)) then m
                        else put i (mkView ty v (negb f.(f_undef)) (o.(v_fixed) || f.(f_noredef)) o.(v_pseudo)) m
            | None => put i (mkView ty v (negb f.(f_undef)) f.(f_noredef) false) m
            end)
  | Refer n =>
      let i := ident_of seg n in
      (seg, match m i with
            | Some _ => m
            | None => put i (mkView (if rel then TRel else TAbs) 0 false true false) m
            end)
  | Enter seg' => (seg', m)
  | Turn => (seg, fun i => option_map (fun o => mkView o.(v_type) o.(v_value) o.(v_pseudo) o.(v_fixed) o.(v_pseudo)) (m i))
  end.

(** Events of a program: legal names, segment numbers of an int. *)
Definition sane (e : event) : Prop :=
  match e with Define n _ _ _ | Refer n => legal n | Enter s => 0 <= s < 2 ^ 31 | Turn => True end.

(** A defined symbol that cannot be redefined; and that it is still the same. *)
Definition definite (l : label) : Prop := l.(l_flags).(f_undef) = false /\ l.(l_flags).(f_noredef) = true.
Definition is_still (l l' : label) : Prop :=
  see l' = see l /\ l'.(l_modifier) = l.(l_modifier) /\ (l.(l_type) <> TMacro -> l'.(l_ptr) = l.(l_ptr)).
