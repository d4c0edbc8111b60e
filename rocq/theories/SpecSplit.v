(** Where a text is cut at a separator: outside quotes and parentheses. *)
From Coq Require Import String Ascii ZArith List Bool.
Import ListNotations.
Open Scope Z_scope.

(** Where one is after reading a text: outside quotes at some depth of parentheses, inside
    quotes, or inside quotes just after a backslash. *)
Inductive place := Out (depth : Z) | In (q : ascii) (depth : Z) | Escaped (q : ascii) (depth : Z).

Definition step (p : place) (c : ascii) : place :=
  match p with
  | Out d =>
      if Ascii.eqb c "'" || Ascii.eqb c """" then In c d
      else if Ascii.eqb c "(" then Out (d + 1)
      else if Ascii.eqb c ")" then Out (d - 1)
      else Out d
  | In q d =>
      if Ascii.eqb c "\" then Escaped q d
      else if Ascii.eqb c q then Out d
      else In q d
  | Escaped q d => In q d
  end.

Definition outside (t : list ascii) : Prop := fold_left step t (Out 0) = Out 0.

Definition blank (c : ascii) : Prop := c = " "%char \/ c = ascii_of_nat 9.
Definition tight (t : list ascii) : Prop := match t with [] => True | c :: _ => ~ blank c end.

(** [t] is [a], blanks, the separator, blanks, [b]; the separator is outside quotes and
    parentheses. *)
Definition cut (sep t a b : list ascii) : Prop :=
  exists w1 w2, t = a ++ w1 ++ sep ++ w2 ++ b /\ Forall blank w1 /\ Forall blank w2 /\ tight b /\
                outside a.

(** The leftmost way. *)
Definition first_cut (sep t a b : list ascii) : Prop :=
  cut sep t a b /\ forall a' b', cut sep t a' b' -> (List.length a <= List.length a')%nat.

Definition uncut (sep t : list ascii) : Prop := forall a b, ~ cut sep t a b.

(** The items of a list. *)
Inductive items (sep : list ascii) : list ascii -> list (list ascii) -> Prop :=
| it_last : forall t, uncut sep t -> items sep t [t]
| it_more : forall t a b l, first_cut sep t a b -> items sep b l -> items sep t (a :: l).

(** [t] is the word [kw], in upper or lower case, with blanks around. *)
Definition upper (c : ascii) : ascii :=
  let n := N_of_ascii c in
  if andb (N.leb 97 n) (N.leb n 122) then ascii_of_N (n - 32) else c.
Definition keyword (kw t : list ascii) : Prop :=
  exists w1 e w2, t = w1 ++ e ++ w2 /\ Forall blank w1 /\ Forall blank w2 /\ map upper e = kw.

(** The texts [l] occur in [t] in this order without overlapping. *)
Inductive scattered : list (list ascii) -> list ascii -> Prop :=
| sc_nil : forall t, scattered [] t
| sc_cons : forall gap c l t, scattered l t -> scattered (c :: l) (gap ++ c ++ t).
