(** Expressions: how they are written, how they are grouped, what they are worth. *)
From Coq Require Import String Ascii ZArith List Bool.
From Verif Require Import SpecNumbers SpecText.
From Verif Require SpecSplit.
Import ListNotations.
Open Scope Z_scope.

Definition text := list ascii.
Definition blanks (w : text) : Prop := Forall SpecSplit.blank w.

Inductive binop := Plus | Minus | Times | Over | Or | And | Xor | Shl | Shr.
Inductive fn := Low | High.

(** Blanks are part of the tree so that every way of writing it is covered. *)
Inductive expr :=
| Num (t : text)
| Sym (t : text)
| Chr (q : ascii) (l : list piece)
| Here
| Group (w1 : text) (e : expr) (w2 : text)
| Fn (f : fn) (name w w1 : text) (e : expr) (w2 : text)
| Neg (w : text) (e : expr)
| Not (w : text) (e : expr)
| Bin (o : binop) (a : expr) (w1 w2 : text) (b : expr).

Definition sign (o : binop) : text :=
  match o with
  | Plus => ["+"] | Minus => ["-"] | Times => ["*"] | Over => ["/"]
  | Or => ["|"] | And => ["&"] | Xor => ["^"]
  | Shl => ["<"; "<"] | Shr => [">"; ">"]
  end%char.
Definition fname (f : fn) : text := match f with Low => ["L"; "O"] | High => ["H"; "I"] end%char.

(** The text of an expression; parentheses appear only where the tree has them. *)
Fixpoint show (e : expr) : text :=
  match e with
  | Num t | Sym t => t
  | Chr q l => quoted q l
  | Here => ["*"%char]
  | Group w1 e w2 => "("%char :: w1 ++ show e ++ w2 ++ [")"%char]
  | Fn _ name w w1 e w2 => name ++ w ++ "("%char :: w1 ++ show e ++ w2 ++ [")"%char]
  | Neg w e => "-"%char :: w ++ show e
  | Not w e => "~"%char :: w ++ show e
  | Bin o a w1 w2 b => show a ++ w1 ++ sign o ++ w2 ++ show b
  end.

(** Names: letters, digits, periods and underscores, not starting with a digit, at most 48. *)
Definition letter (c : ascii) : bool :=
  let n := N_of_ascii c in
  ((65 <=? n) && (n <=? 90) || (97 <=? n) && (n <=? 122) || (n =? 95) || (n =? 46))%N.
Definition figure (c : ascii) : bool := ((48 <=? N_of_ascii c) && (N_of_ascii c <=? 57))%N.
Definition name (t : text) : Prop :=
  match t with
  | [] => False
  | c :: t' => letter c = true /\ Forall (fun c => letter c = true \/ figure c = true) t' /\ (List.length t <= 48)%nat
  end.

(** What an expression is worth, in integers: intermediate results must fit ([k] is 63 for
    64-bit signed integers) and there is no division by zero. [env] gives the values of the
    symbols. *)
Definition fits (k v : Z) : Prop := - 2 ^ k <= v < 2 ^ k.
Inductive result_of : binop -> Z -> Z -> Z -> Prop :=
| ro_plus : forall x y, result_of Plus x y (x + y)
| ro_minus : forall x y, result_of Minus x y (x - y)
| ro_times : forall x y, result_of Times x y (x * y)
| ro_over : forall x y, y <> 0 -> result_of Over x y (Z.quot x y)
| ro_or : forall x y, result_of Or x y (Z.lor x y)
| ro_and : forall x y, result_of And x y (Z.land x y)
| ro_xor : forall x y, result_of Xor x y (Z.lxor x y)
| ro_shl : forall x y, 0 <= y < 64 -> result_of Shl x y (x * 2 ^ y)
| ro_shr : forall x y, 0 <= y < 64 -> result_of Shr x y (x / 2 ^ y).

Section Worth.
Variable k : Z.
Variable env : text -> Z -> Prop.
Inductive worth : expr -> Z -> Prop :=
| w_num : forall b d t, written b d t -> digits b d -> d <> [] -> number b d < 2 ^ 32 -> worth (Num t) (number b d)
| w_sym : forall t v, name t -> env t v -> fits k v -> worth (Sym t) v
| w_chr : forall q l cs, map meaning l = map Some cs -> packed cs < 2 ^ k -> worth (Chr q l) (packed cs)
| w_here : forall v, env ["*"%char] v -> fits k v -> worth Here v
| w_group : forall w1 e w2 v, worth e v -> worth (Group w1 e w2) v
| w_low : forall n w w1 e w2 v, worth e v -> worth (Fn Low n w w1 e w2) (v mod 256)
| w_high : forall n w w1 e w2 v, worth e v -> worth (Fn High n w w1 e w2) ((v / 256) mod 256)
| w_neg : forall w e v, worth e v -> fits k (- v) -> worth (Neg w e) (- v)
| w_not : forall w e v, worth e v -> worth (Not w e) (- 1 - v)
| w_bin : forall o a w1 w2 b x y v, worth a x -> worth b y -> result_of o x y v -> fits k v ->
    worth (Bin o a w1 w2 b) v.
End Worth.

(** ** Grouping as the program does it: every operator has its own rank; of two operators
    the one of lower rank is the outer one, operators of the same rank group to the left. *)
Definition rank (o : binop) : Z :=
  match o with
  | Plus => 2 | Minus => 4 | Times => 6 | Over => 8 | Or => 10 | And => 12 | Xor => 14 | Shl => 16 | Shr => 18
  end.
Definition level (e : expr) : Z :=
  match e with
  | Bin o _ _ _ _ => rank o
  | Here => 5
  | Neg _ _ => 20
  | Not _ _ => 22
  | _ => 24
  end.
(** Does the text start with a minus sign? *)
Fixpoint leading (e : expr) : bool :=
  match e with Neg _ _ => true | Bin _ a _ _ _ => leading a | _ => false end.

(** The tree is the one its text stands for; details of spelling. *)
Fixpoint ranked (e : expr) : Prop :=
  match e with
  | Num _ | Sym _ | Here => True
  | Chr q l => proper (Quoted q l)
  | Group w1 e w2 => blanks w1 /\ blanks w2 /\ ranked e
  | Fn f n w w1 e w2 => map SpecSplit.upper n = fname f /\ blanks w /\ blanks w1 /\ blanks w2 /\ ranked e
  | Neg w e => blanks w /\ ranked e /\ 20 < level e
  | Not w e => blanks w /\ ranked e /\ 22 <= level e
  | Bin o a w1 w2 b =>
      blanks w1 /\ blanks w2 /\ ranked a /\ ranked b /\ rank o <= level a /\ rank o < level b /\
      (leading b = true -> o = Plus)
  end.

(** ** Grouping as documented: shifts, then bitwise operators, then * and /, then + and -;
    the same group goes from left to right. *)
Definition tier (o : binop) : Z :=
  match o with Plus | Minus => 1 | Times | Over => 2 | Or | And | Xor => 3 | Shl | Shr => 4 end.
Definition height (e : expr) : Z :=
  match e with Bin o _ _ _ _ => tier o | Neg _ _ => 5 | Not _ _ => 6 | _ => 7 end.
Fixpoint documented (e : expr) : Prop :=
  match e with
  | Num _ | Sym _ | Here => True
  | Chr q l => proper (Quoted q l)
  | Group w1 e w2 => blanks w1 /\ blanks w2 /\ documented e
  | Fn f n w w1 e w2 => map SpecSplit.upper n = fname f /\ blanks w /\ blanks w1 /\ blanks w2 /\ documented e
  | Neg w e => blanks w /\ documented e /\ 5 < height e
  | Not w e => blanks w /\ documented e /\ 6 <= height e
  | Bin o a w1 w2 b =>
      blanks w1 /\ blanks w2 /\ documented a /\ documented b /\ tier o <= height a /\ tier o < height b
  end.

(** Trees on which both groupings agree.  In a chain of one tier the program works from left
    to right only as long as its ranks do not grow: no * before /, no | before & or ^, no &
    before ^, no << before >>.  (Chains of + and - are not restricted.)  A term may start with
    a minus sign only after + or in first place, and the location counter * may only be added
    or subtracted. *)
Definition agreeing (o : binop) (a : expr) : Prop :=
  match o, a with
  | Over, Bin Times _ _ _ _ | And, Bin Or _ _ _ _ | Xor, Bin Or _ _ _ _ | Xor, Bin And _ _ _ _ | Shr, Bin Shl _ _ _ _ => False
  | _, _ => True
  end.
Definition star (e : expr) : bool := match e with Here => true | _ => false end.
Fixpoint tame (e : expr) : Prop :=
  match e with
  | Num _ | Sym _ | Here | Chr _ _ => True
  | Group _ e _ | Fn _ _ _ _ e _ => tame e
  | Neg _ e | Not _ e => tame e /\ star e = false
  | Bin o a _ _ b =>
      tame a /\ tame b /\ agreeing o a /\ (leading b = true -> o = Plus) /\
      (star a || star b = true -> tier o = 1)
  end.
