(** The written form of expressions, as a grammar of texts. *)
From Coq Require Import String Ascii ZArith List Bool.
From Verif Require Import SpecNumbers SpecExpr SpecText.
From Verif Require SpecSplit.
Import ListNotations.
Open Scope Z_scope.

Definition prefixes : list (text * Z) := [(["$"], 16); (["0"; "X"], 16); (["%"], 2); (["0"; "B"], 2); ([], 10)]%char.
Definition suffixes : list (text * Z) := [(["H"], 16); (["B"], 2); (["Q"], 8)]%char.
Definition signs : list text :=
  [["\"]; ["+"]; ["-"]; ["*"]; ["/"]; ["|"]; ["&"]; ["^"]; ["<"; "<"]; [">"; ">"]]%char.
Definition functions : list text := [["B"; "I"; "T"]; ["A"; "D"; "D"; "R"]; ["L"; "O"]; ["H"; "I"]]%char.
Definition printable (c : ascii) : Prop := 32 <= code c <= 126.

(** Sentences: names, the star, numbers, quoted strings without escape sequences, and what is
    built from them.  Function names and the letters of numbers are in upper or lower case. *)
Inductive sentence : text -> Prop :=
| s_name : forall t, name t -> sentence t
| s_star : sentence ["*"%char]
| s_prefix : forall x p b d, In (p, b) prefixes -> map SpecSplit.upper x = p -> digits b d -> d <> [] -> sentence (x ++ d)
| s_suffix : forall x p b d, In (p, b) suffixes -> map SpecSplit.upper x = p -> digits b d -> d <> [] -> sentence (d ++ x)
| s_string : forall q a, q = "'"%char \/ q = """"%char ->
    Forall (fun c => printable c /\ c <> q /\ c <> "\"%char) a -> sentence (q :: a ++ [q])
| s_group : forall w1 a w2, blanks w1 -> sentence a -> blanks w2 -> sentence ("("%char :: w1 ++ a ++ w2 ++ [")"%char])
| s_function : forall f w w1 a w2, In (map SpecSplit.upper f) functions -> blanks w -> blanks w1 -> sentence a -> blanks w2 ->
    sentence (f ++ w ++ "("%char :: w1 ++ a ++ w2 ++ [")"%char])
| s_sign : forall c w a, c = "-"%char \/ c = "~"%char -> blanks w -> sentence a -> sentence (c :: w ++ a)
| s_dyadic : forall o a w1 w2 b, In o signs -> sentence a -> blanks w1 -> blanks w2 -> sentence b ->
    sentence (a ++ w1 ++ o ++ w2 ++ b)
| s_bit : forall a w1 w2 b w3, sentence a -> blanks w1 -> blanks w2 -> sentence b -> blanks w3 ->
    sentence (a ++ w1 ++ "{"%char :: w2 ++ b ++ w3 ++ ["}"%char]).

(** Texts in which a backslash can only be the operator. *)
Definition simple (t : text) : Prop := ~ In "\"%char t \/ unquoted t.

(** Quotes are closed and parentheses are paired. *)
Definition closed (t : text) : Prop := SpecSplit.outside t.

(** What may follow a sentence within a larger one: nothing, or blanks, an operator and more. *)
Definition goes_on (x : text) : Prop :=
  x = [] \/ exists w o y, x = w ++ o ++ y /\ blanks w /\ (In o signs \/ o = ["{"%char]) /\ y <> [].
