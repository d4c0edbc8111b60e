(** Written forms of operands: fixed signs around at most one free part. *)
From Coq Require Import String Ascii ZArith List Bool.
From Verif Require SpecSplit.
Import ListNotations.

Definition text := list ascii.

(** [t] consists of the signs [p], in upper or lower case, where each underscore stands for any
    number of blanks. *)
Inductive spells : text -> text -> Prop :=
| sp_nil : spells [] []
| sp_blanks : forall p w t, Forall SpecSplit.blank w -> spells p t -> spells ("_"%char :: p) (w ++ t)
| sp_char : forall c p d t, c <> "_"%char -> SpecSplit.upper c = SpecSplit.upper d -> spells p t ->
    spells (c :: p) (d :: t).

(** A form: signs, or signs around a free part whose end is outside quotes and parentheses. *)
Inductive form := Fixed (p : text) | Free (p q : text).

Inductive fits : form -> text -> text -> Prop :=
| fit_fixed : forall p t, spells p t -> fits (Fixed p) t []
| fit_free : forall p q x a y, spells p x -> spells q y -> (q <> [] -> SpecSplit.outside a) ->
    fits (Free p q) (x ++ a ++ y) a.

(** The first form of a list that fits a text, and the free part. *)
Inductive first_fit {A} (t : text) : list (form * A) -> A -> text -> Prop :=
| ff_here : forall f x l a, fits f t a -> first_fit t ((f, x) :: l) x a
| ff_there : forall f x l y a, (forall b, ~ fits f t b) -> first_fit t l y a -> first_fit t ((f, x) :: l) y a.
