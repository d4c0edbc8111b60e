(** C35: command lines that differ in the listing options.  Independent of the model. *)
From Coq Require Import Ascii ZArith List.
Import ListNotations.

(** A word of the command line made of the options that only concern the listing. *)
Definition listing_letter (c : ascii) : Prop := c = "l"%char \/ c = "s"%char \/ c = "x"%char.
Inductive listing_word : list ascii -> Prop :=
| ListingWord : forall t, Forall listing_letter t -> listing_word ("-"%char :: t).

(** The same command line, but for words of listing options anywhere except in the place of
    the name of the object file, which follows a word of options that ends in an o. *)
Inductive same_but_listing : list (list ascii) -> list (list ascii) -> Prop :=
| SameRest : forall l, same_but_listing l l
| SameLeft : forall w l l', listing_word w -> same_but_listing l l' -> same_but_listing (w :: l) l'
| SameRight : forall w l l', listing_word w -> same_but_listing l l' -> same_but_listing l (w :: l')
| SameWord : forall w l l', (forall t, w <> "-"%char :: t ++ ["o"%char]) -> same_but_listing l l' ->
    same_but_listing (w :: l) (w :: l')
| SameName : forall w n l l', (forall t, n <> "-"%char :: t) -> same_but_listing l l' ->
    same_but_listing (w :: n :: l) (w :: n :: l').
