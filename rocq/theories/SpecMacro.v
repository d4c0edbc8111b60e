(** What a macro definition consists of. *)
From Coq Require Import String Ascii ZArith List Bool.
From Verif Require Import SpecForms.
From Verif Require SpecSplit SpecInput.
Import ListNotations.

(** [a], blanks, a semicolon, [b]; the semicolon is outside quotes and parentheses. *)
Definition comment_at (t a b : text) : Prop :=
  exists y, t = a ++ y ++ b /\ spells (list_ascii_of_string "_;") y /\ SpecSplit.outside a.

(** A line without its comment and the blanks before it. *)
Definition uncommented (t l : text) : Prop :=
  (exists b, comment_at t l b /\ forall a' b', comment_at t a' b' -> (List.length l <= List.length a')%nat) \/
  (l = t /\ forall a b, ~ comment_at t a b).

(** Blanks, [a], the letters ENDM with blanks around, [b]; the letters are outside quotes and
    parentheses. *)
Definition endm_in (t a b : text) : Prop :=
  exists w y, t = w ++ a ++ y ++ b /\ Forall SpecSplit.blank w /\ spells (list_ascii_of_string "_ENDM_") y /\
              SpecSplit.outside a.

(** The lines of a definition: the last one is ENDM alone, no other one contains ENDM. *)
Definition body (ls : list text) : Prop :=
  exists init last, ls = init ++ [last] /\ SpecSplit.keyword (list_ascii_of_string "ENDM") last /\
    Forall (fun l => forall a b, ~ endm_in l a b) init.

(** [t] starts with the physical lines [ps], whose texts without comments are [ls]. *)
Definition lines_of (t : text) (ps : list text) (rest : text) (ls : list text) : Prop :=
  t = List.concat ps ++ rest /\ Forall (fun p => SpecInput.whole p \/ SpecInput.part p) ps /\
  Forall2 (fun p l => uncommented (SpecInput.visible p) l) ps ls.
