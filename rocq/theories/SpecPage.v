(** What the layout of the listing should be (C46), from the manual: lines no wider than the
    line length, pages no longer than the page length. *)
From Coq Require Import String Ascii ZArith List Bool.
From Verif Require Import Base State.
Import ListNotations.
Open Scope Z_scope.

(** A line of text as wide as the line length in force allows. *)
Definition newline : ascii := "010"%char.
Definition line_fits (x : Z * str) : Prop := zlen (snd x) <= fst x /\ ~ In newline (snd x).

(** The number of lines of paper taken by what is printed: the title and a blank line, a line
    of text, the two blank lines at the bottom of a page. *)
Definition height (x : sheet) : Z := match x with PHead _ => 2 | PLine _ _ => 1 | PFoot _ => 2 end.
Definition total (l : list sheet) : Z := fold_right (fun x n => height x + n) 0 l.

(** Printed below the title of a page while the page length was [p]. *)
Definition below_title (p : Z) (x : sheet) : Prop :=
  match x with PHead _ => False | PLine q _ => q = p | PFoot q => q = p end.

(** Not a title; printed while the page length was not 0 (endless pages) and at most [m]. *)
Definition nohead (x : sheet) : Prop := match x with PHead _ => False | _ => True end.
Definition within (m : Z) (x : sheet) : Prop :=
  match x with PHead q | PLine q _ | PFoot q => q <> 0 /\ q <= m end.

(** No page is too long, for what is printed in the order of time: no longer than the longest
    page length in force while it is printed. *)
Definition pages_fit (log : list sheet) : Prop := forall before h page after m,
  log = before ++ PHead h :: page ++ after -> Forall nohead page -> Forall (within m) (PHead h :: page) ->
  total (PHead h :: page) <= m.

(** Pages that are ended are full, when the page length did not change. *)
Definition pages_full (log : list sheet) : Prop := forall before p page after,
  log = before ++ PHead p :: page ++ PFoot p :: after -> Forall (below_title p) page -> p <> 0 ->
  total (PHead p :: page ++ [PFoot p]) = p.

(** How what is printed appears in the output, in the order of time: only the three newlines
    of PAGE on an endless page and the message of a fatal error are printed otherwise. *)
Inductive printed : list sheet -> list str -> Prop :=
| pr_none : printed [] []
| pr_head : forall l o p title width number, printed l o ->
    printed (l ++ [PHead p]) (o ++ [s2l "Crasm 1.11:   " ++ padl 30 title ++ repeat " "%char (Z.to_nat (width - 58)) ++
      s2l "page" ++ padl 3 (dec number) ++ [newline; newline]])
| pr_line : forall l o p t, printed l o -> printed (l ++ [PLine p t]) (o ++ [t ++ [newline]])
| pr_foot : forall l o p, printed l o -> printed (l ++ [PFoot p]) (o ++ [[newline; newline]])
| pr_feed : forall l o, printed l o -> printed l (o ++ [[newline; newline; newline]])
| pr_fatal : forall l o m, printed l o -> printed l (o ++ [s2l "FATAL ERROR: " ++ m ++ [newline]]).

(** An error or a warning message. *)
Definition is_message (t : str) : Prop := exists a b,
  t = a ++ s2l " ERROR: " ++ b \/ t = a ++ s2l " WARNING: " ++ b.

(** The listing of a state, in the order of time. *)
Definition layout (s : state) : Prop :=
  Forall line_fits s.(ls).(composed) /\ pages_fit (rev s.(ls).(sheets)) /\ pages_full (rev s.(ls).(sheets)) /\
  printed (rev s.(ls).(sheets)) (rev s.(ls).(stdout)) /\
  forall p t, In (PLine p t) s.(ls).(sheets) -> (exists w, In (w, t) s.(ls).(composed)) \/ is_message t.
