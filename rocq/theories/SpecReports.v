(** What error reporting should look like, in terms of the log of reported errors.
    [report] is the model's log entry of one call of error: the pass, the line number
    and the message. *)
From Coq Require Import String Ascii ZArith List Bool.
From Verif Require Import Base State.
Import ListNotations.
Open Scope Z_scope.

(** The errors of the second pass in chronological order. *)
Definition second_reports (log : list report) : list report :=
  List.filter (fun r => rp_pass r =? 2) (rev log).

(** The text of the message with its first letter in upper case. *)
Definition headline (m : str) : str :=
  match m with [] => [] | c :: m' => toupper c :: m' end.

(** [t] is the ERROR line of [r]: marks or blanks, the line number, the message. *)
Definition announces (r : report) (t : str) : Prop :=
  exists p, Forall (fun c => c = ">"%char \/ c = " "%char) p /\
    t = p ++ dec r.(rp_line) ++ s2l " ERROR: " ++ headline r.(rp_text) ++ ["010"%char].

(** Each report has its own line among the printed ones, in the same order. *)
Inductive announced : list report -> list str -> Prop :=
| an_nil : forall l, announced [] l
| an_skip : forall rs x l, announced rs l -> announced rs (x :: l)
| an_take : forall r rs x l, announces r x -> announced rs l -> announced (r :: rs) (x :: l).

(** The line printed by a fatal error. *)
Definition fatal_line (t : str) : Prop :=
  exists m : string, t = s2l "FATAL ERROR: " ++ s2l m ++ ["010"%char].

(** The number of code bytes logged for one pass. *)
Definition code_count (k : Z) (log : list emission) : Z :=
  Z.of_nat (List.length (List.filter (fun e => em_code e && (em_pass e =? k)) log)).

(** The number of code bytes logged in both passes. *)
Definition code_total (log : list emission) : Z :=
  Z.of_nat (List.length (List.filter em_code log)).
