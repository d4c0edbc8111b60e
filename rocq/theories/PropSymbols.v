(** Properties C14 to C16: the symbol table. *)
From Coq Require Import String Ascii ZArith List Bool.
From Verif Require Import Base State Tree Output Label Tables Pseudos Macro Crasm SpecNumbers SpecSymbols SymFacts Witness.
Import ListNotations.
Open Scope Z_scope.

Definition ready : state := let s := init_state nofiles [] in set_fl (set_a_org_gv true s.(fl)) s.

(** C14: whatever the history of definitions, references, changes of segment and of pass,
    looking a name up gives what the map from identifiers to symbols gives. *)
Theorem C14_map_partial : forall es s m, Forall sane es -> 0 <= s.(inp).(segment) < 2 ^ 31 ->
  (forall seg n, 0 <= seg < 2 ^ 31 -> legal n -> m (ident_of seg n) = lookup seg n s) ->
  forall seg n, 0 <= seg < 2 ^ 31 -> legal n ->
  lookup seg n (history es s) = snd (story (a_relatif (fl s)) es (s.(inp).(segment), m)) (ident_of seg n).
Proof. exact history_lookup. Qed.
Print Assumptions C14_map_partial.

Definition events : list event :=
  [Define (s2l "Foo") lf0 TAbs 5; Refer (s2l "bar"); Enter 3; Define (s2l ".x") (set_f_noredef true lf0) TAbs 6;
   Define (s2l "FOO") lf0 TAbs 7; Define (s2l ".X") (set_f_noredef true lf0) TAbs 8; Enter 0].
Example C14_case : Forall sane events /\
  lookup 0 (s2l "foo") (history events ready) = Some (mkView TAbs 7 true false false) /\
  lookup 3 (s2l ".x") (history events ready) = Some (mkView TAbs 6 true true false) /\
  lookup 0 (s2l "BAR") (history events ready) = Some (mkView TAbs 0 false true false) /\
  lookup 2 (s2l ".x") (history events ready) = None.
Proof. split; [|vm_compute; repeat split]. repeat constructor; cbn; auto; discriminate. Qed.

(** Local names have fewer than 48 significant characters: two names that differ in the
    48th character denote the same symbol. *)
Theorem C14_refuted : exists n m, legal n /\ legal m /\ List.length n = 48%nat /\ List.length m = 48%nat /\
  upper n <> upper m /\ lookup 0 m ready = None /\
  lookup 0 m (history [Define n lf0 TAbs 5] ready) = Some (mkView TAbs 5 true false false).
Proof.
  exists ("."%char :: repeat "x"%char 46 ++ ["a"%char]), ("."%char :: repeat "x"%char 46 ++ ["b"%char]).
  vm_compute. repeat split; discriminate.
Qed.
Print Assumptions C14_refuted.

(** C15: a local name of one segment is not touched by what happens to the local names of
    other segments, nor by what happens to global names; nor are global names by local ones. *)
Theorem C15_segments_partial : forall e n a b m s, e = Refer n \/ (exists f ty v, e = Define n f ty v) ->
  s.(inp).(segment) = a -> 0 <= a < 2 ^ 31 -> 0 <= b < 2 ^ 31 -> legal n -> legal m ->
  local n = true -> local m = true -> a <> b -> lookup b m (history [e] s) = lookup b m s.
Proof. intros e n a b m s H S A B N M Ln Lm D. exact (apart e n a b m s H S A B N M (locals_apart a b n m D Ln Lm)). Qed.
Print Assumptions C15_segments_partial.

Theorem C15_globals_partial : forall e n a b m s, e = Refer n \/ (exists f ty v, e = Define n f ty v) ->
  s.(inp).(segment) = a -> 0 <= a < 2 ^ 31 -> 0 <= b < 2 ^ 31 -> legal n -> legal m ->
  local n <> local m -> lookup b m (history [e] s) = lookup b m s.
Proof. intros e n a b m s H S A B N M D. exact (apart e n a b m s H S A B N M (local_global a b n m D)). Qed.
Print Assumptions C15_globals_partial.

(** CODE, DUMMY and macro calls start segments with new numbers: none greater than the number
    of calls so far has been used before, and no other number is taken afterwards. *)
Theorem C15_fresh : forall s, s.(inp).(segment) <= s.(inp).(thiscall) ->
  (forall n k li ex, let s' := snd (run n k li ex s) in
     s.(inp).(thiscall) <= s'.(inp).(thiscall) /\ s'.(inp).(segment) <= s'.(inp).(thiscall) /\
     (s'.(inp).(segment) = s.(inp).(segment) \/ s.(inp).(thiscall) < s'.(inp).(segment))) /\
  (forall n, let s' := snd (passloop n s) in
     s.(inp).(thiscall) <= s'.(inp).(thiscall) /\ s'.(inp).(segment) <= s'.(inp).(thiscall) /\
     (s'.(inp).(segment) = s.(inp).(segment) \/ s.(inp).(thiscall) < s'.(inp).(segment))) /\
  s.(inp).(thiscall) < (snd (newsegment s)).(inp).(segment).
Proof. exact segments_fresh. Qed.
Print Assumptions C15_fresh.

Example C15_case : ready.(inp).(segment) <= ready.(inp).(thiscall) /\
  (snd (newsegment ready)).(inp).(segment) = 1 /\
  let s := history [Define (s2l ".x") lf0 TAbs 5] ready in
  lookup 0 (s2l ".X") s = Some (mkView TAbs 5 true false false) /\ lookup 1 (s2l ".x") s = None /\ lookup 0 (s2l "x") s = None.
Proof. vm_compute. repeat split; discriminate. Qed.

(** A line holding a label alone takes any text for a label: 1.foo is the local label .foo of
    the first segment. *)
Theorem C15_refuted : exists p, p = ["*=0"; " code"; ".foo"; "1.foo"]%string /\ fst (final p) = Ok tt /\
  map (fun r => (rp_line r, rp_text r)) (snd (final p)).(reported) =
    [(4, s2l "illegal label redefinition"); (4, s2l "illegal label redefinition")].
Proof. exists ["*=0"; " code"; ".foo"; "1.foo"]%string. vm_compute. repeat split. Qed.
Print Assumptions C15_refuted.

(** C16: a label defined by its position has the value of [*]; no line and no rest of a pass
    changes it. *)
Theorem C16_kept : forall n s u s1, herelabel n s = (Ok u, s1) ->
  exists ty p, (ty = TAbs \/ ty = TRel) /\ lookup s.(inp).(segment) n s1 = Some (mkView ty (starvalue s) true true p) /\
  (forall m k li ex, lookup s.(inp).(segment) n (snd (run m k li ex s1)) = lookup s.(inp).(segment) n s1) /\
  (forall m, lookup s.(inp).(segment) n (snd (passloop m s1)) = lookup s.(inp).(segment) n s1).
Proof. exact address_kept. Qed.
Print Assumptions C16_kept.

(** Defining a symbol that is defined for good, by its position, by EQU or otherwise, fails; no
    symbol changes. *)
Theorem C16_refused : forall n s v, lookup s.(inp).(segment) n s = Some v -> v_defined v = true -> v_fixed v = true ->
  (forall f ty x, exists b, fst (deflabel n f ty x s) = Bad b) /\
  (exists b, fst (herelabel n s) = Bad b) /\
  (n <> s2l "*" -> forall oper, exists b, fst (Xequ n oper s) = Bad b) /\
  (forall f ty x seg m, m <> s2l "*" -> lookup seg m (snd (deflabel n f ty x s)) = lookup seg m s).
Proof. exact redefinition_refused. Qed.
Print Assumptions C16_refused.

(** No program changes the pseudo instructions. *)
Theorem C16_keywords : forall n o fs text,
  Forall (fun e => definite (snd e) /\ exists l, tfind (s2l (fst e)) (snd (assemble n o (init_state fs text))).(sy) = Some l /\
            is_still (snd e) l) pseudos.
Proof. exact keywords_last_definite. Qed.
Print Assumptions C16_keywords.

Example C16_case : exists s1, herelabel (s2l "foo") ready = (Ok tt, s1) /\
  lookup 0 (s2l "foo") s1 = Some (mkView TAbs 0 true true false) /\
  fst (herelabel (s2l "FOO") s1) = Bad (Err (s2l "illegal label redefinition")) /\
  fst (Xequ (s2l "foo") (Some (s2l "5")) s1) = Bad (Err (s2l "illegal label redefinition")).
Proof. exists (snd (herelabel (s2l "foo") ready)). vm_compute. repeat split. Qed.
