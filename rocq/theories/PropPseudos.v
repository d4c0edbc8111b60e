(** Properties C24 to C28: the pseudo instructions that store bytes. *)
From Coq Require Import String Ascii ZArith List Bool.
From Verif Require Import Base State Tree Filter Parse Pseudos SpecNumbers SpecSplit SpecEmit PseudoFacts Crasm Witness.
Import ListNotations.
Open Scope Z_scope.

(** A state in which bytes can be stored. *)
Definition ready (lohi : bool) : state :=
  let s := init_state nofiles [] in set_fl (set_a_lohi lohi (set_a_org_gv true s.(fl))) s.
Definition after (m : M unit) (s : state) : state := snd (m s).
Definition stored (s : state) : list (Z * Z) := map (fun e => (em_pc e, em_byte e)) (rev s.(emitted)).
Definition outcome (m : M unit) (s : state) := (fst (m s), stored (snd (m s))).

(** C24: DW (modifier 3) and DL (4) store their values in the CPU's byte order, DDB (2) in the
    opposite order; the byte order setting is not changed. *)
Theorem C24_words : forall t s u s', pc_range s -> Xdc 3 (Some t) s = (Ok u, s') ->
  exists ts rs, items [","%char] t ts /\ Forall2 (value_at s) ts rs /\
    emits (flat_map (fun r => word 2 s.(fl).(a_lohi) r.(r_value)) rs) s s' /\ s'.(fl) = s.(fl).
Proof. exact (Xdc_good 3). Qed.
Print Assumptions C24_words.

Theorem C24_longs : forall t s u s', pc_range s -> Xdc 4 (Some t) s = (Ok u, s') ->
  exists ts rs, items [","%char] t ts /\ Forall2 (value_at s) ts rs /\
    emits (flat_map (fun r => word 4 s.(fl).(a_lohi) r.(r_value)) rs) s s' /\ s'.(fl) = s.(fl).
Proof. exact (Xdc_good 4). Qed.
Print Assumptions C24_longs.

Theorem C24_swapped : forall t s u s', pc_range s -> Xdc 2 (Some t) s = (Ok u, s') ->
  exists ts rs, items [","%char] t ts /\ Forall2 (value_at s) ts rs /\
    emits (flat_map (fun r => word 2 (negb s.(fl).(a_lohi)) r.(r_value)) rs) s s' /\ s'.(fl) = s.(fl).
Proof. exact (Xdc_good 2). Qed.
Print Assumptions C24_swapped.

Example C24_case : pc_range (ready true) /\
  outcome (Xdc 3 (Some (s2l "$1234,-2"))) (ready true) = (Ok tt, [(0, 52); (1, 18); (2, 254); (3, 255)]) /\
  outcome (Xdc 4 (Some (s2l "$12345678"))) (ready false) = (Ok tt, [(0, 18); (1, 52); (2, 86); (3, 120)]) /\
  outcome (Xdc 2 (Some (s2l "$1234"))) (ready true) = (Ok tt, [(0, 18); (1, 52)]).
Proof. split; [split; [discriminate|reflexivity]|]. vm_compute. repeat split. Qed.

(** When DDB is refused because no address was given, the byte order stays exchanged. *)
Theorem C24_refuted : exists t s m s', pc_range s /\ Xdc 2 (Some t) s = (Bad (Err m), s') /\
  s'.(fl).(a_lohi) = negb s.(fl).(a_lohi).
Proof.
  exists (s2l "1"), (init_state nofiles []), (s2l "no org given"), (after (Xdc 2 (Some (s2l "1"))) (init_state nofiles [])).
  split; [split; [discriminate|reflexivity]|]. vm_compute. repeat split.
Qed.
Print Assumptions C24_refuted.

(** C25: DB (modifier 1) stores the low bytes of the values of its operands. *)
Theorem C25_bytes : forall t s u s', pc_range s -> Xdc 1 (Some t) s = (Ok u, s') ->
  exists ts rs, items [","%char] t ts /\ Forall2 (value_at s) ts rs /\
    emits (map (fun r => r.(r_value) mod 256) rs) s s' /\ s'.(fl) = s.(fl).
Proof. exact Xdb_good. Qed.
Print Assumptions C25_bytes.

Example C25_case : pc_range (ready true) /\
  outcome (Xdc 1 (Some (s2l "1 , 'a',300,1+2"))) (ready true) = (Ok tt, [(0, 1); (1, 97); (2, 44); (3, 3)]).
Proof. split; [split; [discriminate|reflexivity]|]. vm_compute. repeat split. Qed.

(** C26: ASC stores the characters of a quoted string; nothing else is accepted. *)
Theorem C26_string : forall t s u s', pc_range s -> Xasc (Some t) s = (Ok u, s') ->
  exists q l vs, (q = "'"%char \/ q = """"%char) /\ t = quoted q l /\ Forall (within q) l /\
    map char_code l = map Some vs /\ emits vs s s'.
Proof. exact Xasc_good. Qed.
Print Assumptions C26_string.

Example C26_case : pc_range (ready true) /\
  outcome (Xasc (Some (s2l "'a""\n\''"))) (ready true) = (Ok tt, [(0, 97); (1, 34); (2, 10); (3, 39)]).
Proof. split; [split; [discriminate|reflexivity]|]. vm_compute. repeat split. Qed.

(** A string that is not closed is not reported: the text is read past its end. *)
Theorem C26_refuted : exists t s s', pc_range s /\ Xasc (Some t) s = (Bad (UB "asc: read past operand"), s').
Proof.
  exists (s2l "'a"), (ready true), (after (Xasc (Some (s2l "'a"))) (ready true)).
  split; [split; [discriminate|reflexivity]|]. vm_compute. repeat split.
Qed.
Print Assumptions C26_refuted.

(** C27: DS n,v stores n copies of the low byte of v (0 when there is no v). *)
Theorem C27_reserve : forall t s u s', pc_range s -> Xds (Some t) s = (Ok u, s') ->
  exists n v, 0 <= n < 2 ^ 31 /\
    (exists r, n = trunc32 r.(r_value) /\
       ((exists a b r', first_cut [","%char] t a b /\ value_at s a r /\ value_at s b r' /\ v = r'.(r_value) mod 256) \/
        (uncut [","%char] t /\ value_at s t r /\ v = 0))) /\
    s'.(emitted) = rev (placed s.(ct).(passnumber) s.(fl).(a_code_on) s.(wr).(pc) (repeat v (Z.to_nat n))) ++ s.(emitted) /\
    s'.(wr).(pc) = (s.(wr).(pc) + n) mod 2 ^ 64 /\ s'.(ct).(advance) = n.
Proof. exact Xds_good. Qed.
Print Assumptions C27_reserve.

Example C27_case : pc_range (ready true) /\
  outcome (Xds (Some (s2l "3,$107"))) (ready true) = (Ok tt, [(0, 7); (1, 7); (2, 7)]) /\
  outcome (Xds (Some (s2l "1+1"))) (ready true) = (Ok tt, [(0, 0); (1, 0)]).
Proof. split; [split; [discriminate|reflexivity]|]. vm_compute. repeat split. Qed.

(** A negative count is not reported. *)
Theorem C27_refuted : exists t s s', pc_range s /\ Xds (Some t) s = (Bad (UB "DS: negative count"), s').
Proof.
  exists (s2l "-1"), (ready true), (after (Xds (Some (s2l "-1"))) (ready true)).
  split; [split; [discriminate|reflexivity]|]. vm_compute. repeat split.
Qed.
Print Assumptions C27_refuted.

(** C28: ALIGN EVEN (ODD) makes the program counter even (odd) with at most one zero byte. *)
Theorem C28_align : forall t s u s', pc_range s -> Xalign (Some t) s = (Ok u, s') ->
  exists b : bool, keyword (s2l (if b then "ODD" else "EVEN")) t /\ Z.odd s'.(wr).(pc) = b /\
    (emits [] s s' \/ (Z.odd s.(wr).(pc) = negb b /\ emits [0] s s')).
Proof. exact Xalign_good. Qed.
Print Assumptions C28_align.

Example C28_case : pc_range (ready true) /\
  outcome (Xalign (Some (s2l " odd"))) (ready true) = (Ok tt, [(0, 0)]) /\
  Xalign (Some (s2l "EVEN")) (ready true) = (Ok tt, ready true).
Proof. split; [split; [discriminate|reflexivity]|]. vm_compute. repeat split. Qed.
