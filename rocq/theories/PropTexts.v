(** Properties C42, C43: the matcher and the reversal of operand texts; one more case of C10. *)
From Coq Require Import String Ascii ZArith List Bool.
From Verif Require Import Base State Filter Output Parse SpecNumbers SpecSplit SpecText FilterFacts SplitFacts TextFacts Crasm Witness.
Import ListNotations.
Open Scope Z_scope.

(** C42: reversing twice restores a text made of characters and well-formed quoted strings
    (partial: quoted strings that end with an escaped backslash are left out). *)
Theorem C42_quoted_partial : forall l, Forall proper l -> reverse (reverse (spelled l)) = spelled l.
Proof. exact reverse_proper. Qed.
Print Assumptions C42_quoted_partial.

Example C42_quoted_case :
  let l := [Bare "A"; Bare "+"; Quoted "'" [Char "("; Esc "'"; Char """"]; Bare " "; Quoted """" [Esc "\"; Char "z"]]%char in
  Forall proper l /\ reverse (spelled l) <> rev (spelled l) /\ reverse (reverse (spelled l)) = spelled l.
Proof.
  cbv zeta. split; [|split; [vm_compute; discriminate|vm_compute; reflexivity]].
  repeat (apply Forall_cons || apply Forall_nil).
  - repeat split; discriminate.
  - repeat split; discriminate.
  - split; [left; reflexivity|]. split; [repeat (apply Forall_cons || apply Forall_nil); try exact I; split; discriminate|].
    intros p. repeat (destruct p as [|? p]; try discriminate).
  - repeat split; discriminate.
  - split; [right; reflexivity|]. split; [repeat (apply Forall_cons || apply Forall_nil); try exact I; split; discriminate|].
    intros p. repeat (destruct p as [|? p]; try discriminate).
Qed.

(** Texts without quotes are reversed exactly, whatever else they contain. *)
Theorem C42_unquoted : forall t, unquoted t -> reverse t = rev t /\ reverse (reverse t) = t.
Proof. exact reverse_unquoted. Qed.
Print Assumptions C42_unquoted.

Example C42_unquoted_case : unquoted (s2l "a\b - $12(x)") /\ reverse (s2l "a\b - $12(x)") = s2l ")x(21$ - b\a".
Proof. split; [|vm_compute; reflexivity]. unfold unquoted. repeat (apply Forall_cons || apply Forall_nil); split; discriminate. Qed.

(** The claim for all texts is false: an unterminated string. *)
Theorem C42_refuted : exists t, reverse (reverse t) <> t.
Proof. exists (s2l "'a\"). vm_compute. discriminate. Qed.
Print Assumptions C42_refuted.

(** C43: a pattern made of two wildcards around a separator cuts the text at the first
    occurrence of the separator outside quotes and parentheses, or does not match if there is
    none. *)
Theorem C43_split : forall sep pat t s a b s', s2l pat = sepat sep -> sep <> [] -> forallb sepchar sep = true ->
  filter2 t pat s = (Ok (Some (a, b)), s') -> first_cut sep t a b.
Proof. intros sep pat t s a b s' A B C D. exact (proj2 (filter2_sep sep pat t s (Some (a, b)) s' A B C D)). Qed.
Print Assumptions C43_split.

Theorem C43_none : forall sep pat t s s', s2l pat = sepat sep -> sep <> [] -> forallb sepchar sep = true ->
  filter2 t pat s = (Ok None, s') -> uncut sep t.
Proof. intros sep pat t s s' A B C D. exact (proj2 (filter2_sep sep pat t s None s' A B C D)). Qed.
Print Assumptions C43_none.

(** It gives an answer whenever the operand buffer has room. *)
Theorem C43_answers : forall pat t s, room s t -> short (s2l pat) -> exists r s', filter2 t pat s = (Ok r, s').
Proof. exact filter2_ok. Qed.
Print Assumptions C43_answers.

(** The pieces any pattern captures occur in the text in order. *)
Theorem C43_pieces : forall t pat s l n s', filterc t pat s = (Ok (Some (l, n)), s') -> scattered l t.
Proof. exact filterc_scattered. Qed.
Print Assumptions C43_pieces.

Definition start : state := init_state nofiles [].

Example C43_case :
  (exists s', filter2 (s2l "f(1,2) ,'a,b',x") "?_,_?" start = (Ok (Some (s2l "f(1,2)", s2l "'a,b',x")), s')) /\
  filter2 (s2l "f(1,2)','") "?_,_?" start = (Ok None, start) /\
  (exists n s', filterc (s2l "a(b),c") (s2l "?(?)_,_?") start = (Ok (Some ([s2l "a"; s2l "b"; s2l "c"], n)), s')) /\
  room start (s2l "f(1,2) ,'a,b',x") /\ short (s2l "?_,_?") /\
  s2l "?_,_?" = sepat [","%char] /\ s2l "?_<<_?" = sepat ["<"; "<"]%char /\
  forallb sepchar ["<"; "<"]%char = true.
Proof.
  repeat split; try (vm_compute; reflexivity); try (vm_compute; discriminate).
  - exists (snd (filter2 (s2l "f(1,2) ,'a,b',x") "?_,_?" start)). vm_compute. reflexivity.
  - exists 5, (snd (filterc (s2l "a(b),c") (s2l "?(?)_,_?") start)). vm_compute. reflexivity.
Qed.

(** C10: text after the closing quote makes the constant an error (partial: texts with operator
    characters or backslashes are left out). *)
Theorem C10_trailing_partial : forall q a y s, q = "'"%char \/ q = """"%char -> ~ List.In q a -> y <> [] ->
  (forall c, List.In c (a ++ y) -> ~ List.In c (s2l "\+-*/|&^<>~(){}")) ->
  s.(ct).(bufferpos) + zlen (q :: a ++ q :: y) + 3 < 4000 ->
  exists m bp, parse (q :: a ++ q :: y) s = err m (set_ct (set_bufferpos bp s.(ct)) s).
Proof. exact quoted_trailing. Qed.
Print Assumptions C10_trailing_partial.

Example C10_trailing_case : forall s, s.(ct).(bufferpos) = 0 ->
  exists m bp, parse (s2l "'a'H") s = err m (set_ct (set_bufferpos bp s.(ct)) s).
Proof.
  intros s B. apply (C10_trailing_partial "'" (s2l "a") (s2l "H")).
  - left; reflexivity.
  - cbn. intuition discriminate.
  - discriminate.
  - intros c Hc. assert (K : c = "a"%char \/ c = "H"%char) by (cbn in Hc; intuition).
    destruct K; subst; cbn; intuition discriminate.
  - rewrite B. vm_compute. reflexivity.
Qed.
