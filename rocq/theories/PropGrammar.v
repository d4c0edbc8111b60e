(** C56: accepted expressions are well-formed; C10: unterminated constants and what may follow a
    closing quote. *)
From Coq Require Import String Ascii ZArith List Bool.
From Verif Require Import Base State Output Parse SpecNumbers SpecText SpecGrammar FilterFacts GrammarFacts Crasm Witness.
From Verif Require SpecSplit.
Import ListNotations.
Open Scope Z_scope.

(** C56.  An expression that is accepted is a sentence of the grammar (texts with a backslash
    and quotes are left out). *)
Theorem C56_sentence_partial : forall t s v s', simple t -> parse t s = (Ok v, s') -> sentence t.
Proof. exact parse_sentence. Qed.
Print Assumptions C56_sentence_partial.

(** C56.  Its quotes are closed and its parentheses are paired. *)
Theorem C56_closed_partial : forall t s v s', simple t -> parse t s = (Ok v, s') -> closed t.
Proof. exact accepted_closed. Qed.
Print Assumptions C56_closed_partial.

(** The claim for all texts is false, and so is the claim of C10 that unterminated constants are
    rejected: an apostrophe, a backslash, an apostrophe and a backslash have the value 92. *)
Theorem C56_refuted : exists t v s', ~ closed t /\ ~ sentence t /\
  parse t (init_state nofiles []) = (Ok v, s') /\ v.(r_value) = 92.
Proof.
  exists (s2l "'\'\"), (mkRes lf0 TAbs 0 PNull 92), (snd (parse (s2l "'\'\") (init_state nofiles []))).
  assert (N : ~ closed (s2l "'\'\")) by (vm_compute; discriminate).
  split; [exact N|]. split; [intros H; apply N, sentence_closed, H|]. vm_compute. split; reflexivity.
Qed.
Print Assumptions C56_refuted.

Theorem C10_unterminated_refuted : exists u v s', ~ closed ("'"%char :: u) /\
  parse ("'"%char :: u) (init_state nofiles []) = (Ok v, s').
Proof.
  exists (s2l "\'\"), (mkRes lf0 TAbs 0 PNull 92), (snd (parse (s2l "'\'\") (init_state nofiles []))).
  split; vm_compute; [discriminate|reflexivity].
Qed.
Print Assumptions C10_unterminated_refuted.

(** C10.  Without backslashes nothing may follow the closing quote, except an operator and more. *)
Theorem C10_follows : forall q a x s v s', q = "'"%char \/ q = """"%char -> ~ In q a -> ~ In "\"%char (a ++ x) ->
  parse (q :: a ++ q :: x) s = (Ok v, s') -> goes_on x.
Proof. exact accepted_follows. Qed.
Print Assumptions C10_follows.

(** An expression with every kind of construction but labels, accepted by the parser. *)
Definition sample : str := s2l "lo ( 'a+('+$1F) - ~2 *(%101|7Q)<< 1".
Example C56_case : simple sample /\ ~ unquoted sample /\
  (exists v s', parse sample (init_state nofiles []) = (Ok v, s') /\ v.(r_value) = 113) /\
  sentence sample /\ closed sample /\
  simple (s2l "1 +'a") /\ ~ closed (s2l "1 +'a").
Proof.
  assert (S : simple sample) by (left; cbn; intuition discriminate).
  assert (P : exists v s', parse sample (init_state nofiles []) = (Ok v, s') /\ v.(r_value) = 113).
  { exists (mkRes lf0 TAbs 0 PNull 113), (snd (parse sample (init_state nofiles []))). vm_compute. split; reflexivity. }
  destruct P as (v & s' & P & V).
  split; [exact S|]. split; [intros U; unfold unquoted in U; rewrite Forall_forall in U; destruct (U "'"%char) as [X _]; [cbn; tauto|apply X; reflexivity]|].
  split; [exists v, s'; auto|]. split; [eapply C56_sentence_partial; eassumption|]. split; [eapply C56_closed_partial; eassumption|].
  split; [left; cbn; intuition discriminate|vm_compute; discriminate].
Qed.

Example C10_follows_case :
  (exists v s', parse ("'"%char :: s2l "a" ++ "'"%char :: s2l " +1") (init_state nofiles []) = (Ok v, s')) /\
  ~ In "'"%char (s2l "a") /\ ~ In "\"%char (s2l "a" ++ s2l " +1") /\ goes_on (s2l " +1") /\ ~ goes_on (s2l "H").
Proof.
  split; [exists (mkRes lf0 TAbs 0 PNull 98), (snd (parse (s2l "'a' +1") (init_state nofiles []))); vm_compute; reflexivity|].
  split; [cbn; intuition discriminate|]. split; [cbn; intuition discriminate|].
  split; [right; exists [" "%char], ["+"%char], ["1"%char]; repeat split; [constructor; [left; reflexivity|constructor]|left; cbn; tauto|discriminate]|].
  intros [H|(w & o & y & E & W & O & Y)]; [discriminate H|]. destruct w as [|b w].
  - assert (K : exists c o', o = c :: o' /\ c <> "H"%char).
    { destruct O as [O| ->]; [|exists "{"%char, []; split; [reflexivity|discriminate]].
      cbn [In signs] in O. repeat (destruct O as [<-|O]; [eexists _, _; split; [reflexivity|discriminate]|]). contradiction. }
    destruct K as (c & o' & -> & N). injection E as E _. apply N. symmetry. exact E.
  - injection E as E _. inversion W as [|? ? B _]; subst. destruct B as [B|B]; discriminate B.
Qed.
