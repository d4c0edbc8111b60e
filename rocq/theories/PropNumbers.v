(** C09, C10: numeric and quoted constants. *)
From Coq Require Import String Ascii ZArith List Bool.
From Verif Require Import Base State Filter Output Operator Parse Crasm.
From Verif Require Import SpecNumbers Witness FilterFacts NumberFacts QuoteFacts.
Import ListNotations.
Open Scope Z_scope.

(** C09.  The value of a constant below 2^32, in any of the eight forms. *)
Theorem C09_value : forall b d t s, written b d t -> digits b d -> d <> [] ->
  s.(ct).(bufferpos) + zlen t + 10 < 4000 -> number b d < 2 ^ 32 ->
  exists r s', parse t s = (Ok r, s') /\ r.(r_type) = TAbs /\ r.(r_flags) = lf0 /\
    r.(r_value) = number b d.
Proof. exact number_value. Qed.
Print Assumptions C09_value.

(** C09.  A larger constant is an error, except in base 2. *)
Theorem C09_overflow_partial : forall b d t s, written b d t -> digits b d -> d <> [] ->
  s.(ct).(bufferpos) + zlen t + 10 < 4000 -> 2 ^ 32 <= number b d -> b <> 2 ->
  exists bp, parse t s = err "overflow" (set_ct (set_bufferpos bp s.(ct)) s).
Proof. exact number_overflow. Qed.
Print Assumptions C09_overflow_partial.

(** C09.  A text of letters, digits, [$] and [%] that does not start with a letter and is
    in none of the forms is refused. *)
Theorem C09_refused : forall t s, t <> [] ->
  (forall c, In c t -> isalnum c = true \/ c = "$"%char \/ c = "%"%char) ->
  (forall c q, t = c :: q -> isalpha c = false) ->
  (forall b d, written b d t -> digits b d -> d = []) ->
  s.(ct).(bufferpos) + zlen t + 10 < 4000 ->
  exists m bp, parse t s = err m (set_ct (set_bufferpos bp s.(ct)) s).
Proof. exact number_refused. Qed.
Print Assumptions C09_refused.

(** The overflow of a binary constant is not detected: 2^32 is accepted. *)
Theorem C09_refuted : exists d t s r s', written 2 d t /\ digits 2 d /\ 2 ^ 32 <= number 2 d /\
  parse t s = (Ok r, s') /\ r.(r_value) = number 2 d.
Proof.
  exists ("1"%char :: repeat "0"%char 32), ("%"%char :: "1"%char :: repeat "0"%char 32), (init_state nofiles []).
  eexists _, _. split; [constructor|]. split.
  { constructor; [exists 1; split; reflexivity|]. apply Forall_forall. intros c H. apply repeat_spec in H. subst c.
    exists 0. split; reflexivity. }
  split; [vm_compute; discriminate|]. vm_compute. split; reflexivity.
Qed.
Print Assumptions C09_refuted.

(** The hypotheses hold of [0FFh] and of [4294967296], and [129Q] is refused. *)
Example C09_case : forall s, s.(ct).(bufferpos) = 0 ->
  (exists r s', parse (s2l "0FFh") s = (Ok r, s') /\ r.(r_value) = 255) /\
  (exists s', parse (s2l "4294967296") s = err "overflow" s') /\
  (exists m s', parse (s2l "129Q") s = err m s').
Proof.
  intros s B.
  assert (F : forall (P : ascii -> Prop) l, Forall P l -> forall c, In c l -> P c) by (intros P l H; apply Forall_forall; exact H).
  split; [|split].
  - destruct (C09_value 16 (s2l "0FF") (s2l "0FFh") s) as (r & s' & E & _ & _ & V).
    + apply (w_h (s2l "0FF") "h"); [left; reflexivity|right; reflexivity].
    + repeat constructor; eexists; (split; [reflexivity|vm_compute; reflexivity]).
    + discriminate.
    + rewrite B. vm_compute. reflexivity.
    + vm_compute. reflexivity.
    + exists r, s'. split; [exact E|rewrite V; reflexivity].
  - destruct (C09_overflow_partial 10 (s2l "4294967296") (s2l "4294967296") s) as [bp E].
    + constructor.
    + repeat constructor; eexists; (split; [reflexivity|vm_compute; reflexivity]).
    + discriminate.
    + rewrite B. vm_compute. reflexivity.
    + vm_compute. discriminate.
    + discriminate.
    + eexists. exact E.
  - destruct (C09_refused (s2l "129Q") s) as (m & bp & E).
    + discriminate.
    + apply F. repeat constructor.
    + intros c q H. injection H as <- _. reflexivity.
    + assert (X : forall b a c e, written b a (s2l "129Q") -> digits b a -> In c a -> digit c = Some e -> e < b).
      { intros b a c e _ D I Hd. apply (F _ _ D) in I. destruct I as (v & Hv & L). congruence. }
      assert (L : forall (d : list ascii) x, d ++ [x] = s2l "129Q" -> d = s2l "129" /\ x = "Q"%char).
      { intros d x H. apply (app_inj_tail d (s2l "129") x "Q"%char). exact H. }
      intros b d W D. inversion W as [d0 Eb Ed H|d0 h _ Hh Eb Ed H|d0 x Hx Eb Ed H|d0 Eb Ed H|d0 x Hx Eb Ed H|d0 x Hx Eb Ed H|d0 x Hx Eb Ed H|d0 Eb Ed H]; subst; exfalso.
      * apply L in H. destruct H as [-> ->]. destruct Hh as [Hh|Hh]; discriminate Hh.
      * apply L in H. destruct H as [-> ->]. destruct Hx as [Hx|Hx]; discriminate Hx.
      * apply L in H. destruct H as [-> ->].
        pose proof (X 8 (s2l "129") "9"%char 9 W D (or_intror (or_intror (or_introl eq_refl))) eq_refl) as K.
        discriminate K.
      * apply F with (c := "Q"%char) in D; [destruct D as (v & Hv & _); discriminate Hv|].
        right. right. right. left. reflexivity.
    + rewrite B. vm_compute. reflexivity.
    + eexists _, _. exact E.
Qed.

(** C10.  The value of a quoted constant of at most 64 bits, as a 64-bit word. *)
Theorem C10_value : forall q l cs s, q = "'"%char \/ q = """"%char -> Forall (within q) l ->
  s.(ct).(bufferpos) + 2 * zlen (quoted q l) + 6 < 4000 ->
  map meaning l = map Some cs -> packed cs < 2 ^ 64 ->
  exists r s', parse (quoted q l) s = (Ok r, s') /\ r.(r_type) = TAbs /\ r.(r_flags) = lf0 /\
    - 2 ^ 63 <= r.(r_value) < 2 ^ 63 /\ r.(r_value) mod 2 ^ 64 = packed cs.
Proof. exact quoted_value. Qed.
Print Assumptions C10_value.

(** C10.  A longer one is an error. *)
Theorem C10_overflow : forall q l cs s, q = "'"%char \/ q = """"%char -> Forall (within q) l ->
  s.(ct).(bufferpos) + 2 * zlen (quoted q l) + 6 < 4000 ->
  map meaning l = map Some cs -> 2 ^ 64 <= packed cs ->
  exists bp, parse (quoted q l) s = err "overflow" (set_ct (set_bufferpos bp s.(ct)) s).
Proof. exact quoted_overflow. Qed.
Print Assumptions C10_overflow.

(** C10.  Unknown escape sequences and characters outside printable ASCII are errors. *)
Theorem C10_unknown : forall q l s, q = "'"%char \/ q = """"%char -> Forall (within q) l ->
  s.(ct).(bufferpos) + 2 * zlen (quoted q l) + 6 < 4000 ->
  Exists (fun p => meaning p = None) l ->
  exists m bp, parse (quoted q l) s = err m (set_ct (set_bufferpos bp s.(ct)) s).
Proof. exact quoted_bad. Qed.
Print Assumptions C10_unknown.

(** C10.  An unterminated constant is an error.  Missing: those with operator characters or
    backslashes inside. *)
Theorem C10_unterminated_partial : forall q u s, q = "'"%char \/ q = """"%char -> ~ In q u ->
  (forall c, In c u -> ~ In c (s2l "\+-*/|&^<>~(){}")) -> s.(ct).(bufferpos) + zlen (q :: u) + 3 < 4000 ->
  exists m, parse (q :: u) s = err m s.
Proof. exact quoted_unclosed. Qed.
Print Assumptions C10_unterminated_partial.

Example C10_case : forall s, s.(ct).(bufferpos) = 0 ->
  (exists r s', parse (s2l "'a\n+\\'") s = (Ok r, s') /\
     r.(r_value) = 97 * 16777216 + 10 * 65536 + 43 * 256 + 92) /\
  (exists s', parse (s2l """012345678""") s = err "overflow" s') /\
  (exists m s', parse (s2l "'\q'") s = err m s') /\
  (exists m, parse (s2l "'ab") s = err m s).
Proof.
  intros s B. split; [|split; [|split]].
  - destruct (C10_value "'" [Char "a"; Esc "n"; Char "+"; Esc "\"]%char [97; 10; 43; 92] s)
      as (r & s' & E & _ & _ & G & V).
    + left; reflexivity.
    + repeat constructor; discriminate.
    + rewrite B. vm_compute. reflexivity.
    + reflexivity.
    + vm_compute. reflexivity.
    + exists r, s'. split; [exact E|]. rewrite (word_small _ _ G V); [reflexivity|vm_compute; reflexivity].
  - destruct (C10_overflow """" (map Char (s2l "012345678")) (map code (s2l "012345678")) s) as [bp E].
    + right; reflexivity.
    + repeat constructor; discriminate.
    + rewrite B. vm_compute. reflexivity.
    + reflexivity.
    + vm_compute. discriminate.
    + eexists. exact E.
  - destruct (C10_unknown "'" [Esc "q"%char] s) as (m & bp & E).
    + left; reflexivity.
    + repeat constructor.
    + rewrite B. vm_compute. reflexivity.
    + left. reflexivity.
    + eexists _, _. exact E.
  - apply (C10_unterminated_partial "'" (s2l "ab")).
    + left; reflexivity.
    + cbn. intuition discriminate.
    + intros c Hc. assert (K : c = "a"%char \/ c = "b"%char) by (cbn in Hc; intuition).
      destruct K; subst; cbn; intuition discriminate.
    + rewrite B. vm_compute. reflexivity.
Qed.
