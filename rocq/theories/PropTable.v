(** Property C47: the listing of the symbols. *)
From Coq Require Import String Ascii ZArith List Bool Lia ZifyBool Sorting.Sorted.
From Verif Require Import Base State Tree Label Output Xref Crasm.
From Verif Require Import SpecTable TableFacts Witness.
Import ListNotations.
Open Scope Z_scope.

(** ** C47 *)
(** The listing that [xref] prints after any assembly consists of one entry for each symbol
    of the final table that is [listed], in alphabetical order, side by side as many as fit
    into the page width, interrupted only by empty lines and page heads.

    Missing: page widths of at most 61 columns, for which the program stops instead; names
    with blanks or control characters, which are possible for labels that stand alone on
    their line; and the symbols that are not [listed]: see the refutations. *)
Theorem C47_partial : forall n o fs text s u s',
  assemble n o (init_state fs text) = (Ok tt, s) -> xref s = (Ok u, s') ->
  61 < s.(ls).(llen) -> (forall k l, tfind k s.(sy) = Some l -> listed k l -> tame s.(fl) (k, l)) ->
  exists t, pieces s'.(ls).(stdout) = pieces s.(ls).(stdout) ++ t /\ symbol_listing s t.
Proof. exact run_listing. Qed.
Print Assumptions C47_partial.

(** The hypotheses hold of a program with three symbols that are defined out of order. *)
Example C47_applies : let s := snd (final ["* = 0"; "beta = 2"; "alpha = beta"; " db gamma"; "gamma = 7"]%string) in
  fst (final ["* = 0"; "beta = 2"; "alpha = beta"; " db gamma"; "gamma = 7"]%string) = Ok tt /\
  fst (xref s) = Ok tt /\ 61 < s.(ls).(llen) /\
  (forall k l, tfind k s.(sy) = Some l -> listed k l -> tame s.(fl) (k, l)) /\
  map (fun k => match tfind (s2l k) s.(sy) with Some l => entry_text s.(fl) (s2l k, l) | None => [] end) ["ALPHA"; "BETA"; "GAMMA"]%string =
  map s2l ["?00000002 AbsALPHA                                           ";
           " 00000002 AbsBETA                                            ";
           "^00000007 AbsGAMMA                                           "]%string.
Proof.
  intros s. assert (C : forallb (fun kl => hidden (fst kl) (snd kl) || tameb (fl s) kl) (telems (sy s)) = true) by (vm_compute; reflexivity).
  split; [vm_compute; reflexivity|]. split; [vm_compute; reflexivity|]. split; [vm_compute; reflexivity|].
  split; [exact (tame_check _ _ C)|]. vm_compute. reflexivity.
Qed.

(** In general the property fails.  A local symbol, although defined by the program, is not
    listed: its name is nowhere in the listing. *)
Theorem C47_refuted : exists text s l s', final text = (Ok tt, s) /\ s.(ct).(errnumber) = 0 /\
  tfind (s2l "0.A") s.(sy) = Some l /\ l.(l_table) = TUser /\ l.(l_flags).(f_undef) = false /\ l.(l_value) = 5 /\
  xref s = (Ok tt, s') /\
  forall t, pieces s'.(ls).(stdout) = pieces s.(ls).(stdout) ++ t -> ~ In "A"%char t.
Proof.
  set (s := snd (final ["* = 0"; " db 1"; ".a = 5"]%string)). set (s' := snd (xref s)).
  exists ["* = 0"; " db 1"; ".a = 5"]%string, s, (mkLabel (mkLF false false false false false false false false) TAbs 0 PNull 5 TUser), s'.
  split; [vm_compute; reflexivity|]. split; [vm_compute; reflexivity|]. split; [vm_compute; reflexivity|].
  split; [reflexivity|]. split; [reflexivity|]. split; [reflexivity|]. split; [vm_compute; reflexivity|].
  assert (K : existsb (Ascii.eqb "A"%char) (skipn (List.length (pieces (stdout (ls s)))) (pieces (stdout (ls s')))) = false) by (vm_compute; reflexivity).
  intros t E I. rewrite E, skipn_app, Nat.sub_diag, skipn_all in K. cbn [app skipn] in K.
  enough (X : existsb (Ascii.eqb "A"%char) t = true) by congruence. apply existsb_exists. exists "A"%char. split; [exact I|reflexivity].
Qed.
Print Assumptions C47_refuted.

(** When the program asks for lines of 61 columns, there is no listing at all. *)
Theorem C47_narrow_refuted : exists text s s', final text = (Ok tt, s) /\ s.(ct).(errnumber) = 0 /\
  s.(ls).(llen) = 61 /\ xref s = (Bad (Exit (s2l "line length must be greater")), s').
Proof.
  set (s := snd (final [" page 66,61"; "a = 1"]%string)).
  exists [" page 66,61"; "a = 1"]%string, s, (snd (xref s)). vm_compute. repeat split.
Qed.
Print Assumptions C47_narrow_refuted.
