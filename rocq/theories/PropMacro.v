(** Properties C53 and C54: macro definitions and macro calls. *)
From Coq Require Import String Ascii ZArith List Bool.
From Verif Require Import Base State Tree Label Tables Macro Crasm SpecForms SpecMacro MacroFacts InputFacts Witness.
From Verif Require SpecSplit SpecInput.
Import ListNotations.
Open Scope Z_scope.

(** A state about to read the given lines of the main file. *)
Definition reading (lines : list string) : state :=
  let s := init_state nofiles [] in set_inp (set_mainrest (src lines) s.(inp)) s.

(** C53: a definition in the main file takes the lines up to the first one with ENDM, which must
    stand alone there; they become the text of the symbol, without their comments.  Nothing else
    changes but the listing. *)
Theorem C53_definition : forall n li label oper s f s', s.(inp).(srcs) = [] -> ~ In SpecInput.nul s.(inp).(mainrest) ->
  Xmacro n li true label oper s = (Ok f, s') ->
  let k := lkey s.(inp).(segment) (firstn LABLEN label) in
  f = FNone /\
  exists ps rest ls c l, lines_of s.(inp).(mainrest) ps rest ls /\ body ls /\
    s'.(inp) = set_mainrest rest (set_maineof false (set_linenumber (s.(inp).(linenumber) + Z.of_nat (List.length ps)) (set_curline c s.(inp)))) /\
    tfind k s'.(sy) = Some l /\ l.(l_type) = TMacro /\ l.(l_ptr) = PMac ls /\ l.(l_flags).(f_undef) = false /\
    (forall k', k' <> k -> tfind k' s'.(sy) = tfind k' s.(sy)) /\
    s'.(fl) = s.(fl) /\ s'.(wr) = s.(wr) /\ s'.(emitted) = s.(emitted) /\ s'.(reported) = s.(reported) /\ s'.(cp) = s.(cp).
Proof. exact macro_defined. Qed.
Print Assumptions C53_definition.

Example C53_definition_case :
  let s := reading [" db ';',\1 ; data"; "; only this"; " EndM ; done"; " nop"]%string in
  let r := Xmacro 9 false true (s2l "m") None s in
  s.(inp).(srcs) = [] /\ ~ In SpecInput.nul s.(inp).(mainrest) /\ fst r = Ok FNone /\
  (snd r).(inp).(mainrest) = src [" nop"]%string /\ (snd r).(inp).(linenumber) = s.(inp).(linenumber) + 3 /\
  option_map l_ptr (tfind (s2l "M") (snd r).(sy)) = Some (PMac (map s2l [" db ';',\1"; ""; " EndM"]%string)).
Proof. vm_compute. repeat split. intuition discriminate. Qed.

(** One would expect that a line that is not ENDM never ends a definition.  It does if it contains
    the letters ENDM in another word: the definition is then in error. *)
Theorem C53_another_word_refuted : exists lines init last,
  map s2l lines = init ++ [last] /\ SpecSplit.keyword (s2l "ENDM") last /\
  Forall (fun l => ~ SpecSplit.keyword (s2l "ENDM") l) init /\
  fst (Xmacro 9 false true (s2l "m") None (reading lines)) = Bad (Err (s2l "illegal ENDM instruction")).
Proof.
  exists ["endmark nop"; "endm"]%string, [s2l "endmark nop"], (s2l "endm").
  split; [reflexivity|]. split; [exists [], (s2l "endm"), []; repeat split; constructor|].
  split; [|vm_compute; reflexivity]. constructor; [|constructor]. exact another_word.
Qed.
Print Assumptions C53_another_word_refuted.

(** C54: a call that comes to its end leaves the source of the call as it was: the files being
    read, the unread text of the main file, the line number, the prefix, the scope of local
    symbols and the listing switch. *)
Theorem C54_call : forall n key ptr li o s u s',
  macrocall (run n) key ptr li o s = (Ok u, s') ->
  s'.(inp).(srcs) = s.(inp).(srcs) /\ s'.(inp).(mainrest) = s.(inp).(mainrest) /\ s'.(inp).(maineof) = s.(inp).(maineof) /\
  s'.(inp).(linenumber) = s.(inp).(linenumber) /\ s'.(inp).(lineprefix) = s.(inp).(lineprefix) /\
  s'.(inp).(segment) = s.(inp).(segment) /\ s'.(fl).(a_list_on) = s.(fl).(a_list_on).
Proof. exact call_returns. Qed.
Print Assumptions C54_call.

Example C54_call_case :
  let s := snd (init_label_list pseudos (reading ["x"]%string)) in
  let r := macrocall (run 9) (s2l "M") (PMac (map s2l ["\1"; " endm"]%string)) true (Some (s2l "; a")) s in
  fst r = Ok tt /\ (snd r).(inp).(mainrest) = src ["x"]%string /\ (snd r).(inp).(thiscall) <> s.(inp).(thiscall).
Proof. vm_compute. repeat split. discriminate. Qed.
