(** Properties C50 and C51: the instructions of the processors are accepted. *)
From Coq Require Import String Ascii ZArith List Bool.
From Verif Require Import Base State Label Parse Tables Cpu6800 Cpu6502 Crasm SpecEmit SpecForms SpecCpu CpuFacts Cpu65Facts SpecAccept AcceptFacts PropCpu Witness.
Import ListNotations.
Open Scope Z_scope.

(** C50: every instruction of the 6800 and, with [x], of the 6801 is in the table, and once an origin
    is given it is refused only when its operand is in error, is not a number or does not fit. *)
Theorem C50_accepted : forall x n o s P, s.(fl).(a_org_gv) = true -> allowed68 (sheet68 x) n s o P ->
  (exists l, In (n, l) (if x : bool then m6800 ++ m6801 else m6800)) /\
  forall l, In (n, l) (if x : bool then m6800 ++ m6801 else m6800) -> exists h, l.(l_ptr) = PFun h /\
    forall lb e s', exec h l.(l_modifier) lb o s = (Bad (Err e), s') -> P.
Proof. exact inst68_accept. Qed.
Print Assumptions C50_accepted.

Lemma fits_300x : first_fit (s2l "300,x") forms68 WIndexed (s2l "300").
Proof.
  misses "#_?"%string. misses ",_x"%string. apply ff_here.
  apply (fit_free [] (t_ "_,_x") [] (s2l "300") (s2l ",x")); [constructor| |reflexivity].
  apply (sp_blanks (t_ ",_x") [] (s2l ",x")); [constructor|]. apply sp_char; [discriminate|reflexivity|].
  apply (sp_blanks (t_ "x") [] (s2l "x")); [constructor|]. apply sp_char; [discriminate|reflexivity|constructor].
Qed.

Example C50_case :
  (ready false 0 0).(fl).(a_org_gv) = true /\
  (exists P, allowed68 (sheet68 false) "ldaa" (ready false 0 0) (Some (s2l "255")) P) /\
  (exists P, allowed68 (sheet68 false) "ldaa" (ready false 0 0) (Some (s2l "300,x")) P) /\
  allowed68 (sheet68 false) "nop" (ready false 0 0) None False /\
  bytes (exec H68Std 134 None (Some (s2l "255"))) (ready false 0 0) = (Ok tt, [0x96; 255]) /\
  fst (bytes (exec H68Std 134 None (Some (s2l "300,x"))) (ready false 0 0)) = Bad (Err (s2l "too long displacement")) /\
  fst (bytes (exec H68Std 134 None (Some (s2l "1+"))) (ready false 0 0)) <> Ok tt.
Proof.
  split; [reflexivity|].
  split; [eexists; apply (a68_other _ _ _ WAddress Direct 0x96 _ (s2l "255")); [right; reflexivity|left; reflexivity|apply in68_in; vm_compute; reflexivity|exact fits_255]|].
  split; [eexists; apply (a68_indexed _ _ _ 0xA6 _ (s2l "300")); [apply in68_in; vm_compute; reflexivity|exact fits_300x]|].
  split; [apply (a68_none _ _ _ 0x01); apply in68_in; vm_compute; reflexivity|].
  split; [vm_compute; reflexivity|]. split; [vm_compute; reflexivity|]. vm_compute. discriminate.
Qed.

(** C51: the same for the 6500, the 6502 and the 65C02. *)
Theorem C51_accepted : forall c n o s P, s.(fl).(a_org_gv) = true -> selected c s -> allowed65 (sheet65 c) n s o P ->
  (exists l, In (n, l) (match c with C65C02 => m6502 ++ m65c02 | _ => m6502 end)) /\
  forall l, In (n, l) (match c with C65C02 => m6502 ++ m65c02 | _ => m6502 end) -> exists h, l.(l_ptr) = PFun h /\
    forall lb e s', exec h l.(l_modifier) lb o s = (Bad (Err e), s') -> P.
Proof. exact inst65_accept. Qed.
Print Assumptions C51_accepted.

Lemma fits_256y : first_fit (s2l "256,y") forms65 WY (s2l "256").
Proof.
  misses "(_?_,_X_)"%string. misses "@_?_,_X"%string. misses "(_?_)_,_Y"%string. misses "@_?_,_Y"%string. misses "(_?_)"%string.
  misses "@_?"%string. misses "_"%string. misses "#_?"%string. misses "?_,_X"%string. apply ff_here.
  apply (fit_free [] (t_ "_,_Y") [] (s2l "256") (s2l ",y")); [constructor| |reflexivity].
  apply (sp_blanks (t_ ",_Y") [] (s2l ",y")); [constructor|]. apply sp_char; [discriminate|reflexivity|].
  apply (sp_blanks (t_ "Y") [] (s2l "y")); [constructor|]. apply sp_char; [discriminate|reflexivity|constructor].
Qed.

Example C51_case :
  (ready true 1 0).(fl).(a_org_gv) = true /\ selected C6502 (ready true 1 0) /\
  (exists P, allowed65 (sheet65 C6502) "lda" (ready true 1 0) (Some (s2l "256,x")) P) /\
  (exists P, allowed65 (sheet65 C6502) "stx" (ready true 1 0) (Some (s2l "256,y")) P) /\
  allowed65 (sheet65 C6502) "asl" (ready true 1 0) None False /\
  bytes (exec H65Std 160 None (Some (s2l "256,x"))) (ready true 1 0) = (Ok tt, [0xBD; 0; 1]).
Proof.
  split; [reflexivity|]. split; [reflexivity|].
  split; [eexists; apply (a65_long _ _ _ WX AbsX 0xBD _ (s2l "256")); [reflexivity|apply in65_in; vm_compute; reflexivity|exact fits_256]|].
  split; [eexists; apply (a65_short _ _ _ WY ZpY 0x96 _ (s2l "256")); [reflexivity|apply in65_in; vm_compute; reflexivity|exact fits_256y]|].
  split; [apply (a65_acc _ _ _ 0x0A); apply in65_in; vm_compute; reflexivity|].
  vm_compute. reflexivity.
Qed.
