(** Property C44: the choice of the processor. *)
From Coq Require Import String Ascii ZArith List Bool.
From Verif Require Import Base State Tree Output Label Tables Pseudos Macro Crasm Witness SpecForms SpecCpu SpecChoice ChoiceFacts.
Import ListNotations.
Open Scope Z_scope.

(** C44: after CPU [p] every instruction [n] of [p], in any case, is known unless the table has
    another symbol of that name; if there was none its meaning is that of the vocabulary.
    Missing: the other symbol may be an instruction of another processor ([C44_refuted]). *)
Theorem C44_usable_partial : forall p t s s' n m, spells (t_ (called p)) t -> Xcpu (Some t) s = (Ok tt, s') ->
  In n (repertoire p) -> spells (t_ n) m -> unshadowed p n s ->
  exists l, findmnemo m s' = (Ok (Some (identifier n, l)), s') /\ l.(l_type) = TMnemo /\ l.(l_table) = home p n /\
    (tfind (identifier n) s.(sy) = None -> In (n, l) (vocabulary p)) /\
    (forall l0, tfind (identifier n) s.(sy) = Some l0 -> l.(l_ptr) = l0.(l_ptr) /\ l.(l_modifier) = l0.(l_modifier)).
Proof. exact selected_usable. Qed.
Print Assumptions C44_usable_partial.

Definition fresh : state := init_state nofiles [].
Definition found (m : string) (r : res unit * state) : option (ltype * lptr) :=
  match findmnemo (s2l m) (snd r) with (Ok (Some (_, l)), _) => Some (l.(l_type), l.(l_ptr)) | _ => None end.
Example C44_applies : fst (Xcpu (Some (s2l "65c02")) fresh) = Ok tt /\
  found "sTz" (Xcpu (Some (s2l "65c02")) fresh) = Some (TMnemo, PFun H65Std) /\
  found "Jmp" (Xcpu (Some (s2l "65c02")) fresh) = Some (TMnemo, PFun H65Std) /\
  found "stz" (Xcpu (Some (s2l "6502")) fresh) = None /\ In "stz"%string (repertoire P65C02).
Proof. repeat split; try (vm_compute; reflexivity). apply listed_in. vm_compute. reflexivity. Qed.

(** In the second pass a CPU directive that is accepted makes all those that follow fail: after
    any instruction, and after any number of lines. *)
Theorem C44_once_partial : forall o s s1, Xcpu o s = (Ok tt, s1) -> passnumber (ct s) = 2 ->
  (forall n k li ex o2, let s2 := snd (run n k li ex s1) in
     Xcpu o2 s2 = error (s2l (match o2 with None => "Need CPU name" | Some _ => "One CPU only!" end)) s2) /\
  (forall n o2, let s2 := snd (passloop n s1) in
     Xcpu o2 s2 = error (s2l (match o2 with None => "Need CPU name" | Some _ => "One CPU only!" end)) s2).
Proof. exact cpu_twice. Qed.
Print Assumptions C44_once_partial.
Definition second : state := set_ct (set_passnumber 2 fresh.(ct)) fresh.
Example C44_once_applies : fst (Xcpu (Some (s2l "6800")) second) = Ok tt /\ passnumber (ct second) = 2.
Proof. vm_compute. repeat split. Qed.

(** The property fails: the first pass chooses the Z80 and the second the 6502, whose INC is
    then hidden by that of the Z80, which is not known either. *)
Definition switched : list string :=
  ["* = 0"; "a = b"; " if a"; " cpu 6502"; " else"; " cpu z80"; " endc"; " inc 5"; "b = 1"]%string.
Definition reports2 (s : state) : list (Z * string) :=
  map (fun r => (rp_line r, string_of_list_ascii (rp_text r))) (filter (fun r => rp_pass r =? 2) s.(reported)).
Theorem C44_refuted : exists main, main = switched /\ In "inc"%string (repertoire P6502) /\
  fst (final main) = Ok tt /\ reports2 (snd (final main)) = [(8, "unknown macro or mnemonic"%string)] /\
  found "lda" (final main) = Some (TMnemo, PFun H65Std) /\ found "inc" (final main) = None.
Proof. exists switched. split; [reflexivity|]. split; [apply listed_in; vm_compute; reflexivity|]. vm_compute. repeat split. Qed.
Print Assumptions C44_refuted.
