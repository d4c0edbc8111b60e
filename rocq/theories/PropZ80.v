(** Properties C19 and C22: instructions of the Z80. *)
From Coq Require Import String Ascii ZArith List Bool.
From Verif Require Import Base State Label Parse Tables Cpu6502 Cpu6800 CpuZ80 Crasm SpecEmit SpecForms SpecCpu SpecZ80 Z80Facts Z80Inst PropCpu Witness.
From Verif Require SpecSplit.
Import ListNotations.
Open Scope Z_scope.

(** The state after CPU Z80, at address [a]. *)
Definition zready (a : Z) : state := snd (initz80 0 (ready false 0 a)).

(** C19: JR, with or without condition, takes two bytes, and the second one leads from the address
    behind the instruction to the operand. *)
Theorem C19_jr : forall m lb o s u s', pc_range s -> exec HZJr m lb o s = (Ok u, s') ->
  exists t v c d, (t = given o \/ exists a, SpecSplit.first_cut comma (given o) a t) /\ value_z s t v /\ -128 <= d <= 127 /\
    (s.(wr).(pc) + 2 + d) mod 2 ^ 32 = v mod 2 ^ 32 /\ emits [c; d mod 256] s s'.
Proof. exact jr_displaced. Qed.
Print Assumptions C19_jr.

Example C19_jr_case : pc_range (ready true 0 4096) /\
  bytes (exec HZJr 0 None (Some (s2l "nc,$0F82"))) (ready true 0 4096) = (Ok tt, [0x30; 128]) /\
  fst (bytes (exec HZJr 0 None (Some (s2l "nc,$0F81"))) (ready true 0 4096)) = Bad (Err (s2l "too long branch")) /\
  bytes (exec HZJr 0 None (Some (s2l "$1081"))) (ready true 0 4096) = (Ok tt, [0x18; 127]).
Proof. split; [split; [discriminate|reflexivity]|]. vm_compute. repeat split. Qed.

(** C22: every instruction that is accepted is encoded as the manual says, or is one of a few
    kinds.  Missing: that there are no such kinds, which is false (below). *)
Theorem C22_encoding_partial : forall n l h, In (n, l) mz80 -> l.(l_ptr) = PFun h ->
  forall lb o s u s', named s -> pc_range s -> s.(fl).(a_lohi) = true -> exec h l.(l_modifier) lb o s = (Ok u, s') ->
  exists ops bs, operands s n o ops /\ emits bs s s' /\ near s s' /\ (zilog s.(wr).(pc) n ops = Some bs \/ stray s n o ops bs).
Proof. exact inst_z80_good. Qed.
Print Assumptions C22_encoding_partial.

(** The names of the registers. *)
Theorem C22_names : forall n l, In (n, l) mz80 /\ l.(l_type) = TRegs <-> exists r, (n, l) = rg TZ80 (name_of r) (number r).
Proof. exact registers_z80. Qed.
Print Assumptions C22_names.

(** CPU Z80 selects the order low byte first. *)
Theorem C22_order : forall c s u s', initz80 c s = (Ok u, s') -> s'.(fl).(a_lohi) = true.
Proof. exact selects_z80. Qed.
Print Assumptions C22_order.

(** At the start of the run all registers have numbers of the Z80, and the directive CPU keeps it so. *)
Theorem C22_start : forall fs text u s', init_label_list pseudos (init_state fs text) = (Ok u, s') -> named s'.
Proof. exact start_named. Qed.
Print Assumptions C22_start.
Theorem C22_select : forall s u s', named s ->
  (initz80 0 s = (Ok u, s') \/ (exists c, init6502 c s = (Ok u, s')) \/ (exists c, init6800 c s = (Ok u, s'))) -> named s'.
Proof. exact tables_named. Qed.
Print Assumptions C22_select.

Example C22_case : 
  In (mn TZ80 "ld" HZLd 0) mz80 /\ pc_range (zready 0) /\ named (zready 0) /\ (zready 0).(fl).(a_lohi) = true /\
  bytes (exec HZLd 0 None (Some (s2l "(ix+5),66"))) (zready 0) = (Ok tt, [0xDD; 0x36; 5; 66]) /\
  bytes (exec HZLd 0 None (Some (s2l "hl,($1234)"))) (zready 0) = (Ok tt, [0x2A; 0x34; 0x12]) /\
  fst (bytes (exec HZLd 0 None (Some (s2l "(ix+5),(iy+5)"))) (zready 0)) = Bad (Err (s2l "illegal addressing mode")) /\
  bytes (exec HZBitop (s16 52032) None (Some (s2l "7,(iy-1)"))) (zready 0) = (Ok tt, [0xFD; 0xCB; 0xFF; 0x7E]).
Proof.
  split; [apply (nth_error_In _ 83); reflexivity|]. split; [vm_compute; split; [discriminate|reflexivity]|].
  split; [apply named_ready; [intros k l F; discriminate F|vm_compute; reflexivity]|]. vm_compute. repeat split.
Qed.

(** CPDR is ED B9. *)
Theorem C22_cpdr_refuted : exists s c e, In e mz80 /\ e = mn TZ80 "cpdr" HZSimple c /\ zilog 0 "cpdr" [] = Some [0xED; 0xB9] /\
  bytes (exec HZSimple (l_modifier (snd e)) None None) s = (Ok tt, [0xED; 0x89]).
Proof.
  exists (zready 0), 60809, (mn TZ80 "cpdr" HZSimple 60809). split; [apply (nth_error_In _ 19); reflexivity|]. vm_compute. repeat split.
Qed.
Print Assumptions C22_cpdr_refuted.

(** [or bc] is no instruction; it is accepted and is CP B. *)
Theorem C22_operand_refuted : exists s e t, In e mz80 /\ e = mn TZ80 "or" HZLogical 176 /\ t = s2l "bc" /\
  zilog 0 "or" [Reg rBC] = None /\ zilog 0 "cp" [Reg rB] = Some [0xB8] /\
  bytes (exec HZLogical (l_modifier (snd e)) None (Some t)) s = (Ok tt, [0xB8]).
Proof.
  exists (zready 0), (mn TZ80 "or" HZLogical 176), (s2l "bc"). split; [apply (nth_error_In _ 71); reflexivity|]. vm_compute. repeat split.
Qed.
Print Assumptions C22_operand_refuted.

(** Neither is [add a,a,b]; it is accepted and is ADD A,B. *)
Theorem C22_triple_refuted : exists s e t, In e mz80 /\ e = mn TZ80 "add" HZArith 128 /\ t = s2l "a,a,b" /\
  zilog 0 "add" [Reg rA; Reg rA; Reg rB] = None /\ bytes (exec HZArith (l_modifier (snd e)) None (Some t)) s = (Ok tt, [0x80]).
Proof.
  exists (zready 0), (mn TZ80 "add" HZArith 128), (s2l "a,a,b"). split; [apply (nth_error_In _ 80); reflexivity|]. vm_compute. repeat split.
Qed.
Print Assumptions C22_triple_refuted.
