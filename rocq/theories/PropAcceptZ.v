(** Property C52: the instructions of the Z80 are accepted. *)
From Coq Require Import String Ascii ZArith List Bool.
From Verif Require Import Base State Label Parse Tables Cpu6502 Cpu6800 CpuZ80 Crasm SpecEmit SpecForms SpecCpu SpecZ80 SpecAcceptZ Z80Facts Z80Inst AcceptZFacts PropCpu PropZ80 Witness.
From Verif Require SpecSplit.
Import ListNotations.
Open Scope Z_scope.

(** C52: once an origin is given, an instruction of the table is refused only for one of the reasons
    of [refusable]: operands in error, operands the manual does not list, jumps that are too far. *)
Theorem C52_accepted : forall n l h, In (n, l) mz80 -> l.(l_ptr) = PFun h ->
  forall lb o s e s', named s -> s.(fl).(a_org_gv) = true -> exec h l.(l_modifier) lb o s = (Bad (Err e), s') -> refusable s n o.
Proof. exact inst_z80_refused. Qed.
Print Assumptions C52_accepted.

(** Every instruction of the manual is in the table. *)
Theorem C52_listed : forall a n ops bs, zilog a n ops = Some bs -> exists l h, In (n, l) mz80 /\ l.(l_ptr) = PFun h.
Proof. exact zilog_listed. Qed.
Print Assumptions C52_listed.

(** There is no reason to refuse an instruction without operands. *)
Theorem C52_plain : forall n s, In n (map fst plain) -> ~ refusable s n None.
Proof. exact plain_accepted. Qed.
Print Assumptions C52_plain.

Example C52_case :
  In (mn TZ80 "ld" HZLd 0) mz80 /\ named (zready 0) /\ (zready 0).(fl).(a_org_gv) = true /\
  zilog 0 "ld" [Reg rA; Idx true 3] = Some [0xFD; 0x7E; 3] /\
  bytes (exec HZLd 0 None (Some (s2l "a,(iy+3)"))) (zready 0) = (Ok tt, [0xFD; 0x7E; 3]) /\
  zilog 0 "ld" [Ind rHL; Ind rHL] = None /\
  fst (bytes (exec HZLd 0 None (Some (s2l "(hl),(hl)"))) (zready 0)) = Bad (Err (s2l "illegal addressing mode")) /\
  zilog 0 "jr" [Cond 4; Num 0] = None /\
  fst (bytes (exec HZJr 0 None (Some (s2l "po,0"))) (zready 0)) = Bad (Err (s2l "Bad condition code")) /\
  fst (bytes (exec HZInout 219 None (Some (s2l "a,5"))) (zready 0)) = Bad (Err (s2l "illegal addressing mode")) /\
  In "exx"%string (map fst plain).
Proof.
  split; [apply (nth_error_In _ 83); reflexivity|].
  split; [apply named_ready; [intros k l F; discriminate F|vm_compute; reflexivity]|]. vm_compute. repeat split. auto 20.
Qed.
