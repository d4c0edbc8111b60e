(** Properties C19 to C21 and C23: instructions of the 6800 and 6502 families. *)
From Coq Require Import String Ascii ZArith List Bool.
From Verif Require Import Base State Label Parse Tables Cpu6800 Cpu6502 Crasm SpecEmit SpecForms SpecCpu CpuFacts Cpu65Facts Witness.
Import ListNotations.
Open Scope Z_scope.

(** A state in which bytes can be stored, at address [a]. *)
Definition ready (lohi : bool) (cpu a : Z) : state :=
  let s := init_state nofiles [] in
  set_wr (set_pc a s.(wr)) (set_cp (set_cpuflag cpu s.(cp)) (set_fl (set_a_lohi lohi (set_a_org_gv true s.(fl))) s)).
Definition bytes (m : M unit) (s : state) : res unit * list Z := (fst (m s), map em_byte (rev (snd (m s)).(emitted))).

(** C19: a relative branch takes two bytes, and the second one leads from the address behind the
    instruction to the operand. *)
Theorem C19_branch : forall h c lb o s u s', h = H68Branch \/ h = H65Branch \/ h = HZRelbranch -> pc_range s ->
  exec h c lb o s = (Ok u, s') -> exists d, displaced s (given o) [d] /\ emits [c mod 256; d] s s'.
Proof. exact branches. Qed.
Print Assumptions C19_branch.

Example C19_case : pc_range (ready true 1 4096) /\
  bytes (exec H65Branch 208 None (Some (s2l "$0F82"))) (ready true 1 4096) = (Ok tt, [208; 128]) /\
  bytes (exec H65Branch 208 None (Some (s2l "$0F81"))) (ready true 1 4096) = (Bad (Err (s2l "too long branch")), [208; 127]) /\
  bytes (exec H65Branch 208 None (Some (s2l "$1081"))) (ready true 1 4096) = (Ok tt, [208; 127]).
Proof. split; [split; [discriminate|reflexivity]|]. vm_compute. repeat split. Qed.

(** C20: every instruction of the 6800 and, with [x], of the 6801 that is accepted is encoded as
    the data sheet says. *)
Theorem C20_encoding : forall x n l h lb o s u s', In (n, l) (if x : bool then m6800 ++ m6801 else m6800) -> l.(l_ptr) = PFun h ->
  pc_range s -> s.(fl).(a_lohi) = false -> exec h l.(l_modifier) lb o s = (Ok u, s') ->
  exists m op bs, In (n, m, op) (sheet68 x) /\ operand68 s o (has_direct x n) m bs /\ emits (op :: bs) s s' /\ same s s'.
Proof. exact inst68_good. Qed.
Print Assumptions C20_encoding.

(** CPU 6800 and CPU 6801 select the order high byte first. *)
Theorem C20_order : forall c s u s', init6800 c s = (Ok u, s') -> s'.(fl).(a_lohi) = false.
Proof. exact selects68. Qed.
Print Assumptions C20_order.

Example C20_case :
  In (mn T6800 "ldx" H68Std 206) m6800 /\ pc_range (ready false 0 0) /\
  bytes (exec H68Std 206 None (Some (s2l "#$1234"))) (ready false 0 0) = (Ok tt, [0xCE; 0x12; 0x34]) /\
  bytes (exec H68Std 206 None (Some (s2l "$34"))) (ready false 0 0) = (Ok tt, [0xDE; 0x34]) /\
  bytes (exec H68Std 206 None (Some (s2l "3 , x"))) (ready false 0 0) = (Ok tt, [0xEE; 3]) /\
  bytes (exec H68Std 206 None (Some (s2l "$1234"))) (ready false 0 0) = (Ok tt, [0xFE; 0x12; 0x34]) /\
  fst (init6800 0 (ready true 0 0)) = Ok tt.
Proof. split; [apply (nth_error_In _ 105); reflexivity|]. split; [split; [discriminate|reflexivity]|]. vm_compute. repeat split. Qed.

(** C21: every instruction of the 6502 family that is accepted is encoded as the data sheet of the
    selected processor says, or is one of a short list.  Missing: that the list is empty, which is
    false (below). *)
Theorem C21_encoding_partial : forall c n l h lb o s u s',
  In (n, l) (match c with C65C02 => m6502 ++ m65c02 | _ => m6502 end) -> l.(l_ptr) = PFun h -> selected c s ->
  pc_range s -> s.(fl).(a_lohi) = true -> exec h l.(l_modifier) lb o s = (Ok u, s') ->
  exists m op bs, (In (n, m, op) (sheet65 c) \/ In (n, m, op) (strays65 c)) /\
    operand65 s o (has_mode c n) m bs /\ emits (op :: bs) s s' /\ same s s'.
Proof. exact inst65_good. Qed.
Print Assumptions C21_encoding_partial.

(** CPU 6500, 6502 and 65C02 select the processor and the order low byte first. *)
Theorem C21_selected : forall c s u s', init6502 (match c with C6500 => 0 | C6502 => 1 | C65C02 => 2 end) s = (Ok u, s') ->
  selected c s' /\ s'.(fl).(a_lohi) = true.
Proof. exact selects65. Qed.
Print Assumptions C21_selected.

Example C21_case :
  In (mn T6502 "lda" H65Std 160) m6502 /\ pc_range (ready true 1 0) /\ selected C6502 (ready true 1 0) /\
  bytes (exec H65Std 160 None (Some (s2l "#$12"))) (ready true 1 0) = (Ok tt, [0xA9; 0x12]) /\
  bytes (exec H65Std 160 None (Some (s2l "($12),y"))) (ready true 1 0) = (Ok tt, [0xB1; 0x12]) /\
  bytes (exec H65Std 160 None (Some (s2l "$12,y"))) (ready true 1 0) = (Ok tt, [0xB9; 0x12; 0]) /\
  fst (bytes (exec H65Std 160 None (Some (s2l "($12)"))) (ready true 1 0)) = Bad (Err (s2l "illegal use of 65C02 addressing mode")) /\
  bytes (exec H65Std 160 None (Some (s2l "($12)"))) (ready true 2 0) = (Ok tt, [0xB2; 0x12]) /\
  fst (init6502 1 (ready true 0 0)) = Ok tt.
Proof. split; [apply (nth_error_In _ 42); reflexivity|]. split; [split; [discriminate|reflexivity]|]. vm_compute. repeat split. Qed.

(** The first 6500 processors have no ROR, and no 6502 has BIT with an index; both are accepted. *)
Theorem C21_ror_refuted : exists e t s, e = mn T6502 "ror" H65Std 37216 /\ In e m6502 /\ selected C6500 s /\
  (forall m op, ~ In ("ror"%string, m, op) (sheet65 C6500)) /\
  bytes (exec H65Std (l_modifier (snd e)) None (Some t)) s = (Ok tt, [0x66; 0x12]).
Proof.
  exists (mn T6502 "ror" H65Std 37216), (s2l "$12"), (ready true 0 0). split; [reflexivity|]. split; [apply (nth_error_In _ 48); reflexivity|].
  split; [reflexivity|]. split; [absent name_in|]. vm_compute. reflexivity.
Qed.
Print Assumptions C21_ror_refuted.

Theorem C21_bit_refuted : exists e t s, e = mn T6502 "bit" H65Std 8990 /\ In e m6502 /\ selected C6502 s /\
  (forall op, ~ In ("bit"%string, ZpX, op) (sheet65 C6502)) /\
  bytes (exec H65Std (l_modifier (snd e)) None (Some t)) s = (Ok tt, [0x34; 0x12]).
Proof.
  exists (mn T6502 "bit" H65Std 8990), (s2l "$12,x"), (ready true 1 0). split; [reflexivity|]. split; [apply (nth_error_In _ 56); reflexivity|].
  split; [reflexivity|]. split; [absent has65_in|]. vm_compute. reflexivity.
Qed.
Print Assumptions C21_bit_refuted.

(** [ldx a] is no instruction of any of them; it is accepted and is TAX. *)
Theorem C21_register_refuted : exists e t s, e = mn T6502 "ldx" H65Std 24992 /\ In e m6502 /\ selected C65C02 s /\
  (forall op, ~ In ("ldx"%string, Acc, op) (sheet65 C65C02)) /\ In ("tax"%string, Implied, 0xAA) (sheet65 C65C02) /\
  bytes (exec H65Std (l_modifier (snd e)) None (Some t)) s = (Ok tt, [0xAA]).
Proof.
  exists (mn T6502 "ldx" H65Std 24992), (s2l "a"), (snd (init_label_list [rg T6502 "a" 0] (ready true 2 0))).
  split; [reflexivity|]. split; [apply (nth_error_In _ 49); reflexivity|]. split; [reflexivity|].
  split; [absent has65_in|]. split; [apply in65_in; reflexivity|]. vm_compute. reflexivity.
Qed.
Print Assumptions C21_register_refuted.

(** C23: where an instruction has both, the form with an address of one byte is taken exactly when
    the operand is known and its 16 bits fit; the byte is these 16 bits.  Missing: values outside
    16 bits (below), JSR of the 6801 (below), and that [strays65] is empty. *)
Theorem C23_6800_partial : forall x n l h lb t a s u s', In (n, l) (if x : bool then m6800 ++ m6801 else m6800) -> l.(l_ptr) = PFun h ->
  pc_range s -> s.(fl).(a_lohi) = false -> has_direct x n -> first_fit t forms68 WAddress a ->
  exec h l.(l_modifier) lb (Some t) s = (Ok u, s') ->
  exists r op, value_at s a r /\
    ((short r /\ In (n, Direct, op) (sheet68 x) /\ emits [op; r.(r_value) mod 2 ^ 16] s s') \/
     (~ short r /\ In (n, Extended, op) (sheet68 x) /\ emits [op; r.(r_value) / 256 mod 256; r.(r_value) mod 256] s s')).
Proof. exact short68. Qed.
Print Assumptions C23_6800_partial.

Theorem C23_6502_partial : forall c n l h lb t w z b s u s',
  In (n, l) (match c with C65C02 => m6502 ++ m65c02 | _ => m6502 end) -> l.(l_ptr) = PFun h -> selected c s ->
  pc_range s -> s.(fl).(a_lohi) = true -> zero_page w = Some z -> has_mode c n z -> absolute w = Some b ->
  exec h l.(l_modifier) lb (Some t) s = (Ok u, s') -> forall a, first_fit t forms65 w a ->
  ~ (exists a', first_fit t forms65 w a' /\ accumulator s a') ->
  exists a' r op, first_fit t forms65 w a' /\ value_at s a' r /\
    ((short r /\ (In (n, z, op) (sheet65 c) \/ In (n, z, op) (strays65 c)) /\ emits [op; r.(r_value) mod 2 ^ 16] s s') \/
     (~ short r /\ (In (n, b, op) (sheet65 c) \/ In (n, b, op) (strays65 c)) /\
      emits [op; r.(r_value) mod 256; r.(r_value) / 256 mod 256] s s')).
Proof. exact short65. Qed.
Print Assumptions C23_6502_partial.

Example C23_case :
  has_direct false "ldaa" /\ has_mode C6502 "lda" ZpX /\ zero_page WX = Some ZpX /\ absolute WX = Some AbsX /\
  first_fit (s2l "255") forms68 WAddress (s2l "255") /\ first_fit (s2l "256,x") forms65 WX (s2l "256") /\
  bytes (exec H68Std 134 None (Some (s2l "255"))) (ready false 0 0) = (Ok tt, [0x96; 255]) /\
  bytes (exec H68Std 134 None (Some (s2l "256"))) (ready false 0 0) = (Ok tt, [0xB6; 1; 0]) /\
  bytes (exec H65Std 160 None (Some (s2l "255,x"))) (ready true 1 0) = (Ok tt, [0xB5; 255]) /\
  bytes (exec H65Std 160 None (Some (s2l "256,x"))) (ready true 1 0) = (Ok tt, [0xBD; 0; 1]).
Proof.
  split; [split; [discriminate|exists 0x96; apply in68_in; reflexivity]|]. split; [exists 0xB5; apply in65_in; reflexivity|]. split; [reflexivity|]. split; [reflexivity|].
  split; [exact fits_255|]. split; [exact fits_256|]. vm_compute. repeat split.
Qed.

(** An address of five digits with zeros in the middle is taken for an address of one byte. *)
Theorem C23_refuted : exists t v s, t = s2l "$10005" /\ fst (parse t s) = Ok v /\ v.(r_value) = 0x10005 /\
  bytes (exec H65Std 160 None (Some t)) s = (Ok tt, [0xA5; 5]) /\ bytes (exec H68Std 134 None (Some t)) s = (Ok tt, [0x96; 5]).
Proof.
  exists (s2l "$10005"), (mkRes lf0 TAbs 0 PNull 0x10005), (ready true 1 0). vm_compute. repeat split.
Qed.
Print Assumptions C23_refuted.

(** The 6801 has JSR with a direct address, which is never used. *)
Theorem C23_jsr_refuted : exists e s, e = mn T6800 "jsr" H68Std3 141 /\ In e m6800 /\ In ("jsr"%string, Direct, 0x9D) (sheet68 true) /\
  bytes (exec H68Std3 (l_modifier (snd e)) None (Some (s2l "5"))) s = (Ok tt, [0xBD; 0; 5]).
Proof.
  exists (mn T6800 "jsr" H68Std3 141), (ready false 0 0). split; [reflexivity|]. split; [apply (nth_error_In _ 91); reflexivity|]. split; [apply in68_in; reflexivity|]. vm_compute. reflexivity.
Qed.
Print Assumptions C23_jsr_refuted.
