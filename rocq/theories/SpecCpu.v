(** Instructions of the 6800 and 6502 families as the manufacturers' data sheets give them. *)
From Coq Require Import String Ascii ZArith List Bool.
From Verif Require Import Base State Parse SpecEmit SpecForms.
Import ListNotations.
Open Scope Z_scope.

Definition t_ (s : string) : text := list_ascii_of_string s.

(** Signed displacement of a relative branch: the byte of [d], counted from the address behind
    the two bytes of the instruction, leads to the value of the operand. *)
Inductive displaced (s : state) (t : text) : list Z -> Prop :=
| disp : forall r d, value_at s t r -> -128 <= d <= 127 ->
    (s.(wr).(pc) + 2 + d) mod 2 ^ 32 = r.(r_value) mod 2 ^ 32 -> displaced s t [d mod 256].

(** The operand is known where it is used and its 16 bits fit in one byte. *)
Definition short (r : result) : Prop := r.(r_flags).(f_forward) = false /\ r.(r_value) mod 2 ^ 16 < 256.

Definition given (o : option text) : text := match o with Some t => t | None => [] end.

(** * 6800, 6801 *)
Inductive mode68 := Inherent | Relative | Imm8 | Imm16 | Direct | Indexed | Extended.

Inductive written68 := WImmediate | WIndex | WIndexed | WAddress.
Definition forms68 : list (form * written68) :=
  [(Free (t_ "#_") [], WImmediate); (Fixed (t_ ",_x"), WIndex); (Free [] (t_ "_,_x"), WIndexed); (Free [] [], WAddress)].

(** The bytes behind the opcode, high byte first.  [direct] tells whether the instruction has
    the direct mode. *)
Inductive operand68 (s : state) (o : option text) (direct : Prop) : mode68 -> list Z -> Prop :=
| o68_none : o = None -> operand68 s o direct Inherent []
| o68_rel : forall bs, displaced s (given o) bs -> operand68 s o direct Relative bs
| o68_imm8 : forall t a r, o = Some t -> first_fit t forms68 WImmediate a -> value_at s a r ->
    operand68 s o direct Imm8 [r.(r_value) mod 256]
| o68_imm16 : forall t a r, o = Some t -> first_fit t forms68 WImmediate a -> value_at s a r ->
    operand68 s o direct Imm16 [r.(r_value) / 256 mod 256; r.(r_value) mod 256]
| o68_index : forall t a r, o = Some t -> first_fit t forms68 WIndex a -> value_at s (t_ "0") r -> r.(r_value) = 0 ->
    operand68 s o direct Indexed [0]
| o68_indexed : forall t a r, o = Some t -> first_fit t forms68 WIndexed a -> value_at s a r -> r.(r_value) mod 2 ^ 16 < 256 ->
    operand68 s o direct Indexed [r.(r_value) mod 256]
| o68_direct : forall t a r, o = Some t -> first_fit t forms68 WAddress a -> value_at s a r -> short r ->
    operand68 s o direct Direct [r.(r_value) mod 256]
| o68_extended : forall t a r, o = Some t -> first_fit t forms68 WAddress a -> value_at s a r -> (direct -> ~ short r) ->
    operand68 s o direct Extended [r.(r_value) / 256 mod 256; r.(r_value) mod 256].

(** * 6500, 6502, 65C02 *)
Inductive cpu65 := C6500 | C6502 | C65C02.
Inductive mode65 := Implied | Rel | Acc | Imm | Zp | ZpX | ZpY | Abs | AbsX | AbsY
  | IndX | IndY | ZpInd | AbsInd | AbsIndX.

Inductive written65 := WPreX | WPostY | WInd | WNothing | WImm | WX | WY | WPlain.
Definition forms65 : list (form * written65) :=
  [(Free (t_ "(_") (t_ "_,_X_)"), WPreX); (Free (t_ "@_") (t_ "_,_X"), WPreX);
   (Free (t_ "(_") (t_ "_)_,_Y"), WPostY); (Free (t_ "@_") (t_ "_,_Y"), WPostY);
   (Free (t_ "(_") (t_ "_)"), WInd); (Free (t_ "@_") [], WInd);
   (Fixed (t_ "_"), WNothing); (Free (t_ "#_") [], WImm);
   (Free [] (t_ "_,_X"), WX); (Free [] (t_ "_,_Y"), WY); (Free [] [], WPlain)].

(** The modes with an address of one byte and of two bytes. *)
Definition zero_page (w : written65) : option mode65 :=
  match w with
  | WPreX => Some IndX | WPostY => Some IndY | WInd => Some ZpInd
  | WX => Some ZpX | WY => Some ZpY | WPlain => Some Zp | WNothing | WImm => None
  end.
Definition absolute (w : written65) : option mode65 :=
  match w with
  | WPreX => Some AbsIndX | WInd => Some AbsInd
  | WX => Some AbsX | WY => Some AbsY | WPlain => Some Abs | WPostY | WNothing | WImm => None
  end.

(** A list of registers that begins with the accumulator. *)
Definition accumulator (s : state) (t : text) : Prop :=
  exists s1 s2 r, same s s1 /\ parse t s1 = (Ok r, s2) /\ r.(r_type) = TRegs /\ r.(r_modifier) = 0.

(** The bytes behind the opcode, low byte first.  [has m] tells whether the instruction has
    the mode [m]. *)
Inductive operand65 (s : state) (o : option text) (has : mode65 -> Prop) : mode65 -> list Z -> Prop :=
| o65_none : o = None -> operand65 s o has Implied []
| o65_rel : forall bs, displaced s (given o) bs -> operand65 s o has Rel bs
| o65_acc0 : o = None -> operand65 s o has Acc []
| o65_acc1 : forall t a, o = Some t -> first_fit t forms65 WNothing a -> operand65 s o has Acc []
| o65_acc2 : forall t a, o = Some t -> first_fit t forms65 WPlain a -> accumulator s a -> operand65 s o has Acc []
| o65_imm : forall t a r, o = Some t -> first_fit t forms65 WImm a -> value_at s a r ->
    operand65 s o has Imm [r.(r_value) mod 256]
| o65_short : forall t w m a r, o = Some t -> first_fit t forms65 w a -> value_at s a r -> short r ->
    zero_page w = Some m -> operand65 s o has m [r.(r_value) mod 256]
| o65_long : forall t w m a r, o = Some t -> first_fit t forms65 w a -> value_at s a r ->
    (forall z, zero_page w = Some z -> has z -> ~ short r) ->
    absolute w = Some m -> operand65 s o has m [r.(r_value) mod 256; r.(r_value) / 256 mod 256].

(** The instructions of the MC6800 (data sheet, tables of accumulator and memory, index register and
    stack, jump and branch, and condition code instructions). *)
Definition sheet6800 : list (string * mode68 * Z) :=
  [
    ("adda", Imm8, 0x8B); ("adda", Direct, 0x9B); ("adda", Indexed, 0xAB); ("adda", Extended, 0xBB);
    ("addb", Imm8, 0xCB); ("addb", Direct, 0xDB); ("addb", Indexed, 0xEB); ("addb", Extended, 0xFB);
    ("aba", Inherent, 0x1B);
    ("adca", Imm8, 0x89); ("adca", Direct, 0x99); ("adca", Indexed, 0xA9); ("adca", Extended, 0xB9);
    ("adcb", Imm8, 0xC9); ("adcb", Direct, 0xD9); ("adcb", Indexed, 0xE9); ("adcb", Extended, 0xF9);
    ("anda", Imm8, 0x84); ("anda", Direct, 0x94); ("anda", Indexed, 0xA4); ("anda", Extended, 0xB4);
    ("andb", Imm8, 0xC4); ("andb", Direct, 0xD4); ("andb", Indexed, 0xE4); ("andb", Extended, 0xF4);
    ("bita", Imm8, 0x85); ("bita", Direct, 0x95); ("bita", Indexed, 0xA5); ("bita", Extended, 0xB5);
    ("bitb", Imm8, 0xC5); ("bitb", Direct, 0xD5); ("bitb", Indexed, 0xE5); ("bitb", Extended, 0xF5);
    ("clr", Indexed, 0x6F); ("clr", Extended, 0x7F);
    ("clra", Inherent, 0x4F);
    ("clrb", Inherent, 0x5F);
    ("cmpa", Imm8, 0x81); ("cmpa", Direct, 0x91); ("cmpa", Indexed, 0xA1); ("cmpa", Extended, 0xB1);
    ("cmpb", Imm8, 0xC1); ("cmpb", Direct, 0xD1); ("cmpb", Indexed, 0xE1); ("cmpb", Extended, 0xF1);
    ("cba", Inherent, 0x11);
    ("com", Indexed, 0x63); ("com", Extended, 0x73);
    ("coma", Inherent, 0x43);
    ("comb", Inherent, 0x53);
    ("neg", Indexed, 0x60); ("neg", Extended, 0x70);
    ("nega", Inherent, 0x40);
    ("negb", Inherent, 0x50);
    ("daa", Inherent, 0x19);
    ("dec", Indexed, 0x6A); ("dec", Extended, 0x7A);
    ("deca", Inherent, 0x4A);
    ("decb", Inherent, 0x5A);
    ("eora", Imm8, 0x88); ("eora", Direct, 0x98); ("eora", Indexed, 0xA8); ("eora", Extended, 0xB8);
    ("eorb", Imm8, 0xC8); ("eorb", Direct, 0xD8); ("eorb", Indexed, 0xE8); ("eorb", Extended, 0xF8);
    ("inc", Indexed, 0x6C); ("inc", Extended, 0x7C);
    ("inca", Inherent, 0x4C);
    ("incb", Inherent, 0x5C);
    ("ldaa", Imm8, 0x86); ("ldaa", Direct, 0x96); ("ldaa", Indexed, 0xA6); ("ldaa", Extended, 0xB6);
    ("ldab", Imm8, 0xC6); ("ldab", Direct, 0xD6); ("ldab", Indexed, 0xE6); ("ldab", Extended, 0xF6);
    ("oraa", Imm8, 0x8A); ("oraa", Direct, 0x9A); ("oraa", Indexed, 0xAA); ("oraa", Extended, 0xBA);
    ("orab", Imm8, 0xCA); ("orab", Direct, 0xDA); ("orab", Indexed, 0xEA); ("orab", Extended, 0xFA);
    ("psha", Inherent, 0x36);
    ("pshb", Inherent, 0x37);
    ("pula", Inherent, 0x32);
    ("pulb", Inherent, 0x33);
    ("rol", Indexed, 0x69); ("rol", Extended, 0x79);
    ("rola", Inherent, 0x49);
    ("rolb", Inherent, 0x59);
    ("ror", Indexed, 0x66); ("ror", Extended, 0x76);
    ("rora", Inherent, 0x46);
    ("rorb", Inherent, 0x56);
    ("asl", Indexed, 0x68); ("asl", Extended, 0x78);
    ("asla", Inherent, 0x48);
    ("aslb", Inherent, 0x58);
    ("asr", Indexed, 0x67); ("asr", Extended, 0x77);
    ("asra", Inherent, 0x47);
    ("asrb", Inherent, 0x57);
    ("lsr", Indexed, 0x64); ("lsr", Extended, 0x74);
    ("lsra", Inherent, 0x44);
    ("lsrb", Inherent, 0x54);
    ("staa", Direct, 0x97); ("staa", Indexed, 0xA7); ("staa", Extended, 0xB7);
    ("stab", Direct, 0xD7); ("stab", Indexed, 0xE7); ("stab", Extended, 0xF7);
    ("suba", Imm8, 0x80); ("suba", Direct, 0x90); ("suba", Indexed, 0xA0); ("suba", Extended, 0xB0);
    ("subb", Imm8, 0xC0); ("subb", Direct, 0xD0); ("subb", Indexed, 0xE0); ("subb", Extended, 0xF0);
    ("sba", Inherent, 0x10);
    ("sbca", Imm8, 0x82); ("sbca", Direct, 0x92); ("sbca", Indexed, 0xA2); ("sbca", Extended, 0xB2);
    ("sbcb", Imm8, 0xC2); ("sbcb", Direct, 0xD2); ("sbcb", Indexed, 0xE2); ("sbcb", Extended, 0xF2);
    ("tab", Inherent, 0x16);
    ("tba", Inherent, 0x17);
    ("tst", Indexed, 0x6D); ("tst", Extended, 0x7D);
    ("tsta", Inherent, 0x4D);
    ("tstb", Inherent, 0x5D);
    ("cpx", Imm16, 0x8C); ("cpx", Direct, 0x9C); ("cpx", Indexed, 0xAC); ("cpx", Extended, 0xBC);
    ("dex", Inherent, 0x09);
    ("des", Inherent, 0x34);
    ("inx", Inherent, 0x08);
    ("ins", Inherent, 0x31);
    ("ldx", Imm16, 0xCE); ("ldx", Direct, 0xDE); ("ldx", Indexed, 0xEE); ("ldx", Extended, 0xFE);
    ("lds", Imm16, 0x8E); ("lds", Direct, 0x9E); ("lds", Indexed, 0xAE); ("lds", Extended, 0xBE);
    ("stx", Direct, 0xDF); ("stx", Indexed, 0xEF); ("stx", Extended, 0xFF);
    ("sts", Direct, 0x9F); ("sts", Indexed, 0xAF); ("sts", Extended, 0xBF);
    ("txs", Inherent, 0x35);
    ("tsx", Inherent, 0x30);
    ("bra", Relative, 0x20);
    ("bcc", Relative, 0x24);
    ("bcs", Relative, 0x25);
    ("beq", Relative, 0x27);
    ("bge", Relative, 0x2C);
    ("bgt", Relative, 0x2E);
    ("bhi", Relative, 0x22);
    ("ble", Relative, 0x2F);
    ("bls", Relative, 0x23);
    ("blt", Relative, 0x2D);
    ("bmi", Relative, 0x2B);
    ("bne", Relative, 0x26);
    ("bvc", Relative, 0x28);
    ("bvs", Relative, 0x29);
    ("bpl", Relative, 0x2A);
    ("bsr", Relative, 0x8D);
    ("jmp", Indexed, 0x6E); ("jmp", Extended, 0x7E);
    ("jsr", Indexed, 0xAD); ("jsr", Extended, 0xBD);
    ("nop", Inherent, 0x01);
    ("rti", Inherent, 0x3B);
    ("rts", Inherent, 0x39);
    ("swi", Inherent, 0x3F);
    ("wai", Inherent, 0x3E);
    ("clc", Inherent, 0x0C);
    ("cli", Inherent, 0x0E);
    ("clv", Inherent, 0x0A);
    ("sec", Inherent, 0x0D);
    ("sei", Inherent, 0x0F);
    ("sev", Inherent, 0x0B);
    ("tap", Inherent, 0x06);
    ("tpa", Inherent, 0x07)
  ]%string.

(** What the MC6801 adds. *)
Definition extra6801 : list (string * mode68 * Z) :=
  [
    ("abx", Inherent, 0x3A);
    ("addd", Imm16, 0xC3); ("addd", Direct, 0xD3); ("addd", Indexed, 0xE3); ("addd", Extended, 0xF3);
    ("brn", Relative, 0x21);
    ("asld", Inherent, 0x05);
    ("lsrd", Inherent, 0x04);
    ("ldd", Imm16, 0xCC); ("ldd", Direct, 0xDC); ("ldd", Indexed, 0xEC); ("ldd", Extended, 0xFC);
    ("mul", Inherent, 0x3D);
    ("pshx", Inherent, 0x3C);
    ("pulx", Inherent, 0x38);
    ("std", Direct, 0xDD); ("std", Indexed, 0xED); ("std", Extended, 0xFD);
    ("subd", Imm16, 0x83); ("subd", Direct, 0x93); ("subd", Indexed, 0xA3); ("subd", Extended, 0xB3);
    ("jsr", Direct, 0x9D)
  ]%string.

(** The instructions of the first MCS6500 processors, which had no ROR. *)
Definition sheet6500 : list (string * mode65 * Z) :=
  [
    ("adc", Imm, 0x69); ("adc", Zp, 0x65); ("adc", ZpX, 0x75); ("adc", Abs, 0x6D); ("adc", AbsX, 0x7D); ("adc", AbsY, 0x79); ("adc", IndX, 0x61); ("adc", IndY, 0x71);
    ("and", Imm, 0x29); ("and", Zp, 0x25); ("and", ZpX, 0x35); ("and", Abs, 0x2D); ("and", AbsX, 0x3D); ("and", AbsY, 0x39); ("and", IndX, 0x21); ("and", IndY, 0x31);
    ("cmp", Imm, 0xC9); ("cmp", Zp, 0xC5); ("cmp", ZpX, 0xD5); ("cmp", Abs, 0xCD); ("cmp", AbsX, 0xDD); ("cmp", AbsY, 0xD9); ("cmp", IndX, 0xC1); ("cmp", IndY, 0xD1);
    ("eor", Imm, 0x49); ("eor", Zp, 0x45); ("eor", ZpX, 0x55); ("eor", Abs, 0x4D); ("eor", AbsX, 0x5D); ("eor", AbsY, 0x59); ("eor", IndX, 0x41); ("eor", IndY, 0x51);
    ("lda", Imm, 0xA9); ("lda", Zp, 0xA5); ("lda", ZpX, 0xB5); ("lda", Abs, 0xAD); ("lda", AbsX, 0xBD); ("lda", AbsY, 0xB9); ("lda", IndX, 0xA1); ("lda", IndY, 0xB1);
    ("ora", Imm, 0x09); ("ora", Zp, 0x05); ("ora", ZpX, 0x15); ("ora", Abs, 0x0D); ("ora", AbsX, 0x1D); ("ora", AbsY, 0x19); ("ora", IndX, 0x01); ("ora", IndY, 0x11);
    ("sbc", Imm, 0xE9); ("sbc", Zp, 0xE5); ("sbc", ZpX, 0xF5); ("sbc", Abs, 0xED); ("sbc", AbsX, 0xFD); ("sbc", AbsY, 0xF9); ("sbc", IndX, 0xE1); ("sbc", IndY, 0xF1);
    ("sta", Zp, 0x85); ("sta", ZpX, 0x95); ("sta", Abs, 0x8D); ("sta", AbsX, 0x9D); ("sta", AbsY, 0x99); ("sta", IndX, 0x81); ("sta", IndY, 0x91);
    ("asl", Acc, 0x0A); ("asl", Zp, 0x06); ("asl", ZpX, 0x16); ("asl", Abs, 0x0E); ("asl", AbsX, 0x1E);
    ("lsr", Acc, 0x4A); ("lsr", Zp, 0x46); ("lsr", ZpX, 0x56); ("lsr", Abs, 0x4E); ("lsr", AbsX, 0x5E);
    ("rol", Acc, 0x2A); ("rol", Zp, 0x26); ("rol", ZpX, 0x36); ("rol", Abs, 0x2E); ("rol", AbsX, 0x3E);
    ("bit", Zp, 0x24); ("bit", Abs, 0x2C);
    ("cpx", Imm, 0xE0); ("cpx", Zp, 0xE4); ("cpx", Abs, 0xEC);
    ("cpy", Imm, 0xC0); ("cpy", Zp, 0xC4); ("cpy", Abs, 0xCC);
    ("dec", Zp, 0xC6); ("dec", ZpX, 0xD6); ("dec", Abs, 0xCE); ("dec", AbsX, 0xDE);
    ("inc", Zp, 0xE6); ("inc", ZpX, 0xF6); ("inc", Abs, 0xEE); ("inc", AbsX, 0xFE);
    ("jmp", Abs, 0x4C); ("jmp", AbsInd, 0x6C);
    ("jsr", Abs, 0x20);
    ("ldx", Imm, 0xA2); ("ldx", Zp, 0xA6); ("ldx", ZpY, 0xB6); ("ldx", Abs, 0xAE); ("ldx", AbsY, 0xBE);
    ("ldy", Imm, 0xA0); ("ldy", Zp, 0xA4); ("ldy", ZpX, 0xB4); ("ldy", Abs, 0xAC); ("ldy", AbsX, 0xBC);
    ("stx", Zp, 0x86); ("stx", ZpY, 0x96); ("stx", Abs, 0x8E);
    ("sty", Zp, 0x84); ("sty", ZpX, 0x94); ("sty", Abs, 0x8C);
    ("brk", Implied, 0x00);
    ("clc", Implied, 0x18);
    ("cld", Implied, 0xD8);
    ("cli", Implied, 0x58);
    ("clv", Implied, 0xB8);
    ("dex", Implied, 0xCA);
    ("dey", Implied, 0x88);
    ("inx", Implied, 0xE8);
    ("iny", Implied, 0xC8);
    ("nop", Implied, 0xEA);
    ("pha", Implied, 0x48);
    ("php", Implied, 0x08);
    ("pla", Implied, 0x68);
    ("plp", Implied, 0x28);
    ("rti", Implied, 0x40);
    ("rts", Implied, 0x60);
    ("sec", Implied, 0x38);
    ("sed", Implied, 0xF8);
    ("sei", Implied, 0x78);
    ("tax", Implied, 0xAA);
    ("tay", Implied, 0xA8);
    ("tsx", Implied, 0xBA);
    ("txa", Implied, 0x8A);
    ("txs", Implied, 0x9A);
    ("tya", Implied, 0x98);
    ("bcc", Rel, 0x90);
    ("bcs", Rel, 0xB0);
    ("beq", Rel, 0xF0);
    ("bmi", Rel, 0x30);
    ("bne", Rel, 0xD0);
    ("bpl", Rel, 0x10);
    ("bvc", Rel, 0x50);
    ("bvs", Rel, 0x70)
  ]%string.

(** What the MCS6502 adds. *)
Definition extra6502 : list (string * mode65 * Z) :=
  [
    ("ror", Acc, 0x6A); ("ror", Zp, 0x66); ("ror", ZpX, 0x76); ("ror", Abs, 0x6E); ("ror", AbsX, 0x7E)
  ]%string.

(** What the 65C02 adds. *)
Definition extra65C02 : list (string * mode65 * Z) :=
  [
    ("adc", ZpInd, 0x72);
    ("and", ZpInd, 0x32);
    ("cmp", ZpInd, 0xD2);
    ("eor", ZpInd, 0x52);
    ("lda", ZpInd, 0xB2);
    ("ora", ZpInd, 0x12);
    ("sbc", ZpInd, 0xF2);
    ("sta", ZpInd, 0x92);
    ("bit", Imm, 0x89); ("bit", ZpX, 0x34); ("bit", AbsX, 0x3C);
    ("bra", Rel, 0x80);
    ("dec", Acc, 0x3A);
    ("inc", Acc, 0x1A);
    ("jmp", AbsIndX, 0x7C);
    ("phx", Implied, 0xDA);
    ("phy", Implied, 0x5A);
    ("plx", Implied, 0xFA);
    ("ply", Implied, 0x7A);
    ("stz", Zp, 0x64); ("stz", ZpX, 0x74); ("stz", Abs, 0x9C); ("stz", AbsX, 0x9E);
    ("trb", Zp, 0x14); ("trb", Abs, 0x1C);
    ("tsb", Zp, 0x04); ("tsb", Abs, 0x0C)
  ]%string.

(** Other names of branches (cpu6502.c:272-275). *)
Definition aliases65 : list (string * mode65 * Z) :=
  [("bhi", Rel, 0xB0); ("blo", Rel, 0x90); ("bgt", Rel, 0x10); ("ble", Rel, 0x30)]%string.

Definition sheet68 (m6801 : bool) : list (string * mode68 * Z) := if m6801 then sheet6800 ++ extra6801 else sheet6800.
Definition sheet65 (c : cpu65) : list (string * mode65 * Z) :=
  match c with
  | C6500 => sheet6500 ++ aliases65
  | C6502 => sheet6500 ++ aliases65 ++ extra6502
  | C65C02 => sheet6500 ++ aliases65 ++ extra6502 ++ extra65C02
  end.

(** What the program accepts although the processor does not have it. *)
Definition strays65 (c : cpu65) : list (string * mode65 * Z) :=
  ([("ldx", Acc, 0xAA); ("ldy", Acc, 0xA8); ("cpx", Acc, 0xE8); ("cpy", Acc, 0xC8); ("bit", Acc, 0x58)]%string ++
   match c with
   | C65C02 => [("tsb", Acc, 0x78); ("trb", Acc, 0x88)]%string
   | C6502 => [("bit", ZpX, 0x34); ("bit", AbsX, 0x3C)]%string
   | C6500 => [("bit", ZpX, 0x34); ("bit", AbsX, 0x3C);
               ("ror", Acc, 0x6A); ("ror", Zp, 0x66); ("ror", ZpX, 0x76); ("ror", Abs, 0x6E); ("ror", AbsX, 0x7E)]%string
   end).

(** The processor the program was told to assemble for. *)
Definition selected (c : cpu65) (s : state) : Prop :=
  s.(cp).(cpuflag) = match c with C6500 => 0 | C6502 => 1 | C65C02 => 2 end.

(** The instruction has a direct mode; that of JSR on the 6801 is set apart. *)
Definition has_direct (m6801 : bool) (n : string) : Prop :=
  n <> "jsr"%string /\ exists op, In (n, Direct, op) (sheet68 m6801).
Definition has_mode (c : cpu65) (n : string) (m : mode65) : Prop := exists op, In (n, m, op) (sheet65 c).
