(** The keyword tables. *)
From Coq Require Import ZArith List Bool Ascii String.
From Verif Require Import Base State Label.
Import ListNotations.
Open Scope Z_scope.

(** NOREDEF, cpu.h:36. *)
Definition lf_key : lflags := mkLF false false false true false false false false.

(** mnemo(n,c,p), cpu.h:36; the modifier is a short. *)
Definition mn (t : table) (n : string) (h : handler) (p : Z) : entry :=
  (n, mkLabel lf_key TMnemo (s16 p) (PFun h) 0 t).

(** regs(n,r), cpu.h:40. *)
Definition rg (t : table) (n : string) (r : Z) : entry :=
  (n, mkLabel lf_key TRegs r PNull (Z.shiftl 1 r) t).

(** defpseudo and defspecial, stdvocabulary.c:29-30. *)
Definition ps (n : string) (f : lflags) (h : handler) (m : Z) : entry :=
  (n, mkLabel f TMnemo m (PFun h) 0 TPseudos).

(** stdvocabulary.c:32-62. *)
Definition pseudos : list entry :=
  [
    ps "EQU" (mkLF false false false true false true false false) HEqu 0;
    ps "ASC" (mkLF false false false true false false false false) HAsc 0;
    ps "ALIGN" (mkLF false false false true false false false false) HAlign 0;
    ps "CLIST" (mkLF false false false true true false false false) HClist 0;
    ps "CODE" (mkLF false false false true true false false false) HCode 0;
    ps "CPU" (mkLF false false false true true false false false) HCpu 0;
    ps "DB" (mkLF false false false true false false false false) HDc 1;
    ps "DDB" (mkLF false false false true false false false false) HDc 2;
    ps "DL" (mkLF false false false true false false false false) HDc 4;
    ps "DW" (mkLF false false false true false false false false) HDc 3;
    ps "DUMMY" (mkLF false false false true true false false false) HDummy 0;
    ps "DS" (mkLF false false false true false false false false) HDs 0;
    ps "ELSE" (mkLF false false false true true false false true) HElse 0;
    ps "ENDC" (mkLF false false false true true false false true) HEndc 0;
    ps "ENDM" (mkLF false false false true true false true false) HEndm 0;
    ps "EXITM" (mkLF false false false true true false true false) HExitm 0;
    ps "FAIL" (mkLF false false false true true false false false) HFail 0;
    ps "IF" (mkLF false false false true true false false true) HIf 0;
    ps "ILIST" (mkLF false false false true true false false false) HIlist 0;
    ps "INCLUDE" (mkLF false false false true true false false false) HInclude 0;
    ps "LIST" (mkLF false false false true true false false false) HList 0;
    ps "MACRO" (mkLF false false false true false true true false) HMacro 0;
    ps "MLIST" (mkLF false false false true true false false false) HMlist 0;
    ps "NAM" (mkLF false false false true true false false false) HNam 0;
    ps "PAGE" (mkLF false false false true true false false false) HPage 0;
    ps "OUTPUT" (mkLF false false false true true false false false) HOutput 0;
    ps "SKIP" (mkLF false false false true true false false false) HSkip 0
  ]%string.

(** cpu6800.c:212-328. *)
Definition m6800 : list entry :=
  [
    mn T6800 "bra" H68Branch 32;
    mn T6800 "bsr" H68Branch 141;
    mn T6800 "bhi" H68Branch 34;
    mn T6800 "bls" H68Branch 35;
    mn T6800 "bcc" H68Branch 36;
    mn T6800 "bcs" H68Branch 37;
    mn T6800 "bne" H68Branch 38;
    mn T6800 "beq" H68Branch 39;
    mn T6800 "bvc" H68Branch 40;
    mn T6800 "bvs" H68Branch 41;
    mn T6800 "bpl" H68Branch 42;
    mn T6800 "bmi" H68Branch 43;
    mn T6800 "bge" H68Branch 44;
    mn T6800 "blt" H68Branch 45;
    mn T6800 "bgt" H68Branch 46;
    mn T6800 "ble" H68Branch 47;
    mn T6800 "nop" H68Single 1;
    mn T6800 "rti" H68Single 59;
    mn T6800 "rts" H68Single 57;
    mn T6800 "swi" H68Single 63;
    mn T6800 "wai" H68Single 62;
    mn T6800 "aba" H68Single 27;
    mn T6800 "clra" H68Single 79;
    mn T6800 "clrb" H68Single 95;
    mn T6800 "cba" H68Single 17;
    mn T6800 "coma" H68Single 67;
    mn T6800 "comb" H68Single 83;
    mn T6800 "nega" H68Single 64;
    mn T6800 "negb" H68Single 80;
    mn T6800 "daa" H68Single 25;
    mn T6800 "deca" H68Single 74;
    mn T6800 "decb" H68Single 90;
    mn T6800 "inca" H68Single 76;
    mn T6800 "incb" H68Single 92;
    mn T6800 "psha" H68Single 54;
    mn T6800 "pshb" H68Single 55;
    mn T6800 "pula" H68Single 50;
    mn T6800 "pulb" H68Single 51;
    mn T6800 "rola" H68Single 73;
    mn T6800 "rolb" H68Single 89;
    mn T6800 "rora" H68Single 70;
    mn T6800 "rorb" H68Single 86;
    mn T6800 "asla" H68Single 72;
    mn T6800 "aslb" H68Single 88;
    mn T6800 "asra" H68Single 71;
    mn T6800 "asrb" H68Single 87;
    mn T6800 "lsra" H68Single 68;
    mn T6800 "lsrb" H68Single 84;
    mn T6800 "sba" H68Single 16;
    mn T6800 "tab" H68Single 22;
    mn T6800 "tba" H68Single 23;
    mn T6800 "tsta" H68Single 77;
    mn T6800 "tstb" H68Single 93;
    mn T6800 "dex" H68Single 9;
    mn T6800 "des" H68Single 52;
    mn T6800 "inx" H68Single 8;
    mn T6800 "ins" H68Single 49;
    mn T6800 "tsx" H68Single 48;
    mn T6800 "txs" H68Single 53;
    mn T6800 "clc" H68Single 12;
    mn T6800 "clv" H68Single 10;
    mn T6800 "cli" H68Single 14;
    mn T6800 "sec" H68Single 13;
    mn T6800 "sev" H68Single 11;
    mn T6800 "sei" H68Single 15;
    mn T6800 "tap" H68Single 6;
    mn T6800 "tpa" H68Single 7;
    mn T6800 "neg" H68Std3 64;
    mn T6800 "com" H68Std3 67;
    mn T6800 "lsr" H68Std3 68;
    mn T6800 "ror" H68Std3 70;
    mn T6800 "asr" H68Std3 71;
    mn T6800 "asl" H68Std3 72;
    mn T6800 "rol" H68Std3 73;
    mn T6800 "dec" H68Std3 74;
    mn T6800 "inc" H68Std3 76;
    mn T6800 "tst" H68Std3 77;
    mn T6800 "jmp" H68Std3 78;
    mn T6800 "clr" H68Std3 79;
    mn T6800 "suba" H68Std 128;
    mn T6800 "cmpa" H68Std 129;
    mn T6800 "sbca" H68Std 130;
    mn T6800 "anda" H68Std 132;
    mn T6800 "bita" H68Std 133;
    mn T6800 "ldaa" H68Std 134;
    mn T6800 "staa" H68Std2 135;
    mn T6800 "eora" H68Std 136;
    mn T6800 "adca" H68Std 137;
    mn T6800 "oraa" H68Std 138;
    mn T6800 "adda" H68Std 139;
    mn T6800 "cpx" H68Std 140;
    mn T6800 "jsr" H68Std3 141;
    mn T6800 "lds" H68Std 142;
    mn T6800 "sts" H68Std2 143;
    mn T6800 "subb" H68Std 192;
    mn T6800 "cmpb" H68Std 193;
    mn T6800 "sbcb" H68Std 194;
    mn T6800 "andb" H68Std 196;
    mn T6800 "bitb" H68Std 197;
    mn T6800 "ldab" H68Std 198;
    mn T6800 "stab" H68Std2 199;
    mn T6800 "eorb" H68Std 200;
    mn T6800 "adcb" H68Std 201;
    mn T6800 "orab" H68Std 202;
    mn T6800 "addb" H68Std 203;
    mn T6800 "ldx" H68Std 206;
    mn T6800 "stx" H68Std2 207
  ]%string.

(** cpu6800.c:331-346. *)
Definition m6801 : list entry :=
  [
    mn T6801 "lsrd" H68Single 4;
    mn T6801 "asld" H68Single 5;
    mn T6801 "brn" H68Branch 33;
    mn T6801 "pulx" H68Single 56;
    mn T6801 "abx" H68Single 58;
    mn T6801 "pshx" H68Single 60;
    mn T6801 "mul" H68Single 61;
    mn T6801 "subd" H68Std 131;
    mn T6801 "addd" H68Std 195;
    mn T6801 "ldd" H68Std 204;
    mn T6801 "std" H68Std2 205
  ]%string.

(** cpu6502.c:261-339. *)
Definition m6502 : list entry :=
  [
    mn T6502 "bpl" H65Branch 16;
    mn T6502 "bmi" H65Branch 48;
    mn T6502 "bvc" H65Branch 80;
    mn T6502 "bvs" H65Branch 112;
    mn T6502 "bcc" H65Branch 144;
    mn T6502 "bcs" H65Branch 176;
    mn T6502 "bne" H65Branch 208;
    mn T6502 "beq" H65Branch 240;
    mn T6502 "bhi" H65Branch 176;
    mn T6502 "blo" H65Branch 144;
    mn T6502 "bgt" H65Branch 16;
    mn T6502 "ble" H65Branch 48;
    mn T6502 "nop" H65Single 234;
    mn T6502 "brk" H65Single 0;
    mn T6502 "rti" H65Single 64;
    mn T6502 "rts" H65Single 96;
    mn T6502 "pha" H65Single 72;
    mn T6502 "pla" H65Single 104;
    mn T6502 "php" H65Single 8;
    mn T6502 "plp" H65Single 40;
    mn T6502 "dex" H65Single 202;
    mn T6502 "dey" H65Single 136;
    mn T6502 "inx" H65Single 232;
    mn T6502 "iny" H65Single 200;
    mn T6502 "tsx" H65Single 186;
    mn T6502 "txs" H65Single 154;
    mn T6502 "tax" H65Single 170;
    mn T6502 "txa" H65Single 138;
    mn T6502 "tay" H65Single 168;
    mn T6502 "tya" H65Single 152;
    mn T6502 "clc" H65Single 24;
    mn T6502 "clv" H65Single 184;
    mn T6502 "cli" H65Single 88;
    mn T6502 "cld" H65Single 216;
    mn T6502 "sec" H65Single 56;
    mn T6502 "sei" H65Single 120;
    mn T6502 "sed" H65Single 248;
    mn T6502 "ora" H65Std 0;
    mn T6502 "and" H65Std 32;
    mn T6502 "eor" H65Std 64;
    mn T6502 "adc" H65Std 96;
    mn T6502 "sta" H65Std 4224;
    mn T6502 "lda" H65Std 160;
    mn T6502 "cmp" H65Std 192;
    mn T6502 "sbc" H65Std 224;
    mn T6502 "asl" H65Std 37120;
    mn T6502 "rol" H65Std 37152;
    mn T6502 "lsr" H65Std 37184;
    mn T6502 "ror" H65Std 37216;
    mn T6502 "ldx" H65Std 24992;
    mn T6502 "ldy" H65Std 41374;
    mn T6502 "cpx" H65Std 57822;
    mn T6502 "cpy" H65Std 57790;
    mn T6502 "stx" H65Std 17024;
    mn T6502 "sty" H65Std 33406;
    mn T6502 "inc" H65Std 5088;
    mn T6502 "bit" H65Std 8990;
    mn T6502 "dec" H65Std 5312;
    mn T6502 "jmp" H65Std 1280;
    mn T6502 "jsr" H65Std 1536;
    rg T6502 "a" 0;
    rg T6502 "x" 1;
    rg T6502 "y" 2;
    rg T6502 "p" 3;
    rg T6502 "s" 4
  ]%string.

(** cpu6502.c:342-355. *)
Definition m65c02 : list entry :=
  [
    mn T65C02 "phx" H65Single 218;
    mn T65C02 "plx" H65Single 250;
    mn T65C02 "phy" H65Single 90;
    mn T65C02 "ply" H65Single 122;
    mn T65C02 "bra" H65Branch 128;
    mn T65C02 "stz" H65Std 1792;
    mn T65C02 "tsb" H65Std 25854;
    mn T65C02 "trb" H65Std 25614
  ]%string.

(** cpuz80.c:875-973. *)
Definition mz80 : list entry :=
  [
    rg TZ80 "a" 7;
    rg TZ80 "b" 0;
    rg TZ80 "c" 1;
    rg TZ80 "d" 2;
    rg TZ80 "e" 3;
    rg TZ80 "h" 4;
    rg TZ80 "l" 5;
    rg TZ80 "bc" 8;
    rg TZ80 "de" 9;
    rg TZ80 "hl" 10;
    rg TZ80 "sp" 11;
    rg TZ80 "ix" 12;
    rg TZ80 "iy" 13;
    rg TZ80 "f" 16;
    rg TZ80 "i" 17;
    rg TZ80 "r" 18;
    rg TZ80 "af" 19;
    mn TZ80 "ccf" HZSimple 63;
    mn TZ80 "cpd" HZSimple 60841;
    mn TZ80 "cpdr" HZSimple 60809;
    mn TZ80 "cpi" HZSimple 60833;
    mn TZ80 "cpir" HZSimple 60849;
    mn TZ80 "cpl" HZSimple 47;
    mn TZ80 "daa" HZSimple 39;
    mn TZ80 "exx" HZSimple 217;
    mn TZ80 "halt" HZSimple 118;
    mn TZ80 "ind" HZSimple 60842;
    mn TZ80 "indr" HZSimple 60858;
    mn TZ80 "ini" HZSimple 60834;
    mn TZ80 "inir" HZSimple 60850;
    mn TZ80 "di" HZSimple 243;
    mn TZ80 "ei" HZSimple 251;
    mn TZ80 "ldd" HZSimple 60840;
    mn TZ80 "lddr" HZSimple 60856;
    mn TZ80 "ldi" HZSimple 60832;
    mn TZ80 "ldir" HZSimple 60848;
    mn TZ80 "neg" HZSimple 60740;
    mn TZ80 "nop" HZSimple 0;
    mn TZ80 "otdr" HZSimple 60859;
    mn TZ80 "otir" HZSimple 60851;
    mn TZ80 "outd" HZSimple 60843;
    mn TZ80 "outi" HZSimple 60835;
    mn TZ80 "reti" HZSimple 60749;
    mn TZ80 "retn" HZSimple 60741;
    mn TZ80 "rla" HZSimple 23;
    mn TZ80 "rlca" HZSimple 7;
    mn TZ80 "rld" HZSimple 60783;
    mn TZ80 "rra" HZSimple 31;
    mn TZ80 "rrca" HZSimple 15;
    mn TZ80 "rrd" HZSimple 60775;
    mn TZ80 "scf" HZSimple 55;
    mn TZ80 "im" HZIm 0;
    mn TZ80 "rst" HZRst 0;
    mn TZ80 "djnz" HZRelbranch 16;
    mn TZ80 "jr" HZJr 0;
    mn TZ80 "jp" HZJp 0;
    mn TZ80 "call" HZCall 0;
    mn TZ80 "ret" HZRet 0;
    mn TZ80 "ex" HZEx 0;
    mn TZ80 "in" HZInout 219;
    mn TZ80 "out" HZInout 211;
    mn TZ80 "bit" HZBitop 52032;
    mn TZ80 "set" HZBitop 52160;
    mn TZ80 "res" HZBitop 52096;
    mn TZ80 "sla" HZOnreg8 52000;
    mn TZ80 "sra" HZOnreg8 52008;
    mn TZ80 "srl" HZOnreg8 52024;
    mn TZ80 "rl" HZOnreg8 51984;
    mn TZ80 "rr" HZOnreg8 51992;
    mn TZ80 "rlc" HZOnreg8 51968;
    mn TZ80 "rrc" HZOnreg8 51976;
    mn TZ80 "or" HZLogical 176;
    mn TZ80 "and" HZLogical 160;
    mn TZ80 "xor" HZLogical 168;
    mn TZ80 "sub" HZLogical 144;
    mn TZ80 "cp" HZLogical 184;
    mn TZ80 "push" HZStackop 69;
    mn TZ80 "pop" HZStackop 65;
    mn TZ80 "adc" HZArith 136;
    mn TZ80 "sbc" HZArith 152;
    mn TZ80 "add" HZArith 128;
    mn TZ80 "inc" HZIncr 1027;
    mn TZ80 "dec" HZIncr 1291;
    mn TZ80 "ld" HZLd 0
  ]%string.
