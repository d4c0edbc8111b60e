(** The processors and their instructions (property C44). *)
From Coq Require Import String Ascii ZArith List Bool.
From Verif Require Import Base State Tree SpecForms SpecCpu.
From Verif Require SpecSplit.
Import ListNotations.
Open Scope Z_scope.

Inductive processor := P6800 | P6801 | P6803 | P6500 | P6502 | P65C02 | PZ80.
Definition called (p : processor) : string :=
  match p with
  | P6800 => "6800" | P6801 => "6801" | P6803 => "6803"
  | P6500 => "6500" | P6502 => "6502" | P65C02 => "65C02" | PZ80 => "Z80"
  end%string.

(** The names of the Z80 instructions, Zilog's manual. *)
Definition zilog_names : list string :=
  ["adc"; "add"; "and"; "bit"; "call"; "ccf"; "cp"; "cpd"; "cpdr"; "cpi"; "cpir"; "cpl"; "daa"; "dec"; "di"; "djnz";
   "ei"; "ex"; "exx"; "halt"; "im"; "in"; "inc"; "ind"; "indr"; "ini"; "inir"; "jp"; "jr"; "ld"; "ldd"; "lddr"; "ldi";
   "ldir"; "neg"; "nop"; "or"; "otdr"; "otir"; "out"; "outd"; "outi"; "pop"; "push"; "res"; "ret"; "reti"; "retn";
   "rl"; "rla"; "rlc"; "rlca"; "rld"; "rr"; "rra"; "rrc"; "rrca"; "rrd"; "rst"; "sbc"; "scf"; "set"; "sla"; "sra";
   "srl"; "sub"; "xor"]%string.

Definition names_of {A B} (l : list (string * A * B)) : list string := map (fun x => fst (fst x)) l.
Definition repertoire (p : processor) : list string :=
  match p with
  | P6800 => names_of (sheet68 false)
  | P6801 | P6803 => names_of (sheet68 true)
  | P6500 => names_of (sheet65 C6500)
  | P6502 => names_of (sheet65 C6502)
  | P65C02 => names_of (sheet65 C65C02)
  | PZ80 => zilog_names
  end.

(** Where the instruction [n] of [p] belongs: a later processor has the instructions of the
    earlier ones, and some more. *)
Definition listed (n : string) (l : list string) : bool := existsb (String.eqb n) l.
Definition home (p : processor) (n : string) : table :=
  match p with
  | P6800 | P6801 | P6803 => if listed n (names_of sheet6800) then T6800 else T6801
  | P6500 | P6502 | P65C02 =>
      if listed n (names_of (sheet6500 ++ aliases65 ++ extra6502)) then T6502 else T65C02
  | PZ80 => TZ80
  end.

(** No other symbol has the name of the instruction [n] of [p]. *)
Definition identifier (n : string) : str := map SpecSplit.upper (list_ascii_of_string n).
Definition unshadowed (p : processor) (n : string) (s : state) : Prop :=
  match tfind (identifier n) s.(sy) with
  | None => True
  | Some l => l.(l_type) = TMnemo /\ l.(l_table) = home p n
  end.
