(** Instructions of the Z80 as the Zilog manual gives them. *)
From Coq Require Import String Ascii ZArith List Bool.
From Verif Require Import Base State Tree Parse SpecEmit SpecForms SpecCpu.
From Verif Require SpecSplit.
Import ListNotations.
Open Scope Z_scope.

Inductive zreg := rB | rC | rD | rE | rH | rL | rA | rBC | rDE | rHL | rSP | rIX | rIY | rF | rI | rR | rAF.

(** Operands: a register, a register in parentheses, an index register with displacement, an
    address in parentheses, a number, a condition, the port in register C or with a number, the
    alternate accumulator and flags. *)
Inductive zop :=
| Reg (r : zreg) | Ind (r : zreg) | Idx (iy : bool) (d : Z) | Mem (a : Z) | Num (v : Z)
| Cond (c : Z) | PortC | Port (v : Z) | AltAF.

(** * Encodings *)
Definition low_high (v : Z) : list Z := [v mod 256; v / 256 mod 256].

(** The field r: B, C, D, E, H, L, (HL), A.  (IX+d) and (IY+d) take the place of (HL). *)
Definition field_r (x : zop) : option Z :=
  match x with
  | Reg rB => Some 0 | Reg rC => Some 1 | Reg rD => Some 2 | Reg rE => Some 3 | Reg rH => Some 4 | Reg rL => Some 5
  | Ind rHL | Idx _ _ => Some 6 | Reg rA => Some 7
  | _ => None
  end.
Definition in_memory (x : zop) : bool := match x with Ind rHL | Idx _ _ => true | _ => false end.
(** The fields ss and qq: BC, DE, HL, and SP or AF.  IX and IY take the place of HL. *)
Definition field_ss (x : zop) : option Z :=
  match x with
  | Reg rBC => Some 0 | Reg rDE => Some 1 | Reg rHL | Reg rIX | Reg rIY => Some 2 | Reg rSP => Some 3
  | _ => None
  end.
Definition field_qq (x : zop) : option Z :=
  match x with
  | Reg rBC => Some 0 | Reg rDE => Some 1 | Reg rHL | Reg rIX | Reg rIY => Some 2 | Reg rAF => Some 3
  | _ => None
  end.
(** The byte in front of an instruction on an index register, and the displacement. *)
Definition front (x : zop) : list Z :=
  match x with
  | Reg rIX | Idx false _ | Ind rIX => [0xDD]
  | Reg rIY | Idx true _ | Ind rIY => [0xFD]
  | _ => []
  end.
Definition displacement (x : zop) : list Z := match x with Idx _ d => [d mod 256] | _ => [] end.

(** One operation on a field r. *)
Definition on_r (op : Z -> Z) (x : zop) (more : list Z) : option (list Z) :=
  option_map (fun r => front x ++ [op r] ++ displacement x ++ more) (field_r x).
(** Behind 0xCB the displacement comes before the last byte. *)
Definition on_r_cb (op : Z -> Z) (x : zop) : option (list Z) :=
  option_map (fun r => front x ++ [0xCB] ++ displacement x ++ [op r]) (field_r x).
Definition on_ss (field : zop -> option Z) (op : Z -> list Z) (x : zop) (more : list Z) : option (list Z) :=
  option_map (fun r => front x ++ op r ++ more) (field x).

Definition z_load (x y : zop) : option (list Z) :=
  match x, y with
  | Reg rA, Ind rBC => Some [0x0A]
  | Reg rA, Ind rDE => Some [0x1A]
  | Reg rA, Mem a => Some (0x3A :: low_high a)
  | Ind rBC, Reg rA => Some [0x02]
  | Ind rDE, Reg rA => Some [0x12]
  | Mem a, Reg rA => Some (0x32 :: low_high a)
  | Reg rA, Reg rI => Some [0xED; 0x57]
  | Reg rA, Reg rR => Some [0xED; 0x5F]
  | Reg rI, Reg rA => Some [0xED; 0x47]
  | Reg rR, Reg rA => Some [0xED; 0x4F]
  | Reg rSP, Reg rHL => Some [0xF9]
  | Reg rSP, Reg rIX => Some [0xDD; 0xF9]
  | Reg rSP, Reg rIY => Some [0xFD; 0xF9]
  | Reg rHL, Mem a => Some (0x2A :: low_high a)
  | Reg rIX, Mem a => Some (0xDD :: 0x2A :: low_high a)
  | Reg rIY, Mem a => Some (0xFD :: 0x2A :: low_high a)
  | Reg rBC, Mem a => Some (0xED :: 0x4B :: low_high a)
  | Reg rDE, Mem a => Some (0xED :: 0x5B :: low_high a)
  | Reg rSP, Mem a => Some (0xED :: 0x7B :: low_high a)
  | Mem a, Reg rHL => Some (0x22 :: low_high a)
  | Mem a, Reg rIX => Some (0xDD :: 0x22 :: low_high a)
  | Mem a, Reg rIY => Some (0xFD :: 0x22 :: low_high a)
  | Mem a, Reg rBC => Some (0xED :: 0x43 :: low_high a)
  | Mem a, Reg rDE => Some (0xED :: 0x53 :: low_high a)
  | Mem a, Reg rSP => Some (0xED :: 0x73 :: low_high a)
  | _, Num v =>
      match field_r x with
      | Some _ => on_r (fun r => 0x06 + 8 * r) x [v mod 256]
      | None => on_ss field_ss (fun r => [0x01 + 16 * r]) x (low_high v)
      end
  | _, _ =>
      if in_memory x && in_memory y then None
      else match field_r x, field_r y with
           | Some r, Some r' => Some (front x ++ front y ++ [0x40 + 8 * r + r'] ++ displacement x ++ displacement y)
           | _, _ => None
           end
  end.

(** The arithmetic and logical operations with the accumulator, and their number. *)
Definition alu : list (string * Z) :=
  [("add", 0); ("adc", 1); ("sub", 2); ("sbc", 3); ("and", 4); ("xor", 5); ("or", 6); ("cp", 7)]%string.
Definition with_a (k : Z) (x : zop) : option (list Z) :=
  match x with
  | Num v => Some [0xC6 + 8 * k; v mod 256]
  | _ => on_r (fun r => 0x80 + 8 * k + r) x []
  end.
(** ADD HL,ss; ADD IX,pp with IX in the place of HL; ADC HL,ss; SBC HL,ss. *)
Definition with_hl (n : string) (x y : zop) : option (list Z) :=
  match x, y with
  | Reg rHL, (Reg rIX | Reg rIY) | Reg rIX, (Reg rHL | Reg rIY) | Reg rIY, (Reg rHL | Reg rIX) => None
  | Reg rHL, _ =>
      if String.eqb n "add" then option_map (fun r => [0x09 + 16 * r]) (field_ss y)
      else if String.eqb n "adc" then option_map (fun r => [0xED; 0x4A + 16 * r]) (field_ss y)
      else if String.eqb n "sbc" then option_map (fun r => [0xED; 0x42 + 16 * r]) (field_ss y)
      else None
  | (Reg rIX | Reg rIY), _ =>
      if String.eqb n "add" then option_map (fun r => front x ++ [0x09 + 16 * r]) (field_ss y) else None
  | _, _ => None
  end.

Definition rotations : list (string * Z) :=
  [("rlc", 0); ("rrc", 1); ("rl", 2); ("rr", 3); ("sla", 4); ("sra", 5); ("srl", 7)]%string.
Definition bit_ops : list (string * Z) := [("bit", 0x40); ("res", 0x80); ("set", 0xC0)]%string.

(** The instructions without operands. *)
Definition plain : list (string * list Z) :=
  [("nop", [0x00]); ("rlca", [0x07]); ("rrca", [0x0F]); ("rla", [0x17]); ("rra", [0x1F]); ("daa", [0x27]);
   ("cpl", [0x2F]); ("scf", [0x37]); ("ccf", [0x3F]); ("halt", [0x76]); ("exx", [0xD9]); ("di", [0xF3]); ("ei", [0xFB]);
   ("neg", [0xED; 0x44]); ("retn", [0xED; 0x45]); ("reti", [0xED; 0x4D]); ("rrd", [0xED; 0x67]); ("rld", [0xED; 0x6F]);
   ("ldi", [0xED; 0xA0]); ("cpi", [0xED; 0xA1]); ("ini", [0xED; 0xA2]); ("outi", [0xED; 0xA3]);
   ("ldd", [0xED; 0xA8]); ("cpd", [0xED; 0xA9]); ("ind", [0xED; 0xAA]); ("outd", [0xED; 0xAB]);
   ("ldir", [0xED; 0xB0]); ("cpir", [0xED; 0xB1]); ("inir", [0xED; 0xB2]); ("otir", [0xED; 0xB3]);
   ("lddr", [0xED; 0xB8]); ("cpdr", [0xED; 0xB9]); ("indr", [0xED; 0xBA]); ("otdr", [0xED; 0xBB])]%string.

Fixpoint assoc {A} (n : string) (l : list (string * A)) : option A :=
  match l with
  | [] => None
  | (m, a) :: l' => if String.eqb n m then Some a else assoc n l'
  end.

(** Displacement of a relative jump of two bytes at [pc]. *)
Definition relative (pc op v : Z) : option (list Z) :=
  let d := trunc32 (v - (pc + 2)) in
  if (-128 <=? d) && (d <=? 127) then Some [op; d mod 256] else None.

(** The restart address, which may also be given as its number 0 to 7; addresses have 16 bits. *)
Definition restart (v : Z) : option (list Z) :=
  let a := v mod 2 ^ 16 in
  if a <=? 7 then Some [0xC7 + 8 * a]
  else if (a <=? 0x38) && (a mod 8 =? 0) then Some [0xC7 + a]
  else None.

Definition z_other (pc : Z) (n : string) (ops : list zop) : option (list Z) :=
  match ops with
  | [] => if String.eqb n "ret" then Some [0xC9] else assoc n plain
  | [Cond c] => if String.eqb n "ret" then Some [0xC0 + 8 * c] else None
  | [Ind (rHL | rIX | rIY) as x] =>
      if String.eqb n "jp" then Some (front x ++ [0xE9])
      else if String.eqb n "inc" then on_r (fun r => 0x04 + 8 * r) x []
      else if String.eqb n "dec" then on_r (fun r => 0x05 + 8 * r) x []
      else match assoc n rotations with Some k => on_r_cb (fun r => 8 * k + r) x | None => None end
  | [Num v] =>
      if String.eqb n "im" then
        if v =? 0 then Some [0xED; 0x46] else if v =? 1 then Some [0xED; 0x56] else if v =? 2 then Some [0xED; 0x5E] else None
      else if String.eqb n "rst" then restart v
      else if String.eqb n "djnz" then relative pc 0x10 v
      else if String.eqb n "jr" then relative pc 0x18 v
      else if String.eqb n "jp" then Some (0xC3 :: low_high v)
      else if String.eqb n "call" then Some (0xCD :: low_high v)
      else None
  | [x] =>
      if String.eqb n "push" then on_ss field_qq (fun r => [0xC5 + 16 * r]) x []
      else if String.eqb n "pop" then on_ss field_qq (fun r => [0xC1 + 16 * r]) x []
      else if String.eqb n "inc" then
        match field_r x with Some _ => on_r (fun r => 0x04 + 8 * r) x [] | None => on_ss field_ss (fun r => [0x03 + 16 * r]) x [] end
      else if String.eqb n "dec" then
        match field_r x with Some _ => on_r (fun r => 0x05 + 8 * r) x [] | None => on_ss field_ss (fun r => [0x0B + 16 * r]) x [] end
      else match assoc n rotations with Some k => on_r_cb (fun r => 8 * k + r) x | None => None end
  | [Cond c; Num v] =>
      if String.eqb n "jr" then if c <=? 3 then relative pc (0x20 + 8 * c) v else None
      else if String.eqb n "jp" then Some (0xC2 + 8 * c :: low_high v)
      else if String.eqb n "call" then Some (0xC4 + 8 * c :: low_high v)
      else None
  | [Reg rA; Port v] => if String.eqb n "in" then Some [0xDB; v mod 256] else None
  | [Port v; Reg rA] => if String.eqb n "out" then Some [0xD3; v mod 256] else None
  | [Reg r; PortC] => if String.eqb n "in" then option_map (fun k => [0xED; 0x40 + 8 * k]) (field_r (Reg r)) else None
  | [PortC; Reg r] => if String.eqb n "out" then option_map (fun k => [0xED; 0x41 + 8 * k]) (field_r (Reg r)) else None
  | [Reg rDE; Reg rHL] => if String.eqb n "ex" then Some [0xEB] else None
  | [Reg rAF; AltAF] => if String.eqb n "ex" then Some [0x08] else None
  | [Ind rSP; Reg (rHL | rIX | rIY) as x] => if String.eqb n "ex" then Some (front x ++ [0xE3]) else None
  | [Num b; x] =>
      match assoc n bit_ops with
      | Some k => if (0 <=? b) && (b <=? 7) then on_r_cb (fun r => k + 8 * b + r) x else None
      | None => None
      end
  | _ => None
  end.

(** The bytes of an instruction at address [pc]; [None]: there is no such instruction.  SUB, AND,
    XOR, OR and CP are written without the accumulator, which may be added; ADD, ADC and SBC with it. *)
Definition zilog (pc : Z) (n : string) (ops : list zop) : option (list Z) :=
  match assoc n alu with
  | Some k =>
      match ops with
      | [x] => if existsb (String.eqb n) ["sub"; "and"; "xor"; "or"; "cp"]%string then with_a k x else None
      | [Reg rA; x] => with_a k x
      | [x; y] => with_hl n x y
      | _ => None
      end
  | None =>
      if String.eqb n "ld" then match ops with [x; y] => z_load x y | _ => None end
      else z_other pc n ops
  end.

(** * How operands are written *)
(** The numbers that stand for the registers. *)
Definition number (r : zreg) : Z :=
  match r with
  | rB => 0 | rC => 1 | rD => 2 | rE => 3 | rH => 4 | rL => 5 | rA => 7 | rBC => 8 | rDE => 9 | rHL => 10
  | rSP => 11 | rIX => 12 | rIY => 13 | rF => 16 | rI => 17 | rR => 18 | rAF => 19
  end.
Definition registers : list zreg := [rB; rC; rD; rE; rH; rL; rA; rBC; rDE; rHL; rSP; rIX; rIY; rF; rI; rR; rAF].
Definition name_of (r : zreg) : string :=
  match r with
  | rB => "b" | rC => "c" | rD => "d" | rE => "e" | rH => "h" | rL => "l" | rA => "a" | rBC => "bc" | rDE => "de" | rHL => "hl"
  | rSP => "sp" | rIX => "ix" | rIY => "iy" | rF => "f" | rI => "i" | rR => "r" | rAF => "af"
  end.

(** Every register the symbol table knows has one of these numbers. *)
Definition is_register (m : Z) : Prop := exists r, m = number r.
Definition named (s : state) : Prop := forall k l, tfind k s.(sy) = Some l -> l.(l_type) = TRegs -> is_register l.(l_modifier).

(** [s'] is [s] but for the scratch variables of the Z80 and what the evaluation of operands and
    the emission of bytes may change. *)
Definition near (s s' : state) : Prop := same (set_cp s'.(cp) s) s'.

(** The text stands for the number or the register, in a state near [s]. *)
Definition value_z (s : state) (t : text) (v : Z) : Prop :=
  exists s1 s2 r, near s s1 /\ parse t s1 = (Ok r, s2) /\ r.(r_type) = TAbs /\ v = trunc32 r.(r_value).
Definition register_z (s : state) (t : text) (x : zreg) : Prop :=
  exists s1 s2 r, near s s1 /\ parse t s1 = (Ok r, s2) /\ r.(r_type) = TRegs /\ r.(r_modifier) = number x /\ r.(r_value) = 2 ^ number x.

Inductive zform := FIdx (iy : bool) | FPlus (iy : bool) | FMinus (iy : bool) | FInd (r : zreg) | FMem | FPlain.
Definition zforms : list (form * zform) :=
  [(Fixed (t_ "(_IX_)"), FIdx false); (Fixed (t_ "(_IY_)"), FIdx true);
   (Free (t_ "(_IX_+_") (t_ "_)"), FPlus false); (Free (t_ "(_IY_+_") (t_ "_)"), FPlus true);
   (Free (t_ "(_IX_-_") (t_ "_)"), FMinus false); (Free (t_ "(_IY_-_") (t_ "_)"), FMinus true);
   (Fixed (t_ "(_HL_)"), FInd rHL); (Fixed (t_ "(_BC_)"), FInd rBC); (Fixed (t_ "(_DE_)"), FInd rDE);
   (Free (t_ "(_") (t_ "_)"), FMem); (Free [] [], FPlain)].

Inductive reads (s : state) (t : text) : zop -> Prop :=
| rd_idx : forall iy a, first_fit t zforms (FIdx iy) a -> reads s t (Idx iy 0)
| rd_plus : forall iy a v, first_fit t zforms (FPlus iy) a -> value_z s a v -> reads s t (Idx iy v)
| rd_minus : forall iy a v, first_fit t zforms (FMinus iy) a -> value_z s a v -> reads s t (Idx iy (trunc32 (- v)))
| rd_ind : forall r a, first_fit t zforms (FInd r) a -> reads s t (Ind r)
| rd_mem : forall a v, first_fit t zforms FMem a -> value_z s a v -> reads s t (Mem v)
| rd_num : forall a v, first_fit t zforms FPlain a -> value_z s a v -> reads s t (Num v)
| rd_reg : forall a r, first_fit t zforms FPlain a -> register_z s a r -> reads s t (Reg r).

Definition conditions : list string := ["NZ"; "Z"; "NC"; "C"; "PO"; "PE"; "P"; "M"]%string.
Definition condition (t : text) (c : Z) : Prop :=
  exists n, nth_error conditions (Z.to_nat c) = Some n /\ 0 <= c < 8 /\ spells (t_ n) t.

Definition comma : text := t_ ",".

(** A text with signs between and around two free parts. *)
Definition fits2 (p q r t a b : text) : Prop :=
  exists x y z, t = x ++ a ++ y ++ b ++ z /\ spells p x /\ spells q y /\ spells r z /\ SpecSplit.outside a.

Inductive port (s : state) (t : text) : zop -> Prop :=
| pt_c : reads s t (Reg rC) -> port s t PortC
| pt_n : forall v, reads s t (Num v) -> port s t (Port v).

(** The operands of an instruction.  Conditions come first in JR, JP, CALL and RET; IN and OUT have
    a port in parentheses; the operands of EX may be exchanged. *)
Inductive operands (s : state) : string -> option text -> list zop -> Prop :=
| op_none : forall n o, o = None -> operands s n o []
| op_ret : forall o, given o = [] -> operands s "ret" o []
| op_cond1 : forall t c, condition t c -> operands s "ret" (Some t) [Cond c]
| op_one : forall n o x, reads s (given o) x -> operands s n o [x]
| op_num : forall n o v, In n ["im"; "rst"; "djnz"; "jr"; "jp"; "call"]%string ->
    value_z s (given o) v -> operands s n o [Num v]
| op_cond2 : forall n o a b c v, In n ["jr"; "jp"; "call"]%string ->
    SpecSplit.first_cut comma (given o) a b -> condition a c -> value_z s b v -> operands s n o [Cond c; Num v]
| op_jump : forall o a r, fits (Free (t_ "(_") (t_ "_)")) (given o) a -> reads s a (Reg r) -> operands s "jp" o [Ind r]
| op_two : forall n o a b x y, SpecSplit.first_cut comma (given o) a b -> reads s a x -> reads s b y -> operands s n o [x; y]
| op_bit : forall n o a b v y, In n ["bit"; "res"; "set"]%string ->
    SpecSplit.first_cut comma (given o) a b -> value_z s a v -> reads s b y -> operands s n o [Num v; y]
| op_three : forall n o a b c d x y z, SpecSplit.first_cut comma (given o) a b -> SpecSplit.first_cut comma b c d ->
    reads s a x -> reads s c y -> reads s d z -> operands s n o [x; y; z]
| op_in : forall o a b x y, fits2 [] (t_ "_,_(") (t_ ")") (given o) a b -> reads s a x -> port s b y -> operands s "in" o [x; y]
| op_out : forall o a b x y, fits2 (t_ "(") (t_ ")_,_") [] (given o) a b -> port s a x -> reads s b y -> operands s "out" o [x; y]
| op_ex_de : forall o p, In p ["DE_,_HL"; "HL_,_DE"]%string -> fits (Fixed (t_ p)) (given o) [] -> operands s "ex" o [Reg rDE; Reg rHL]
| op_ex_sp : forall o f a r, In f [Free (t_ "(_SP_)_,_") []; Free [] (t_ "_,_(_SP_)")] -> fits f (given o) a ->
    reads s a (Reg r) -> operands s "ex" o [Ind rSP; Reg r]
| op_ex_af : forall o p a, In p ["AF_,_AF'_"; "AF'_,_AF_"]%string -> fits (Free (t_ p) []) (given o) a ->
    (a = [] \/ exists c, a = ";"%char :: c) -> operands s "ex" o [Reg rAF; AltAF].

(** * What is accepted besides *)
(** The operations with the accumulator accept any operand, and the accumulator twice; CPDR is
    encoded wrongly; a second quote can make [ex af,af'] look like [ex ...,(sp)] as well. *)
Inductive stray (s : state) : string -> option text -> list zop -> list Z -> Prop :=
| st_cpdr : forall o, stray s "cpdr" o [] [0xED; 0x89]
| st_alu1 : forall n o x bs, In n ["sub"; "and"; "xor"; "or"; "cp"]%string -> with_a 0 x = None -> stray s n o [x] bs
| st_alu2 : forall n o x bs, In n (map fst alu) -> with_a 0 x = None -> stray s n o [Reg rA; x] bs
| st_alu3 : forall n o x bs, In n ["add"; "adc"; "sbc"]%string -> stray s n o [Reg rA; Reg rA; x] bs
| st_ex : forall o a bs, fits (Free [] (t_ "_,_(_SP_)")) (given o) a -> stray s "ex" o [Reg rAF; AltAF] bs.
