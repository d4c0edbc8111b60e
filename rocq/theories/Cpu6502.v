(** cpu6502.c.  [branch] and [single] are those of Cpu6800. *)
From Coq Require Import ZArith List Bool Ascii String.
From Verif Require Import Base State Tree Filter Output Label Operator Parse Scode Tables Cpu6800.
Import ListNotations.
Open Scope Z_scope.

(** addmodes, cpu6502.c:86-104. *)
Definition addmodes65 : list (string * Z) :=
  [("(_?_,_X_)", 0); ("@_?_,_X", 0); ("(_?_)_,_Y", 2); ("@_?_,_Y", 2);
   ("(_?_)", 4); ("@_?", 4); ("_", 14); ("#_?", 12); ("?_,_X", 6); ("?_,_Y", 8);
   ("?", 10)]%string.

(** offsettable, cpu6502.c:111-125. *)
Definition offsettable : list (list Z) :=
  [ [1; 0; 17; 0; 18; 0; 21; 29; 0; 25; 5; 13; 9; 0; 0; 0];
    [0; 0; 0; 0; 0; 0; 22; 30; 22; 30; 6; 14; 2; 0; 0; 10];
    [0; 0; 0; 0; 0; 0; 22; 0; 22; 0; 6; 14; 0; 0; 0; 0];
    [0; 0; 0; 0; 0; 0; 22; 30; 0; 0; 6; 14; 107; 0; 0; 58];
    [0; 0; 0; 0; 0; 0; 22; 30; 0; 0; 6; 14; 0; 0; 0; 122];
    [0; 124; 0; 0; 0; 108; 0; 0; 0; 0; 0; 76; 0; 0; 0; 0];
    [0; 0; 0; 0; 0; 0; 0; 0; 0; 0; 0; 32; 0; 0; 0; 0];
    [0; 0; 0; 0; 0; 0; 116; 158; 0; 0; 100; 156; 0; 0; 0; 0] ].

(** [m2_offset[mode]], cpu6502.c:38, 213; the second index is masked by the caller's
    range 0..15, the first is in 0..7 for every table entry. *)
Definition m2_offset (code mode : Z) : Z :=
  nth (Z.to_nat mode) (nth (Z.to_nat (Z.land (Z.shiftr code 8) 15)) offsettable []) 0.

(** F_noimm .. F_noindy, cpu6502.c:27-30. *)
Definition F_noimm : Z := 4096.
(** cpu6502.c:28. *)
Definition F_noacc : Z := 8192.
(** cpu6502.c:29. *)
Definition F_noindx : Z := 16384.
(** cpu6502.c:30. *)
Definition F_noindy : Z := 32768.

(** Bit test [code & f] (cpu6502.c:171-174). *)
Definition hasbit (code f : Z) : bool := negb (Z.land code f =? 0).

(** The search for an addressing mode, cpu6502.c:154-167. *)
Fixpoint findmode65 (oper : str) (l : list (string * Z)) : M (Z * str) :=
  match l with
  | [] => err "unknown addressing mode"
  | (f, num) :: l' =>
      m <- filterc oper (s2l f) ;;
      match m with
      | None => findmode65 oper l'
      | Some (a :: _, _) => ret (num, a)
      | Some ([], _) => ret (num, [])
      end
  end.

(** standard, cpu6502.c:138-258. *)
Definition standard65 (code : Z) (oper : option str) : M unit :=
  mt <- (match oper with
         | None => ret (14, [])
         | Some t => findmode65 t addmodes65
         end) ;;
  let (mode, toparse) := mt : Z * str in
  when ((hasbit code F_noacc && (14 <=? mode)) || (hasbit code F_noimm && (mode =? 12))
        || (hasbit code F_noindx && (mode =? 6)) || (hasbit code F_noindy && (mode =? 8)))
       (err "illegal addressing mode") ;;;
  mv <- (if mode <? 14 then
           r <- parse toparse ;;
           mode' <- (if (mode =? 10) && ltype_eqb r.(r_type) TRegs && (r.(r_modifier) =? 0)
                     then ret 15
                     else checktype r TAbs ;;; ret mode) ;;
           let value := s32 r.(r_value) in
           let big := negb (Z.land value 65280 =? 0) in
           if big || r.(r_flags).(f_forward) then
             if negb (mode' =? 12) then ret (Z.lor mode' 1, value)
             else when big (warning "operand overflow") ;;; ret (mode', value)
           else ret (mode', value)
         else ret (mode, 0)) ;;
  let (mode, value) := mv : Z * Z in
  let mode := if m2_offset code mode =? 0 then Z.lor mode 1 else mode in
  let offset := m2_offset code mode in
  when (offset =? 0) (err "illegal addressing mode") ;;;
  let opcode := Z.land (Z.land code 255 + offset) 255 in
  insert8 opcode ;;;
  (if mode <? 14 then
     if Z.land mode 1 =? 1 then insert16 value else insert8 value
   else ret tt) ;;;
  cf <- gets (fun s => s.(cp).(cpuflag)) ;;
  when ((cf <? 1) && (code =? 96 + 256 + F_noimm + F_noindy))
       (err "no ROR instruction on 6500") ;;;
  when ((cf <? 2) && ((mode =? 4) || (opcode =? 124) || (opcode =? 137)
                      || (opcode =? 26) || (opcode =? 58)))
       (err "illegal use of 65C02 addressing mode").

(** init6502, cpu6502.c:358-371. *)
Definition init6502 (code : Z) : M unit :=
  upd_cp (set_cpuflag code) ;;;
  upd_fl (set_a_addr16 true) ;;;
  upd_fl (set_a_lohi true) ;;;
  upd_fl (set_a_relatif false) ;;;
  init_label_list m6502 ;;;
  when (code =? 2) (init_label_list m65c02).
