(** cpu6800.c. *)
From Coq Require Import ZArith List Bool Ascii String.
From Verif Require Import Base State Tree Filter Output Label Operator Parse Scode Tables.
Import ListNotations.
Open Scope Z_scope.

(** The text of an operand; a null operand is the empty string for filter
    (filter.c:59) and parse (parse.c:222). *)
Definition otext (o : option str) : str := match o with Some t => t | None => [] end.

(** Is the operand pointer non-null?  (cpu6800.c:61, cpu6502.c:76, cpuz80.c:266, ...) *)
Definition ogiven (o : option str) : bool := match o with Some _ => true | None => false end.

(** branch, cpu6800.c:27-48; cpu6502.c:45-65 and relbranch, cpuz80.c:228-248 are
    the same code. *)
Definition branch (code : Z) (oper : option str) : M unit :=
  r <- parse (otext oper) ;;
  checktype r TAbs ;;;
  p <- gets (fun s => s.(wr).(pc)) ;;
  let dd := s32 (r.(r_value) - p - 2) in
  insert8 code ;;;
  insert8 dd ;;;
  when (negb (s8 dd =? dd)) (err "too long branch").

(** single, cpu6800.c:57-67 and cpu6502.c:72-82. *)
Definition single (code : Z) (oper : option str) : M unit :=
  insert8 code ;;;
  when (ogiven oper) (err "no operands allowed").

(** addmodes, cpu6800.c:70-81; the flag tells whether the pattern has a wildcard. *)
Definition addmodes68 : list (string * Z) :=
  [("#_?", 0); (",_x", 32); ("?_,_x", 32); ("?", 48)]%string.

(** Loop of findmode, cpu6800.c:95-117.  Result: addressing mode shift and value. *)
Fixpoint findmode_loop (oper : str) (l : list (string * Z)) : M (Z * Z) :=
  match l with
  | [] => err "Unknown addressing mode"
  | (f, add) :: l' =>
      m <- filterc oper (s2l f) ;;
      match m with
      | None => findmode_loop oper l'
      | Some (caps, _) =>
          let address := match caps with a :: _ => a | [] => s2l "0" end in
          r <- parse address ;;
          checktype r TAbs ;;;
          let value := s32 r.(r_value) in
          if (add =? 48) && negb r.(r_flags).(f_forward)
             && (Z.land r.(r_value) 65280 =? 0)
          then ret (16, value)
          else ret (add, value)
      end
  end.

(** findmode, cpu6800.c:84-118. *)
Definition findmode (oper : option str) : M (Z * Z) :=
  match oper with
  | None => err "Unknown addressing mode"
  | Some t => findmode_loop t addmodes68
  end.

(** The opcodes with a 16 bit immediate operand, cpu6800.c:129-130. *)
Definition imm16 (code : Z) : bool :=
  (code =? 140) || (code =? 142) || (code =? 195) || (code =? 204)
  || (code =? 206) || (code =? 131).

(** codemode, cpu6800.c:122-154. *)
Definition codemode (code add value : Z) : M unit :=
  insert8 (code + add) ;;;
  if (add =? 0) && imm16 code then insert16 value
  else if add =? 48 then insert16 value
  else
    insert8 value ;;;
    if negb (Z.land value 65280 =? 0) then
      if add =? 32 then err "too long displacement" else warning "operand overflow"
    else ret tt.

(** standard, cpu6800.c:158-166. *)
Definition standard68 (code : Z) (oper : option str) : M unit :=
  av <- findmode oper ;;
  codemode code (fst av) (snd av).

(** standard2, cpu6800.c:170-184. *)
Definition standard2 (code : Z) (oper : option str) : M unit :=
  av <- findmode oper ;;
  codemode code (fst av) (snd av) ;;;
  when (fst av =? 0) (err "Bad addressing mode").

(** standard3, cpu6800.c:188-208. *)
Definition standard3 (code : Z) (oper : option str) : M unit :=
  av <- findmode oper ;;
  let add := if fst av =? 16 then 48 else fst av in
  codemode code add (snd av) ;;;
  when (add <=? 16) (err "Bad addressing mode").

(** init6800, cpu6800.c:349-361. *)
Definition init6800 (code : Z) : M unit :=
  upd_fl (set_a_addr16 true) ;;;
  upd_fl (set_a_lohi false) ;;;
  upd_fl (set_a_relatif false) ;;;
  init_label_list m6800 ;;;
  when (code =? 1) (init_label_list m6801).
