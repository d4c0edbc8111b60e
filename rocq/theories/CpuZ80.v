(** cpuz80.c.  [relbranch] is [branch] of Cpu6800 (same code, cpuz80.c:228-248). *)
From Coq Require Import ZArith List Bool Ascii String.
From Verif Require Import Base State Tree Filter Output Label Operator Parse Scode Tables Cpu6800.
Import ListNotations.
Open Scope Z_scope.

(** isreg8, cpuz80.c:29. *)
Definition isreg8 (n : Z) : bool := (0 <=? n) && (n <? 8).
(** isreg16, cpuz80.c:30. *)
Definition isreg16 (n : Z) : bool := (8 <=? n) && (n <? 16).

(** IX, cpuz80.c:33. *)
Definition IX : Z := 221.
(** IY, cpuz80.c:34. *)
Definition IY : Z := 253.
(** HL, cpuz80.c:35. *)
Definition HL : Z := 255.
(** cpuz80.c:37. *)
Definition ACCUMULATOR : Z := 7.
(** cpuz80.c:38. *)
Definition MREGISTER : Z := 6.
(** cpuz80.c:39. *)
Definition HLREGISTER : Z := 10.
(** cpuz80.c:40. *)
Definition MEMORY : Z := -1.
(** cpuz80.c:41. *)
Definition IMDATA : Z := -2.
(** cpuz80.c:42. *)
Definition SPBC : Z := -4.
(** cpuz80.c:43. *)
Definition SPDE : Z := -5.

(** CLRALL, cpuz80.c:45. *)
Definition clrall : M unit :=
  upd_cp (fun c => set_z_indexflag 0 (set_z_offsetflag false
                     (set_z_arg8flag false (set_z_arg16flag false c)))).

(** needreg8, cpuz80.c:47. *)
Definition needreg8 : string := "operates with reg8 or (HL),(IX+nn),(IY+nn)".
(** needacc, cpuz80.c:48. *)
Definition needacc : string := "operates on A only".
(** badop, cpuz80.c:49. *)
Definition badop : string := "illegal addressing mode".

(** indexed, cpuz80.c:54-55, with the index [i] of each pattern. *)
Definition indexed : list (string * Z) :=
  [("(_IX_)", 0); ("(_IY_)", 1); ("(_IX_+_?_)", 2); ("(_IY_+_?_)", 3);
   ("(_IX_-_?_)", 4); ("(_IY_-_?_)", 5)]%string.

(** First loop of getreg, cpuz80.c:63-90: [true] when an indexed form was found. *)
Fixpoint getindexed (oper : str) (l : list (string * Z)) : M bool :=
  match l with
  | [] => ret false
  | (f, i) :: l' =>
      m <- filterc oper (s2l f) ;;
      match m with
      | None => getindexed oper l'
      | Some (caps, _) =>
          upd_cp (set_z_offset 0) ;;;
          (if 1 <? i then
             r <- parse (match caps with a :: _ => a | [] => [] end) ;;
             checktype r TAbs ;;;
             let o := s32 r.(r_value) in
             upd_cp (set_z_offset (if 3 <? i then s32 (- o) else o))
           else ret tt) ;;;
          c <- gets cp ;;
          when (negb (c.(z_indexflag) =? 0) || c.(z_offsetflag)) (err badop) ;;;
          upd_cp (set_z_offsetflag true) ;;;
          upd_cp (set_z_indexflag (if Z.odd i then IY else IX)) ;;;
          ret true
      end
  end.

(** getreg, cpuz80.c:57-176. *)
Definition getreg (oper : str) : M Z :=
  b <- getindexed oper indexed ;;
  if b : bool then ret MREGISTER
  else
    b <- filter0 oper "(_HL_)" ;;
    if b : bool then
      c <- gets cp ;;
      when (negb (c.(z_indexflag) =? 0) && negb (c.(z_indexflag) =? HL)) (err badop) ;;;
      upd_cp (set_z_indexflag HL) ;;;
      ret MREGISTER
    else
    b <- filter0 oper "(_BC_)" ;;
    if b : bool then ret SPBC
    else
    b <- filter0 oper "(_DE_)" ;;
    if b : bool then ret SPDE
    else
    m <- filter1 oper "(_?_)" ;;
    match m with
    | Some oper2 =>
        r <- parse oper2 ;;
        checktype r TAbs ;;;
        c <- gets cp ;;
        when (c.(z_arg8flag) || c.(z_arg16flag)) (err badop) ;;;
        upd_cp (set_z_arg16flag true) ;;;
        upd_cp (set_z_arg (s32 r.(r_value))) ;;;
        ret MEMORY
    | None =>
        r <- parse oper ;;
        if ltype_eqb r.(r_type) TAbs then
          c <- gets cp ;;
          when (c.(z_arg8flag) || c.(z_arg16flag)) (err badop) ;;;
          upd_cp (set_z_arg16flag true) ;;;
          upd_cp (set_z_arg (s32 r.(r_value))) ;;;
          ret IMDATA
        else
          checktype r TRegs ;;;
          let m := r.(r_modifier) in
          (if (m <? 0) || (31 <? m) then stop (UB "getreg: shift count")
           else when (negb (r.(r_value) =? s32 (Z.shiftl 1 m))) (err "illegal register list")) ;;;
          if (m =? 12) || (m =? 13) || (m =? HLREGISTER) then
            let i := if m =? 12 then IX else if m =? 13 then IY else HL in
            c <- gets cp ;;
            when (negb (c.(z_indexflag) =? 0) && negb (c.(z_indexflag) =? i)) (err badop) ;;;
            upd_cp (set_z_indexflag i) ;;;
            ret HLREGISTER
          else ret m
    end.

(** [code & 0xff00] (cpuz80.c:186, 205, 259). *)
Definition hashigh (code : Z) : bool := negb (Z.land code 65280 =? 0).

(** docode, cpuz80.c:179-225. *)
Definition docode (code : Z) : M unit :=
  c <- gets cp ;;
  when ((c.(z_indexflag) =? IX) || (c.(z_indexflag) =? IY) || c.(z_offsetflag))
       (insert8 c.(z_indexflag)) ;;;
  (if hashigh code then insert8 (Z.shiftr code 8) else insert8 code) ;;;
  (if c.(z_offsetflag) then
     insert8 c.(z_offset) ;;;
     when (negb (c.(z_offset) =? s8 c.(z_offset))) (warning "offset overflow")
   else ret tt) ;;;
  when (hashigh code) (insert8 code) ;;;
  if c.(z_arg8flag) then
    insert8 c.(z_arg) ;;;
    when (negb (Z.land c.(z_arg) 65280 =? 0)) (warning "argument overflow")
  else if c.(z_arg16flag) then insert16 c.(z_arg)
  else ret tt.

(** simple, cpuz80.c:257-272. *)
Definition simple (code : Z) (oper : option str) : M unit :=
  when (hashigh code) (insert8 (Z.shiftr code 8)) ;;;
  insert8 code ;;;
  when (ogiven oper) (err "no operands allowed").

(** im, cpuz80.c:275-301. *)
Definition z_im (oper : option str) : M unit :=
  r <- parse (otext oper) ;;
  checktype r TAbs ;;;
  if r.(r_value) =? 0 then insert16 18157 (* 0x46ed *)
  else if r.(r_value) =? 1 then insert16 22253 (* 0x56ed *)
  else if r.(r_value) =? 2 then insert16 24301 (* 0x5eed *)
  else insert16 0 ;;; err "Bad interruption mode".

(** rst, cpuz80.c:304-323. *)
Definition z_rst (oper : option str) : M unit :=
  r <- parse (otext oper) ;;
  checktype r TAbs ;;;
  let v := if Z.land r.(r_value) 65528 =? 0 then s64 (Z.shiftl r.(r_value) 3) else r.(r_value) in
  insert8 (Z.lor 199 v) ;;;
  when (negb (Z.land v 65479 =? 0)) (err "Bad RST vector").

(** condcodes, cpuz80.c:326. *)
Definition condcodes : list string := ["NZ"; "Z"; "NC"; "C"; "PO"; "PE"; "P"; "M"]%string.

(** The search in condcodes, cpuz80.c:336-342, 370-377. *)
Fixpoint findcond (t : str) (i : Z) (l : list string) : M (option Z) :=
  match l with
  | [] => ret None
  | c :: l' =>
      b <- filter0 t c ;;
      if b : bool then ret (Some i) else findcond t (i + 1) l'
  end.

(** searchcond, cpuz80.c:329-349: condition number or -1, and the rest. *)
Definition searchcond (maxcond : nat) (oper : str) : M (Z * str) :=
  m <- filter2 oper "?_,_?" ;;
  match m with
  | Some (ccode, rest) =>
      c <- findcond ccode 0 (firstn maxcond condcodes) ;;
      match c with
      | Some i => ret (i, rest)
      | None => err "Bad condition code"
      end
  | None => ret (-1, oper)
  end.

(** jr, cpuz80.c:352-357. *)
Definition z_jr (oper : option str) : M unit :=
  cr <- searchcond 4 (otext oper) ;;
  branch (32 + fst cr * 8) (Some (snd cr)).

(** ret, cpuz80.c:360-383. *)
Definition z_ret (oper : option str) : M unit :=
  match otext oper with
  | [] => insert8 201
  | t =>
      c <- findcond t 0 condcodes ;;
      match c with
      | Some i => insert8 (192 + i * 8)
      | None => err "Bad condition code"
      end
  end.

(** Common part of call and jp: cpuz80.c:392-405 and cpuz80.c:431-444. *)
Definition condjump (ccbase plain : Z) (oper : str) : M unit :=
  cr <- searchcond 8 oper ;;
  let cond := fst cr * 8 in
  r <- parse (snd cr) ;;
  checktype r TAbs ;;;
  (if 0 <=? cond then insert8 (ccbase + cond) else insert8 plain) ;;;
  insert16 r.(r_value).

(** call, cpuz80.c:386-407. *)
Definition z_call (oper : option str) : M unit := condjump 196 205 (otext oper).

(** jp, cpuz80.c:410-448. *)
Definition z_jp (oper : option str) : M unit :=
  clrall ;;;
  m <- filter1 (otext oper) "(_?_)" ;;
  match m with
  | Some operand2 =>
      g <- getreg operand2 ;;
      if g =? HLREGISTER then docode 233 else err "illegal indirection"
  | None => condjump 194 195 (otext oper)
  end.

(** Last part of ex, cpuz80.c:471-485. *)
Definition z_ex_af (t : str) : M unit :=
  m <- filter1 t "AF_,_AF'_?" ;;
  m <- (match m with Some a => ret (Some a) | None => filter1 t "AF'_,_AF_?" end) ;;
  match m with
  | Some [] => docode 8
  | Some (c :: _) => if zc c =? 59 then docode 8 else err "Illegal EX instruction"
  | None => err "Illegal EX instruction"
  end.

(** ex, cpuz80.c:451-486. *)
Definition z_ex (oper : option str) : M unit :=
  let t := otext oper in
  clrall ;;;
  b <- filter0 t "DE_,_HL" ;;
  b <- (if b : bool then ret true else filter0 t "HL_,_DE") ;;
  if b : bool then docode 235
  else
    m <- filter1 t "(_SP_)_,_?" ;;
    m <- (match m with Some a => ret (Some a) | None => filter1 t "?_,_(_SP_)" end) ;;
    match m with
    | Some oper2 =>
        g <- getreg oper2 ;;
        if g =? HLREGISTER then docode 227 else z_ex_af t
    | None => z_ex_af t
    end.

(** inout, cpuz80.c:489-544. *)
Definition z_inout (code : Z) (oper : option str) : M unit :=
  let t := otext oper in
  clrall ;;;
  m <- (if Z.land code 8 =? 0 then filter2 t "(?)_,_?"
        else
          m <- filter2 t "?_,_(?)" ;;
          ret (match m with Some (a, b) => Some (b, a) | None => None end)) ;;
  match m with
  | Some (op1, op2) =>
      reg <- getreg op1 ;;
      if reg =? IMDATA then
        reg <- getreg op2 ;;
        when (negb (reg =? ACCUMULATOR)) (err needacc) ;;;
        upd_cp (set_z_arg8flag true) ;;;
        docode code
      else if reg =? 1 then
        reg <- getreg op2 ;;
        when (negb (isreg8 reg) || (reg =? 6)) (err "operates on reg8 only") ;;;
        let reg := reg * 8 in
        let reg := if Z.land code 8 =? 0 then reg + 1 else reg in
        docode (60736 + reg) (* 0xed40 *)
      else err "port is (C) or (nn)"
  | None => err badop
  end.

(** bitop, cpuz80.c:547-580. *)
Definition z_bitop (code : Z) (oper : option str) : M unit :=
  clrall ;;;
  m <- filter2 (otext oper) "?_,_?" ;;
  match m with
  | None => err "two operands required"
  | Some (oper1, oper2) =>
      r <- parse oper1 ;;
      checktype r TAbs ;;;
      let bit := s32 r.(r_value) in
      when ((bit <? 0) || (7 <? bit)) (err "illegal bit number") ;;;
      reg <- getreg oper2 ;;
      when (negb (isreg8 reg)) (err needreg8) ;;;
      docode (code + reg + bit * 8)
  end.

(** onreg8, cpuz80.c:583-596. *)
Definition z_onreg8 (code : Z) (oper : option str) : M unit :=
  clrall ;;;
  reg <- getreg (otext oper) ;;
  when (negb (isreg8 reg)) (err needreg8) ;;;
  docode (code + reg).

(** logical, cpuz80.c:599-627. *)
Definition z_logical (code : Z) (oper : option str) : M unit :=
  clrall ;;;
  m <- filter2 (otext oper) "?_,_?" ;;
  t <- (match m with
        | Some (op1, op2) =>
            g <- getreg op1 ;;
            when (negb (g =? ACCUMULATOR)) (err needacc) ;;;
            warning "One operand only. but i understand!" ;;;
            ret op2
        | None => ret (otext oper)
        end) ;;
  reg <- getreg t ;;
  reg <- (if reg =? IMDATA then upd_cp (set_z_arg8flag true) ;;; ret 70 else ret reg) ;;
  docode (code + reg).

(** stackop, cpuz80.c:630-652. *)
Definition z_stackop (code : Z) (oper : option str) : M unit :=
  clrall ;;;
  reg <- getreg (otext oper) ;;
  let reg := if reg =? 19 then 11 else if reg =? 11 then 19 else reg in
  when (negb (isreg16 reg)) (err "Operates with AF,BC,DE,HL,IX,IY") ;;;
  docode (code + reg * 16).

(** arith, cpuz80.c:655-711. *)
Definition z_arith (code : Z) (oper : option str) : M unit :=
  clrall ;;;
  m <- filter2 (otext oper) "?_,_?" ;;
  match m with
  | None => err badop
  | Some (op1, op2) =>
      reg <- getreg op1 ;;
      if reg =? ACCUMULATOR then z_logical code (Some op2)
      else if reg =? HLREGISTER then
        c <- gets cp ;;
        when (negb (c.(z_indexflag) =? HL) && negb (code =? 128))
             (err "illegal index operation") ;;;
        let code := if code =? 128 then 9 - 128
                    else if code =? 136 then 60746 - 128 (* 0xed4a *)
                    else if code =? 152 then 60738 - 128 (* 0xed42 *)
                    else code in
        reg <- getreg op2 ;;
        when (negb (isreg16 reg)) (err badop) ;;;
        docode (code + reg * 16)
      else err badop
  end.

(** incr, cpuz80.c:714-738. *)
Definition z_incr (code : Z) (oper : option str) : M unit :=
  clrall ;;;
  reg <- getreg (otext oper) ;;
  if isreg8 reg then docode (reg * 8 + Z.shiftr code 8)
  else if isreg16 reg then docode (Z.land code 255 + (reg - 8) * 16)
  else err badop.

(** ld, cpuz80.c:757-871: the choice of the code once both operands are known;
    [None] is the error badop, the flag tells whether arg8flag is set. *)
Definition ld_code (reg1 reg2 : Z) : option (Z * bool) :=
  let part4 :=
    if reg2 =? ACCUMULATOR then
      if reg1 =? SPBC then Some (2, false)
      else if reg1 =? SPDE then Some (18, false)
      else if reg1 =? 17 then Some (60743, false) (* 0xed47 *)
      else if reg1 =? 18 then Some (60751, false) (* 0xed4f *)
      else None
    else None in
  let part3 :=
    if reg1 =? MEMORY then
      if reg2 =? ACCUMULATOR then Some (50, false)
      else if reg2 =? HLREGISTER then Some (34, false)
      else if isreg16 reg2 then Some (60739 + (reg2 - 8) * 16, false) (* 0xed43 *)
      else part4
    else part4 in
  let part2 :=
    if isreg16 reg1 then
      if reg2 =? IMDATA then Some (1 + (reg1 - 8) * 16, false)
      else if reg2 =? MEMORY then
        if reg1 =? HLREGISTER then Some (42, false)
        else Some (60747 + (reg1 - 8) * 16, false) (* 0xed4b *)
      else if (reg2 =? HLREGISTER) && (reg1 =? 11) then Some (249, false)
      else part3
    else part3 in
  if isreg8 reg1 then
    if isreg8 reg2 then
      if (reg1 =? reg2) && (reg1 =? MREGISTER) then None
      else Some (64 + reg1 * 8 + reg2, false)
    else if reg2 =? IMDATA then Some (6 + reg1 * 8, true)
    else if reg1 =? ACCUMULATOR then
      if reg2 =? MEMORY then Some (58, false)
      else if reg2 =? SPBC then Some (10, false)
      else if reg2 =? SPDE then Some (26, false)
      else if reg2 =? 17 then Some (60759, false) (* 0xed57 *)
      else if reg2 =? 18 then Some (60767, false) (* 0xed5f *)
      else part2
    else part2
  else part2.

(** ld, cpuz80.c:741-872. *)
Definition z_ld (oper : option str) : M unit :=
  m <- filter2 (otext oper) "?_,_?" ;;
  match m with
  | None => err badop
  | Some (op1, op2) =>
      clrall ;;;
      reg1 <- getreg op1 ;;
      reg2 <- getreg op2 ;;
      match ld_code reg1 reg2 with
      | Some (code, a8) =>
          when a8 (upd_cp (set_z_arg8flag true)) ;;;
          docode code
      | None => err badop
      end
  end.

(** initz80, cpuz80.c:976-983. *)
Definition initz80 (code : Z) : M unit :=
  upd_fl (set_a_code_hex true) ;;;
  upd_fl (set_a_addr16 true) ;;;
  upd_fl (set_a_lohi true) ;;;
  upd_fl (set_a_relatif false) ;;;
  init_label_list mz80.
