(** operator.c: constants and operators.  [top] tells whether the C [presult] is the
    persistent [calcresult] (parse.c:41) or a local [arg] (parse.c:118); only then
    are stores visible in the state. *)
From Coq Require Import ZArith List Bool Ascii String.
From Verif Require Import Base State Tree Filter Output Label.
Import ListNotations.
Open Scope Z_scope.

(** Stores through [presult] (operator.c:36-38 and all operators). *)
Definition putres (top : bool) (r : result) : M result :=
  when top (upd_ct (set_calcresult r)) ;;; ret r.

(** checktype, pseudos.c:64-100. *)
Definition checktype (r : result) (ty : ltype) : M unit :=
  if ltype_eqb r.(r_type) ty then ret tt
  else match r.(r_type) with
       | TMnemo => err "illegal use of a mnemonic"
       | TMacro => err "illegal use of a macro"
       | TAbs => err "illegal use of an absolute reference"
       | TRel => err "illegal use of a relative reference"
       | TRegs => err "illegal use of registers"
       | TBit => err "illegal use of direct bit reference"
       end.

(** cst, operator.c:34-39: modifier and ptr keep their previous contents. *)
Definition cst (r : result) (v : Z) : result := mkRes lf0 TAbs r.(r_modifier) r.(r_ptr) (s64 v).

(** Digit value, operator.c:60, 96-107. *)
Definition digitval (c : ascii) : Z :=
  if 97 <=? zc c then zc c - 97 + 10
  else if 65 <=? zc c then zc c - 65 + 10
  else zc c - 48.

(** Loop of cstdecimal, operator.c:53-76.  Outcome: value or error message. *)
Fixpoint cstdecimal (val : Z) (s : str) : Z + string :=
  match s with
  | [] => inl val
  | c :: s' =>
      if negb (isdigit c) then inr "bad decimal number"%string
      else
        let r := zc c - 48 in
        if 429496729 <? val then inr "overflow"%string
        else
          let val := val * 10 in
          if 4294967295 - r <? val then inr "overflow"%string
          else cstdecimal (val + r) s'
  end.

(** Loop of csthexa, operator.c:89-116. *)
Fixpoint csthexa (val : Z) (s : str) : Z + string :=
  match s with
  | [] => inl val
  | c :: s' =>
      if negb (isxdigit c) then inr "bad hexadecimal number"%string
      else if 268435455 <? val then inr "overflow"%string
      else csthexa (Z.shiftl val 4 + digitval c) s'
  end.

(** Loop of cstoctal, operator.c:129-145. *)
Fixpoint cstoctal (val : Z) (s : str) : Z + string :=
  match s with
  | [] => inl val
  | c :: s' =>
      if (zc c <? 48) || (55 <? zc c) then inr "bad octal number"%string
      else if 536870911 <? val then inr "overflow"%string
      else cstoctal (Z.shiftl val 3 + (zc c - 48)) s'
  end.

(** Loop of cstbinary, operator.c:158-174; note the bound 0xefffffff. *)
Fixpoint cstbinary (val : Z) (s : str) : Z + string :=
  match s with
  | [] => inl val
  | c :: s' =>
      if negb ((zc c =? 49) || (zc c =? 48)) then inr "bad binary number"%string
      else if 4026531839 <? val then inr "overflow"%string
      else cstbinary (Z.shiftl val 1 + (zc c - 48)) s'
  end.

(** The escape sequences of operator.c:201-227 and pseudos.c:237-263. *)
Definition escape (c : ascii) : option Z :=
  if zc c =? 116 then Some 9
  else if zc c =? 110 then Some 10
  else if zc c =? 114 then Some 13
  else if zc c =? 48 then Some 0
  else if (zc c =? 34) || (zc c =? 92) || (zc c =? 39) then Some (zc c)
  else None.

(** Loop of cstascii, operator.c:190-243, on the text after the opening delimiter. *)
Fixpoint cstascii (delim : ascii) (val : Z) (s : str) : Z + string :=
  match s with
  | [] => inr "bad ascii constant"%string
  | c :: s' =>
      if Ascii.eqb c delim then
        match s' with [] => inl val | _ :: _ => inr "syntax error"%string end
      else if negb (isprint c) then inr "bad ascii constant"%string
      else if zc c =? 92 then
        match s' with
        | [] => inr "Bad \X sequence"%string
        | e :: s'' =>
            match escape e with
            | None => inr "Bad \X sequence"%string
            | Some r =>
                let v := u64 (Z.shiftl val 8 + r) in
                if Z.shiftr v 8 =? val then cstascii delim v s''
                else inr "overflow"%string
            end
        end
      else
        let v := u64 (Z.shiftl val 8 + zc c) in
        if Z.shiftr v 8 =? val then cstascii delim v s'
        else inr "overflow"%string
  end.

(** Storing a constant or reporting its error (operator.c:78, 118, 147, 176, 245). *)
Definition constant (top : bool) (r : result) (v : Z + string) : M result :=
  match v with
  | inl z => putres top (cst r z)
  | inr m => err m
  end.

(** cstlabel, operator.c:249-264. *)
Definition cstlabel (top : bool) (name : str) : M result :=
  k <- findlabel name ;;
  q <- gets (fun s => tfind k s.(sy)) ;;
  match q with
  | None => stop (UB "cstlabel: no node") (* unreachable: findlabel made one *)
  | Some l =>
      r <- putres top (mkRes l.(l_flags) l.(l_type) l.(l_modifier) l.(l_ptr) l.(l_value)) ;;
      if l.(l_flags).(f_undef) && negb l.(l_flags).(f_forward) then err "Undefined label"
      else
        modify (fun s => set_looked (mkLook s.(ct).(passnumber) k l :: s.(looked)) s) ;;; (* model only *)
        ret r
  end.

(** The one-operand operators (parse.c:85-90). *)
Inductive op1 := OMinus | ONot | OBitnumb | OBitaddr | OLo | OHi.
(** The two-operand operators (parse.c:75-84, 91). *)
Inductive op2 := ORlist | OAdd | OSub | OMul | ODiv | OOr | OAnd | OXor | OLsh | ORsh | OBit.

(** A signed operation of C: undefined when the exact result does not fit (operands of
    type [long], label.h:43). *)
Definition chk64 (v : Z) : M Z :=
  if in_s64 v then ret v else stop (UB "signed overflow").

(** operator.c:268-279, 374-400. *)
Definition apply1 (top : bool) (o : op1) (r : result) : M result :=
  match o with
  | OMinus => checktype r TAbs ;;; v <- chk64 (- r.(r_value)) ;; putres top (set_r_value v r)
  | ONot => checktype r TAbs ;;; putres top (set_r_value (Z.lnot r.(r_value)) r)
  | OBitnumb =>
      checktype r TBit ;;;
      putres top (mkRes r.(r_flags) TAbs 0 r.(r_ptr) r.(r_modifier))
  | OBitaddr =>
      checktype r TBit ;;;
      putres top (mkRes r.(r_flags) TAbs 0 r.(r_ptr) r.(r_value))
  | OLo => checktype r TAbs ;;; putres top (set_r_value (Z.land r.(r_value) 255) r)
  | OHi =>
      checktype r TAbs ;;;
      putres top (set_r_value (Z.land (Z.shiftr r.(r_value) 8) 255) r)
  end.

(** The search for the bit number of a register, operator.c:329-337: [Some n] with
    [1 << n == v], n <= 31 (int arithmetic, [1 << 31] is negative). *)
Fixpoint bitindex (n : nat) (i : Z) (v : Z) : option Z :=
  match n with
  | O => None
  | S n' => if s32 (Z.shiftl 1 i) =? v then Some i else bitindex n' (i + 1) v
  end.

(** operator.c:284-372, 402-468.  [a] is [*presult], [b] is [*parg]. *)
Definition apply2 (top : bool) (o : op2) (a b : result) : M result :=
  let fl := lf_or a.(r_flags) b.(r_flags) in
  let both := checktype a TAbs ;;; checktype b TAbs in
  let put v := putres top (mkRes fl a.(r_type) a.(r_modifier) a.(r_ptr) v) in
  match o with
  | OAdd =>
      v <- chk64 (a.(r_value) + b.(r_value)) ;;
      match a.(r_type), b.(r_type) with
      | TAbs, TAbs => putres top (mkRes fl TAbs a.(r_modifier) a.(r_ptr) v)
      | TAbs, TRel => putres top (mkRes fl TRel a.(r_modifier) a.(r_ptr) v)
      | _, _ => err "illegal operator"
      end
  | OSub =>
      match a.(r_type), b.(r_type) with
      | TAbs, TAbs | TRel, TRel =>
          v <- chk64 (a.(r_value) - b.(r_value)) ;;
          putres top (mkRes fl TAbs a.(r_modifier) a.(r_ptr) v)
      | TRel, TAbs =>
          v <- chk64 (a.(r_value) - b.(r_value)) ;;
          putres top (mkRes fl TRel a.(r_modifier) a.(r_ptr) v)
      | TRegs, TRegs =>
          match bitindex 32 0 a.(r_value), bitindex 32 0 b.(r_value) with
          | Some lo, Some hi =>
              if hi <? lo then err "illegal register list"
              else stop Hang (* operator.c:344-347 never increments lo *)
          | _, _ => stop (UB "opsub: shift by 32")
          end
      | _, _ => err "illegal operator"
      end
  | OMul => both ;;; v <- chk64 (a.(r_value) * b.(r_value)) ;; put v
  | ODiv =>
      both ;;;
      if b.(r_value) =? 0 then put a.(r_value)
      else v <- chk64 (Z.quot a.(r_value) b.(r_value)) ;; put v
  | OOr => both ;;; put (Z.lor a.(r_value) b.(r_value))
  | OAnd => both ;;; put (Z.land a.(r_value) b.(r_value))
  | OXor => both ;;; put (Z.lxor a.(r_value) b.(r_value))
  | OLsh =>
      both ;;;
      if (0 <=? b.(r_value)) && (b.(r_value) <? 64)
      then put (s64 (Z.shiftl a.(r_value) b.(r_value)))
      else stop (UB "shift count out of range")
  | ORsh =>
      both ;;;
      if (0 <=? b.(r_value)) && (b.(r_value) <? 64)
      then put (Z.shiftr a.(r_value) b.(r_value))
      else stop (UB "shift count out of range")
  | ORlist =>
      checktype a TRegs ;;; checktype b TRegs ;;;
      put (Z.lor a.(r_value) b.(r_value))
  | OBit =>
      both ;;;
      r <- putres top (mkRes fl TBit (s16 b.(r_value)) a.(r_ptr) a.(r_value)) ;;
      if 32 <? b.(r_value) then err "overflow" else ret r
  end.
