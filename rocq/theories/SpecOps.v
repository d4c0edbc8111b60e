(** What operators accept, and arithmetic modulo 2^32. *)
From Coq Require Import String Ascii ZArith List Bool.
From Verif Require Import State Operator SpecNumbers SpecExpr.
Import ListNotations.
Open Scope Z_scope.

(** Kinds of operands and of the result, as the manual's table of operators has them;
    TRegs stands for registers and lists of registers. *)
Inductive takes1 : op1 -> ltype -> ltype -> Prop :=
| t_minus : takes1 OMinus TAbs TAbs
| t_not : takes1 ONot TAbs TAbs
| t_low : takes1 OLo TAbs TAbs
| t_high : takes1 OHi TAbs TAbs
| t_bitnumb : takes1 OBitnumb TBit TAbs
| t_bitaddr : takes1 OBitaddr TBit TAbs.

Inductive arithmetic : op2 -> Prop :=
| a_add : arithmetic OAdd | a_sub : arithmetic OSub | a_mul : arithmetic OMul | a_div : arithmetic ODiv
| a_or : arithmetic OOr | a_and : arithmetic OAnd | a_xor : arithmetic OXor | a_lsh : arithmetic OLsh
| a_rsh : arithmetic ORsh.

Inductive documented2 : op2 -> ltype -> ltype -> ltype -> Prop :=
| d_abs : forall o, arithmetic o -> documented2 o TAbs TAbs TAbs
| d_bit : documented2 OBit TAbs TAbs TBit
| d_relplus : documented2 OAdd TRel TAbs TRel
| d_relminus : documented2 OSub TRel TAbs TRel
| d_distance : documented2 OSub TRel TRel TAbs
| d_range : documented2 OSub TRegs TRegs TRegs
| d_list : documented2 ORlist TRegs TRegs TRegs.

(** What the program takes: the relative operand of + on the right. *)
Inductive takes2 : op2 -> ltype -> ltype -> ltype -> Prop :=
| t_abs : forall o, arithmetic o -> takes2 o TAbs TAbs TAbs
| t_bit : takes2 OBit TAbs TAbs TBit
| t_relplus : takes2 OAdd TAbs TRel TRel
| t_relminus : takes2 OSub TRel TAbs TRel
| t_distance : takes2 OSub TRel TRel TAbs
| t_list : takes2 ORlist TRegs TRegs TRegs.

(** The result of an operation on absolute or relative numbers; division by zero gives the
    dividend. *)
Definition computed (o : op2) (x y : Z) : Z :=
  match o with
  | OAdd => x + y
  | OSub => x - y
  | OMul => x * y
  | ODiv => if y =? 0 then x else Z.quot x y
  | OOr | ORlist => Z.lor x y
  | OAnd => Z.land x y
  | OXor => Z.lxor x y
  | OLsh => (x * 2 ^ y + 2 ^ 63) mod 2 ^ 64 - 2 ^ 63
  | ORsh => x / 2 ^ y
  | OBit => x
  end.
(** Operations that C leaves undefined. *)
Definition undefined (o : op2) (x y : Z) : Prop :=
  match o with
  | OAdd => ~ fits 63 (x + y)
  | OSub => ~ fits 63 (x - y)
  | OMul => ~ fits 63 (x * y)
  | ODiv => x = - 2 ^ 63 /\ y = -1
  | OLsh | ORsh => ~ 0 <= y < 64
  | _ => False
  end.

(** ** Arithmetic on 32 bits *)
Definition m32 (v : Z) : Z := v mod 2 ^ 32.

(** Every operation keeps 32 bits only.  Division and right shift are given where signed and
    unsigned numbers agree. *)
Inductive result32 : binop -> Z -> Z -> Z -> Prop :=
| r_plus : forall x y, result32 Plus x y (m32 (x + y))
| r_minus : forall x y, result32 Minus x y (m32 (x - y))
| r_times : forall x y, result32 Times x y (m32 (x * y))
| r_or : forall x y, result32 Or x y (m32 (Z.lor x y))
| r_and : forall x y, result32 And x y (m32 (Z.land x y))
| r_xor : forall x y, result32 Xor x y (m32 (Z.lxor x y))
| r_shl : forall x y, result32 Shl x y (m32 (x * 2 ^ y))
| r_shr : forall x y, 0 <= x < 2 ^ 31 -> 0 <= y < 32 -> result32 Shr x y (x / 2 ^ y)
| r_over : forall x y, 0 <= x < 2 ^ 31 -> 0 < y < 2 ^ 31 -> result32 Over x y (x / y).

Section Worth32.
Variable env : text -> Z -> Prop.
(** The value of an expression on 32 bits. *)
Inductive worth32 : expr -> Z -> Prop :=
| v_num : forall b d t, written b d t -> digits b d -> d <> [] -> number b d < 2 ^ 32 -> worth32 (Num t) (m32 (number b d))
| v_sym : forall t v, name t -> env t v -> worth32 (Sym t) (m32 v)
| v_chr : forall q l cs, map meaning l = map Some cs -> worth32 (Chr q l) (m32 (packed cs))
| v_here : forall v, env ["*"%char] v -> worth32 Here (m32 v)
| v_group : forall w1 e w2 v, worth32 e v -> worth32 (Group w1 e w2) v
| v_low : forall n w w1 e w2 v, worth32 e v -> worth32 (Fn Low n w w1 e w2) (v mod 256)
| v_high : forall n w w1 e w2 v, worth32 e v -> worth32 (Fn High n w w1 e w2) ((v / 256) mod 256)
| v_neg : forall w e v, worth32 e v -> worth32 (Neg w e) (m32 (- v))
| v_not : forall w e v, worth32 e v -> worth32 (Not w e) (m32 (- 1 - v))
| v_bin : forall o a w1 w2 b x y v, worth32 a x -> worth32 b y -> result32 o x y v -> worth32 (Bin o a w1 w2 b) v.
End Worth32.

(** Expressions without / and >>. *)
Fixpoint ring (e : expr) : Prop :=
  match e with
  | Num _ | Sym _ | Chr _ _ | Here => True
  | Group _ e _ | Fn _ _ _ _ e _ | Neg _ e | Not _ e => ring e
  | Bin o a _ _ b => o <> Over /\ o <> Shr /\ ring a /\ ring b
  end.

(** Operations on one operand; [m] is the bit number of a bit reference. *)
Definition computed1 (o : op1) (m v : Z) : Z :=
  match o with
  | OMinus => - v
  | ONot => - 1 - v
  | OLo => v mod 256
  | OHi => (v / 256) mod 256
  | OBitnumb => m
  | OBitaddr => v
  end.
