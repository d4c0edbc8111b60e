(** parse.c: expressions. *)
From Coq Require Import ZArith List Bool Ascii String.
From Verif Require Import Base State Tree Filter Output Label Operator.
Import ListNotations.
Open Scope Z_scope.

(** A group of lines of [oplist] tried on the reversed text, parse.c:75-92. *)
Inductive row :=
| R2 (l : list (string * op2))
| R1 (f : string) (o : op1)
| RPar (f : string).

(** parse.c:75-92. *)
Definition oplist : list row :=
  [ R2 [("?_\_?", ORlist)];
    R2 [("?_+_?", OAdd); ("?_-_?", OSub)];
    R2 [("?_*_?", OMul); ("?_/_?", ODiv)];
    R2 [("?_|_?", OOr); ("?_&_?", OAnd); ("?_^_?", OXor)];
    R2 [("?_<<_?", OLsh); ("?_>>_?", ORsh)];
    R1 "?_-" OMinus;
    R1 "?_~" ONot;
    R1 ")_?_(_TIB" OBitnumb;
    R1 ")_?_(_RDDA" OBitaddr;
    R1 ")_?_(_OL" OLo;
    R1 ")_?_(_IH" OHi;
    R2 [("}_?_{_?", OBit)];
    RPar ")_?_(" ]%string.

(** The constant forms tried on the text in reading order, parse.c:98-104. *)
Definition cstlist : list (string * (Z -> str -> Z + string)) :=
  [ ("$?", csthexa); ("?H", csthexa); ("0X?", csthexa);
    ("%?", cstbinary); ("?B", cstbinary); ("0B?", cstbinary); ("?Q", cstoctal) ]%string.

(** One dyadic group, parse.c:130-143.  All filters of the group run; since each
    success moves [bufferpos] forward, [cb < c2] never holds once [j >= 0], so the
    first success is kept. *)
Fixpoint trygroup (e : str) (l : list (string * op2)) : M (option (str * str * op2)) :=
  match l with
  | [] => ret None
  | (f, o) :: l' =>
      r <- filter2 e f ;;
      rest <- trygroup e l' ;;
      ret (match r with Some (a, b) => Some (a, b, o) | None => rest end)
  end.

(** The constant forms, parse.c:174-182, then decimal and ASCII, parse.c:200-214. *)
Fixpoint trycst (top : bool) (r : result) (e : str)
         (l : list (string * (Z -> str -> Z + string))) : M result :=
  match l with
  | (f, conv) :: l' =>
      m <- filter1 e f ;;
      match m with
      | Some (c :: t) => constant top r (conv 0 (c :: t))
      | _ => trycst top r e l'
      end
  | [] =>
      match e with
      | c :: t =>
          if isdigit c then constant top r (cstdecimal 0 e)
          else if (zc c =? 39) || (zc c =? 34) then constant top r (cstascii c 0 t)
          else err "syntax error in an expression"
      | [] => err "syntax error in an expression"
      end
  end.

(** parse2, parse.c:110-215, from a given row of [oplist] on; [rec] is the recursive
    call.  [e] is the reversed text. *)
Fixpoint parserows (rec : bool -> result -> str -> M result) (top : bool) (r : result)
         (e : str) (rows : list row) : M result :=
  match rows with
  | R2 l :: rows' =>
      m <- trygroup e l ;;
      match m with
      | Some ((_ :: _) as c1, (_ :: _) as c2, o) =>
          a <- rec top r c2 ;;
          b <- rec false res0 c1 ;;
          apply2 top o a b
      | _ => parserows rec top r e rows'
      end
  | R1 f o :: rows' =>
      m <- filter1 e f ;;
      match m with
      | Some ((_ :: _) as c) => a <- rec top r c ;; apply1 top o a
      | _ => parserows rec top r e rows'
      end
  | RPar f :: rows' =>
      m <- filter1 e f ;;
      match m with
      | Some ((_ :: _) as c) => rec top r c
      | _ => parserows rec top r e rows'
      end
  | [] =>
      let e' := reverse e in
      if checklabel e' then cstlabel top e' else trycst top r e' cstlist
  end.

(** parse2, parse.c:110-215; the recursion budget is the length of the text. *)
Fixpoint parse2 (n : nat) (top : bool) (r : result) (e : str) : M result :=
  match n with
  | O => stop NoFuel
  | S n' => parserows (parse2 n') top r e oplist
  end.

(** parse, parse.c:218-236.  A null operand is the empty text here; both are refused.
    The operand text is not used again by any caller, so that undoing the reversal
    (parse.c:234) has no visible effect. *)
Definition parse (e : str) : M result :=
  match e with
  | [] => err "expression expected"
  | _ :: _ =>
      m <- filter1 e "(?)" ;;
      when (match m with Some _ => true | None => false end)
           (warning "external parenthesis ignored") ;;;
      r <- gets (fun s => s.(ct).(calcresult)) ;;
      parse2 (S (List.length e)) true r (reverse e)
  end.
