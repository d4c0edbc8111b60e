(** xref.c: the summary and the symbol table listing. *)
From Coq Require Import ZArith List Bool Ascii String.
From Verif Require Import Base State Tree Filter Output Label.
Import ListNotations.
Open Scope Z_scope.

(** RECLEN, xref.c:34. *)
Definition RECLEN : Z := 61.

(** [msgs[label->type]], xref.c:35, 97; [None] stands for type 0, set at xref.c:72 for
    the time of the display (printlabel is the last reader of the field). *)
Definition typename (ty : option ltype) (modifier : Z) : str :=
  match ty with
  | None => s2l "Undefined"
  | Some TMnemo => s2l "Mnemonic"
  | Some TMacro => s2l "Macro"
  | Some TAbs => s2l "Abs"
  | Some TRel => s2l "Rel"
  | Some TRegs => s2l "Register(s)"
  | Some TBit => s2l "Bit" ++ dec modifier
  end.

(** The labels that are not displayed, xref.c:52-68; [char] is signed. *)
Definition hidden (name : str) (l : label) : bool :=
  (negb (ltype_eqb l.(l_type) TAbs) && negb (ltype_eqb l.(l_type) TRel)
   && l.(l_flags).(f_noredef))
  || match name with
     | [] => true
     | c :: _ => (zc c =? 42) || (sc c <=? 57)
     end.

(** printlabel, xref.c:37-112. *)
Definition printlabel (name : str) (l : label) : M unit :=
  s <- gets ls ;;
  when (s.(llen) <=? s.(lpos) + RECLEN) outputEOL ;;;
  p <- gets (fun s => s.(ls).(lpos)) ;;
  let newpos := p + RECLEN in
  if hidden name l then ret tt
  else
    let f := l.(l_flags) in
    let ty := if f.(f_undef) && negb f.(f_forward) then None else Some l.(l_type) in
    outputcar (if negb f.(f_used) then cz 63 else if f.(f_forward) then cz 94 else cz 32) ;;;
    when (match ty with Some TAbs | Some TRel | Some TBit => true | _ => false end)
         (outputaddr l.(l_value)) ;;;
    let b := typename ty l.(l_modifier) in
    position (newpos - Z.of_nat LABLEN - 2 - zlen b) ;;;
    output b ;;;
    position (newpos - Z.of_nat LABLEN - 1) ;;;
    output (firstn LABLEN name) ;;;
    position newpos.

(** xref2, xref.c:115-123. *)
Fixpoint xref2 (t : tree) : M unit :=
  match t with
  | Leaf => ret tt
  | Node l k v r => xref2 l ;;; printlabel k v ;;; xref2 r
  end.

(** sprintf into the 40 byte buffer then output, xref.c:130, 140-156. *)
Definition resline (t : str) : M unit :=
  if 40 <=? zlen t then stop (UB "result: buffer overflow")
  else output t ;;; outputEOL.

(** result, xref.c:126-164. *)
Definition results : M unit :=
  s <- gets (fun s => s) ;;
  (if s.(ls).(plen) - s.(ls).(ppos) <? 10
   then outputEOP ;;; outputEOL ;;; outputEOL else ret tt) ;;;
  outputEOL ;;;
  resline (s2l "ERRORS:    " ++ padl 4 (dec s.(ct).(errnumber))) ;;;
  resline (s2l "WARNINGS:  " ++ padl 4 (dec s.(ct).(warnnumber))) ;;;
  outputEOL ;;;
  if s.(ct).(errnumber) =? 0 then
    output (s2l "Successful assembly...") ;;;
    outputEOL ;;;
    resline (s2l " Last address " ++ padl 8 (hexlc (u64 (s.(wr).(pc) - 1)))
             ++ s2l " (" ++ dec (s64 (s.(wr).(pc) - 1)) ++ s2l ")") ;;;
    resline (s2l " Code length  " ++ padl 8 (hexlc s.(wr).(codelen))
             ++ s2l " (" ++ dec (s64 s.(wr).(codelen)) ++ s2l ")")
  else
    output (s2l "No code generated...") ;;;
    outputEOL.

(** xref, xref.c:167-173. *)
Definition xref : M unit :=
  outputEOP ;;;
  t <- gets sy ;;
  xref2 t ;;;
  outputEOL ;;;
  outputEOP.
