(** output.c, and the error reporting part of crasm.c. *)
From Coq Require Import ZArith List Bool Ascii String.
From Verif Require Import Base State Tree Filter.
Import ListNotations.
Open Scope Z_scope.

(** output.c:32. *)
Definition NMARGIN : Z := 21.
(** output.c:33. *)
Definition LMARGIN : Z := 28.

(** Text sent to stdout (output.c:108-125, crasm.c:650). *)
Definition print (s : str) : M unit := upd_ls (fun l => set_stdout (s :: l.(stdout)) l).

(** The newline character (C language), macro.c:573. *)
Definition nl : ascii := cz 10.

(** crasm.c:648-652. *)
Definition fatal {A} (m : string) : M A :=
  print (s2l "FATAL ERROR: " ++ s2l m ++ [nl]) ;;; stop (Exit (s2l m)).

(** Store into [linebuffer] (output.c:48) at an index. *)
Fixpoint lput (i : nat) (c : ascii) (l : str) : str :=
  match i, l with
  | O, [] => [c]
  | O, _ :: t => c :: t
  | S i', [] => cz 0 :: lput i' c []
  | S i', x :: t => x :: lput i' c t
  end.

(** The C string starting at the head of a byte array: up to the first NUL
    (output.c:48). *)
Fixpoint cstr (l : str) : str :=
  match l with
  | [] => []
  | c :: t => if zc c =? 0 then [] else c :: cstr t
  end.

(** [linebuffer[i] = c], output.c:211, 214, 220, 221; out of bounds is undefined. *)
Definition lbwrite (i : Z) (c : ascii) : M unit :=
  if 1000 <=? i then stop (UB "linebuffer overflow")
  else upd_ls (fun l => set_linebuffer (lput (Z.to_nat i) c l.(linebuffer)) l).

(** output.c:100-134 (ferror is not modelled).  [sheets] is a log kept by the model only. *)
Definition outputraw (t : str) : M unit :=
  s <- gets (fun s => s) ;;
  if s.(fl).(a_list_on) then
    (if s.(ls).(ppos) =? 0 then
       print (s2l "Crasm 1.11:   " ++ padl 30 s.(ls).(title)
              ++ repeat (cz 32) (Z.to_nat (s.(ls).(llen) - 58))
              ++ s2l "page" ++ padl 3 (dec (s.(ls).(pagenumber) + 1)) ++ [nl; nl]) ;;;
       upd_ls (fun l => set_pagenumber (l.(pagenumber) + 1) l) ;;;
       upd_ls (fun l => set_sheets (PHead l.(plen) :: l.(sheets)) (set_ppos 2 l))
     else ret tt) ;;;
    print (t ++ [nl]) ;;;
    upd_ls (fun l => set_sheets (PLine l.(plen) t :: l.(sheets)) (set_ppos (l.(ppos) + 1) l)) ;;;
    l <- gets ls ;;
    if (l.(plen) - 2 <=? l.(ppos)) && negb (l.(plen) =? 0) then
      print [nl; nl] ;;;
      upd_ls (fun l => set_sheets (PFoot l.(plen) :: l.(sheets)) (set_ppos 0 l))
    else ret tt
  else ret tt.

(** output.c:252-257.  [composed] is a log kept by the model only. *)
Definition outputEOL : M unit :=
  l <- gets ls ;;
  outputraw (cstr l.(linebuffer)) ;;;
  upd_ls (fun l' => set_composed ((l.(llen), cstr l.(linebuffer)) :: l'.(composed))
                      (set_lpos 0 l')) ;;;
  lbwrite 0 (cz 0).

(** The loop of outputEOP, output.c:143-146; [n] bounds the iterations. *)
Fixpoint eoploop (n : nat) : M unit :=
  match n with
  | O => stop NoFuel
  | S n' =>
      p <- gets (fun s => s.(ls).(ppos)) ;;
      if p =? 0 then ret tt else outputEOL ;;; eoploop n'
  end.

(** output.c:137-153. *)
Definition outputEOP : M unit :=
  s <- gets (fun s => s) ;;
  if s.(fl).(a_list_on) then
    if negb (s.(ls).(plen) =? 0) then eoploop (S (S (Z.to_nat s.(ls).(plen))))
    else print [nl; nl; nl]
  else ret tt.

(** outputcar(' '), output.c:216-227. *)
Definition outspace : M unit :=
  l <- gets ls ;;
  if l.(lpos) <? l.(llen) then
    lbwrite l.(lpos) (cz 32) ;;;
    upd_ls (set_lpos (l.(lpos) + 1)) ;;;
    lbwrite (l.(lpos) + 1) (cz 0)
  else upd_ls (set_lpos (l.(lpos) + 1)).

(** Loop of position, output.c:245-248. *)
Fixpoint outspaces (n : nat) : M unit :=
  match n with
  | O => ret tt
  | S n' => outspace ;;; outspaces n'
  end.

(** output.c:238-249. *)
Definition position (n : Z) : M unit :=
  l <- gets ls ;;
  if l.(llen) <=? n then fatal "line length must be greater"
  else outspaces (Z.to_nat (n - l.(lpos))).

(** Tabulation, output.c:228-234; at most eight rounds. *)
Fixpoint outtab (n : nat) : M unit :=
  match n with
  | O => ret tt
  | S n' =>
      outspace ;;;
      p <- gets (fun s => s.(ls).(lpos)) ;;
      if Z.rem (p - LMARGIN) 8 =? 0 then ret tt else outtab n'
  end.

(** The search over [outpat], output.c:156, 195-204. *)
Fixpoint outpats (pats : list string) (text : str) : M unit :=
  match pats with
  | [] => ret tt
  | p :: pats' =>
      r <- filterc text (s2l p) ;;
      match r with
      | Some (_, n) => position n
      | None => outpats pats' text
      end
  end.

(** Continuation line, output.c:176-206. *)
Definition wrapline (c : ascii) : M unit :=
  outputEOL ;;;
  text <- gets (fun s => cstr (skipn 28 s.(ls).(linebuffer))) ;;
  r <- filterc text (s2l "?;_?") ;;
  off <- gets (fun s => s.(ls).(lastoffset)) ;;
  (match r with
   | Some (_, n) => position n
   | None =>
       if zc c =? 59 then position LMARGIN
       else if LMARGIN <=? off then position off
       else outpats ["_? _? _?"; "_? _?"; "_?"]%string text
   end) ;;;
  p <- gets (fun s => s.(ls).(lpos)) ;;
  upd_ls (set_lastoffset p).

(** output.c:167-235. *)
Definition outputcar (c : ascii) : M unit :=
  if negb (isspace c) then
    l <- gets ls ;;
    when (l.(llen) <=? l.(lpos)) (wrapline c) ;;;
    p <- gets (fun s => s.(ls).(lpos)) ;;
    (if isprint c || negb (isascii c) then
       lbwrite p c ;;; upd_ls (set_lpos (p + 1))
     else ret tt) ;;;
    p' <- gets (fun s => s.(ls).(lpos)) ;;
    lbwrite p' (cz 0)
  else if zc c =? 32 then outspace
  else if zc c =? 9 then outtab 8
  else ret tt.

(** output.c:158-164. *)
Fixpoint output (s : str) : M unit :=
  match s with
  | [] => ret tt
  | c :: s' => outputcar c ;;; output s'
  end.

(** The five-column line number field, output.c:273-293. *)
Definition linnum_field (prefix : ascii) (mlevel lnum : Z) : str :=
  if zc prefix =? 0 then padl 5 (dec lnum)
  else
    let i := 5 - mlevel in
    let i := if i <? 0 then 0 else i in
    let i := if 4 <? i then 4 else i in
    lput (Z.to_nat i) prefix (s2l "     ").

(** output.c:261-300. *)
Definition outputline : M unit :=
  upd_ls (set_lastoffset 0) ;;;
  s <- gets (fun s => s) ;;
  if s.(inp).(linenumber) =? 0 then ret tt
  else
    position NMARGIN ;;;
    output (linnum_field s.(inp).(lineprefix) s.(inp).(macrolevel) s.(inp).(linenumber)) ;;;
    position LMARGIN ;;;
    output s.(inp).(curline) ;;;
    outputEOL.

(** output.c:346-373; digits from bit [i] down. *)
Fixpoint addr_digits (n : nat) (i : Z) (a : Z) : str :=
  match n with
  | O => []
  | S n' => hexa (Z.land (Z.shiftr a i) 15) :: addr_digits n' (i - 4) a
  end.

(** output.c:346-373. *)
Definition outputaddr (a : Z) : M unit :=
  f <- gets fl ;;
  let a := u64 a in
  let d := if f.(a_addr24) then addr_digits 6 20 a
           else if f.(a_addr16) then addr_digits 4 12 a
           else addr_digits 8 28 a in
  output (d ++ [cz 32]).

(** output.c:308-343. *)
Definition outputbyte (b : Z) : M unit :=
  s <- gets (fun s => s) ;;
  if (20 <? s.(ct).(advance)) && (NMARGIN - 5 <? s.(ls).(lpos)) then
    if s.(ls).(lpos) <=? NMARGIN - 3 then output (s2l "...") else ret tt
  else
    when (NMARGIN - 3 <? s.(ls).(lpos)) outputEOL ;;;
    l <- gets ls ;;
    when (negb (s.(wr).(pc) =? l.(mypc)) && negb (l.(lpos) =? 0)) outputEOL ;;;
    l <- gets ls ;;
    when (l.(lpos) =? 0) (outputaddr s.(wr).(pc)) ;;;
    output [hexa (Z.land (Z.shiftr b 4) 15); hexa (Z.land b 15)] ;;;
    upd_ls (set_mypc (u64 (s.(wr).(pc) + 1))).

(** Replace the leading blanks but the last by '>', crasm.c:608-611, 638-641. *)
Fixpoint markline (s : str) : str :=
  match s with
  | a :: ((b :: _) as t) => if zc b =? 32 then cz 62 :: markline t else s
  | _ => s
  end.

(** The first letter of a message in upper case, crasm.c:600, 606. *)
Definition capital (m : str) : str :=
  match m with [] => [] | c :: m' => toupper c :: m' end.

(** [starlabel->value += advance], crasm.c:565, 621. *)
Definition star_advance : M unit :=
  s <- gets (fun s => s) ;;
  let v := starvalue s + s.(ct).(advance) in
  if in_s64 v then upd_sy (tupd starkey (set_l_value v))
  else stop (UB "star: signed overflow").

(** crasm.c:596-626.  The message buffer is 80 bytes long.  [reported] is a log kept by
    the model only. *)
Definition error {A} (m : str) : M A :=
  s <- gets (fun s => s) ;;
  let old := s.(fl) in
  (if negb old.(a_noerror) then
     let r := padl 7 (dec s.(inp).(linenumber)) ++ s2l " ERROR: " ++ capital m in
     if 80 <=? zlen r then stop (UB "error: message buffer overflow")
     else
       upd_fl (set_a_list_on true) ;;;
       outputraw (markline r)
   else ret tt) ;;;
  outputline ;;;
  when (negb (s.(ct).(advance) =? 0)) star_advance ;;;
  upd_fl (fun _ => old) ;;;
  modify (fun s => set_reported
    (mkRep s.(ct).(passnumber) s.(inp).(linenumber) m :: s.(reported)) s) ;;;
  stop (Err m).

(** crasm.c:596 with a constant message. *)
Definition err {A} (m : string) : M A := error (s2l m).

(** crasm.c:629-645.  All messages are constants well below the 80 byte limit;
    [warnnumber] is never incremented. *)
Definition warning (m : string) : M unit :=
  s <- gets (fun s => s) ;;
  if negb s.(fl).(a_nowarning) then
    outputraw (markline (padl 7 (dec s.(inp).(linenumber)) ++ s2l " WARNING: "
                         ++ capital (s2l m)))
  else ret tt.

(** output.c:53-73. *)
Definition settitle (t : str) : M unit :=
  l <- gets ls ;;
  when l.(titleflag) (warning "title redefinition") ;;;
  when (30 <? zlen t) (err "too long title") ;;;
  upd_ls (set_title t) ;;;
  p <- gets (fun s => s.(ct).(passnumber)) ;;
  when (p =? 2) (upd_ls (set_titleflag true)).

(** output.c:76-97. *)
Definition setpage (xplen xllen : Z) : M unit :=
  l <- gets ls ;;
  when l.(pageflag) (warning "page redefinition") ;;;
  when ((200 <? xplen) || (negb (xplen =? 0) && (xplen <? 10)) || (xllen <? 39)
        || (1000 <? xllen)) (err "illegal values") ;;;
  upd_ls (set_plen xplen) ;;;
  upd_ls (set_llen xllen) ;;;
  p <- gets (fun s => s.(ct).(passnumber)) ;;
  when (p =? 2) (upd_ls (set_pageflag true)).
