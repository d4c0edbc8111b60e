(** pseudos.c, without the block instructions (Macro.v).  Every function takes the
    operand as an option: [None] is the C null pointer. *)
From Coq Require Import ZArith List Bool Ascii String.
From Verif Require Import Base State Tree Filter Output Label Operator Parse Scode.
From Verif Require Import Cpu6800 Cpu6502 CpuZ80.
Import ListNotations.
Open Scope Z_scope.

(** The flags kept by Xequ, pseudos.c:40. *)
Definition equ_flags (f : lflags) : lflags :=
  set_f_undef false (set_f_used false (set_f_noredef false f)).

(** Xequ, pseudos.c:34-61. *)
Definition Xequ (label : str) (oper : option str) : M unit :=
  r <- parse (otext oper) ;;
  let r := set_r_flags (equ_flags r.(r_flags)) r in
  s <- gets (fun s => s) ;;
  when ((ltype_eqb r.(r_type) TAbs || ltype_eqb r.(r_type) TRel)
        && ((s.(inp).(macrolevel) =? 0) || s.(fl).(a_macrolist_on))
        && (s.(ls).(lpos) =? 0))
       (position 2 ;;; outputaddr r.(r_value)) ;;;
  k <- deflabel label r.(r_flags) r.(r_type) r.(r_value) ;;
  upd_sy (tupd k (fun l => set_l_ptr r.(r_ptr) (set_l_modifier r.(r_modifier) l))).

(** [asmflags ^= F_LOHI], pseudos.c:120, 122. *)
Definition flip_lohi : M unit := upd_fl (fun f => set_a_lohi (negb f.(a_lohi)) f).

(** [mask], pseudos.c:105-131. *)
Definition stocke_mask (modifier : Z) : Z :=
  if modifier =? 1 then 4294967040 (* 0xffffff00 *)
  else if (modifier =? 2) || (modifier =? 3) then 4294901760 (* 0xffff0000 *)
  else 0.

(** stocke, pseudos.c:103-140. *)
Definition stocke (t : str) (modifier : Z) : M unit :=
  r <- parse t ;;
  checktype r TAbs ;;;
  (if modifier =? 1 then insert8 r.(r_value)
   else if modifier =? 2 then flip_lohi ;;; insert16 r.(r_value) ;;; flip_lohi
   else if modifier =? 3 then insert16 r.(r_value)
   else if modifier =? 4 then insert32 r.(r_value)
   else ret tt) ;;;
  when (negb (Z.land r.(r_value) (stocke_mask modifier) =? 0)) (warning "Operand overflow").

(** Loop of Xdc, pseudos.c:149-155; every round shortens the text. *)
Fixpoint dcloop (n : nat) (oper : str) (modifier : Z) : M unit :=
  match n with
  | O => stop NoFuel
  | S n' =>
      m <- filter2 oper "?_,_?" ;;
      match m with
      | Some (s1, s2) => stocke s1 modifier ;;; dcloop n' s2 modifier
      | None => stocke oper modifier
      end
  end.

(** Xdc, pseudos.c:144-157. *)
Definition Xdc (modifier : Z) (oper : option str) : M unit :=
  dcloop (S (List.length (otext oper))) (otext oper) modifier.

(** Loop of Xds, pseudos.c:190-193. *)
Fixpoint dsloop (n : nat) (init : Z) : M unit :=
  match n with
  | O => ret tt
  | S n' => insert8 init ;;; dsloop n' init
  end.

(** Xds, pseudos.c:161-197.  A negative count makes the C loop run 2^32-|i| times
    and finally overflow a signed int: undefined. *)
Definition Xds (oper : option str) : M unit :=
  m <- filter2 (otext oper) "?_,_?" ;;
  ti <- (match m with
         | Some (s1, s2) =>
             r <- parse s2 ;;
             checktype r TAbs ;;;
             let init := s32 r.(r_value) in
             when (negb (Z.land init 4294967040 =? 0)) (warning "multiple byte initialiser") ;;;
             ret (s1, init)
         | None => ret (otext oper, 0)
         end) ;;
  let (t, init) := ti : str * Z in
  r <- parse t ;;
  checktype r TAbs ;;;
  let i := s32 r.(r_value) in
  (if i <? 0 then stop (UB "DS: negative count") else dsloop (Z.to_nat i) init) ;;;
  upd_ct (set_advance (s32 r.(r_value))).

(** Xnam, pseudos.c:201-210. *)
Definition Xnam (oper : option str) : M unit :=
  match oper with
  | None => err "need an operand"
  | Some t => settitle t
  end.

(** Loop of Xasc, pseudos.c:233-272.  [s] starts after the last character read. *)
Fixpoint ascloop (delimiter : ascii) (s : str) : M unit :=
  match s with
  | [] => stop (UB "asc: read past operand")
  | r :: s' =>
      if zc r =? zc delimiter then
        match s' with [] => ret tt | _ :: _ => err "syntax error" end
      else if zc r =? 92 then
        match s' with
        | [] => err "Bad \X character"
        | c :: s'' =>
            match escape c with
            | Some v => insert8 v ;;; ascloop delimiter s''
            | None => err "Bad \X character"
            end
        end
      else insert8 (zc r) ;;; ascloop delimiter s'
  end.

(** Xasc, pseudos.c:214-275. *)
Definition Xasc (oper : option str) : M unit :=
  match oper with
  | None => err "Need an operand"
  | Some [] => err "Bad operand syntax"
  | Some (d :: s) =>
      if negb (zc d =? 39) && negb (zc d =? 34) then err "Bad operand syntax"
      else ascloop d s
  end.

(** [oper && *oper], pseudos.c:284, 296, 538. *)
Definition nonempty (oper : option str) : bool :=
  match oper with Some (_ :: _) => true | _ => false end.

(** [segment = ++thiscall], pseudos.c:289, 301, macro.c:807. *)
Definition newsegment : M unit :=
  upd_inp (fun i => set_segment (i.(thiscall) + 1) (set_thiscall (i.(thiscall) + 1) i)).

(** Xcode, pseudos.c:282-292. *)
Definition Xcode (oper : option str) : M unit :=
  when (nonempty oper) (err "no operand for CODE pseudo") ;;;
  newsegment ;;;
  upd_fl (set_a_code_on true).

(** Xdummy, pseudos.c:294-304. *)
Definition Xdummy (oper : option str) : M unit :=
  when (nonempty oper) (err "no operand for DUMMY pseudo") ;;;
  newsegment ;;;
  upd_fl (set_a_code_on false).

(** The common shape of Xlist, Xmlist, Xclist and Xilist, pseudos.c:308-384. *)
Definition onoff (on off : M unit) (oper : option str) : M unit :=
  b <- filter0 (otext oper) "_ON_" ;;
  if b : bool then on
  else
    b <- filter0 (otext oper) "_OFF_" ;;
    if b : bool then off
    else err "please: use option ON or OFF".

(** Xlist, pseudos.c:308-327. *)
Definition Xlist : option str -> M unit :=
  onoff (f <- gets fl ;; when (negb f.(a_nolist)) (upd_fl (set_a_list_on true)))
        (upd_fl (set_a_list_on false)).

(** Xmlist, pseudos.c:330-346. *)
Definition Xmlist : option str -> M unit :=
  onoff (upd_fl (set_a_macrolist_on true)) (upd_fl (set_a_macrolist_on false)).

(** Xclist, pseudos.c:349-365. *)
Definition Xclist : option str -> M unit :=
  onoff (upd_fl (set_a_iflist_on true)) (upd_fl (set_a_iflist_on false)).

(** Xilist, pseudos.c:368-384. *)
Definition Xilist : option str -> M unit :=
  onoff (upd_fl (set_a_includelist_on true)) (upd_fl (set_a_includelist_on false)).

(** Xpage, pseudos.c:388-411. *)
Definition Xpage (oper : option str) : M unit :=
  match oper with
  | None => outputEOP
  | Some t =>
      m <- filter2 t "?_,_?" ;;
      match m with
      | None => err "syntax: PAGE or PAGE plen,llen "
      | Some (s1, s2) =>
          r <- parse s1 ;;
          checktype r TAbs ;;;
          let plen := s32 r.(r_value) in
          r <- parse s2 ;;
          checktype r TAbs ;;;
          setpage plen (s32 r.(r_value))
      end
  end.

(** Loop of Xskip, pseudos.c:429-432. *)
Fixpoint skiploop (n : nat) : M unit :=
  match n with
  | O => ret tt
  | S n' => outputEOL ;;; skiploop n'
  end.

(** Xskip, pseudos.c:415-436. *)
Definition Xskip (oper : option str) : M unit :=
  rr <- parse (otext oper) ;;
  checktype rr TAbs ;;;
  let r := s32 rr.(r_value) in
  if (100 <? r) || (r <? 0) then warning "are you sure ?"
  else skiploop (Z.to_nat r).

(** Xoutput, pseudos.c:440-458. *)
Definition Xoutput (oper : option str) : M unit :=
  upd_fl (fun f => set_a_code_scode false (set_a_code_hex false f)) ;;;
  b <- filter0 (otext oper) "_HEX_" ;;
  if b : bool then upd_fl (set_a_code_hex true)
  else
    b <- filter0 (otext oper) "_SCODE_" ;;
    if b : bool then upd_fl (set_a_code_scode true)
    else err "please, use options SCODE or HEX".

(** Xalign, pseudos.c:462-486. *)
Definition Xalign (oper : option str) : M unit :=
  b <- filter0 (otext oper) "_EVEN_" ;;
  if b : bool then
    p <- gets (fun s => s.(wr).(pc)) ;;
    when (Z.odd p) (insert8 0)
  else
    b <- filter0 (otext oper) "_ODD_" ;;
    if b : bool then
      p <- gets (fun s => s.(wr).(pc)) ;;
      when (negb (Z.odd p)) (insert8 0)
    else err "please, use options EVEN or ODD".

(** cpulist, cpulist.c:30-40: name and initialisation. *)
Definition cpulist : list (string * M unit) :=
  [("6800", init6800 0); ("6801", init6800 1); ("6803", init6800 1);
   ("6500", init6502 0); ("6502", init6502 1); ("65C02", init6502 2);
   ("Z80", initz80 0)]%string.

(** The search of Xcpu, pseudos.c:506-523. *)
Fixpoint findcpu (t : str) (l : list (string * M unit)) : M (M unit) :=
  match l with
  | [] => err "Unknown CPU name"
  | (n, i) :: l' =>
      b <- filter0 t n ;;
      if b : bool then ret i else findcpu t l'
  end.

(** Xcpu, pseudos.c:490-532. *)
Definition Xcpu (oper : option str) : M unit :=
  match oper with
  | None => err "Need CPU name"
  | Some t =>
      f <- gets fl ;;
      when f.(a_cpu_gv) (err "One CPU only!") ;;;
      init <- findcpu t cpulist ;;
      p <- gets (fun s => s.(ct).(passnumber)) ;;
      when (p =? 2) (upd_fl (set_a_cpu_gv true)) ;;;
      init
  end.

(** Xfail, pseudos.c:536-548. *)
Definition Xfail (oper : option str) : M unit :=
  match oper with
  | Some (c :: t) => error (c :: t)
  | _ => err "Fail instruction"
  end.
