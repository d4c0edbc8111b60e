(** scode.c: the object file writer. *)
From Coq Require Import ZArith List Bool Ascii String.
From Verif Require Import Base State Tree Filter Output.
Import ListNotations.
Open Scope Z_scope.

(** The two digits written by scodebyte, scode.c:143-144. *)
Definition hex2 (b : Z) : str :=
  [hexa (Z.land (Z.shiftr b 4) 15); hexa (Z.land b 15)].

(** A sequence of calls of scodebyte (scode.c:139-150): text produced and final
    [checksum], from an initial [checksum]. *)
Fixpoint scodebytes (ck : Z) (bs : list Z) : str * Z :=
  match bs with
  | [] => ([], ck)
  | b :: bs' =>
      let b := u8 b in
      let (t, ck') := scodebytes (u8 (ck + b)) bs' in
      (hex2 b ++ t, ck')
  end.

(** fputs/fputc on [scode]; a null stream is undefined (scode.c:143, 183, ...). *)
Definition scwrite (t : str) : M unit :=
  w <- gets wr ;;
  match w.(scode) with
  | None => stop (UB "scode: null stream")
  | Some l => upd_wr (set_scode (Some (t :: l)))
  end.

(** The extended address record, scode.c:183-188. *)
Definition hexext (start : Z) : str :=
  let (t, ck) := scodebytes (u8 (255 + 2 + 4)) [Z.shiftr start 24; Z.shiftr start 16] in
  s2l ":02000004" ++ t ++ hex2 (u8 (Z.lnot ck)) ++ [nl].

(** A HEX data record, scode.c:192-197, 227-233. *)
Definition hexrec (start : Z) (bytes : list Z) : str :=
  let (t, ck) := scodebytes 255
        (zlen bytes :: Z.shiftr start 8 :: start :: 0 :: bytes) in
  s2l ":" ++ t ++ hex2 (u8 (Z.lnot ck)) ++ [nl].

(** An S record, scode.c:201-224, 227-233. *)
Definition srec (start : Z) (bytes : list Z) : str :=
  let n := zlen bytes in
  let '(digit, head) :=
    if negb (Z.land start 4278190080 =? 0) (* 0xff000000 *)
    then (s2l "3", [n + 5; Z.shiftr start 24; Z.shiftr start 16])
    else if negb (Z.land start 16711680 =? 0) (* 0xff0000 *)
    then (s2l "2", [n + 4; Z.shiftr start 16])
    else (s2l "1", [n + 3]) in
  let (t, ck) := scodebytes 0 (head ++ [Z.shiftr start 8; start] ++ bytes) in
  s2l "S" ++ digit ++ t ++ hex2 (u8 (Z.lnot ck)) ++ [nl].

(** scode.c:173-238. *)
Definition flushscoderaw : M unit :=
  s <- gets (fun s => s) ;;
  let w := s.(wr) in
  (match w.(raw) with
   | [] => ret tt
   | _ :: _ =>
       if s.(fl).(a_code_hex) then
         (if negb (Z.land (Z.lxor w.(rawextended) w.(rawstart)) 4294901760 =? 0) then
            scwrite (hexext w.(rawstart)) ;;;
            upd_wr (set_rawextended (s32 w.(rawstart)))
          else ret tt) ;;;
         scwrite (hexrec w.(rawstart) w.(raw))
       else scwrite (srec w.(rawstart) w.(raw))
   end) ;;;
  upd_wr (fun w => set_rawstart w.(pc) w) ;;;
  upd_wr (set_raw []).

(** scode.c:38-46. *)
Definition setpc (addr : Z) : M unit :=
  let addr := u64 addr in
  p <- gets (fun s => s.(wr).(pc)) ;;
  if addr =? p then ret tt
  else
    flushscoderaw ;;;
    upd_wr (set_pc addr) ;;;
    upd_wr (set_rawstart addr) ;;;
    upd_wr (set_raw []).

(** scode.c:49-89 (fopen of the object file is assumed to succeed). *)
Definition insert8 (x : Z) : M unit :=
  let x := u8 x in
  s <- gets (fun s => s) ;;
  when (negb s.(fl).(a_org_gv)) (err "no org given") ;;;
  modify (fun s => set_emitted
            (mkEm s.(ct).(passnumber) s.(wr).(pc) x s.(fl).(a_code_on) :: s.(emitted)) s) ;;;
  (if negb s.(fl).(a_nocode) then
     match s.(wr).(scode) with
     | None => upd_wr (set_scode (Some [])) ;;; upd_wr (set_rawextended 0)
     | Some _ => ret tt
     end
   else ret tt) ;;;
  (if s.(fl).(a_code_on) then
     w <- gets wr ;;
     (match w.(scode) with
      | None => ret tt
      | Some _ =>
          when (16 <=? zlen w.(raw)) flushscoderaw ;;;
          upd_wr (fun w => set_raw (w.(raw) ++ [x]) w)
      end) ;;;
     upd_wr (fun w => set_codelen (u64 (w.(codelen) + 1)) w) ;;;
     outputbyte x
   else ret tt) ;;;
  upd_ct (fun c => set_advance (c.(advance) + 1) c) ;;;
  upd_wr (fun w => set_pc (u64 (w.(pc) + 1)) w).

(** scode.c:92-104. *)
Definition insert16 (x : Z) : M unit :=
  let x := u16 x in
  f <- gets fl ;;
  if f.(a_lohi) then insert8 x ;;; insert8 (Z.shiftr x 8)
  else insert8 (Z.shiftr x 8) ;;; insert8 x.

(** scode.c:122-134. *)
Definition insert32 (x : Z) : M unit :=
  let x := u32 x in
  f <- gets fl ;;
  if f.(a_lohi) then insert16 x ;;; insert16 (Z.shiftr x 16)
  else insert16 (Z.shiftr x 16) ;;; insert16 x.

(** scode.c:153-170. *)
Definition closescodefile : M unit :=
  flushscoderaw ;;;
  f <- gets fl ;;
  scwrite (if f.(a_code_hex) then s2l ":00000001FF" ++ [nl] else s2l "S9030000FC" ++ [nl]).
