(** The ways in which evaluation and assembly may end (C34, C36, C48).  Nothing here is
    part of the model. *)
From Coq Require Import String Ascii ZArith List Bool.
From Verif Require Import Base State Tree.
Import ListNotations.
Open Scope Z_scope.

(** Some symbol is a register. *)
Definition has_register (s : state) : Prop :=
  exists k l, tfind k s.(sy) = Some l /\ l.(l_type) = TRegs.

(** Evaluation that began in [s] ended in [s'] with [r]: a value, a reported error or a
    fatal message; arithmetic that C leaves undefined; a full operand buffer; a full
    listing line of the greatest width; an error message for a line number of more than
    seven digits; and, with registers only, the two ways in which a range of registers
    goes wrong.  Nothing else: no null symbol, and no need for more steps. *)
Definition evaluation_ends {A} (s : state) (r : res A) (s' : state) : Prop :=
  match r with
  | Ok _ | Bad (Err _) | Bad (Exit _) => True
  | Bad NoFuel => False
  | Bad Hang => has_register s
  | Bad (UB w) =>
      w = "filter: buffer overflow"%string \/
      w = "signed overflow"%string \/ w = "star: signed overflow"%string \/
      w = "shift count out of range"%string \/
      w = "opsub: shift by 32"%string /\ has_register s \/
      w = "linebuffer overflow"%string /\ s'.(ls).(llen) = 1000 \/
      w = "error: message buffer overflow"%string /\ ~ 0 <= s'.(inp).(linenumber) < 10000000
  end.

(** The reasons, other than those of [run_ends], for which a run leaves the defined
    behaviour of C. *)
Definition other_reasons : list string :=
  ["scode: null stream"; "getreg: shift count"; "EQU without label"; "block instruction as mnemonic";
   "DS: negative count"; "asc: read past operand"; "MACRO without label"; "mnemonic as block instruction";
   "asmline: bad function pointer"; "linegets: null macro line"]%string.

(** A run stopped for the reason [b] in [s']: a message, a range of registers, arithmetic
    that C leaves undefined, or a full buffer: that of a listing line only at the greatest
    width, that of an error message only for a line number of more than seven digits or a
    line of more than 64 characters.  It is never a matter of more steps. *)
Definition run_ends (b : bad) (s' : state) : Prop :=
  match b with
  | Err _ | Exit _ => True
  | NoFuel => False
  | Hang => has_register s'
  | UB w =>
      w = "filter: buffer overflow"%string \/
      w = "signed overflow"%string \/ w = "star: signed overflow"%string \/
      w = "shift count out of range"%string \/
      w = "opsub: shift by 32"%string /\ has_register s' \/
      w = "linebuffer overflow"%string /\ s'.(ls).(llen) = 1000 \/
      w = "error: message buffer overflow"%string /\
        (~ 0 <= s'.(inp).(linenumber) < 10000000 \/ 64 < zlen s'.(inp).(curline)) \/
      In w other_reasons
  end.

(** The figures of the summary are in range: addresses of 32 bits and fewer than 10^20
    errors. *)
Definition small (s : state) : Prop :=
  0 <= s.(wr).(pc) <= 2 ^ 32 /\ 0 <= s.(wr).(codelen) <= 2 ^ 32 /\
  0 <= s.(ct).(errnumber) < 10 ^ 20 /\ 0 <= s.(ct).(warnnumber) < 10 ^ 20.

(** The same for a whole run, whose summary is written to a buffer too. *)
Definition assembly_ends {A} (r : res A) (s' : state) : Prop :=
  match r with
  | Ok _ => True
  | Bad b => run_ends b s' \/ b = UB "result: buffer overflow" /\ ~ small s'
  end.
