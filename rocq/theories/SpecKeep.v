(** The directives (property C49). *)
From Coq Require Import String ZArith List.
From Verif Require Import State.
Import ListNotations.
Open Scope Z_scope.

(** The name of every directive, what it does, and for those that define bytes the size of
    the elements. *)
Definition directives : list (string * handler * Z) :=
  [("equ", HEqu, 0); ("asc", HAsc, 0); ("align", HAlign, 0); ("clist", HClist, 0); ("code", HCode, 0); ("cpu", HCpu, 0);
   ("db", HDc, 1); ("ddb", HDc, 2); ("dl", HDc, 4); ("dw", HDc, 3); ("dummy", HDummy, 0); ("ds", HDs, 0);
   ("else", HElse, 0); ("endc", HEndc, 0); ("endm", HEndm, 0); ("exitm", HExitm, 0); ("fail", HFail, 0); ("if", HIf, 0);
   ("ilist", HIlist, 0); ("include", HInclude, 0); ("list", HList, 0); ("macro", HMacro, 0); ("mlist", HMlist, 0);
   ("nam", HNam, 0); ("page", HPage, 0); ("output", HOutput, 0); ("skip", HSkip, 0)]%string.
