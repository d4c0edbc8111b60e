(** The globals and statics of crasm as one record, and the outcome monad.
    Field comments cite the C object each field stands for. *)
From Coq Require Import ZArith List Bool Ascii String.
From Verif Require Import Base.
Import ListNotations.
Open Scope Z_scope.

(** Label types, label.h:55-60 ([L_MNEMO] .. [L_DIRECTBIT]). *)
Inductive ltype := TMnemo | TMacro | TAbs | TRel | TRegs | TBit.

(** Equality of label types (label.h:55-60). *)
Definition ltype_eqb (a b : ltype) : bool :=
  match a, b with
  | TMnemo, TMnemo | TMacro, TMacro | TAbs, TAbs | TRel, TRel
  | TRegs, TRegs | TBit, TBit => true
  | _, _ => false
  end.

(** The C functions that can appear in the [ptr] field of a keyword
    (stdvocabulary.c:32-61, cpu6800.c:212-346, cpu6502.c:261-355, cpuz80.c:875-973). *)
Inductive handler :=
| HEqu | HAsc | HAlign | HClist | HCode | HCpu | HDc | HDummy | HDs
| HElse | HEndc | HEndm | HExitm | HFail | HIf | HIlist | HInclude | HList
| HMacro | HMlist | HNam | HPage | HOutput | HSkip
| H68Branch | H68Single | H68Std | H68Std2 | H68Std3
| H65Branch | H65Single | H65Std
| HZRelbranch | HZSimple | HZIm | HZRst | HZJr | HZRet | HZCall | HZJp | HZEx
| HZInout | HZBitop | HZOnreg8 | HZLogical | HZStackop | HZArith | HZIncr | HZLd.

(** The [ptr] field of a label (label.h:41, 50): null, a function, or the list of
    lines of a macro (macro.c:358-362, stored by macro.c:488). *)
Inductive lptr := PNull | PFun (h : handler) | PMac (lines : list str).

(** Which static table a tree node belongs to (stdvocabulary.c:32 and the
    [startmnemos] tables), or [TUser] for nodes made by makelabel (label.c:137). *)
Inductive table := TUser | TPseudos | T6800 | T6801 | T6502 | T65C02 | TZ80.

(** Equality of table names (model only; C compares node addresses). *)
Definition table_eqb (a b : table) : bool :=
  match a, b with
  | TUser, TUser | TPseudos, TPseudos | T6800, T6800 | T6801, T6801
  | T6502, T6502 | T65C02, T65C02 | TZ80, TZ80 => true
  | _, _ => false
  end.

(** Label and result flag bits, label.h:65-73. *)
Record lflags := mkLF {
  f_undef : bool; (* UNDEF, label.h:65 *)
  f_forward : bool; (* FORWARD, label.h:66 *)
  f_used : bool; (* USED, label.h:67 *)
  f_noredef : bool; (* NOREDEF, label.h:68 *)
  f_nolabel : bool; (* NOLABEL, label.h:70 *)
  f_deflabel : bool; (* DEFLABEL, label.h:71 *)
  f_defmacro : bool; (* DEFMACRO, label.h:72 *)
  f_defcond : bool (* DEFCOND, label.h:73 *)
}.

(** Store to [f_undef]: UNDEF, label.h:65. *)
Definition set_f_undef (v : bool) (r : lflags) : lflags :=
  mkLF v (r.(f_forward)) (r.(f_used)) (r.(f_noredef)) (r.(f_nolabel)) (r.(f_deflabel)) (r.(f_defmacro)) (r.(f_defcond)).
(** Store to [f_forward]: FORWARD, label.h:66. *)
Definition set_f_forward (v : bool) (r : lflags) : lflags :=
  mkLF (r.(f_undef)) v (r.(f_used)) (r.(f_noredef)) (r.(f_nolabel)) (r.(f_deflabel)) (r.(f_defmacro)) (r.(f_defcond)).
(** Store to [f_used]: USED, label.h:67. *)
Definition set_f_used (v : bool) (r : lflags) : lflags :=
  mkLF (r.(f_undef)) (r.(f_forward)) v (r.(f_noredef)) (r.(f_nolabel)) (r.(f_deflabel)) (r.(f_defmacro)) (r.(f_defcond)).
(** Store to [f_noredef]: NOREDEF, label.h:68. *)
Definition set_f_noredef (v : bool) (r : lflags) : lflags :=
  mkLF (r.(f_undef)) (r.(f_forward)) (r.(f_used)) v (r.(f_nolabel)) (r.(f_deflabel)) (r.(f_defmacro)) (r.(f_defcond)).
(** Store to [f_nolabel]: NOLABEL, label.h:70. *)
Definition set_f_nolabel (v : bool) (r : lflags) : lflags :=
  mkLF (r.(f_undef)) (r.(f_forward)) (r.(f_used)) (r.(f_noredef)) v (r.(f_deflabel)) (r.(f_defmacro)) (r.(f_defcond)).
(** Store to [f_deflabel]: DEFLABEL, label.h:71. *)
Definition set_f_deflabel (v : bool) (r : lflags) : lflags :=
  mkLF (r.(f_undef)) (r.(f_forward)) (r.(f_used)) (r.(f_noredef)) (r.(f_nolabel)) v (r.(f_defmacro)) (r.(f_defcond)).
(** Store to [f_defmacro]: DEFMACRO, label.h:72. *)
Definition set_f_defmacro (v : bool) (r : lflags) : lflags :=
  mkLF (r.(f_undef)) (r.(f_forward)) (r.(f_used)) (r.(f_noredef)) (r.(f_nolabel)) (r.(f_deflabel)) v (r.(f_defcond)).
(** Store to [f_defcond]: DEFCOND, label.h:73. *)
Definition set_f_defcond (v : bool) (r : lflags) : lflags :=
  mkLF (r.(f_undef)) (r.(f_forward)) (r.(f_used)) (r.(f_noredef)) (r.(f_nolabel)) (r.(f_deflabel)) (r.(f_defmacro)) v.

(** No flag (value 0 of a flags byte, label.h:38). *)
Definition lf0 : lflags := mkLF false false false false false false false false.

(** Bitwise or of two flag bytes (C [|=], e.g. operator.c:287). *)
Definition lf_or (a b : lflags) : lflags :=
  mkLF (a.(f_undef) || b.(f_undef)) (a.(f_forward) || b.(f_forward))
       (a.(f_used) || b.(f_used)) (a.(f_noredef) || b.(f_noredef))
       (a.(f_nolabel) || b.(f_nolabel)) (a.(f_deflabel) || b.(f_deflabel))
       (a.(f_defmacro) || b.(f_defmacro)) (a.(f_defcond) || b.(f_defcond)).

(** struct label, label.h:33-43, without the tree links and the name (the key of the tree). *)
Record label := mkLabel {
  l_flags : lflags; (* flags, label.h:38 *)
  l_type : ltype; (* type, label.h:39 *)
  l_modifier : Z; (* modifier, label.h:40 *)
  l_ptr : lptr; (* ptr, label.h:41 *)
  l_value : Z; (* value, label.h:42 *)
  l_table : table (* which array the node is in (model only) *)
}.

(** Store to [l_flags]: flags, label.h:38. *)
Definition set_l_flags (v : lflags) (r : label) : label :=
  mkLabel v (r.(l_type)) (r.(l_modifier)) (r.(l_ptr)) (r.(l_value)) (r.(l_table)).
(** Store to [l_type]: type, label.h:39. *)
Definition set_l_type (v : ltype) (r : label) : label :=
  mkLabel (r.(l_flags)) v (r.(l_modifier)) (r.(l_ptr)) (r.(l_value)) (r.(l_table)).
(** Store to [l_modifier]: modifier, label.h:40. *)
Definition set_l_modifier (v : Z) (r : label) : label :=
  mkLabel (r.(l_flags)) (r.(l_type)) v (r.(l_ptr)) (r.(l_value)) (r.(l_table)).
(** Store to [l_ptr]: ptr, label.h:41. *)
Definition set_l_ptr (v : lptr) (r : label) : label :=
  mkLabel (r.(l_flags)) (r.(l_type)) (r.(l_modifier)) v (r.(l_value)) (r.(l_table)).
(** Store to [l_value]: value, label.h:42. *)
Definition set_l_value (v : Z) (r : label) : label :=
  mkLabel (r.(l_flags)) (r.(l_type)) (r.(l_modifier)) (r.(l_ptr)) v (r.(l_table)).
(** Store to [l_table]: which array the node is in (model only). *)
Definition set_l_table (v : table) (r : label) : label :=
  mkLabel (r.(l_flags)) (r.(l_type)) (r.(l_modifier)) (r.(l_ptr)) (r.(l_value)) v.

(** struct result, label.h:45-52. *)
Record result := mkRes {
  r_flags : lflags; (* flags, label.h:47 *)
  r_type : ltype; (* type, label.h:48 *)
  r_modifier : Z; (* modifier, label.h:49 *)
  r_ptr : lptr; (* ptr, label.h:50 *)
  r_value : Z (* value, label.h:51 *)
}.

(** Store to [r_flags]: flags, label.h:47. *)
Definition set_r_flags (v : lflags) (r : result) : result :=
  mkRes v (r.(r_type)) (r.(r_modifier)) (r.(r_ptr)) (r.(r_value)).
(** Store to [r_type]: type, label.h:48. *)
Definition set_r_type (v : ltype) (r : result) : result :=
  mkRes (r.(r_flags)) v (r.(r_modifier)) (r.(r_ptr)) (r.(r_value)).
(** Store to [r_modifier]: modifier, label.h:49. *)
Definition set_r_modifier (v : Z) (r : result) : result :=
  mkRes (r.(r_flags)) (r.(r_type)) v (r.(r_ptr)) (r.(r_value)).
(** Store to [r_ptr]: ptr, label.h:50. *)
Definition set_r_ptr (v : lptr) (r : result) : result :=
  mkRes (r.(r_flags)) (r.(r_type)) (r.(r_modifier)) v (r.(r_value)).
(** Store to [r_value]: value, label.h:51. *)
Definition set_r_value (v : Z) (r : result) : result :=
  mkRes (r.(r_flags)) (r.(r_type)) (r.(r_modifier)) (r.(r_ptr)) v.

(** Zero-initialised struct result (parse.c:41; macro.c:92 is this with type
    [L_ABSOLUTE], which is the type used here: type 0 is never read). *)
Definition res0 : result := mkRes lf0 TAbs 0 PNull 0.

(** The binary search tree rooted at [lroot], label.c:39. *)
Inductive tree := Leaf | Node (l : tree) (k : str) (v : label) (r : tree).

(** asmflags, dcl.h:66-83. *)
Record aflags := mkAF {
  a_cpu_gv : bool; (* F_CPU_GV, dcl.h:66 *)
  a_org_gv : bool; (* F_ORG_GV, dcl.h:67 *)
  a_code_on : bool; (* F_CODE_ON, dcl.h:68 *)
  a_list_on : bool; (* F_LIST_ON, dcl.h:69 *)
  a_iflist_on : bool; (* F_IFLIST_ON, dcl.h:70 *)
  a_macrolist_on : bool; (* F_MACROLIST_ON, dcl.h:71 *)
  a_includelist_on : bool; (* F_INCLUDELIST_ON, dcl.h:72 *)
  a_lohi : bool; (* F_LOHI, dcl.h:73 *)
  a_addr16 : bool; (* F_ADDR16, dcl.h:74 *)
  a_addr24 : bool; (* F_ADDR24, dcl.h:75 *)
  a_relatif : bool; (* F_RELATIF, dcl.h:76 *)
  a_code_hex : bool; (* F_CODE_HEX, dcl.h:77 *)
  a_code_scode : bool; (* F_CODE_SCODE, dcl.h:78 *)
  a_nolist : bool; (* F_NOLIST, dcl.h:80 *)
  a_nowarning : bool; (* F_NOWARNING, dcl.h:81 *)
  a_noerror : bool; (* F_NOERROR, dcl.h:82 *)
  a_nocode : bool (* F_NOCODE, dcl.h:83 *)
}.

(** Store to [a_cpu_gv]: F_CPU_GV, dcl.h:66. *)
Definition set_a_cpu_gv (v : bool) (r : aflags) : aflags :=
  mkAF v (r.(a_org_gv)) (r.(a_code_on)) (r.(a_list_on)) (r.(a_iflist_on)) (r.(a_macrolist_on)) (r.(a_includelist_on)) (r.(a_lohi)) (r.(a_addr16)) (r.(a_addr24)) (r.(a_relatif)) (r.(a_code_hex)) (r.(a_code_scode)) (r.(a_nolist)) (r.(a_nowarning)) (r.(a_noerror)) (r.(a_nocode)).
(** Store to [a_org_gv]: F_ORG_GV, dcl.h:67. *)
Definition set_a_org_gv (v : bool) (r : aflags) : aflags :=
  mkAF (r.(a_cpu_gv)) v (r.(a_code_on)) (r.(a_list_on)) (r.(a_iflist_on)) (r.(a_macrolist_on)) (r.(a_includelist_on)) (r.(a_lohi)) (r.(a_addr16)) (r.(a_addr24)) (r.(a_relatif)) (r.(a_code_hex)) (r.(a_code_scode)) (r.(a_nolist)) (r.(a_nowarning)) (r.(a_noerror)) (r.(a_nocode)).
(** Store to [a_code_on]: F_CODE_ON, dcl.h:68. *)
Definition set_a_code_on (v : bool) (r : aflags) : aflags :=
  mkAF (r.(a_cpu_gv)) (r.(a_org_gv)) v (r.(a_list_on)) (r.(a_iflist_on)) (r.(a_macrolist_on)) (r.(a_includelist_on)) (r.(a_lohi)) (r.(a_addr16)) (r.(a_addr24)) (r.(a_relatif)) (r.(a_code_hex)) (r.(a_code_scode)) (r.(a_nolist)) (r.(a_nowarning)) (r.(a_noerror)) (r.(a_nocode)).
(** Store to [a_list_on]: F_LIST_ON, dcl.h:69. *)
Definition set_a_list_on (v : bool) (r : aflags) : aflags :=
  mkAF (r.(a_cpu_gv)) (r.(a_org_gv)) (r.(a_code_on)) v (r.(a_iflist_on)) (r.(a_macrolist_on)) (r.(a_includelist_on)) (r.(a_lohi)) (r.(a_addr16)) (r.(a_addr24)) (r.(a_relatif)) (r.(a_code_hex)) (r.(a_code_scode)) (r.(a_nolist)) (r.(a_nowarning)) (r.(a_noerror)) (r.(a_nocode)).
(** Store to [a_iflist_on]: F_IFLIST_ON, dcl.h:70. *)
Definition set_a_iflist_on (v : bool) (r : aflags) : aflags :=
  mkAF (r.(a_cpu_gv)) (r.(a_org_gv)) (r.(a_code_on)) (r.(a_list_on)) v (r.(a_macrolist_on)) (r.(a_includelist_on)) (r.(a_lohi)) (r.(a_addr16)) (r.(a_addr24)) (r.(a_relatif)) (r.(a_code_hex)) (r.(a_code_scode)) (r.(a_nolist)) (r.(a_nowarning)) (r.(a_noerror)) (r.(a_nocode)).
(** Store to [a_macrolist_on]: F_MACROLIST_ON, dcl.h:71. *)
Definition set_a_macrolist_on (v : bool) (r : aflags) : aflags :=
  mkAF (r.(a_cpu_gv)) (r.(a_org_gv)) (r.(a_code_on)) (r.(a_list_on)) (r.(a_iflist_on)) v (r.(a_includelist_on)) (r.(a_lohi)) (r.(a_addr16)) (r.(a_addr24)) (r.(a_relatif)) (r.(a_code_hex)) (r.(a_code_scode)) (r.(a_nolist)) (r.(a_nowarning)) (r.(a_noerror)) (r.(a_nocode)).
(** Store to [a_includelist_on]: F_INCLUDELIST_ON, dcl.h:72. *)
Definition set_a_includelist_on (v : bool) (r : aflags) : aflags :=
  mkAF (r.(a_cpu_gv)) (r.(a_org_gv)) (r.(a_code_on)) (r.(a_list_on)) (r.(a_iflist_on)) (r.(a_macrolist_on)) v (r.(a_lohi)) (r.(a_addr16)) (r.(a_addr24)) (r.(a_relatif)) (r.(a_code_hex)) (r.(a_code_scode)) (r.(a_nolist)) (r.(a_nowarning)) (r.(a_noerror)) (r.(a_nocode)).
(** Store to [a_lohi]: F_LOHI, dcl.h:73. *)
Definition set_a_lohi (v : bool) (r : aflags) : aflags :=
  mkAF (r.(a_cpu_gv)) (r.(a_org_gv)) (r.(a_code_on)) (r.(a_list_on)) (r.(a_iflist_on)) (r.(a_macrolist_on)) (r.(a_includelist_on)) v (r.(a_addr16)) (r.(a_addr24)) (r.(a_relatif)) (r.(a_code_hex)) (r.(a_code_scode)) (r.(a_nolist)) (r.(a_nowarning)) (r.(a_noerror)) (r.(a_nocode)).
(** Store to [a_addr16]: F_ADDR16, dcl.h:74. *)
Definition set_a_addr16 (v : bool) (r : aflags) : aflags :=
  mkAF (r.(a_cpu_gv)) (r.(a_org_gv)) (r.(a_code_on)) (r.(a_list_on)) (r.(a_iflist_on)) (r.(a_macrolist_on)) (r.(a_includelist_on)) (r.(a_lohi)) v (r.(a_addr24)) (r.(a_relatif)) (r.(a_code_hex)) (r.(a_code_scode)) (r.(a_nolist)) (r.(a_nowarning)) (r.(a_noerror)) (r.(a_nocode)).
(** Store to [a_addr24]: F_ADDR24, dcl.h:75. *)
Definition set_a_addr24 (v : bool) (r : aflags) : aflags :=
  mkAF (r.(a_cpu_gv)) (r.(a_org_gv)) (r.(a_code_on)) (r.(a_list_on)) (r.(a_iflist_on)) (r.(a_macrolist_on)) (r.(a_includelist_on)) (r.(a_lohi)) (r.(a_addr16)) v (r.(a_relatif)) (r.(a_code_hex)) (r.(a_code_scode)) (r.(a_nolist)) (r.(a_nowarning)) (r.(a_noerror)) (r.(a_nocode)).
(** Store to [a_relatif]: F_RELATIF, dcl.h:76. *)
Definition set_a_relatif (v : bool) (r : aflags) : aflags :=
  mkAF (r.(a_cpu_gv)) (r.(a_org_gv)) (r.(a_code_on)) (r.(a_list_on)) (r.(a_iflist_on)) (r.(a_macrolist_on)) (r.(a_includelist_on)) (r.(a_lohi)) (r.(a_addr16)) (r.(a_addr24)) v (r.(a_code_hex)) (r.(a_code_scode)) (r.(a_nolist)) (r.(a_nowarning)) (r.(a_noerror)) (r.(a_nocode)).
(** Store to [a_code_hex]: F_CODE_HEX, dcl.h:77. *)
Definition set_a_code_hex (v : bool) (r : aflags) : aflags :=
  mkAF (r.(a_cpu_gv)) (r.(a_org_gv)) (r.(a_code_on)) (r.(a_list_on)) (r.(a_iflist_on)) (r.(a_macrolist_on)) (r.(a_includelist_on)) (r.(a_lohi)) (r.(a_addr16)) (r.(a_addr24)) (r.(a_relatif)) v (r.(a_code_scode)) (r.(a_nolist)) (r.(a_nowarning)) (r.(a_noerror)) (r.(a_nocode)).
(** Store to [a_code_scode]: F_CODE_SCODE, dcl.h:78. *)
Definition set_a_code_scode (v : bool) (r : aflags) : aflags :=
  mkAF (r.(a_cpu_gv)) (r.(a_org_gv)) (r.(a_code_on)) (r.(a_list_on)) (r.(a_iflist_on)) (r.(a_macrolist_on)) (r.(a_includelist_on)) (r.(a_lohi)) (r.(a_addr16)) (r.(a_addr24)) (r.(a_relatif)) (r.(a_code_hex)) v (r.(a_nolist)) (r.(a_nowarning)) (r.(a_noerror)) (r.(a_nocode)).
(** Store to [a_nolist]: F_NOLIST, dcl.h:80. *)
Definition set_a_nolist (v : bool) (r : aflags) : aflags :=
  mkAF (r.(a_cpu_gv)) (r.(a_org_gv)) (r.(a_code_on)) (r.(a_list_on)) (r.(a_iflist_on)) (r.(a_macrolist_on)) (r.(a_includelist_on)) (r.(a_lohi)) (r.(a_addr16)) (r.(a_addr24)) (r.(a_relatif)) (r.(a_code_hex)) (r.(a_code_scode)) v (r.(a_nowarning)) (r.(a_noerror)) (r.(a_nocode)).
(** Store to [a_nowarning]: F_NOWARNING, dcl.h:81. *)
Definition set_a_nowarning (v : bool) (r : aflags) : aflags :=
  mkAF (r.(a_cpu_gv)) (r.(a_org_gv)) (r.(a_code_on)) (r.(a_list_on)) (r.(a_iflist_on)) (r.(a_macrolist_on)) (r.(a_includelist_on)) (r.(a_lohi)) (r.(a_addr16)) (r.(a_addr24)) (r.(a_relatif)) (r.(a_code_hex)) (r.(a_code_scode)) (r.(a_nolist)) v (r.(a_noerror)) (r.(a_nocode)).
(** Store to [a_noerror]: F_NOERROR, dcl.h:82. *)
Definition set_a_noerror (v : bool) (r : aflags) : aflags :=
  mkAF (r.(a_cpu_gv)) (r.(a_org_gv)) (r.(a_code_on)) (r.(a_list_on)) (r.(a_iflist_on)) (r.(a_macrolist_on)) (r.(a_includelist_on)) (r.(a_lohi)) (r.(a_addr16)) (r.(a_addr24)) (r.(a_relatif)) (r.(a_code_hex)) (r.(a_code_scode)) (r.(a_nolist)) (r.(a_nowarning)) v (r.(a_nocode)).
(** Store to [a_nocode]: F_NOCODE, dcl.h:83. *)
Definition set_a_nocode (v : bool) (r : aflags) : aflags :=
  mkAF (r.(a_cpu_gv)) (r.(a_org_gv)) (r.(a_code_on)) (r.(a_list_on)) (r.(a_iflist_on)) (r.(a_macrolist_on)) (r.(a_includelist_on)) (r.(a_lohi)) (r.(a_addr16)) (r.(a_addr24)) (r.(a_relatif)) (r.(a_code_hex)) (r.(a_code_scode)) (r.(a_nolist)) (r.(a_nowarning)) (r.(a_noerror)) v.

(** What outputraw prints (output.c:104-127), with the page length at the time: a log kept
    by the model only. *)
Inductive sheet := PHead (p : Z) | PLine (p : Z) (t : str) | PFoot (p : Z).

(** State of output.c and its share of the globals of crasm.c (crasm.c:48-51, output.c:48). *)
Record listing := mkLs {
  lpos : Z; (* crasm.c:51 *)
  llen : Z; (* crasm.c:48 *)
  ppos : Z; (* crasm.c:49 *)
  plen : Z; (* crasm.c:50 *)
  pagenumber : Z; (* output.c:50 *)
  title : str; (* output.c:49 *)
  titleflag : bool; (* static flag, output.c:55 *)
  pageflag : bool; (* static flag, output.c:78 *)
  linebuffer : str; (* output.c:48, the part written so far, NUL bytes included *)
  lastoffset : Z; (* output.c:45 *)
  mypc : Z; (* static mypc, output.c:311 *)
  stdout : list str; (* stdout, pieces in reverse order *)
  sheets : list sheet; (* what outputraw printed, the last first (model only) *)
  composed : list (Z * str) (* the lines given by outputEOL to outputraw with the line length at the time, the last first (model only) *)
}.

(** Store to [lpos]: crasm.c:51. *)
Definition set_lpos (v : Z) (r : listing) : listing :=
  mkLs v (r.(llen)) (r.(ppos)) (r.(plen)) (r.(pagenumber)) (r.(title)) (r.(titleflag)) (r.(pageflag)) (r.(linebuffer)) (r.(lastoffset)) (r.(mypc)) (r.(stdout)) (r.(sheets)) (r.(composed)).
(** Store to [llen]: crasm.c:48. *)
Definition set_llen (v : Z) (r : listing) : listing :=
  mkLs (r.(lpos)) v (r.(ppos)) (r.(plen)) (r.(pagenumber)) (r.(title)) (r.(titleflag)) (r.(pageflag)) (r.(linebuffer)) (r.(lastoffset)) (r.(mypc)) (r.(stdout)) (r.(sheets)) (r.(composed)).
(** Store to [ppos]: crasm.c:49. *)
Definition set_ppos (v : Z) (r : listing) : listing :=
  mkLs (r.(lpos)) (r.(llen)) v (r.(plen)) (r.(pagenumber)) (r.(title)) (r.(titleflag)) (r.(pageflag)) (r.(linebuffer)) (r.(lastoffset)) (r.(mypc)) (r.(stdout)) (r.(sheets)) (r.(composed)).
(** Store to [plen]: crasm.c:50. *)
Definition set_plen (v : Z) (r : listing) : listing :=
  mkLs (r.(lpos)) (r.(llen)) (r.(ppos)) v (r.(pagenumber)) (r.(title)) (r.(titleflag)) (r.(pageflag)) (r.(linebuffer)) (r.(lastoffset)) (r.(mypc)) (r.(stdout)) (r.(sheets)) (r.(composed)).
(** Store to [pagenumber]: output.c:50. *)
Definition set_pagenumber (v : Z) (r : listing) : listing :=
  mkLs (r.(lpos)) (r.(llen)) (r.(ppos)) (r.(plen)) v (r.(title)) (r.(titleflag)) (r.(pageflag)) (r.(linebuffer)) (r.(lastoffset)) (r.(mypc)) (r.(stdout)) (r.(sheets)) (r.(composed)).
(** Store to [title]: output.c:49. *)
Definition set_title (v : str) (r : listing) : listing :=
  mkLs (r.(lpos)) (r.(llen)) (r.(ppos)) (r.(plen)) (r.(pagenumber)) v (r.(titleflag)) (r.(pageflag)) (r.(linebuffer)) (r.(lastoffset)) (r.(mypc)) (r.(stdout)) (r.(sheets)) (r.(composed)).
(** Store to [titleflag]: static flag, output.c:55. *)
Definition set_titleflag (v : bool) (r : listing) : listing :=
  mkLs (r.(lpos)) (r.(llen)) (r.(ppos)) (r.(plen)) (r.(pagenumber)) (r.(title)) v (r.(pageflag)) (r.(linebuffer)) (r.(lastoffset)) (r.(mypc)) (r.(stdout)) (r.(sheets)) (r.(composed)).
(** Store to [pageflag]: static flag, output.c:78. *)
Definition set_pageflag (v : bool) (r : listing) : listing :=
  mkLs (r.(lpos)) (r.(llen)) (r.(ppos)) (r.(plen)) (r.(pagenumber)) (r.(title)) (r.(titleflag)) v (r.(linebuffer)) (r.(lastoffset)) (r.(mypc)) (r.(stdout)) (r.(sheets)) (r.(composed)).
(** Store to [linebuffer]: output.c:48, the part written so far, NUL bytes included. *)
Definition set_linebuffer (v : str) (r : listing) : listing :=
  mkLs (r.(lpos)) (r.(llen)) (r.(ppos)) (r.(plen)) (r.(pagenumber)) (r.(title)) (r.(titleflag)) (r.(pageflag)) v (r.(lastoffset)) (r.(mypc)) (r.(stdout)) (r.(sheets)) (r.(composed)).
(** Store to [lastoffset]: output.c:45. *)
Definition set_lastoffset (v : Z) (r : listing) : listing :=
  mkLs (r.(lpos)) (r.(llen)) (r.(ppos)) (r.(plen)) (r.(pagenumber)) (r.(title)) (r.(titleflag)) (r.(pageflag)) (r.(linebuffer)) v (r.(mypc)) (r.(stdout)) (r.(sheets)) (r.(composed)).
(** Store to [mypc]: static mypc, output.c:311. *)
Definition set_mypc (v : Z) (r : listing) : listing :=
  mkLs (r.(lpos)) (r.(llen)) (r.(ppos)) (r.(plen)) (r.(pagenumber)) (r.(title)) (r.(titleflag)) (r.(pageflag)) (r.(linebuffer)) (r.(lastoffset)) v (r.(stdout)) (r.(sheets)) (r.(composed)).
(** Store to [stdout]: stdout, pieces in reverse order. *)
Definition set_stdout (v : list str) (r : listing) : listing :=
  mkLs (r.(lpos)) (r.(llen)) (r.(ppos)) (r.(plen)) (r.(pagenumber)) (r.(title)) (r.(titleflag)) (r.(pageflag)) (r.(linebuffer)) (r.(lastoffset)) (r.(mypc)) v (r.(sheets)) (r.(composed)).
(** Store to [sheets]: what outputraw printed, the last first (model only). *)
Definition set_sheets (v : list sheet) (r : listing) : listing :=
  mkLs (r.(lpos)) (r.(llen)) (r.(ppos)) (r.(plen)) (r.(pagenumber)) (r.(title)) (r.(titleflag)) (r.(pageflag)) (r.(linebuffer)) (r.(lastoffset)) (r.(mypc)) (r.(stdout)) v (r.(composed)).
(** Store to [composed]: the lines given by outputEOL to outputraw with the line length at the time, the last first (model only). *)
Definition set_composed (v : list (Z * str)) (r : listing) : listing :=
  mkLs (r.(lpos)) (r.(llen)) (r.(ppos)) (r.(plen)) (r.(pagenumber)) (r.(title)) (r.(titleflag)) (r.(pageflag)) (r.(linebuffer)) (r.(lastoffset)) (r.(mypc)) (r.(stdout)) (r.(sheets)) v.

(** State of scode.c (scode.c:30-35). *)
Record writer := mkWr {
  pc : Z; (* scode.c:30 *)
  codelen : Z; (* scode.c:31 *)
  rawstart : Z; (* scode.c:32 *)
  raw : list Z; (* scode.c:35 raw[0..rawnumber-1], bytes in order; rawnumber (scode.c:33) is its length *)
  rawextended : Z; (* scode.c:34 *)
  scode : option (list str) (* crasm.c:59: NULL, or the text written so far, pieces in reverse order *)
}.

(** Store to [pc]: scode.c:30. *)
Definition set_pc (v : Z) (r : writer) : writer :=
  mkWr v (r.(codelen)) (r.(rawstart)) (r.(raw)) (r.(rawextended)) (r.(scode)).
(** Store to [codelen]: scode.c:31. *)
Definition set_codelen (v : Z) (r : writer) : writer :=
  mkWr (r.(pc)) v (r.(rawstart)) (r.(raw)) (r.(rawextended)) (r.(scode)).
(** Store to [rawstart]: scode.c:32. *)
Definition set_rawstart (v : Z) (r : writer) : writer :=
  mkWr (r.(pc)) (r.(codelen)) v (r.(raw)) (r.(rawextended)) (r.(scode)).
(** Store to [raw]: scode.c:35 raw[0..rawnumber-1], bytes in order; rawnumber (scode.c:33) is its length. *)
Definition set_raw (v : list Z) (r : writer) : writer :=
  mkWr (r.(pc)) (r.(codelen)) (r.(rawstart)) v (r.(rawextended)) (r.(scode)).
(** Store to [rawextended]: scode.c:34. *)
Definition set_rawextended (v : Z) (r : writer) : writer :=
  mkWr (r.(pc)) (r.(codelen)) (r.(rawstart)) (r.(raw)) v (r.(scode)).
(** Store to [scode]: crasm.c:59: NULL, or the text written so far, pieces in reverse order. *)
Definition set_scode (v : option (list str)) (r : writer) : writer :=
  mkWr (r.(pc)) (r.(codelen)) (r.(rawstart)) (r.(raw)) (r.(rawextended)) v.

(** An entry of the source stack above level 0, macro.c:498-519. *)
Inductive source :=
| SFile (ended : bool) (* type = S_END, macro.c:524 *)
        (rest : str) (eof : bool) (* the stream: unread bytes, end-of-file indicator *)
        (oldlist : bool) (oldprefix : ascii) (oldlinnum : Z)
| SMac (lines : list str) (* mlineptr, macro.c:517 *)
       (args : list str) (* replace[0..numarg-1], macro.c:515 *)
       (allargs : str) (* replace[9], macro.c:515 *)
       (oldlist : bool) (oldprefix : ascii) (oldlinnum : Z).

(** State of the line reader (macro.c) and line bookkeeping of crasm.c (crasm.c:52-58). *)
Record input := mkIn {
  mainrest : str; (* unread bytes of the main file, crasm.c:58 *)
  maineof : bool; (* end-of-file indicator of the main file, crasm.c:58 *)
  srcs : list source; (* source[sourcelevel..1], macro.c:519-521; innermost first *)
  curline : str; (* crasm.c:56 *)
  linenumber : Z; (* crasm.c:52 *)
  lineprefix : ascii; (* crasm.c:53 *)
  macrolevel : Z; (* crasm.c:63 *)
  thiscall : Z; (* macro.c:731 *)
  segment : Z; (* crasm.c:44 *)
  includelevel : Z (* macro.c:522 *)
}.

(** Store to [mainrest]: unread bytes of the main file, crasm.c:58. *)
Definition set_mainrest (v : str) (r : input) : input :=
  mkIn v (r.(maineof)) (r.(srcs)) (r.(curline)) (r.(linenumber)) (r.(lineprefix)) (r.(macrolevel)) (r.(thiscall)) (r.(segment)) (r.(includelevel)).
(** Store to [maineof]: end-of-file indicator of the main file, crasm.c:58. *)
Definition set_maineof (v : bool) (r : input) : input :=
  mkIn (r.(mainrest)) v (r.(srcs)) (r.(curline)) (r.(linenumber)) (r.(lineprefix)) (r.(macrolevel)) (r.(thiscall)) (r.(segment)) (r.(includelevel)).
(** Store to [srcs]: source[sourcelevel..1], macro.c:519-521; innermost first. *)
Definition set_srcs (v : list source) (r : input) : input :=
  mkIn (r.(mainrest)) (r.(maineof)) v (r.(curline)) (r.(linenumber)) (r.(lineprefix)) (r.(macrolevel)) (r.(thiscall)) (r.(segment)) (r.(includelevel)).
(** Store to [curline]: crasm.c:56. *)
Definition set_curline (v : str) (r : input) : input :=
  mkIn (r.(mainrest)) (r.(maineof)) (r.(srcs)) v (r.(linenumber)) (r.(lineprefix)) (r.(macrolevel)) (r.(thiscall)) (r.(segment)) (r.(includelevel)).
(** Store to [linenumber]: crasm.c:52. *)
Definition set_linenumber (v : Z) (r : input) : input :=
  mkIn (r.(mainrest)) (r.(maineof)) (r.(srcs)) (r.(curline)) v (r.(lineprefix)) (r.(macrolevel)) (r.(thiscall)) (r.(segment)) (r.(includelevel)).
(** Store to [lineprefix]: crasm.c:53. *)
Definition set_lineprefix (v : ascii) (r : input) : input :=
  mkIn (r.(mainrest)) (r.(maineof)) (r.(srcs)) (r.(curline)) (r.(linenumber)) v (r.(macrolevel)) (r.(thiscall)) (r.(segment)) (r.(includelevel)).
(** Store to [macrolevel]: crasm.c:63. *)
Definition set_macrolevel (v : Z) (r : input) : input :=
  mkIn (r.(mainrest)) (r.(maineof)) (r.(srcs)) (r.(curline)) (r.(linenumber)) (r.(lineprefix)) v (r.(thiscall)) (r.(segment)) (r.(includelevel)).
(** Store to [thiscall]: macro.c:731. *)
Definition set_thiscall (v : Z) (r : input) : input :=
  mkIn (r.(mainrest)) (r.(maineof)) (r.(srcs)) (r.(curline)) (r.(linenumber)) (r.(lineprefix)) (r.(macrolevel)) v (r.(segment)) (r.(includelevel)).
(** Store to [segment]: crasm.c:44. *)
Definition set_segment (v : Z) (r : input) : input :=
  mkIn (r.(mainrest)) (r.(maineof)) (r.(srcs)) (r.(curline)) (r.(linenumber)) (r.(lineprefix)) (r.(macrolevel)) (r.(thiscall)) v (r.(includelevel)).
(** Store to [includelevel]: macro.c:522. *)
Definition set_includelevel (v : Z) (r : input) : input :=
  mkIn (r.(mainrest)) (r.(maineof)) (r.(srcs)) (r.(curline)) (r.(linenumber)) (r.(lineprefix)) (r.(macrolevel)) (r.(thiscall)) (r.(segment)) v.

(** Counters and the operand evaluator's statics (crasm.c:62-64, filter.c:34). *)
Record counters := mkCt {
  advance : Z; (* crasm.c:64 *)
  errnumber : Z; (* crasm.c:42 *)
  warnnumber : Z; (* crasm.c:43 *)
  passnumber : Z; (* crasm.c:62 *)
  bufferpos : Z; (* filter.c:33, as an index into buffer *)
  calcresult : result (* parse.c:41 *)
}.

(** Store to [advance]: crasm.c:64. *)
Definition set_advance (v : Z) (r : counters) : counters :=
  mkCt v (r.(errnumber)) (r.(warnnumber)) (r.(passnumber)) (r.(bufferpos)) (r.(calcresult)).
(** Store to [errnumber]: crasm.c:42. *)
Definition set_errnumber (v : Z) (r : counters) : counters :=
  mkCt (r.(advance)) v (r.(warnnumber)) (r.(passnumber)) (r.(bufferpos)) (r.(calcresult)).
(** Store to [warnnumber]: crasm.c:43. *)
Definition set_warnnumber (v : Z) (r : counters) : counters :=
  mkCt (r.(advance)) (r.(errnumber)) v (r.(passnumber)) (r.(bufferpos)) (r.(calcresult)).
(** Store to [passnumber]: crasm.c:62. *)
Definition set_passnumber (v : Z) (r : counters) : counters :=
  mkCt (r.(advance)) (r.(errnumber)) (r.(warnnumber)) v (r.(bufferpos)) (r.(calcresult)).
(** Store to [bufferpos]: filter.c:33, as an index into buffer. *)
Definition set_bufferpos (v : Z) (r : counters) : counters :=
  mkCt (r.(advance)) (r.(errnumber)) (r.(warnnumber)) (r.(passnumber)) v (r.(calcresult)).
(** Store to [calcresult]: parse.c:41. *)
Definition set_calcresult (v : result) (r : counters) : counters :=
  mkCt (r.(advance)) (r.(errnumber)) (r.(warnnumber)) (r.(passnumber)) (r.(bufferpos)) v.

(** Statics of the CPU back ends (cpu6502.c:42). *)
Record cpustate := mkCpu {
  cpuflag : Z; (* cpu6502.c:42 *)
  z_offset : Z; (* cpuz80.c:26 *)
  z_offsetflag : bool; (* cpuz80.c:26 *)
  z_indexflag : Z; (* cpuz80.c:26 *)
  z_arg : Z; (* cpuz80.c:27 *)
  z_arg8flag : bool; (* cpuz80.c:27 *)
  z_arg16flag : bool (* cpuz80.c:27 *)
}.

(** Store to [cpuflag]: cpu6502.c:42. *)
Definition set_cpuflag (v : Z) (r : cpustate) : cpustate :=
  mkCpu v (r.(z_offset)) (r.(z_offsetflag)) (r.(z_indexflag)) (r.(z_arg)) (r.(z_arg8flag)) (r.(z_arg16flag)).
(** Store to [z_offset]: cpuz80.c:26. *)
Definition set_z_offset (v : Z) (r : cpustate) : cpustate :=
  mkCpu (r.(cpuflag)) v (r.(z_offsetflag)) (r.(z_indexflag)) (r.(z_arg)) (r.(z_arg8flag)) (r.(z_arg16flag)).
(** Store to [z_offsetflag]: cpuz80.c:26. *)
Definition set_z_offsetflag (v : bool) (r : cpustate) : cpustate :=
  mkCpu (r.(cpuflag)) (r.(z_offset)) v (r.(z_indexflag)) (r.(z_arg)) (r.(z_arg8flag)) (r.(z_arg16flag)).
(** Store to [z_indexflag]: cpuz80.c:26. *)
Definition set_z_indexflag (v : Z) (r : cpustate) : cpustate :=
  mkCpu (r.(cpuflag)) (r.(z_offset)) (r.(z_offsetflag)) v (r.(z_arg)) (r.(z_arg8flag)) (r.(z_arg16flag)).
(** Store to [z_arg]: cpuz80.c:27. *)
Definition set_z_arg (v : Z) (r : cpustate) : cpustate :=
  mkCpu (r.(cpuflag)) (r.(z_offset)) (r.(z_offsetflag)) (r.(z_indexflag)) v (r.(z_arg8flag)) (r.(z_arg16flag)).
(** Store to [z_arg8flag]: cpuz80.c:27. *)
Definition set_z_arg8flag (v : bool) (r : cpustate) : cpustate :=
  mkCpu (r.(cpuflag)) (r.(z_offset)) (r.(z_offsetflag)) (r.(z_indexflag)) (r.(z_arg)) v (r.(z_arg16flag)).
(** Store to [z_arg16flag]: cpuz80.c:27. *)
Definition set_z_arg16flag (v : bool) (r : cpustate) : cpustate :=
  mkCpu (r.(cpuflag)) (r.(z_offset)) (r.(z_offsetflag)) (r.(z_indexflag)) (r.(z_arg)) (r.(z_arg8flag)) v.

(** One call of insert8 (scode.c:49-89), model only. *)
Record emission := mkEm {
  em_pass : Z; (* passnumber, crasm.c:62 *)
  em_pc : Z; (* pc when the byte is produced, scode.c:30 *)
  em_byte : Z; (* the byte, scode.c:49 *)
  em_code : bool (* F_CODE_ON, scode.c:71 *)
}.

(** Store to [em_pass]: passnumber, crasm.c:62. *)
Definition set_em_pass (v : Z) (r : emission) : emission :=
  mkEm v (r.(em_pc)) (r.(em_byte)) (r.(em_code)).
(** Store to [em_pc]: pc when the byte is produced, scode.c:30. *)
Definition set_em_pc (v : Z) (r : emission) : emission :=
  mkEm (r.(em_pass)) v (r.(em_byte)) (r.(em_code)).
(** Store to [em_byte]: the byte, scode.c:49. *)
Definition set_em_byte (v : Z) (r : emission) : emission :=
  mkEm (r.(em_pass)) (r.(em_pc)) v (r.(em_code)).
(** Store to [em_code]: F_CODE_ON, scode.c:71. *)
Definition set_em_code (v : bool) (r : emission) : emission :=
  mkEm (r.(em_pass)) (r.(em_pc)) (r.(em_byte)) v.

(** One call of error (crasm.c:596-626), model only. *)
Record report := mkRep {
  rp_pass : Z; (* passnumber, crasm.c:62 *)
  rp_line : Z; (* linenumber, crasm.c:606 *)
  rp_text : str (* the message, crasm.c:596 *)
}.

(** Store to [rp_pass]: passnumber, crasm.c:62. *)
Definition set_rp_pass (v : Z) (r : report) : report :=
  mkRep v (r.(rp_line)) (r.(rp_text)).
(** Store to [rp_line]: linenumber, crasm.c:606. *)
Definition set_rp_line (v : Z) (r : report) : report :=
  mkRep (r.(rp_pass)) v (r.(rp_text)).
(** Store to [rp_text]: the message, crasm.c:596. *)
Definition set_rp_text (v : str) (r : report) : report :=
  mkRep (r.(rp_pass)) (r.(rp_line)) v.

(** One successful reference to a symbol (operator.c:249-264), model only. *)
Record look := mkLook {
  lk_pass : Z; (* passnumber, crasm.c:62 *)
  lk_key : str; (* the name of the node, label.h:37 *)
  lk_label : label (* the node when its value is taken, operator.c:253-258 *)
}.

(** Store to [lk_pass]: passnumber, crasm.c:62. *)
Definition set_lk_pass (v : Z) (r : look) : look :=
  mkLook v (r.(lk_key)) (r.(lk_label)).
(** Store to [lk_key]: the name of the node, label.h:37. *)
Definition set_lk_key (v : str) (r : look) : look :=
  mkLook (r.(lk_pass)) v (r.(lk_label)).
(** Store to [lk_label]: the node when its value is taken, operator.c:253-258. *)
Definition set_lk_label (v : label) (r : look) : look :=
  mkLook (r.(lk_pass)) (r.(lk_key)) v.

(** The whole program state: the globals, crasm.c:45-64, and those of the other files as
    cited with their fields. *)
Record state := mkSt {
  fl : aflags; (* asmflags, crasm.c:61 *)
  ls : listing; (* output.c *)
  wr : writer; (* scode.c *)
  sy : tree; (* lroot, label.c:39 *)
  inp : input; (* macro.c *)
  ct : counters; (* counters *)
  cp : cpustate; (* CPU back ends *)
  files : str -> option str; (* the readable files, by name (constant) *)
  maintext : str; (* contents of the main source file (constant) *)
  emitted : list emission; (* model only: log of the calls of insert8 that passed the ORG test, newest first *)
  reported : list report; (* model only: log of the calls of error that ran to the longjmp, newest first *)
  looked : list look (* model only: log of the calls of cstlabel that ran to the end, newest first *)
}.

(** Store to [fl]: asmflags, crasm.c:61. *)
Definition set_fl (v : aflags) (r : state) : state :=
  mkSt v (r.(ls)) (r.(wr)) (r.(sy)) (r.(inp)) (r.(ct)) (r.(cp)) (r.(files)) (r.(maintext)) (r.(emitted)) (r.(reported)) (r.(looked)).
(** Store to [ls]: output.c. *)
Definition set_ls (v : listing) (r : state) : state :=
  mkSt (r.(fl)) v (r.(wr)) (r.(sy)) (r.(inp)) (r.(ct)) (r.(cp)) (r.(files)) (r.(maintext)) (r.(emitted)) (r.(reported)) (r.(looked)).
(** Store to [wr]: scode.c. *)
Definition set_wr (v : writer) (r : state) : state :=
  mkSt (r.(fl)) (r.(ls)) v (r.(sy)) (r.(inp)) (r.(ct)) (r.(cp)) (r.(files)) (r.(maintext)) (r.(emitted)) (r.(reported)) (r.(looked)).
(** Store to [sy]: lroot, label.c:39. *)
Definition set_sy (v : tree) (r : state) : state :=
  mkSt (r.(fl)) (r.(ls)) (r.(wr)) v (r.(inp)) (r.(ct)) (r.(cp)) (r.(files)) (r.(maintext)) (r.(emitted)) (r.(reported)) (r.(looked)).
(** Store to [inp]: macro.c. *)
Definition set_inp (v : input) (r : state) : state :=
  mkSt (r.(fl)) (r.(ls)) (r.(wr)) (r.(sy)) v (r.(ct)) (r.(cp)) (r.(files)) (r.(maintext)) (r.(emitted)) (r.(reported)) (r.(looked)).
(** Store to [ct]: counters. *)
Definition set_ct (v : counters) (r : state) : state :=
  mkSt (r.(fl)) (r.(ls)) (r.(wr)) (r.(sy)) (r.(inp)) v (r.(cp)) (r.(files)) (r.(maintext)) (r.(emitted)) (r.(reported)) (r.(looked)).
(** Store to [cp]: CPU back ends. *)
Definition set_cp (v : cpustate) (r : state) : state :=
  mkSt (r.(fl)) (r.(ls)) (r.(wr)) (r.(sy)) (r.(inp)) (r.(ct)) v (r.(files)) (r.(maintext)) (r.(emitted)) (r.(reported)) (r.(looked)).
(** Store to [files]: the readable files, by name (constant). *)
Definition set_files (v : str -> option str) (r : state) : state :=
  mkSt (r.(fl)) (r.(ls)) (r.(wr)) (r.(sy)) (r.(inp)) (r.(ct)) (r.(cp)) v (r.(maintext)) (r.(emitted)) (r.(reported)) (r.(looked)).
(** Store to [maintext]: contents of the main source file (constant). *)
Definition set_maintext (v : str) (r : state) : state :=
  mkSt (r.(fl)) (r.(ls)) (r.(wr)) (r.(sy)) (r.(inp)) (r.(ct)) (r.(cp)) (r.(files)) v (r.(emitted)) (r.(reported)) (r.(looked)).
(** Store to [emitted]: model only: log of the calls of insert8 that passed the ORG test, newest first. *)
Definition set_emitted (v : list emission) (r : state) : state :=
  mkSt (r.(fl)) (r.(ls)) (r.(wr)) (r.(sy)) (r.(inp)) (r.(ct)) (r.(cp)) (r.(files)) (r.(maintext)) v (r.(reported)) (r.(looked)).
(** Store to [reported]: model only: log of the calls of error that ran to the longjmp, newest first. *)
Definition set_reported (v : list report) (r : state) : state :=
  mkSt (r.(fl)) (r.(ls)) (r.(wr)) (r.(sy)) (r.(inp)) (r.(ct)) (r.(cp)) (r.(files)) (r.(maintext)) (r.(emitted)) v (r.(looked)).
(** Store to [looked]: model only: log of the calls of cstlabel that ran to the end, newest first. *)
Definition set_looked (v : list look) (r : state) : state :=
  mkSt (r.(fl)) (r.(ls)) (r.(wr)) (r.(sy)) (r.(inp)) (r.(ct)) (r.(cp)) (r.(files)) (r.(maintext)) (r.(emitted)) (r.(reported)) v.

(** Ways a computation can end other than by returning: [error()] (crasm.c:596,
    longjmp), [fatal()]/[exit] (crasm.c:648), undefined behaviour of the C code,
    an endless loop of the C code, exhaustion of the model's recursion budget. *)
Inductive bad :=
| Err (m : str)
| Exit (m : str)
| UB (why : string)
| Hang
| NoFuel.

(** Outcome of a computation (model only). *)
Inductive res (A : Type) := Ok (a : A) | Bad (b : bad).
Arguments Ok {A} a.
Arguments Bad {A} b.

(** State and outcome monad (model only): the state survives [Err], like C globals
    survive longjmp. *)
Definition M (A : Type) := state -> res A * state.
(** Return (model only). *)
Definition ret {A} (a : A) : M A := fun s => (Ok a, s).
(** Sequencing (model only). *)
Definition bind {A B} (m : M A) (k : A -> M B) : M B :=
  fun s => match m s with
           | (Ok a, s') => k a s'
           | (Bad b, s') => (Bad b, s')
           end.
(** Abnormal end (model only). *)
Definition stop {A} (b : bad) : M A := fun s => (Bad b, s).
(** Read part of the state (model only). *)
Definition gets {A} (f : state -> A) : M A := fun s => (Ok (f s), s).
(** Update the state (model only). *)
Definition modify (f : state -> state) : M unit := fun s => (Ok tt, f s).

Notation "x <- m ;; k" := (bind m (fun x => k))
  (at level 61, m at next level, right associativity).
Notation "m ;;; k" := (bind m (fun _ => k)) (at level 61, right associativity).

(** Conditional statement (model only). *)
Definition when (b : bool) (m : M unit) : M unit := if b then m else ret tt.

(** Updates of one group of fields (model only). *)
Definition upd_fl (f : aflags -> aflags) : M unit := modify (fun s => set_fl (f s.(fl)) s).
(** Update the listing state (model only). *)
Definition upd_ls (f : listing -> listing) : M unit := modify (fun s => set_ls (f s.(ls)) s).
(** Update the object writer (model only). *)
Definition upd_wr (f : writer -> writer) : M unit := modify (fun s => set_wr (f s.(wr)) s).
(** Update the symbol tree (model only). *)
Definition upd_sy (f : tree -> tree) : M unit := modify (fun s => set_sy (f s.(sy)) s).
(** Update the line reader (model only). *)
Definition upd_inp (f : input -> input) : M unit := modify (fun s => set_inp (f s.(inp)) s).
(** Update the counters (model only). *)
Definition upd_ct (f : counters -> counters) : M unit := modify (fun s => set_ct (f s.(ct)) s).
(** Update the CPU statics (model only). *)
Definition upd_cp (f : cpustate -> cpustate) : M unit := modify (fun s => set_cp (f s.(cp)) s).
