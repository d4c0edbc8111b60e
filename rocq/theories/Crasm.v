(** crasm.c: line assembly, passes, driver, command line. *)
From Coq Require Import ZArith List Bool Ascii String.
From Verif Require Import Base State Tree Filter Output Label Operator Parse Scode Tables.
From Verif Require Import Cpu6800 Cpu6502 CpuZ80 Pseudos Macro Xref.
Import ListNotations.
Open Scope Z_scope.

(** herelabel, crasm.c:282-311. *)
Definition herelabel (label : str) : M unit :=
  when (streq label (s2l "*")) (err "illegal star definition") ;;;
  s <- gets (fun s => s) ;;
  (if s.(fl).(a_org_gv) then
     deflabel label (set_f_noredef true lf0) (if s.(fl).(a_relatif) then TRel else TAbs)
              (starvalue s) ;;;
     ret tt
   else err "undefinable label: no org given") ;;;
  s <- gets (fun s => s) ;;
  when (negb s.(fl).(a_code_on)
        && ((s.(inp).(macrolevel) =? 0) || s.(fl).(a_macrolist_on))
        && (s.(ls).(lpos) =? 0))
       (position 2 ;;; outputaddr (starvalue s)).

(** The final test of findmnemo, crasm.c:336-348. *)
Definition usable (kl : str * label) : option (str * label) :=
  if negb (snd kl).(l_flags).(f_undef)
     && (ltype_eqb (snd kl).(l_type) TMnemo || ltype_eqb (snd kl).(l_type) TMacro)
  then Some kl else None.

(** findmnemo, crasm.c:314-349.  Returns the name of the node and its contents; the
    node is not written before its last use by asmline (herelabel writes the node of
    the label, which is not a usable mnemonic, crasm.c:465). *)
Definition findmnemo (mnemo : str) : M (option (str * label)) :=
  kq <- searchlabel mnemo ;;
  match kq with
  | (k, Some l) => ret (usable (k, l))
  | (_, None) =>
      m <- filter2 mnemo "?.?" ;;
      match m with
      | None => ret None
      | Some (aux1, _) =>
          kq <- searchlabel aux1 ;;
          match kq with
          | (k, Some l) => ret (if 0 <=? l.(l_modifier) then None else usable (k, l))
          | (_, None) => ret None
          end
      end
  end.

(** nospacein, crasm.c:352-365. *)
Definition nospacein (s : str) : bool := negb (existsb isblank s).

(** The call through [ptr] for an ordinary instruction, crasm.c:562.  The handlers
    of conditionals and macros are called at crasm.c:532 and 537 instead. *)
Definition exec (h : handler) (modifier : Z) (label : option str) (oper : option str) : M unit :=
  match h with
  | HEqu => match label with Some l => Xequ l oper | None => stop (UB "EQU without label") end
  | HAsc => Xasc oper
  | HAlign => Xalign oper
  | HClist => Xclist oper
  | HCode => Xcode oper
  | HCpu => Xcpu oper
  | HDc => Xdc modifier oper
  | HDummy => Xdummy oper
  | HDs => Xds oper
  | HFail => Xfail oper
  | HIlist => Xilist oper
  | HInclude => Xinclude oper
  | HList => Xlist oper
  | HMlist => Xmlist oper
  | HNam => Xnam oper
  | HPage => Xpage oper
  | HOutput => Xoutput oper
  | HSkip => Xskip oper
  | H68Branch | H65Branch | HZRelbranch => branch modifier oper
  | H68Single | H65Single => single modifier oper
  | H68Std => standard68 modifier oper
  | H68Std2 => standard2 modifier oper
  | H68Std3 => standard3 modifier oper
  | H65Std => standard65 modifier oper
  | HZSimple => simple modifier oper
  | HZIm => z_im oper
  | HZRst => z_rst oper
  | HZJr => z_jr oper
  | HZRet => z_ret oper
  | HZCall => z_call oper
  | HZJp => z_jp oper
  | HZEx => z_ex oper
  | HZInout => z_inout modifier oper
  | HZBitop => z_bitop modifier oper
  | HZOnreg8 => z_onreg8 modifier oper
  | HZLogical => z_logical modifier oper
  | HZStackop => z_stackop modifier oper
  | HZArith => z_arith modifier oper
  | HZIncr => z_incr modifier oper
  | HZLd => z_ld oper
  | HElse | HEndc | HIf | HEndm | HExitm | HMacro => stop (UB "block instruction as mnemonic")
  end.

(** The call through [ptr] for conditionals and macro delimiters, crasm.c:530-538. *)
Definition execblock (self : kind -> bool -> bool -> M flag) (n : nat) (h : handler)
           (li ex : bool) (label oper : option str) : M flag :=
  match h with
  | HIf => Xif self li ex oper
  | HElse => Xelse oper
  | HEndc => Xendc oper
  | HEndm => Xendm li ex oper
  | HExitm => Xexitm li ex oper
  | HMacro => match label with
              | Some l => Xmacro n li ex l oper
              | None => stop (UB "MACRO without label")
              end
  | _ => stop (UB "mnemonic as block instruction")
  end.

(** What the line means: the mnemonic's node, the label, the mnemonic text and the
    operand (crasm.c:370-373). *)
Record fields := mkFields {
  q_mnemo : option (str * label);
  q_label : option str;
  q_text : str;
  q_oper : option str
}.

(** crasm.c:461-482 without the jump: mnemonic text, node, operand; [None] operand
    when the pattern does not apply. *)
Definition splitmnemo (s : str) : M (str * option (str * label) * option str) :=
  m <- filter2 s "? _?" ;;
  match m with
  | Some ((_ :: _) as mnemo, (_ :: _) as oper) =>
      l <- findmnemo mnemo ;; ret (mnemo, l, Some oper)
  | _ => l <- findmnemo s ;; ret (s, l, None)
  end.

(** crasm.c:456-483; the jump to [start] happens at most once since it sets
    [label]. *)
Definition splitrest (s : str) : M fields :=
  mlo <- splitmnemo s ;;
  let '(mnemo, l, oper) := mlo : str * option (str * label) * option str in
  match l, oper with
  | None, Some oper =>
      when (negb (checklabel mnemo)) (err "malformed label") ;;;
      mlo <- splitmnemo oper ;;
      let '(mnemo2, l2, oper2) := mlo : str * option (str * label) * option str in
      ret (mkFields l2 (Some mnemo) mnemo2 oper2)
  | _, _ => ret (mkFields l None mnemo oper)
  end.

(** crasm.c:444-483. *)
Definition splitline (s : str) : M fields :=
  m <- filter2 s "?_=_?" ;;
  match m with
  | Some (label, oper) =>
      if nospacein label then
        l <- findmnemo (s2l "equ") ;;
        when (negb (checklabel label)) (err "malformed label") ;;;
        ret (mkFields l (Some label) (s2l "equ") (Some oper))
      else splitrest s
  | None => splitrest s
  end.

(** crasm.c:507-580, once the mnemonic is known. *)
Definition dispatch (self : kind -> bool -> bool -> M flag) (n : nat) (li ex : bool)
           (key : str) (l : label) (label oper : option str) : M flag :=
  let f := l.(l_flags) in
  when (f.(f_nolabel) && ogiven label) (err "labels not allowed here") ;;;
  (if f.(f_deflabel) then when (negb (ogiven label)) (err "label required here")
   else match label with
        | Some t => when ex (herelabel t)
        | None => ret tt
        end) ;;;
  if f.(f_defcond) || f.(f_defmacro) then
    match l.(l_ptr) with
    | PFun h => execblock self n h li ex label oper
    | _ => stop (UB "asmline: bad function pointer")
    end
  else
    match l.(l_type) with
    | TMacro =>
        when (ogiven label && streq (firstn 5 (otext oper)) (s2l "MACRO"))
             (err "macro is already defined") ;;;
        (if ex then macrocall self key l.(l_ptr) li oper
         else when li outputline) ;;;
        ret FNone
    | TMnemo =>
        (if ex then
           match l.(l_ptr) with
           | PFun h => exec h l.(l_modifier) label oper
           | _ => stop (UB "asmline: bad function pointer")
           end
         else ret tt) ;;;
        star_advance ;;;
        when li outputline ;;;
        ret FNone
    | _ => fatal "proc asmline failure"
    end.

(** crasm.c:376-388: the start of every line. *)
Definition linestart : M unit :=
  upd_ct (set_advance 0) ;;;
  s <- gets (fun s => s) ;;
  (if starundef s then upd_fl (set_a_org_gv false)
   else upd_fl (set_a_org_gv true) ;;; setpc (starvalue s)) ;;;
  zerobuffer.

(** crasm.c:390-422: the line without comment and outer blanks.  Without a comment
    the trailing blanks are removed from [curline] itself. *)
Definition stripline : M str :=
  c <- gets (fun s => s.(inp).(curline)) ;;
  m <- filter2 c "_?_;?" ;;
  match m with
  | Some (t, _) => ret t
  | None => upd_inp (set_curline (trimblanks c)) ;;; ret (skipblanks (trimblanks c))
  end.

(** asmline, crasm.c:368-580, on [curline]. *)
Definition asmline (self : kind -> bool -> bool -> M flag) (n : nat) (li ex : bool) : M flag :=
  linestart ;;;
  col0 <- gets (fun s => match s.(inp).(curline) with
                         | c :: _ => negb (isblank c)
                         | [] => true
                         end) ;;
  s <- stripline ;;
  match s with
  | [] => when li outputline ;;; ret FNone
  | _ :: _ =>
      q <- splitline s ;;
      match q.(q_mnemo) with
      | Some (key, l) => dispatch self n li ex key l q.(q_label) q.(q_oper)
      | None =>
          if (col0 : bool) && negb (ogiven q.(q_label)) && negb (ogiven q.(q_oper)) then
            when ex (herelabel q.(q_text)) ;;;
            when li outputline ;;;
            ret FNone
          else err "unknown macro or mnemonic"
      end
  end.

(** The mutual recursion asmline (crasm.c:368) / Xif (macro.c:180) / macrocall
    (macro.c:734), with a recursion budget. *)
Fixpoint run (n : nat) (k : kind) (li ex : bool) : M flag :=
  match n with
  | O => stop NoFuel
  | S n' =>
      match k with
      | KLine => asmline (run n') n' li ex
      | KIf => ifround (run n') li ex
      | KMac => macround (run n') li ex
      end
  end.

(** One round of the loop of pass, crasm.c:267-277. *)
Definition passline (n : nat) : M unit :=
  linegets ;;;
  f <- run n KLine true true ;;
  match f with
  | FNone => ret tt
  | _ => err "ELSE, ENDC, ENDM, EXITM illegal here"
  end.

(** The loop of pass, crasm.c:265-278.  After an error, longjmp re-enters the loop
    body without testing feof. *)
Fixpoint passloop (n : nat) : M unit :=
  match n with
  | O => stop NoFuel
  | S n' =>
      r <- catch (passline n') ;;
      match r with
      | None => passloop n'
      | Some _ =>
          e <- mainfeof ;;
          if e : bool then ret tt else passloop n'
      end
  end.

(** pass up to its loop, crasm.c:233-263. *)
Definition passstart (number : Z) : M unit :=
  modify (fun s => set_inp (set_mainrest s.(maintext) (set_maineof false s.(inp))) s) ;;;
  upd_fl (set_a_code_on true) ;;;
  f <- gets fl ;;
  when (negb f.(a_nolist)) (upd_fl (set_a_list_on true)) ;;;
  upd_fl (fun f => set_a_iflist_on true (set_a_macrolist_on false f)) ;;;
  upd_inp (fun i => set_macrolevel 0 (set_thiscall 0 (set_segment 0 (set_includelevel 0
                      (set_linenumber 0 (set_lineprefix (cz 0) i)))))) ;;;
  findlabel starkey ;;;
  upd_sy (tupd starkey (fun l =>
            set_l_flags (set_f_undef true (set_f_noredef false
                           (set_f_forward false l.(l_flags)))) l)) ;;;
  upd_ct (fun c => set_passnumber number (set_errnumber 0 (set_warnnumber 0 c))).

(** pass, crasm.c:231-279 (the messages on stderr are not modelled). *)
Definition pass (n : nat) (number : Z) : M unit := passstart number ;;; passloop n.

(** Options, crasm.c:88-143 and dcl.h: SCODE with its name, LIST, WARN, XREF and the
    input name. *)
Record options := mkOpt {
  o_scode : option str;
  o_list : bool;
  o_warn : bool;
  o_xref : bool;
  o_input : option str
}.

(** LIST | WARN, crasm.c:88. *)
Definition opt0 : options := mkOpt None true true false None.

(** crasm.c:168-177 applied to the zero-initialised globals; a program that starts
    on the given main text. *)
Definition init_state (fs : str -> option str) (text : str) : state :=
  mkSt (mkAF false false false false false false false false false false false false false
             true true true true)
       (mkLs 0 76 0 66 0 [] false false [] 0 0 [] [] [])
       (mkWr 0 0 0 [] 0 None)
       Leaf
       (mkIn text false [] [] 0 (cz 0) 0 0 0 0)
       (mkCt 0 0 0 0 0 res0)
       (mkCpu 0 0 false 0 0 false false)
       fs text [] [] [].

(** Between the passes, crasm.c:185-202. *)
Definition between (o : options) : M unit :=
  upd_fl (set_a_noerror false) ;;;
  when (ogiven o.(o_scode)) (upd_fl (set_a_nocode false)) ;;;
  when o.(o_list) (upd_fl (set_a_nolist false)) ;;;
  when o.(o_warn) (upd_fl (set_a_nowarning false)) ;;;
  undeflabels.

(** After the second pass, crasm.c:205-217. *)
Definition finish : M unit :=
  w <- gets wr ;;
  match w.(scode) with Some _ => closescodefile | None => ret tt end ;;;
  upd_fl (set_a_list_on true) ;;;
  results.

(** crasm up to the call of result, crasm.c:158-217, for an existing source file.
    [init_label_list] runs before the flags are set (crasm.c:160, 177) but can only
    warn about duplicate keywords, which [pseudos] does not contain. *)
Definition assemble (n : nat) (o : options) : M unit :=
  init_label_list pseudos ;;;
  pass n 1 ;;;
  between o ;;;
  pass n 2 ;;;
  finish.

(** The end of crasm, crasm.c:212-215, 224-227. *)
Definition symbols (o : options) : M unit :=
  c <- gets ct ;;
  when (o.(o_xref) || ((c.(errnumber) =? 0) && o.(o_list))) xref.

(** One cluster of options, crasm.c:102-131: [None] for a bad option; the flag tells
    whether the next argument was taken as the object name. *)
Fixpoint cluster (s : str) (next : option str) (o : options) : option (options * bool) :=
  match s with
  | [] => Some (o, false)
  | c :: s' =>
      if zc c =? 115 (* s *) then
        cluster s' next (mkOpt o.(o_scode) o.(o_list) false o.(o_xref) o.(o_input))
      else if zc c =? 108 (* l *) then
        cluster s' next (mkOpt o.(o_scode) false o.(o_warn) o.(o_xref) o.(o_input))
      else if zc c =? 120 (* x *) then
        cluster s' next (mkOpt o.(o_scode) o.(o_list) o.(o_warn) true o.(o_input))
      else if zc c =? 111 (* o *) then
        match s', next, o.(o_scode) with
        | [], Some name, None =>
            Some (mkOpt (Some name) o.(o_list) o.(o_warn) o.(o_xref) o.(o_input), true)
        | _, _, _ => cluster s' next o
        end
      else None
  end.

(** The end of the argument list, crasm.c:145-152. *)
Definition lastarg (o : options) : options + string :=
  match o.(o_input) with Some _ => inl o | None => inr "No input!"%string end.

(** The loop over the arguments, crasm.c:98-152: the options, or the message given to
    syntax(). *)
Fixpoint arguments (args : list str) (o : options) : options + string :=
  match args with
  | [] => lastarg o
  | (c :: s) as a :: args' =>
      if zc c =? 45 then
        match args' with
        | [] => match cluster s None o with
                | Some (o', _) => lastarg o'
                | None => inr "Bad Option(s)"%string
                end
        | name :: args'' =>
            match cluster s (Some name) o with
            | Some (o', true) => arguments args'' o'
            | Some (o', false) => arguments args' o'
            | None => inr "Bad Option(s)"%string
            end
        end
      else
        match o.(o_input) with
        | Some _ => inr "One input only"%string
        | None => arguments args' (mkOpt o.(o_scode) o.(o_list) o.(o_warn) o.(o_xref) (Some a))
        end
  | [] :: args' =>
      match o.(o_input) with
      | Some _ => inr "One input only"%string
      | None => arguments args' (mkOpt o.(o_scode) o.(o_list) o.(o_warn) o.(o_xref) (Some []))
      end
  end.

(** The usage text, crasm.c:670-693. *)
Definition usage (m : string) : str :=
  s2l m ++ [nl] ++ s2l "Syntax:  crasm [-slx] [-o SCODEFILE] INPUTFILE" ++ [nl]
  ++ s2l "Crasm 1.11 known CPUs:"
  ++ [nl; cz 9] ++ s2l " 6800 6801 6803"
  ++ [nl; cz 9] ++ s2l " 6500 6502 65C02"
  ++ [nl; cz 9] ++ s2l " Z80" ++ [nl].

(** What happens to the object file: not touched, written (scode.c:60), or deleted
    (crasm.c:221). *)
Inductive objfile := Untouched | Written (t : str) | Removed.

(** What a user sees of a run: standard output, exit status, object file; or the way
    the C program leaves the rails. *)
Inductive seen :=
| Seen (out : str) (code : Z) (obj : objfile)
| Crash (b : bad).

(** Text of a list of pieces kept in reverse order (model only). *)
Definition pieces (l : list str) : str := List.concat (rev l).

(** The bytes of the object stream (scode.c:60) when the program exits (stdio flushes). *)
Definition objtext (w : writer) : objfile :=
  match w.(scode) with None => Untouched | Some l => Written (pieces l) end.

(** The object file after crasm.c:219-222. *)
Definition leftover (o : options) (s : state) : objfile :=
  if negb (s.(ct).(errnumber) =? 0) && ogiven o.(o_scode) then Removed else objtext s.(wr).

(** What a run shows: the removal of the object file (crasm.c:219-222) comes between
    the two parts of crasm; fatal exits with status 10 (crasm.c:651). *)
Definition observe (n : nat) (o : options) (s0 : state) : seen :=
  match assemble n o s0 with
  | (Ok _, s) =>
      match symbols o s with
      | (Ok _, s') => Seen (pieces s'.(ls).(stdout)) 0 (leftover o s)
      | (Bad (Exit _), s') => Seen (pieces s'.(ls).(stdout)) 10 (leftover o s)
      | (Bad b, _) => Crash b
      end
  | (Bad (Exit _), s) => Seen (pieces s.(ls).(stdout)) 10 (objtext s.(wr))
  | (Bad b, _) => Crash b
  end.

(** main, crasm.c:82-155, with the file system [fs]. *)
Definition program (n : nat) (fs : str -> option str) (args : list str) : seen :=
  match arguments args opt0 with
  | inr m => Seen (usage m) 10 Untouched
  | inl o =>
      match o.(o_input) with
      | None => Seen (usage "No input!") 10 Untouched
      | Some name =>
          match fs name with
          | None => Seen (s2l "FATAL ERROR: can't open source file" ++ [nl]) 10 Untouched
          | Some text => observe n o (init_state fs text)
          end
      end
  end.
