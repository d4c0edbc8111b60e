(** macro.c: line reader, conditionals, macros, INCLUDE.  The functions that call
    asmline back take the callback [self] as a parameter; the knot is tied in
    Crasm.v. *)
From Coq Require Import ZArith List Bool Ascii String.
From Verif Require Import Base State Tree Filter Output Label Operator Parse Scode Pseudos.
From Verif Require Import Cpu6800.
Import ListNotations.
Open Scope Z_scope.

(** What asmline returns: 0, ENDC, ELSE, ENDM, EXITM, macro.c:42-45. *)
Inductive flag := FNone | FEndc | FElse | FEndm | FExitm.

(** Which loop or function runs next: asmline on [curline] (crasm.c:368), the line
    loop of Xif (macro.c:227-251, 300-324), the line loop of macrocall
    (macro.c:818-827). *)
Inductive kind := KLine | KIf | KMac.

(** setjmp(errorjump) then [errnumber++] (crasm.c:267-270, macro.c:229-232, 302-305,
    820-823): [None] when [error] was called. *)
Definition catch {A} (m : M A) : M (option A) :=
  fun s => match m s with
           | (Ok a, s') => (Ok (Some a), s')
           | (Bad (Err _), s') =>
               (Ok None, set_ct (set_errnumber (s'.(ct).(errnumber) + 1) s'.(ct)) s')
           | (Bad b, s') => (Bad b, s')
           end.

(** Xelse, macro.c:49-57. *)
Definition Xelse (oper : option str) : M flag :=
  when (ogiven oper) (err "no operand allowed for ELSE") ;;; ret FElse.

(** Xendc, macro.c:60-68. *)
Definition Xendc (oper : option str) : M flag :=
  when (ogiven oper) (err "no operand allowed for ENDC") ;;; ret FEndc.

(** Comparison flags EQ GT LT NE, macro.c:70-73. *)
Record cmp := mkCmp { c_eq : bool; c_gt : bool; c_lt : bool; c_ne : bool }.

(** compar, macro.c:75-90, without the last entry. *)
Definition compar : list (string * cmp) :=
  [("?_>=_?", mkCmp true true false false);
   ("?_<=_?", mkCmp true false true false);
   ("?_==_?", mkCmp true false false false);
   ("?_!=_?", mkCmp false false false true);
   ("?_=_?", mkCmp true false false false);
   ("?_<>_?", mkCmp false false false true);
   ("?_<_?", mkCmp false false true false);
   ("?_>_?", mkCmp false true false false)]%string.

(** Search of the comparison, macro.c:105-115. *)
Fixpoint findcompar (t : str) (l : list (string * cmp)) : M (option (str * str * cmp)) :=
  match l with
  | [] => ret None
  | (p, c) :: l' =>
      m <- filter2 t p ;;
      match m with
      | Some (s1, s2) => ret (Some (s1, s2, c))
      | None => findcompar t l'
      end
  end.

(** UNDEF and FORWARD both set, macro.c:128-129. *)
Definition fwdundef (r : result) : bool := r.(r_flags).(f_undef) && r.(r_flags).(f_forward).

(** The decision of testtrue, macro.c:140-176, without the type test. *)
Definition compare_results (c : cmp) (r1 r2 : result) : bool :=
  (c.(c_gt) && (r2.(r_value) <? r1.(r_value)))
  || (c.(c_lt) && (r1.(r_value) <? r2.(r_value)))
  || (c.(c_eq) && ((r1.(r_modifier) =? r2.(r_modifier)) && (r1.(r_value) =? r2.(r_value))))
  || (c.(c_ne) && (negb (r1.(r_modifier) =? r2.(r_modifier))
                   || negb (r1.(r_value) =? r2.(r_value)))).

(** testtrue, macro.c:94-177. *)
Definition testtrue (oper : option str) : M bool :=
  match otext oper with
  | [] => ret false
  | t =>
      q <- findcompar t compar ;;
      rrc <- (match q with
              | Some (s1, s2, c) => r1 <- parse s1 ;; r2 <- parse s2 ;; ret (r1, r2, c)
              | None => r1 <- parse t ;; ret (r1, res0, mkCmp false false false true)
              end) ;;
      let '(r1, r2, c) := rrc : result * result * cmp in
      when (fwdundef r1 || fwdundef r2)
           (err "forward defined expressions are illegal here") ;;;
      when (negb (ltype_eqb r1.(r_type) r2.(r_type))) (err "Uncomparable expressions") ;;;
      when ((c.(c_gt) || c.(c_lt))
            && negb (ltype_eqb r1.(r_type) TAbs || ltype_eqb r1.(r_type) TRel))
           (err "not a numeric expression") ;;;
      ret (compare_results c r1 r2)
  end.

(** Popping the included files that are exhausted, macro.c:540-562. *)
Fixpoint popended (l : list source) : M unit :=
  match l with
  | SFile true _ _ oldlist oldprefix oldlinnum :: l' =>
      upd_inp (fun i => set_linenumber oldlinnum (set_lineprefix oldprefix
                          (set_includelevel (i.(includelevel) - 1) (set_srcs l' i)))) ;;;
      upd_fl (set_a_list_on oldlist) ;;;
      popended l'
  | _ => ret tt
  end.

(** fgets, macro.c:569: at most [n] characters, up to a newline.  Result: the text,
    the rest of the stream, and whether the end of file was met. *)
Fixpoint fgets (n : nat) (s : str) : str * str * bool :=
  match n with
  | O => ([], s, false)
  | S n' =>
      match s with
      | [] => ([], [], true)
      | c :: s' =>
          if zc c =? 10 then ([c], s', false)
          else let '(t, r, e) := fgets n' s' in (c :: t, r, e)
      end
  end.

(** The part of the buffer that is examined, macro.c:573. *)
Fixpoint uptonl (s : str) : str :=
  match s with
  | [] => []
  | c :: s' => if (zc c =? 0) || (zc c =? 10) then [] else c :: uptonl s'
  end.

(** Characters kept, macro.c:575-576. *)
Definition keepchar (c : ascii) : bool := (zc c =? 9) || isprint c || negb (isascii c).

(** Replacement of the macro arguments, macro.c:625-675; [len] is [s1 - buffer].
    The flag tells whether "Too long line" is reported. *)
Fixpoint msubst (args : list str) (allargs : str) (len : Z) (s : str) {struct s} : str * bool :=
  match s with
  | [] => ([], false)
  | c :: s' =>
      if 240 <? len then ([], true)
      else if negb (zc c =? 92) then
        let (t, b) := msubst args allargs (len + 1) s' in (c :: t, b)
      else
        match s' with
        | [] => ([c], false)
        | d :: s'' =>
            if zc d =? 35 then
              let (t, b) := msubst args allargs (len + 1) s'' in
              (cz (zlen args + 48) :: t, b)
            else if (zc d =? 42) || ((49 <=? zc d) && (zc d <=? 57)) then
              let a := if zc d =? 42 then allargs
                       else nth (Z.to_nat (zc d - 49)) args [] in
              let a := firstn (Z.to_nat (241 - len)) a in
              let (t, b) := msubst args allargs (len + zlen a) s'' in
              (a ++ t, b)
            else
              let (t, b) := msubst args allargs (len + 1) s' in (c :: t, b)
        end
  end.

(** The body of macro.c:564-603 for a stream: reads one line into [curline]; returns
    the rest of the stream and its end-of-file indicator. *)
Definition readline (rest : str) : M (str * bool) :=
  let '(t, rest', e) := fgets 249 rest in
  let t := uptonl t in
  let t' := List.filter keepchar t in
  when (negb (zlen t =? zlen t')) (warning "Unprintable characters removed") ;;;
  upd_inp (fun i => set_linenumber (i.(linenumber) + 1) (set_curline t' i)) ;;;
  ret (rest', e).

(** linegets, macro.c:528-679.  An exhausted macro text is a null pointer whose
    member is addressed (macro.c:616): undefined. *)
Definition linegets : M unit :=
  l <- gets (fun s => s.(inp).(srcs)) ;;
  popended l ;;;
  i <- gets inp ;;
  match i.(srcs) with
  | [] =>
      re <- readline i.(mainrest) ;;
      let (rest, e) := re : str * bool in
      upd_inp (fun i => set_mainrest rest (set_maineof e i))
  | SFile _ rest _ ol op on :: l' =>
      re <- readline rest ;;
      let (rest, e) := re : str * bool in
      upd_inp (set_srcs (SFile e rest e ol op on :: l'))
  | SMac [] _ _ _ _ _ :: _ => stop (UB "linegets: null macro line")
  | SMac (q :: lines) args allargs ol op on :: l' =>
      upd_inp (set_srcs (SMac lines args allargs ol op on :: l')) ;;;
      let (t, long) := msubst args allargs 0 q in
      when long (warning "Too long line") ;;;
      upd_inp (set_curline t)
  end.

(** [feof(file)], crasm.c:265, macro.c:236, 309, 454. *)
Definition mainfeof : M bool := gets (fun s => s.(inp).(maineof)).

(** Round of the loops of Xif, macro.c:229-251: one line, then again unless it
    ended the block. *)
Definition ifround (self : kind -> bool -> bool -> M flag) (li ex : bool) : M flag :=
  linegets ;;;
  e <- mainfeof ;;
  if e : bool then err "Unexpected End of File"
  else
    f <- catch (self KLine li ex) ;;
    match f with
    | None | Some FNone => self KIf li ex
    | Some FExitm => if ex then ret FExitm else self KIf li ex
    | Some f => ret f
    end.

(** Round of the loop of macrocall, macro.c:818-827. *)
Definition macround (self : kind -> bool -> bool -> M flag) (li ex : bool) : M flag :=
  linegets ;;;
  f <- catch (self KLine li ex) ;;
  match f with
  | None | Some FNone => self KMac li ex
  | Some f => ret f
  end.

(** [asmflags & F_IFLIST_ON], macro.c:202, 207, 262, 287, 334. *)
Definition iflist : M bool := gets (fun s => s.(fl).(a_iflist_on)).

(** Xif, macro.c:180-353.  [li], [ex] are bits 1 and 2 of [status]. *)
Definition Xif (self : kind -> bool -> bool -> M flag) (li ex : bool) (oper : option str)
  : M flag :=
  bv <- (if ex then testtrue oper else ret false) ;;
  il <- iflist ;;
  when (il && li) outputline ;;;
  oldprefix <- gets (fun s => s.(inp).(lineprefix)) ;;
  when (ex && negb bv) (upd_inp (set_lineprefix (cz 67))) ;;;
  f <- self KIf (li && (bv || il)) (ex && bv) ;;
  upd_inp (set_lineprefix oldprefix) ;;;
  match f with
  | FEndm => err "ENDM illegal here"
  | _ =>
      il <- iflist ;;
      when (il && li) outputline ;;;
      match f with
      | FElse =>
          il <- iflist ;;
          when (ex && bv) (upd_inp (set_lineprefix (cz 67))) ;;;
          f <- self KIf (li && (negb bv || il)) (ex && negb bv) ;;
          upd_inp (set_lineprefix oldprefix) ;;;
          match f with
          | FEndm | FElse => err "ELSE or ENDM illegal here"
          | _ =>
              il <- iflist ;;
              when (il && li) outputline ;;;
              ret (match f with FExitm => FExitm | _ => FNone end)
          end
      | FExitm => ret FExitm
      | _ => ret FNone
      end
  end.

(** The common part of Xexitm and Xendm, macro.c:372-382, 393-403. *)
Definition leave (f : flag) (li ex : bool) : M flag :=
  m <- gets (fun s => s.(inp).(macrolevel)) ;;
  when ((m =? 0) && li) outputline ;;;
  ret (if negb (m =? 0) && ex then f else FNone).

(** Xexitm, macro.c:365-383. *)
Definition Xexitm (li ex : bool) (oper : option str) : M flag :=
  when (ogiven oper) (err "no operand allowed in EXITM statement") ;;;
  leave FExitm li ex.

(** Xendm, macro.c:386-404. *)
Definition Xendm (li ex : bool) (oper : option str) : M flag :=
  when (ogiven oper) (err "no operand allowed in ENDM statement") ;;;
  leave FEndm li ex.

(** The loop of Xmacro, macro.c:444-477; [acc] are the lines so far, last first.
    Result: the lines and what stands around ENDM. *)
Fixpoint macrolines (n : nat) (li : bool) (acc : list str) : M (list str * str * str) :=
  match n with
  | O => stop NoFuel
  | S n' =>
      zerobuffer ;;;
      linegets ;;;
      e <- mainfeof ;;
      if e : bool then err "Unexpected End of File"
      else
        c <- gets (fun s => s.(inp).(curline)) ;;
        m <- filter2 c "?_;?" ;;
        let s1 := match m with Some (a, _) => a | None => c end in
        when li outputline ;;;
        m <- filter2 s1 "_?_ENDM_?" ;;
        match m with
        | Some (a, b) => ret (rev (s1 :: acc), a, b)
        | None => macrolines n' li (s1 :: acc)
        end
  end.

(** Xmacro, macro.c:407-492. *)
Definition Xmacro (n : nat) (li ex : bool) (label : str) (oper : option str) : M flag :=
  when (ogiven oper) (err "no operand allowed in macro statement") ;;;
  m <- gets (fun s => s.(inp).(macrolevel)) ;;
  when (negb (m =? 0)) (err "nested macro definition") ;;;
  when li outputline ;;;
  k <- (if ex then k <- deflabel (firstn LABLEN label) lf0 TMacro 0 ;; ret (Some k)
        else ret None) ;;
  lab <- macrolines n li [] ;;
  let '(lines, a, b) := lab : list str * str * str in
  match a, b with
  | [], [] =>
      match k with
      | Some k => upd_sy (tupd k (set_l_ptr (PMac lines)))
      | None => ret tt
      end ;;;
      ret FNone
  | _, _ => err "illegal ENDM instruction"
  end.

(** MAXSOURCEDEEP, macro.c:33. *)
Definition MAXSOURCEDEEP : Z := 10.

(** [slevel = sourcelevel + 1] and its test, macro.c:699-704, 744-749; the main file
    is level 0. *)
Definition checkdepth : M unit :=
  l <- gets (fun s => s.(inp).(srcs)) ;;
  when (MAXSOURCEDEEP <=? zlen l + 1) (fatal "too many nested INCLUDEs and MACROs").

(** Xinclude, macro.c:682-727. *)
Definition Xinclude (oper : option str) : M unit :=
  match oper with
  | None => err "no filename"
  | Some name =>
      s <- gets (fun s => s) ;;
      match s.(files) name with
      | None => err "can't open include file"
      | Some text =>
          checkdepth ;;;
          when s.(fl).(a_list_on) outputline ;;;
          upd_inp (fun i => set_srcs (SFile false text false s.(fl).(a_list_on)
                                        s.(inp).(lineprefix) s.(inp).(linenumber) :: i.(srcs))
                      (set_linenumber 0 (set_includelevel (i.(includelevel) + 1) i))) ;;;
          f <- gets fl ;;
          when (negb f.(a_includelist_on)) (upd_fl (set_a_list_on false))
      end
  end.

(** The arguments of a macro call, macro.c:766-788; [acc] holds them last first. *)
Fixpoint macroargs (n : nat) (oper : str) (acc : list str) : M (list str) :=
  match oper with
  | [] => ret (rev acc)
  | _ :: _ =>
      match n with
      | O => stop NoFuel
      | S n' =>
          when (8 <? zlen acc) (err "Too many arguments in a macro call") ;;;
          m <- filter2 oper "?_,_?" ;;
          match m with
          | Some (a, b) => macroargs n' b (firstn 59 a :: acc)
          | None => ret (rev (firstn 59 oper :: acc))
          end
      end
  end.

(** macrocall, macro.c:734-859; [key] and [lines] are the name and the text of
    [labmacro].  The caller's [status] has bit 2 set (crasm.c:547).  The entries of
    [source] up to the current level are not written while the macro runs (only the
    top one is read, and a macro entry is never popped by linegets), so the saved
    copies stand for [source[slevel]] at macro.c:829-839. *)
Definition macrocall (self : kind -> bool -> bool -> M flag) (key : str) (ptr : lptr)
           (li : bool) (oper : option str) : M unit :=
  upd_sy (tupd key (fun l => set_l_flags (set_f_used true l.(l_flags)) l)) ;;;
  s <- gets (fun s => s) ;;
  checkdepth ;;;
  args <- macroargs 11 (otext oper) [] ;;
  ml <- gets (fun s => s.(fl).(a_macrolist_on)) ;;
  when (ml && li) outputline ;;;
  upd_inp (fun i => set_srcs (SMac (match ptr with PMac l => l | _ => [] end) args
                                (firstn 59 (otext oper)) s.(fl).(a_list_on)
                                s.(inp).(lineprefix) s.(inp).(linenumber) :: i.(srcs))
              (set_lineprefix (cz 77) (set_macrolevel (i.(macrolevel) + 1) i))) ;;;
  newsegment ;;;
  ml <- gets (fun s => s.(fl).(a_macrolist_on)) ;;
  f <- self KMac (li && ml) true ;;
  upd_inp (fun i => set_macrolevel (i.(macrolevel) - 1)
              (set_linenumber s.(inp).(linenumber)
                 (set_lineprefix s.(inp).(lineprefix)
                    (set_srcs s.(inp).(srcs) (set_segment s.(inp).(segment) i))))) ;;;
  upd_fl (set_a_list_on s.(fl).(a_list_on)) ;;;
  match f with
  | FEndm | FExitm =>
      ml <- gets (fun s => s.(fl).(a_macrolist_on)) ;;
      when (negb ml) (upd_inp (set_curline s.(inp).(curline)) ;;; when li outputline)
  | _ => err "ELSE or ENDC illegal here"
  end.
