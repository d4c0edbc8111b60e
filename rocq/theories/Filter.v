(** filter.c: the pattern matcher on which all operand parsing is built. *)
From Coq Require Import ZArith List Bool Ascii String.
From Verif Require Import Base State.
Import ListNotations.
Open Scope Z_scope.

(** The integer [quote] of filter.c:57: bits 0x1, 0x2, 0x4 and the parenthesis depth
    counted in units of 0x8. *)
Record quote := mkQ { q_sq : bool; q_dq : bool; q_esc : bool; q_depth : Z }.

(** [quote = 0], filter.c:66. *)
Definition q0 : quote := mkQ false false false 0.

(** [!quote], filter.c:101. *)
Definition qzero (q : quote) : bool :=
  negb q.(q_sq) && negb q.(q_dq) && negb q.(q_esc) && (q.(q_depth) =? 0).

(** Update of [quote] by a character swallowed by a wildcard, filter.c:117-160. *)
Definition qstep (q : quote) (c : ascii) : quote :=
  if q.(q_esc) then mkQ q.(q_sq) q.(q_dq) false q.(q_depth)
  else if zc c =? 92 (* backslash *) then
    if q.(q_sq) || q.(q_dq) then mkQ q.(q_sq) q.(q_dq) true q.(q_depth) else q
  else if zc c =? 39 (* single quote *) then
    if q.(q_dq) then q else mkQ (negb q.(q_sq)) q.(q_dq) q.(q_esc) q.(q_depth)
  else if zc c =? 34 (* double quote *) then
    if q.(q_sq) then q else mkQ q.(q_sq) (negb q.(q_dq)) q.(q_esc) q.(q_depth)
  else if zc c =? 40 (* open parenthesis *) then
    if q.(q_sq) || q.(q_dq) then q else mkQ q.(q_sq) q.(q_dq) q.(q_esc) (q.(q_depth) + 1)
  else if zc c =? 41 (* closing parenthesis *) then
    if q.(q_sq) || q.(q_dq) then q else mkQ q.(q_sq) q.(q_dq) q.(q_esc) (q.(q_depth) - 1)
  else q.

(** Outcome of matching the literal characters up to the next wildcard (filter.c:69-171): reached the
    wildcard (or matched the end), hit the end of the text, or mismatched inside. *)
Inductive mres := MOk (rest : str) | MEnd | MRetry.

(** Does one pattern character match one text character?  filter.c:101-103. *)
Definition charmatch (f c : ascii) : bool :=
  Ascii.eqb (toupper f) (toupper c) || ((zc f =? 32) && (zc c =? 9)).

(** Literal part of a pattern, filter.c:94-115; [quiet] is [!quote], [last] tells that
    the pattern ends after [seg] so that its NUL must match the NUL of the text. *)
Fixpoint mlit (quiet last : bool) (seg s : str) {struct seg} : mres :=
  match seg with
  | [] =>
      if last then
        match s with
        | [] => if quiet then MOk [] else MEnd
        | _ :: _ => MRetry
        end
      else MOk s
  | f :: seg' =>
      if zc f =? 95 (* SPACES, filter.c:31 *) then mlit quiet last seg' (skipblanks s)
      else match s with
           | [] => MEnd
           | c :: s' => if quiet && charmatch f c then mlit quiet last seg' s' else MRetry
           end
  end.

(** Result of a match: captured strings if it succeeds, how far [bufferpos] moved
    (also meaningful on failure, before filter.c:113 restores it), and the length of
    the text that remained at the last wildcard reached (for
    [chars_consumed_by_filter], filter.c:75). *)
Record fres := mkFR { fr_caps : option (list str); fr_used : Z; fr_rem : Z }.

(** Is this the last segment of the pattern? (filter.c:77 and the loop test
    filter.c:166). *)
Definition lastseg (rest : list str) : bool := match rest with [] => true | _ => false end.

(** The inner loop of a wildcard that is followed by [seg]: try the literals here,
    else swallow one character (filter.c:108-165).  [k] continues at the next
    wildcard. *)
Fixpoint wildloop (k : quote -> str -> fres) (seg : str) (last : bool)
         (rem : Z) (starts : str) (q : quote) (cap : str) {struct starts} : fres :=
  match mlit (qzero q) last seg starts with
  | MOk s' =>
      if last then mkFR (Some [rev cap]) (1 + zlen cap) rem
      else
        let r := k q s' in
        mkFR (match r.(fr_caps) with Some l => Some (rev cap :: l) | None => None end)
             (1 + zlen cap + r.(fr_used)) r.(fr_rem)
  | MEnd => mkFR None (1 + zlen cap) rem
  | MRetry =>
      match starts with
      | [] => mkFR None (1 + zlen cap) rem
      | c :: starts' => wildloop k seg last rem starts' (qstep q c) (c :: cap)
      end
  end.

(** The text from a wildcard on; [segs] are the literal segments that follow it
    (filter.c:68-166). *)
Fixpoint fwild (segs : list str) (q : quote) (s : str) {struct segs} : fres :=
  match segs with
  | [] => mkFR None 0 0
  | [[]] => mkFR (Some [s]) (1 + zlen s) (zlen s)
  | seg :: rest => wildloop (fwild rest) seg (lastseg rest) (zlen s) s q []
  end.

(** Split a pattern at its wildcards (filter.c:30, 70). *)
Fixpoint segments (f : str) : str * list str :=
  match f with
  | [] => ([], [])
  | c :: f' =>
      let (h, t) := segments f' in
      if zc c =? 63 (* WILDCARD *) then ([], h :: t) else (c :: h, t)
  end.

(** filter.c:52-171 without the buffer bound. *)
Definition filter_pure (s pat : str) : fres :=
  let (h, t) := segments pat in
  match mlit true (lastseg t) h s with
  | MOk s' =>
      match t with
      | [] => mkFR (Some []) 0 0
      | _ :: _ => fwild t q0 s'
      end
  | _ => mkFR None 0 0
  end.

(** filter.c:52-171; all writes to [buffer] (4000 bytes, filter.c:34) happen at
    indexes up to the final [bufferpos].  The captured strings are copies, so no
    aliasing is lost.  Also returns [chars_consumed_by_filter]. *)
Definition filterc (s pat : str) : M (option (list str * Z)) :=
  bp <- gets (fun st => st.(ct).(bufferpos)) ;;
  let r := filter_pure s pat in
  if 4000 <=? bp + r.(fr_used) then stop (UB "filter: buffer overflow")
  else match r.(fr_caps) with
       | Some l =>
           upd_ct (set_bufferpos (bp + r.(fr_used))) ;;;
           ret (Some (l, zlen s - r.(fr_rem)))
       | None => ret None
       end.

(** filter.c:52 called with a pattern without wildcard. *)
Definition filter0 (s : str) (pat : string) : M bool :=
  r <- filterc s (s2l pat) ;;
  ret (match r with Some _ => true | None => false end).

(** filter.c:52 called with a pattern with one wildcard. *)
Definition filter1 (s : str) (pat : string) : M (option str) :=
  r <- filterc s (s2l pat) ;;
  ret (match r with Some (a :: _, _) => Some a | _ => None end).

(** filter.c:52 called with a pattern with two wildcards. *)
Definition filter2 (s : str) (pat : string) : M (option (str * str)) :=
  r <- filterc s (s2l pat) ;;
  ret (match r with Some (a :: b :: _, _) => Some (a, b) | _ => None end).

(** filter.c:40-43. *)
Definition zerobuffer : M unit := upd_ct (set_bufferpos 0).

(** Second loop of reverse, filter.c:196-236, on the already reversed text: [acc] is
    the part behind [d], last character first; [sq]/[dq] are bits 0x1 and 0x2 of
    [quote]. *)
Fixpoint revfix (acc s : str) (sq dq : bool) {struct s} : str :=
  match s with
  | [] => rev acc
  | c :: s' =>
      let nextbs := match s' with d :: _ => zc d =? 92 | [] => false end in
      if zc c =? 39 then
        if negb sq && negb dq then revfix (c :: acc) s' true dq
        else if sq then revfix (c :: acc) s' (if nextbs then sq else false) dq
        else revfix (c :: acc) s' sq dq
      else if zc c =? 34 then
        if negb sq && negb dq then revfix (c :: acc) s' sq true
        else if dq then revfix (c :: acc) s' sq (if nextbs then dq else false)
        else revfix (c :: acc) s' sq dq
      else if (zc c =? 92) && (sq || dq) then
        match acc with
        | p :: acc' => revfix (p :: c :: acc') s' sq dq
        | [] => revfix (c :: acc) s' sq dq (* unreachable: a quote came before *)
        end
      else revfix (c :: acc) s' sq dq
  end.

(** filter.c:174-237. *)
Definition reverse (s : str) : str := revfix [] (rev s) false false.
