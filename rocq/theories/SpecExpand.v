(** What a macro call does (property C69). *)
From Coq Require Import String Ascii ZArith List Bool.
From Verif Require Import Base State Tree Label Macro Crasm SpecStar SpecInput.
From Verif Require SpecSplit.
Import ListNotations.
Open Scope Z_scope.

(** A line that is assembled, well or with an error, and does not end what it stands in. *)
Definition goes_on (n : nat) (li : bool) (a s : state) : Prop :=
  run n KLine li true a = (Ok FNone, s) \/
  exists e b, run n KLine li true a = (Bad (Err e), b) /\ s = set_ct (set_errnumber (b.(ct).(errnumber) + 1) b.(ct)) b.

(** Lines are read and assembled one after the other. *)
Inductive assembles (li : bool) : nat -> state -> nat -> state -> Prop :=
| as_none : forall n s, assembles li n s n s
| as_line : forall n s a s1 m s2, linegets s = (Ok tt, a) -> goes_on n li a s1 -> assembles li n s1 m s2 -> assembles li (S n) s m s2.

(** The call of the macro [key] with the lines [lines] begins: the arguments are the items of
    the operand.  The scope of local symbols is a new one.  The name counts as used. *)
Definition begins (key : str) (lines : list str) (o : str) (s s1 : state) : Prop :=
  exists ts, SpecSplit.items [","%char] o ts /\ (List.length (passed ts) <= 9)%nat /\
    s1.(inp) = set_srcs (SMac lines (map (firstn 59) (passed ts)) (firstn 59 o) s.(fl).(a_list_on)
                           s.(inp).(lineprefix) s.(inp).(linenumber) :: s.(inp).(srcs))
                 (set_lineprefix "M" (set_macrolevel (s.(inp).(macrolevel) + 1)
                    (set_segment (s.(inp).(thiscall) + 1) (set_thiscall (s.(inp).(thiscall) + 1) s.(inp))))) /\
    s1.(sy) = tupd key (fun l => set_l_flags (set_f_used true l.(l_flags)) l) s.(sy) /\
    s1.(fl) = s.(fl) /\ s1.(wr) = s.(wr) /\ s1.(cp) = s.(cp) /\ s1.(emitted) = s.(emitted) /\
    s1.(reported) = s.(reported) /\ s1.(ct) = set_bufferpos s1.(ct).(bufferpos) s.(ct).

(** The call made in [s] ends: the place where it stands and the scope of local symbols are
    those of the call again.  What its lines have done remains. *)
Definition ends (s s2 s' : state) : Prop :=
  set_curline [] s'.(inp) = set_curline [] (set_macrolevel (s2.(inp).(macrolevel) - 1) (set_linenumber s.(inp).(linenumber)
    (set_lineprefix s.(inp).(lineprefix) (set_srcs s.(inp).(srcs) (set_segment s.(inp).(segment) s2.(inp)))))) /\
  s'.(fl) = set_a_list_on s.(fl).(a_list_on) s2.(fl) /\
  s'.(sy) = s2.(sy) /\ s'.(wr) = s2.(wr) /\ s'.(cp) = s2.(cp) /\ s'.(emitted) = s2.(emitted) /\
  s'.(reported) = s2.(reported) /\ s'.(ct) = set_bufferpos s'.(ct).(bufferpos) s2.(ct).

(** The next line is [l] with the arguments put in. *)
Definition puts_in (l : list piece) (s a : state) : Prop :=
  exists lines args all ol op on r, s.(inp).(srcs) = SMac (shaped l :: lines) args all ol op on :: r /\
    a.(inp) = set_curline (firstn 241 (expansion args all l)) (set_srcs (SMac lines args all ol op on :: r) s.(inp)) /\
    a.(sy) = s.(sy) /\ a.(fl) = s.(fl) /\ a.(wr) = s.(wr) /\ a.(cp) = s.(cp) /\ a.(emitted) = s.(emitted) /\
    a.(reported) = s.(reported) /\ a.(ct) = set_bufferpos a.(ct).(bufferpos) s.(ct).
Inductive works_off (li : bool) : nat -> list (list piece) -> state -> nat -> state -> Prop :=
| wo_none : forall n s, works_off li n [] s n s
| wo_line : forall n l ls s a s1 m s2, puts_in l s a -> goes_on n li a s1 -> works_off li n ls s1 m s2 ->
    works_off li (S n) (l :: ls) s m s2.

(** A line that stands for itself alone: no macro call, conditional, definition or INCLUDE. *)
Definition ordinary (q : fields) : Prop :=
  match q.(q_mnemo) with
  | Some (_, l) => l.(l_type) <> TMacro /\
      ((l.(l_flags).(f_defcond) = false /\ l.(l_flags).(f_defmacro) = false /\ l.(l_ptr) <> PFun HInclude) \/
       l.(l_ptr) = PFun HEndm \/ l.(l_ptr) = PFun HExitm)
  | None => True
  end.

(** All the lines to come are such lines. *)
Definition all_ordinary (li : bool) (n : nat) (s : state) : Prop :=
  forall m t a q, assembles li n s (S m) t -> linegets t = (Ok tt, a) -> taken_apart a q -> ordinary q.
