(** Lines, assignments and labels (properties C57 and C58). *)
From Coq Require Import String Ascii ZArith List Bool.
From Verif Require Import Base State Tree Label Parse Crasm SpecEmit SpecMacro.
From Verif Require SpecSplit.
Import ListNotations.
Open Scope Z_scope.

(** Nothing a program can ask for has changed: the symbols, the code, the settings and the
    source are the same.  The listing, the buffer of the line and the note whether [*] has
    a value may differ. *)
Definition near (s s' : state) : Prop :=
  s'.(sy) = s.(sy) /\ s'.(emitted) = s.(emitted) /\ s'.(cp) = s.(cp) /\
  s'.(ct).(passnumber) = s.(ct).(passnumber) /\ s'.(ct).(calcresult) = s.(ct).(calcresult) /\
  set_a_org_gv false s'.(fl) = set_a_org_gv false s.(fl) /\
  set_curline [] s'.(inp) = set_curline [] s.(inp) /\
  s'.(files) = s.(files) /\ s'.(maintext) = s.(maintext).

(** The line [c] without its comment and the blanks around is [t]. *)
Definition statement (c t : str) : Prop :=
  exists w u w', c = w ++ u /\ Forall SpecSplit.blank w /\ SpecSplit.tight u /\
                 uncommented u (t ++ w') /\ Forall SpecSplit.blank w' /\ SpecSplit.tight (rev t).

(** The name [n] is the directive [h]. *)
Definition directive (s : state) (n : string) (h : handler) : Prop :=
  exists l, tfind (lkey s.(inp).(segment) (s2l n)) s.(sy) = Some l /\
            l.(l_flags).(f_undef) = false /\ l.(l_type) = TMnemo /\ l.(l_ptr) = PFun h /\
            l.(l_flags).(f_nolabel) = false /\ l.(l_flags).(f_deflabel) = true /\
            l.(l_flags).(f_defcond) = false /\ l.(l_flags).(f_defmacro) = false.

(** The line gives the name [a] the value of the expression [b]. *)
Definition assignment (s : state) (a b : str) : Prop :=
  exists t, statement s.(inp).(curline) t /\ SpecSplit.first_cut ["="%char] t a b /\ Forall (fun c => ~ SpecSplit.blank c) a.

(** All symbols but [k] are as before, up to the marks of use. *)
Definition others (k : str) (t t' : tree) : Prop :=
  forall j l, j <> k -> tfind j t = Some l -> option_map unused (tfind j t') = Some (unused l).

(** The symbol [k] stands for [r]. *)
Definition stands_for (k : str) (r : result) (t : tree) : Prop :=
  exists l, tfind k t = Some l /\ l.(l_type) = r.(r_type) /\ l.(l_value) = r.(r_value) /\
            l.(l_ptr) = r.(r_ptr) /\ l.(l_modifier) = r.(r_modifier) /\ l.(l_flags).(f_undef) = false.

(** The symbol [k] is an address. *)
Definition labels (k : str) (v : Z) (t : tree) : Prop :=
  exists l, tfind k t = Some l /\ (l.(l_type) = TAbs \/ l.(l_type) = TRel) /\ l.(l_value) = v /\
            l.(l_flags).(f_undef) = false /\ l.(l_flags).(f_noredef) = true.

(** The label in front of a line is [a]. *)
Definition heads (q : fields) (a : str) : Prop :=
  match q.(q_mnemo) with
  | Some (_, l) => l.(l_flags).(f_deflabel) = false /\ q.(q_label) = Some a
  | None => q.(q_text) = a
  end.

(** The symbol [j] is not named by the line. *)
Definition spares (q : fields) (seg : Z) (j : str) : Prop :=
  (forall t, q.(q_label) = Some t -> lkey seg t <> j) /\ (q.(q_mnemo) = None -> lkey seg q.(q_text) <> j).

(** The symbol [j] is defined and the same, up to its mark of use. *)
Definition kept_symbol (j : str) (t t' : tree) : Prop :=
  forall l, tfind j t = Some l -> l.(l_flags).(f_undef) = false -> option_map unused (tfind j t') = Some (unused l).

(** The operand is the word [kw]. *)
Definition says (kw : string) (o : option str) : Prop :=
  SpecSplit.keyword (s2l kw) (match o with Some t => t | None => [] end).
Definition says_nothing (o : option str) : Prop := o = None \/ o = Some [].

(** What the switches do. *)
Definition flags_to (f : aflags -> aflags) (s : state) : state := set_fl (f s.(fl)) s.
Definition next_segment (s : state) : state :=
  set_inp (set_segment (s.(inp).(thiscall) + 1) (set_thiscall (s.(inp).(thiscall) + 1) s.(inp))) s.
Inductive switched : handler -> option str -> state -> state -> Prop :=
| sw_list_on : forall o s, says "ON" o -> s.(fl).(a_nolist) = false -> switched HList o s (flags_to (set_a_list_on true) s)
| sw_list_never : forall o s, says "ON" o -> s.(fl).(a_nolist) = true -> switched HList o s s
| sw_list_off : forall o s, says "OFF" o -> switched HList o s (flags_to (set_a_list_on false) s)
| sw_mlist_on : forall o s, says "ON" o -> switched HMlist o s (flags_to (set_a_macrolist_on true) s)
| sw_mlist_off : forall o s, says "OFF" o -> switched HMlist o s (flags_to (set_a_macrolist_on false) s)
| sw_clist_on : forall o s, says "ON" o -> switched HClist o s (flags_to (set_a_iflist_on true) s)
| sw_clist_off : forall o s, says "OFF" o -> switched HClist o s (flags_to (set_a_iflist_on false) s)
| sw_ilist_on : forall o s, says "ON" o -> switched HIlist o s (flags_to (set_a_includelist_on true) s)
| sw_ilist_off : forall o s, says "OFF" o -> switched HIlist o s (flags_to (set_a_includelist_on false) s)
| sw_hex : forall o s, says "HEX" o ->
    switched HOutput o s (flags_to (fun f => set_a_code_hex true (set_a_code_scode false f)) s)
| sw_scode : forall o s, says "SCODE" o ->
    switched HOutput o s (flags_to (fun f => set_a_code_hex false (set_a_code_scode true f)) s)
| sw_code : forall o s, says_nothing o -> switched HCode o s (next_segment (flags_to (set_a_code_on true) s))
| sw_dummy : forall o s, says_nothing o -> switched HDummy o s (next_segment (flags_to (set_a_code_on false) s)).
Definition is_switch (h : handler) : bool :=
  match h with HList | HMlist | HClist | HIlist | HOutput | HCode | HDummy => true | _ => false end.

(** The message of FAIL. *)
Definition fail_text (o : option str) : str :=
  match o with Some (c :: t) => c :: t | _ => s2l "Fail instruction" end.

(** The symbol [k] has received the result [r] and nothing else has changed. *)
Definition assigned (k : str) (r : result) (s s' : state) : Prop :=
  stands_for k r s'.(sy) /\ others k s.(sy) s'.(sy) /\ s'.(emitted) = s.(emitted).
