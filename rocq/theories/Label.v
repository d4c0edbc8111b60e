(** label.c: the symbol table. *)
From Coq Require Import ZArith List Bool Ascii String.
From Verif Require Import Base State Tree Filter Output.
Import ListNotations.
Open Scope Z_scope.

(** label.h:31. *)
Definition LABLEN : nat := 48.

(** label.c:44-74. *)
Definition checklabel (name : str) : bool :=
  if Z.of_nat LABLEN <? zlen name then false
  else
    let okc c := isalnum c || (zc c =? 95) || (zc c =? 46) in
    match name with
    | [] => false
    | c :: rest =>
        if (zc c =? 42) && match rest with [] => true | _ => false end then true
        else if isalpha c || (zc c =? 95) || (zc c =? 46) then forallb okc rest
        else false
    end.

(** [localname] as computed by searchlabel, label.c:90-112: names are upper-cased,
    local names are prefixed by the segment number, 48 characters are significant. *)
Definition lkey (seg : Z) (name : str) : str :=
  let pre := match name with
             | c :: _ => if zc c =? 46 then dec seg else []
             | [] => []
             end in
  firstn LABLEN (pre ++ map toupper name).

(** searchlabel, label.c:83-132: the key under which the node is found, with the node. *)
Definition searchlabel (name : str) : M (str * option label) :=
  s <- gets (fun s => s) ;;
  let k := lkey s.(inp).(segment) name in
  ret (k, tfind k s.(sy)).

(** makelabel, label.c:137-177, after a failed search: fresh zeroed node. *)
Definition makelabel (k : str) (flags : lflags) (ty : ltype) : M unit :=
  upd_sy (tins k (mkLabel flags ty 0 PNull 0 TUser)).

(** UNDEF | FORWARD | NOREDEF, label.c:191. *)
Definition lf_fwd : lflags := mkLF true true false true false false false false.

(** findlabel, label.c:183-197.  Returns the key, which stands for the pointer. *)
Definition findlabel (name : str) : M str :=
  kq <- searchlabel name ;;
  let (k, q) := kq : str * option label in
  (match q with
   | None =>
       f <- gets fl ;;
       makelabel k lf_fwd (if f.(a_relatif) then TRel else TAbs)
   | Some _ => ret tt
   end) ;;;
  upd_sy (tupd k (fun l => set_l_flags (set_f_used true l.(l_flags)) l)) ;;;
  ret k.

(** The flags of a node after deflabel, label.c:230-234. *)
Definition def_flags (old new : lflags) : lflags :=
  lf_or (mkLF false old.(f_forward) old.(f_used) old.(f_noredef) false false false false)
        (set_f_used false new).

(** deflabel, label.c:204-238.  Returns the key, which stands for the pointer. *)
Definition deflabel (name : str) (flags : lflags) (ty : ltype) (v : Z) : M str :=
  kq <- searchlabel name ;;
  let (k, q) := kq : str * option label in
  (match q with
   | None => makelabel k (set_f_undef true lf0) ty
   | Some l =>
       if negb l.(l_flags).(f_undef) && (l.(l_flags).(f_noredef) || flags.(f_noredef)) then
         match l.(l_type) with
         | TAbs | TRel => err "illegal label redefinition"
         | _ => err "attempt to redefine a keyword"
         end
       else ret tt
   end) ;;;
  upd_sy (tupd k (fun l => mkLabel (def_flags l.(l_flags) flags) ty l.(l_modifier)
                                   PNull v l.(l_table))) ;;;
  ret k.

(** An entry of a keyword table (stdvocabulary.c:29-30, cpu.h:36-40): name and label. *)
Definition entry : Type := string * label.

(** One step of init_label_list, label.c:272-289. *)
Definition init_entry (e : entry) : M unit :=
  kq <- searchlabel (s2l (fst e)) ;;
  let (k, q) := kq : str * option label in
  match q with
  | Some l =>
      if table_eqb l.(l_table) (snd e).(l_table) && l.(l_flags).(f_undef)
      then upd_sy (tupd k (fun l => set_l_flags (set_f_undef false l.(l_flags)) l))
      else warning "user's symbol overrides new keyword"
  | None => upd_sy (tins k (snd e))
  end.

(** [incr] after label.c:258-264: the least power of two above [count]. *)
Fixpoint init_incr (n : nat) (incr count : nat) : nat :=
  match n with
  | O => incr
  | S n' => if Nat.leb incr count then init_incr n' (incr + incr) count else incr
  end.

(** The inner loop, label.c:270-292: 1-based positions [i], [i+incr], ... *)
Fixpoint init_inner (n : nat) (i incr : nat) (l : list entry) : M unit :=
  match n with
  | O => ret tt
  | S n' =>
      match i with
      | O => ret tt
      | S j =>
          match nth_error l j with
          | None => ret tt
          | Some e => init_entry e ;;; init_inner n' (i + incr) incr l
          end
      end
  end.

(** The outer loop, label.c:266-295. *)
Fixpoint init_outer (n : nat) (incr : nat) (l : list entry) : M unit :=
  match n with
  | O => ret tt
  | S n' =>
      if Nat.leb incr 1 then ret tt
      else init_inner (S (List.length l)) (Nat.div2 incr) incr l ;;;
           init_outer n' (Nat.div2 incr) l
  end.

(** init_label_list, label.c:243-296. *)
Definition init_label_list (l : list entry) : M unit :=
  init_outer 32 (init_incr 32 1 (List.length l)) l.

(** The effect of undeflabels on one node, label.c:307-324: every node becomes UNDEF
    except the pseudo instructions, and FORWARD survives only on non redefinable
    defined labels. *)
Definition undef_node (l : label) : label :=
  let f := l.(l_flags) in
  let fw := if negb f.(f_noredef) || f.(f_undef) then false else f.(f_forward) in
  set_l_flags (set_f_undef (negb (table_eqb l.(l_table) TPseudos)) (set_f_forward fw f)) l.

(** undeflabels(lroot), label.c:301-325, crasm.c:202. *)
Definition undeflabels : M unit := upd_sy (tmap undef_node).
