(** What the listing of the symbols should look like. *)
From Coq Require Import String Ascii ZArith List Bool Sorting.Sorted.
From Verif Require Import Base State Tree.
Import ListNotations.
Open Scope Z_scope.

(** Alphabetical order: that of the character codes, a prefix coming first. *)
Fixpoint before (a b : str) : Prop :=
  match a, b with
  | _, [] => False
  | [], _ :: _ => True
  | c :: a', d :: b' => zc c < zc d \/ zc c = zc d /\ before a' b'
  end.

(** The symbols that are listed: not those that stand for mnemonics, registers or macros
    and cannot be redefined, and not those whose name begins with a character other than a
    letter or one of [:;<=>?@[\]^_`{|}~], such as [*] and the local ones, which are stored
    under a number. *)
Definition listed (k : str) (l : label) : Prop :=
  (l.(l_type) = TAbs \/ l.(l_type) = TRel \/ l.(l_flags).(f_noredef) = false) /\
  exists c t, k = c :: t /\ 58 <= zc c < 128.

(** The columns of an entry. *)
Definition mark (l : label) : ascii :=
  if negb l.(l_flags).(f_used) then "?" else if l.(l_flags).(f_forward) then "^" else " ".
Definition never_defined (l : label) : bool := l.(l_flags).(f_undef) && negb l.(l_flags).(f_forward).
Definition kind_text (l : label) : str :=
  if never_defined l then s2l "Undefined"
  else match l.(l_type) with
       | TMnemo => s2l "Mnemonic"
       | TMacro => s2l "Macro"
       | TAbs => s2l "Abs"
       | TRel => s2l "Rel"
       | TRegs => s2l "Register(s)"
       | TBit => s2l "Bit" ++ dec l.(l_modifier)
       end.
Definition has_value (l : label) : bool :=
  negb (never_defined l) && match l.(l_type) with TAbs | TRel | TBit => true | _ => false end.
Definition hex_char (d : Z) : ascii := nth (Z.to_nat d) (s2l "0123456789ABCDEF") "0"%char.
Fixpoint hex (n : nat) (v : Z) : str :=
  match n with
  | O => []
  | S n' => hex_char ((v / 16 ^ Z.of_nat n') mod 16) :: hex n' v
  end.
Definition address_digits (f : aflags) : nat := if f.(a_addr24) then 6 else if f.(a_addr16) then 4 else 8.
Definition filled (n : nat) (t : str) : str := t ++ repeat " "%char (n - List.length t).
Definition head_part (f : aflags) (l : label) : str :=
  filled 12 (filled (11 - List.length (kind_text l))
    (mark l :: if has_value l then hex (address_digits f) l.(l_value) ++ s2l " " else []) ++ kind_text l).
Definition entry_text (f : aflags) (kl : str * label) : str :=
  filled 61 (head_part f (snd kl) ++ firstn 48 (fst kl)).

(** The name is made of visible characters and the entry fits into its 61 columns, as it
    does but for a bit number of more than one digit. *)
Definition tame (f : aflags) (kl : str * label) : Prop :=
  Forall (fun c => 33 <= zc c /\ zc c <> 127) (fst kl) /\
  (List.length (head_part f (snd kl) ++ firstn 48 (fst kl)) <= 61)%nat.

(** Entries side by side, [per] to a line. *)
Definition in_rows (per : nat) (entries lines : list str) : Prop :=
  exists rows, List.concat rows = entries /\ lines = map (@List.concat ascii) rows /\
    Forall (fun r => (1 <= List.length r <= per)%nat) rows /\
    Forall (fun r => List.length r = per) (removelast rows).

(** Text that consists of these lines, interspersed with empty lines and page heads with
    the title and page width of [s]. *)
Definition newline : ascii := ascii_of_nat 10.
Definition page_head (s : state) (h : str) : Prop := exists n,
  h = s2l "Crasm 1.11:   " ++ padl 30 s.(ls).(title) ++ repeat " "%char (Z.to_nat (s.(ls).(llen) - 58))
      ++ s2l "page" ++ padl 3 (dec n).
Inductive listing (s : state) : list str -> str -> Prop :=
| l_end : listing s [] []
| l_line : forall x lines t, listing s lines t -> listing s (x :: lines) (x ++ newline :: t)
| l_empty : forall lines t, listing s lines t -> listing s lines (newline :: t)
| l_head : forall h lines t, page_head s h -> listing s lines t -> listing s lines (h ++ newline :: t).

(** The symbol table of [s] is listed as [t]. *)
Definition symbol_listing (s : state) (t : str) : Prop :=
  exists table lines,
    StronglySorted before (map fst table) /\
    (forall k l, In (k, l) table <-> tfind k s.(sy) = Some l /\ listed k l) /\
    in_rows (Z.to_nat ((s.(ls).(llen) - 1) / 61)) (map (entry_text s.(fl)) table) lines /\
    listing s lines t.
