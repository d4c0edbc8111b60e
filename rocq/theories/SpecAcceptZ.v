(** When an instruction of the Z80 may be refused. *)
From Coq Require Import String Ascii ZArith List Bool.
From Verif Require Import Base State Parse SpecEmit SpecForms SpecCpu SpecZ80.
From Verif Require SpecSplit.
Import ListNotations.
Open Scope Z_scope.

(** The text is in error, or does not stand for a number. *)
Inductive no_number (s : state) (t : text) : Prop :=
| nn_error : forall s1 s2 m, near s s1 -> parse t s1 = (Bad (Err m), s2) -> no_number s t
| nn_type : forall s1 s2 r, near s s1 -> parse t s1 = (Ok r, s2) -> r.(r_type) <> TAbs -> no_number s t.
(** The text is in error, or stands for neither a number nor a single register. *)
Inductive no_register (s : state) (t : text) : Prop :=
| nr_error : forall s1 s2 m, near s s1 -> parse t s1 = (Bad (Err m), s2) -> no_register s t
| nr_type : forall s1 s2 r, near s s1 -> parse t s1 = (Ok r, s2) -> r.(r_type) <> TAbs ->
    (forall x, r.(r_type) = TRegs -> r.(r_modifier) = number x -> r.(r_value) <> 2 ^ number x) -> no_register s t.
(** The text cannot be read as an operand. *)
Inductive unread (s : state) (t : text) : Prop :=
| ur_part : forall w a, In w [FPlus false; FPlus true; FMinus false; FMinus true; FMem] -> first_fit t zforms w a -> no_number s a -> unread s t
| ur_plain : forall a, first_fit t zforms FPlain a -> no_register s a -> unread s t.

Definition ones : list string := map fst rotations ++ ["inc"; "dec"; "push"; "pop"]%string.
Definition twos : list string := ["ld"; "add"; "adc"; "sbc"]%string.
Definition logicals : list string := ["sub"; "and"; "xor"; "or"; "cp"]%string.
Definition jumps : list string := ["jr"; "jp"; "call"]%string.
Definition bits : list string := map fst bit_ops.
Definition parens : form := Free (t_ "(_") (t_ "_)").
Definition on_stack : list form := [Free (t_ "(_SP_)_,_") []; Free [] (t_ "_,_(_SP_)")].

(** [operand n t u]: the text [u], a part of [t], is an operand of the instruction [n]. *)
Inductive operand : string -> text -> text -> Prop :=
| ot_one : forall n t, In n ones -> operand n t t
| ot_single : forall n t, In n logicals -> SpecSplit.uncut comma t -> operand n t t
| ot_left : forall n t a b, In n (twos ++ logicals) -> SpecSplit.first_cut comma t a b -> operand n t a
| ot_right : forall n t a b, In n (twos ++ logicals ++ bits) -> SpecSplit.first_cut comma t a b -> operand n t b
| ot_jump : forall t a, fits parens t a -> operand "jp" t a
| ot_ex : forall t f a, In f on_stack -> fits f t a -> operand "ex" t a
| ot_in : forall t a b u, fits2 [] (t_ "_,_(") (t_ ")") t a b -> u = a \/ u = b -> operand "in" t u
| ot_out : forall t a b u, fits2 (t_ "(") (t_ ")_,_") [] t a b -> u = a \/ u = b -> operand "out" t u.
(** The same for operands that can only be numbers. *)
Inductive numeral : string -> text -> text -> Prop :=
| nt_whole : forall n t, In n ["im"; "rst"; "djnz"]%string -> numeral n t t
| nt_jump : forall n t, In n jumps -> SpecSplit.uncut comma t -> (n = "jp"%string -> forall a, ~ fits parens t a) -> numeral n t t
| nt_cond : forall n t a b c, In n jumps -> SpecSplit.first_cut comma t a b -> condition a c -> numeral n t b
| nt_bit : forall n t a b, In n bits -> SpecSplit.first_cut comma t a b -> numeral n t a.

(** The operands that are written. *)
Inductive written (s : state) : string -> text -> list zop -> Prop :=
| wt_one : forall n t x, In n ones -> reads s t x -> written s n t [x]
| wt_two : forall n t a b x y, In n twos -> SpecSplit.first_cut comma t a b -> reads s a x -> reads s b y -> written s n t [x; y]
| wt_bit : forall n t a b v y, In n bits -> SpecSplit.first_cut comma t a b -> value_z s a v -> reads s b y -> written s n t [Num v; y]
| wt_whole : forall n t v, In n ["rst"; "djnz"]%string -> value_z s t v -> written s n t [Num v]
| wt_jump : forall n t v, In n jumps -> SpecSplit.uncut comma t -> value_z s t v -> written s n t [Num v]
| wt_cond : forall n t a b c v, In n jumps -> SpecSplit.first_cut comma t a b -> condition a c -> value_z s b v -> written s n t [Cond c; Num v]
| wt_in : forall t a b x y, fits2 [] (t_ "_,_(") (t_ ")") t a b -> reads s a x -> port s b y -> written s "in" t [x; y]
| wt_out : forall t a b x y, fits2 (t_ "(") (t_ ")_,_") [] t a b -> port s a x -> reads s b y -> written s "out" t [x; y].

(** Why an instruction may be refused. *)
Inductive refusable (s : state) (n : string) (o : option text) : Prop :=
(** an operand cannot be read, or is no number where one is needed; *)
| re_operand : forall u, operand n (given o) u -> unread s u -> refusable s n o
| re_numeral : forall u, numeral n (given o) u -> no_number s u -> refusable s n o
(** the Z80 has no instruction with these operands, or the jump is too far; *)
| re_none : forall ops, written s n (given o) ops -> zilog s.(wr).(pc) n ops = None -> refusable s n o
| re_index : forall a b x, In n ["add"; "adc"; "sbc"]%string -> SpecSplit.first_cut comma (given o) a b -> reads s a x ->
    (forall y, zilog s.(wr).(pc) n [x; y] = None) -> refusable s n o
| re_acc : forall a b x, In n logicals -> SpecSplit.first_cut comma (given o) a b -> reads s a x -> x <> Reg rA -> refusable s n o
(** there are three operands; *)
| re_third : forall a b c d, In n ["add"; "adc"; "sbc"]%string -> SpecSplit.first_cut comma (given o) a b -> SpecSplit.first_cut comma b c d -> refusable s n o
(** an instruction without operands has one; *)
| re_extra : In n (map fst plain) -> o <> None -> refusable s n o
(** the comma is missing; *)
| re_comma : In n (twos ++ bits) -> SpecSplit.uncut comma (given o) -> refusable s n o
(** there is no bit with this number; *)
| re_bit : forall a b v, In n bits -> SpecSplit.first_cut comma (given o) a b -> value_z s a v -> ~ 0 <= v <= 7 -> refusable s n o
(** the condition is none, or not one of those of JR; *)
| re_cond : forall a b, In n jumps -> SpecSplit.first_cut comma (given o) a b -> (forall c, condition a c -> n = "jr"%string /\ 4 <= c) -> refusable s n o
| re_ret : n = "ret"%string -> given o <> [] -> (forall c, ~ condition (given o) c) -> refusable s n o
(** a jump through something else than HL, IX and IY; *)
| re_through : forall a x, n = "jp"%string -> fits parens (given o) a -> reads s a x -> ~ In x [Reg rHL; Reg rIX; Reg rIY] -> refusable s n o
(** there is no such interrupt mode; *)
| re_mode : forall s1 s2 r, n = "im"%string -> near s s1 -> parse (given o) s1 = (Ok r, s2) -> ~ In r.(r_value) [0; 1; 2] -> refusable s n o
(** no port is written, or it is neither a number nor C; *)
| re_in : n = "in"%string -> (forall a b, fits2 [] (t_ "_,_(") (t_ ")") (given o) a b -> In ","%char a \/ ~ SpecSplit.outside b) -> refusable s n o
| re_out : n = "out"%string -> (forall a b, ~ fits2 (t_ "(") (t_ ")_,_") [] (given o) a b) -> refusable s n o
| re_port_in : forall a b x, n = "in"%string -> fits2 [] (t_ "_,_(") (t_ ")") (given o) a b -> reads s b x -> x <> Reg rC -> (forall v, x <> Num v) -> refusable s n o
| re_port_out : forall a b x, n = "out"%string -> fits2 (t_ "(") (t_ ")_,_") [] (given o) a b -> reads s a x -> x <> Reg rC -> (forall v, x <> Num v) -> refusable s n o
(** the operands of EX are none of those it has. *)
| re_ex : n = "ex"%string -> (forall p, In p ["DE_,_HL"; "HL_,_DE"]%string -> ~ fits (Fixed (t_ p)) (given o) []) ->
    ((forall f a, In f on_stack -> ~ fits f (given o) a) \/
     exists f a x, In f on_stack /\ fits f (given o) a /\ reads s a x /\ ~ In x [Reg rHL; Reg rIX; Reg rIY]) ->
    ((forall p a, In p ["AF_,_AF'_"; "AF'_,_AF_"]%string -> ~ fits (Free (t_ p) []) (given o) a) \/
     exists p a, In p ["AF_,_AF'_"; "AF'_,_AF_"]%string /\ fits (Free (t_ p) []) (given o) a /\ a <> [] /\ forall c, a <> ";"%char :: c) ->
    refusable s n o.
