(** Strings, character classes and C integer conversions used by the model. *)
From Coq Require Import ZArith List Bool Ascii String.
Import ListNotations.
Open Scope Z_scope.

(** C strings as lists of bytes, without the terminating NUL (C language; every
    [char *] of /repo/src). *)
Definition str := list ascii.

(** String literals (C language), such as crasm.c:284. *)
Definition s2l (s : string) : str := list_ascii_of_string s.

(** A byte as [unsigned char] (C language), scode.c:49. *)
Definition zc (c : ascii) : Z := Z.of_N (N_of_ascii c).

(** A byte as [signed char] (dcl.h:46, x86-64 [char] is signed). *)
Definition sc (c : ascii) : Z := if zc c <? 128 then zc c else zc c - 256.

(** The byte with a given code, modulo 256 (C conversion to [char]), such as scode.c:139. *)
Definition cz (z : Z) : ascii := ascii_of_N (Z.to_N (z mod 256)).

(** Conversions to the fixed width C types, LP64 (C language): [unsigned char], scode.c:49. *)
Definition u8 (z : Z) : Z := z mod 256.
(** [unsigned short] (C language; scode.c:92). *)
Definition u16 (z : Z) : Z := z mod 65536.
(** [unsigned int] (C language; scode.c:122). *)
Definition u32 (z : Z) : Z := z mod 4294967296.
(** [unsigned long] (C language; scode.c:30). *)
Definition u64 (z : Z) : Z := z mod 18446744073709551616.
(** [signed char] (C language; dcl.h:46). *)
Definition s8 (z : Z) : Z := (z + 128) mod 256 - 128.
(** [short] (C language; label.h:41). *)
Definition s16 (z : Z) : Z := (z + 32768) mod 65536 - 32768.
(** [int] (C language; crasm.c:368). *)
Definition s32 (z : Z) : Z := (z + 2147483648) mod 4294967296 - 2147483648.
(** [long] (C language; label.h:43). *)
Definition s64 (z : Z) : Z :=
  (z + 9223372036854775808) mod 18446744073709551616 - 9223372036854775808.
(** Does a value fit in [long]? (C language: signed overflow is undefined; label.h:43). *)
Definition in_s64 (z : Z) : bool :=
  (-9223372036854775808 <=? z) && (z <=? 9223372036854775807).

(** <ctype.h> in the C locale; bytes above 127 belong to no class. *)
Definition isdigit (c : ascii) : bool := (48 <=? zc c) && (zc c <=? 57).
(** <ctype.h>. *)
Definition isupper (c : ascii) : bool := (65 <=? zc c) && (zc c <=? 90).
(** <ctype.h>. *)
Definition islower (c : ascii) : bool := (97 <=? zc c) && (zc c <=? 122).
(** <ctype.h>. *)
Definition isalpha (c : ascii) : bool := isupper c || islower c.
(** <ctype.h>. *)
Definition isalnum (c : ascii) : bool := isalpha c || isdigit c.
(** <ctype.h>. *)
Definition isxdigit (c : ascii) : bool :=
  isdigit c || ((65 <=? zc c) && (zc c <=? 70)) || ((97 <=? zc c) && (zc c <=? 102)).
(** <ctype.h>. *)
Definition isprint (c : ascii) : bool := (32 <=? zc c) && (zc c <=? 126).
(** <ctype.h>: space, \t \n \v \f \r. *)
Definition isspace (c : ascii) : bool :=
  (zc c =? 32) || ((9 <=? zc c) && (zc c <=? 13)).
(** <ctype.h>. *)
Definition isascii (c : ascii) : bool := zc c <? 128.
(** <ctype.h>. *)
Definition toupper (c : ascii) : ascii := if islower c then cz (zc c - 32) else c.

(** Blank or tab, the test written out in filter.c:96, crasm.c:356,390,413,418. *)
Definition isblank (c : ascii) : bool := (zc c =? 32) || (zc c =? 9).

(** <string.h> [strcmp(a,b)==0], crasm.c:284. *)
Fixpoint streq (a b : str) : bool :=
  match a, b with
  | [], [] => true
  | x :: a', y :: b' => Ascii.eqb x y && streq a' b'
  | _, _ => false
  end.

(** Sign of [strncmp] on names without NUL (label.c:119); unsigned comparison. *)
Fixpoint strcmp (a b : str) : comparison :=
  match a, b with
  | [], [] => Eq
  | [], _ :: _ => Lt
  | _ :: _, [] => Gt
  | x :: a', y :: b' =>
      match Z.compare (zc x) (zc y) with Eq => strcmp a' b' | c => c end
  end.

(** [strlen] as a C integer (<string.h>), label.c:48. *)
Definition zlen {A} (l : list A) : Z := Z.of_nat (List.length l).

(** Drop leading blanks (filter.c:96, crasm.c:418). *)
Fixpoint skipblanks (s : str) : str :=
  match s with
  | [] => []
  | c :: s' => if isblank c then skipblanks s' else s
  end.

(** Remove trailing blanks (crasm.c:408-416). *)
Definition trimblanks (s : str) : str := rev (skipblanks (rev s)).

(** Decimal digits of a non-negative number, most significant first
    (<stdio.h> "%d", crasm.c:606); [n] bounds the number of digits. *)
Fixpoint dec_digits (n : nat) (z : Z) (acc : str) : str :=
  match n with
  | O => acc
  | S n' =>
      let acc' := cz (48 + z mod 10) :: acc in
      if z <? 10 then acc' else dec_digits n' (z / 10) acc'
  end.

(** <stdio.h> "%d" / "%ld", crasm.c:606, xref.c:152. *)
Definition dec (z : Z) : str :=
  if z <? 0
  then cz 45 :: dec_digits (S (Z.to_nat (Z.log2 (- z)))) (- z) []
  else dec_digits (S (Z.to_nat (Z.log2 z))) z [].

(** One hexadecimal digit, lower case (<stdio.h> "%lx", xref.c:152). *)
Definition hexdigit_lc (z : Z) : ascii := if z <? 10 then cz (48 + z) else cz (87 + z).

(** Hexadecimal digits, lower case (xref.c:152); [n] bounds the number of digits. *)
Fixpoint hex_digits (n : nat) (z : Z) (acc : str) : str :=
  match n with
  | O => acc
  | S n' =>
      let acc' := hexdigit_lc (z mod 16) :: acc in
      if z <? 16 then acc' else hex_digits n' (z / 16) acc'
  end.

(** <stdio.h> "%lx" of an unsigned value, xref.c:152. *)
Definition hexlc (z : Z) : str := hex_digits (S (Z.to_nat (Z.log2 z))) z [].

(** <stdio.h> field width: pad on the left with blanks, crasm.c:606, output.c:108. *)
Definition padl (w : nat) (s : str) : str := repeat (cz 32) (w - List.length s) ++ s.

(** Upper case hexadecimal digit, output.c:305 [hexa]. *)
Definition hexa (z : Z) : ascii := if z <? 10 then cz (48 + z) else cz (55 + z).
