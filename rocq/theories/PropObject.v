(** C03, C04, C05, C40: the object file of a whole assembly. *)
From Coq Require Import String Ascii ZArith List Bool.
From Verif Require Import Base State Output Label Scode Tables Cpu6800 Crasm.
From Verif Require Import SpecRecords SpecObject Witness ObjRun.
Import ListNotations.
Open Scope Z_scope.

(** C04.  When both passes end, the data bytes of the object file, in file order, are
    the bytes produced in CODE sections by the second pass, in order; the file is
    accepted by the reader up to its terminator. *)
Theorem C04_bytes : forall n o fs text s, ogiven o.(o_scode) = true ->
  assemble n o (init_state fs text) = (Ok tt, s) ->
  match objtext s.(wr) with
  | Written t => exists r, read_object t = Some r /\ closed r = true /\
      data (got r) = code_bytes (second_pass s.(emitted))
  | _ => second_pass s.(emitted) = []
  end.
Proof. exact object_bytes. Qed.
Print Assumptions C04_bytes.

(** C04, runs stopped in any way: what has reached the file is a prefix. *)
Theorem C04_prefix : forall n o fs text x s, ogiven o.(o_scode) = true ->
  assemble n o (init_state fs text) = (x, s) ->
  match objtext s.(wr) with
  | Written t => exists r rest, read_object t = Some r /\
      data (got r) ++ rest = code_bytes (second_pass s.(emitted))
  | _ => True
  end.
Proof. exact object_prefix. Qed.
Print Assumptions C04_prefix.

(** Two places, a DUMMY byte, HEX format selected. *)
Definition two_places : list string :=
  ["*=$10"; " db 1,2"; " dummy"; " db 9"; " code"; " output hex"; "*=$20000"; " db 3"]%string.

Example C04_case : exists s,
  final two_places = (Ok tt, s) /\
  code_bytes (second_pass s.(emitted)) = [1; 2; 3] /\
  objtext s.(wr) = Written (src [":020010000102EB"; ":020000040002F8"; ":0100000003FC"; ":00000001FF"]%string).
Proof. exists (snd (final two_places)). vm_compute. repeat split. Qed.

(** C03, the part that holds: if no CODE byte is produced exactly where the program
    counter was left by the first pass or by a DUMMY byte, the cells read from the
    file are the bytes produced, each at its program counter (modulo 2^32).
    Missing: without this hypothesis the claim is false, see below. *)
Theorem C03_image_partial : forall n o fs text sm s, ogiven o.(o_scode) = true ->
  (init_label_list pseudos ;;; pass n 1) (init_state fs text) = (Ok tt, sm) ->
  assemble n o (init_state fs text) = (Ok tt, s) ->
  moved (Some sm.(wr).(pc)) (second_pass s.(emitted)) ->
  match objtext s.(wr) with
  | Written t => exists r, read_object t = Some r /\
      cells (got r) = code_cells (second_pass s.(emitted))
  | _ => second_pass s.(emitted) = []
  end.
Proof. exact object_image. Qed.
Print Assumptions C03_image_partial.

Example C03_case : exists sm s,
  (init_label_list pseudos ;;; pass 60 1) (init_state nofiles (src two_places)) = (Ok tt, sm) /\
  final two_places = (Ok tt, s) /\
  moved (Some sm.(wr).(pc)) (second_pass s.(emitted)) /\
  code_cells (second_pass s.(emitted)) = [(16, 1); (17, 2); (131072, 3)].
Proof.
  exists (snd ((init_label_list pseudos ;;; pass 60 1) (init_state nofiles (src two_places)))),
         (snd (final two_places)).
  vm_compute. repeat split; intros; discriminate.
Qed.

(** C03 is false in general: an error-free assembly whose first byte is produced at the
    address where the first pass ended; the file puts it elsewhere. *)
Theorem C03_image_refuted : exists l s t r,
  final l = (Ok tt, s) /\ s.(ct).(errnumber) = 0 /\ objtext s.(wr) = Written t /\
  read_object t = Some r /\
  code_cells (second_pass s.(emitted)) = [(4096, 1); (4095, 2)] /\
  cells (got r) = [(4095, 1); (4095, 2)].
Proof.
  pose (l := ["*=$1000"; " db 1"; "*=$FFF"; " db 2"]%string).
  exists l, (snd (final l)), (src ["S1040FFF01EC"; "S1040FFF02EB"; "S9030000FC"]%string).
  exists (mkReader 0 [(4095, [1]); (4095, [2])] true). vm_compute. repeat split.
Qed.
Print Assumptions C03_image_refuted.

(** The same with a DUMMY section followed by CODE. *)
Theorem C03_dummy_refuted : exists l s t r,
  final l = (Ok tt, s) /\ s.(ct).(errnumber) = 0 /\ objtext s.(wr) = Written t /\
  read_object t = Some r /\
  code_cells (second_pass s.(emitted)) = [(16, 1); (18, 3)] /\
  cells (got r) = [(16, 1); (17, 3)].
Proof.
  pose (l := ["*=$10"; " db 1"; " dummy"; " db 2"; " code"; " db 3"; "*=0"]%string).
  exists l, (snd (final l)), (src ["S10500100103E6"; "S9030000FC"]%string).
  exists (mkReader 0 [(16, [1; 3])] true). vm_compute. repeat split.
Qed.
Print Assumptions C03_dummy_refuted.

(** C05, the part that holds: when the second pass ends, a file is left only if no
    error was counted, and then it is complete; with errors it is removed.
    Missing: a fatal error in the second pass, see below. *)
Theorem C05_leftover_partial : forall n o fs text s, ogiven o.(o_scode) = true ->
  assemble n o (init_state fs text) = (Ok tt, s) ->
  match leftover o s with
  | Removed => s.(ct).(errnumber) <> 0
  | Untouched => s.(ct).(errnumber) = 0 /\ second_pass s.(emitted) = []
  | Written t => s.(ct).(errnumber) = 0 /\
      exists r, read_object t = Some r /\ closed r = true
  end.
Proof. exact leftover_file. Qed.
Print Assumptions C05_leftover_partial.

(** C05 for the user: a run that exits with status 0 leaves no incomplete file. *)
Theorem C05_exit_partial : forall n o fs text out obj, ogiven o.(o_scode) = true ->
  observe n o (init_state fs text) = Seen out 0 obj ->
  match obj with
  | Removed | Untouched => True
  | Written t => exists r, read_object t = Some r /\ closed r = true
  end.
Proof. exact exit0_file. Qed.
Print Assumptions C05_exit_partial.

Definition left_by (x : seen) : option (Z * objfile) :=
  match x with Seen _ code obj => Some (code, obj) | Crash _ => None end.

Example C05_case :
  left_by (shown ["*=0"; " db 1"]%string) =
    Some (0, Written (src ["S104000001FA"; "S9030000FC"]%string)) /\
  left_by (shown ["*=0"; " db 1"; " oops 1"]%string) = Some (0, Removed).
Proof. vm_compute. split; reflexivity. Qed.

(** C05 is false in general: an error and then a fatal error in the second pass leave a
    file, here an empty one, without terminator. *)
Theorem C05_fatal_refuted : exists l m s,
  final l = (Bad (Exit m), s) /\ s.(ct).(passnumber) = 2 /\ s.(ct).(errnumber) = 1 /\
  objtext s.(wr) = Written [] /\ code_bytes (second_pass s.(emitted)) = [1; 0; 0; 0; 0; 0].
Proof.
  pose (l := ["m macro"; " m"; " endm"; "*=0"; " db 1"; " oops 1"; " ds x"; " if *-1"; " m";
              " endc"; "*=5"; "x"]%string).
  exists l, (s2l "too many nested INCLUDEs and MACROs"), (snd (final l)). vm_compute. repeat split.
Qed.
Print Assumptions C05_fatal_refuted.

(** C40.  A byte produced while the section is DUMMY reaches neither the object file, nor
    its buffer, nor the listing; program counter and advance move as usual. *)
Theorem C40_dummy_byte : forall s x, s.(fl).(a_code_on) = false -> s.(fl).(a_org_gv) = true ->
  exists s', insert8 x s = (Ok tt, s') /\
    s'.(wr).(raw) = s.(wr).(raw) /\ s'.(wr).(rawstart) = s.(wr).(rawstart) /\
    pieces (match s'.(wr).(scode) with Some l => l | None => [] end) =
      pieces (match s.(wr).(scode) with Some l => l | None => [] end) /\
    s'.(wr).(codelen) = s.(wr).(codelen) /\ s'.(ls) = s.(ls) /\
    s'.(wr).(pc) = (s.(wr).(pc) + 1) mod 2 ^ 64 /\ s'.(ct).(advance) = s.(ct).(advance) + 1.
Proof. exact dummy_byte. Qed.
Print Assumptions C40_dummy_byte.

Example C40_case :
  left_by (shown ["*=$10"; " dummy"; "a db 1,2"; "b db 3"; " code"; "*=0"; " db b"]%string) =
    Some (0, Written (src ["S104000012E9"; "S9030000FC"]%string)).
Proof. vm_compute. reflexivity. Qed.
