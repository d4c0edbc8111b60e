(** C70: programs that write down a piece of memory. *)
From Coq Require Import String Ascii ZArith List Bool.
From Verif Require Import Base State Output Tables Cpu6800 Crasm SpecEmit SpecObject SpecRecords SpecImage Witness ImageFacts.
Import ListNotations.
Open Scope Z_scope.

(** C70, the assembly.  The program whose first line gives the address [a] and whose other
    lines give one byte each is assembled without any report, and the second pass produces
    exactly these bytes, in CODE, at [a], [a + 1] and so on; for every amount of bytes that
    stays within 64 KiB, for all options and all included files. *)
Theorem C70_bytes : forall n o fs a bs s, 0 <= a < 65536 -> a + Z.of_nat (List.length bs) <= 65536 ->
  Forall (fun b => 0 <= b < 256) bs ->
  assemble n o (init_state fs (image_source a bs)) = (Ok tt, s) ->
  s.(reported) = [] /\ s.(ct).(errnumber) = 0 /\ second_pass s.(emitted) = placed 2 true a bs.
Proof. exact image_bytes. Qed.
Print Assumptions C70_bytes.

(** C70, the object file.  If one was asked for, reading it back gives the piece of memory
    that the program writes down. *)
Theorem C70_image : forall n o fs a bs s, 0 <= a < 65536 -> a + Z.of_nat (List.length bs) <= 65536 ->
  Forall (fun b => 0 <= b < 256) bs -> bs <> [] -> ogiven o.(o_scode) = true ->
  assemble n o (init_state fs (image_source a bs)) = (Ok tt, s) ->
  exists t r, objtext s.(wr) = Written t /\ read_object t = Some r /\ closed r = true /\ cells (got r) = from a bs.
Proof. exact image_object. Qed.
Print Assumptions C70_image.

(** Two bytes at the end of the memory: the program, its run and its object file. *)
Example C70_case :
  image_source 65534 [1; 255] = src ["*=$FFFE"; " db $01"; " db $FF"]%string /\
  exists s, final ["*=$FFFE"; " db $01"; " db $FF"]%string = (Ok tt, s) /\
  s.(ct).(errnumber) = 0 /\ objtext s.(wr) = Written (src ["S105FFFE01FFFD"; "S9030000FC"]%string) /\
  from 65534 [1; 255] = [(65534, 1); (65535, 255)].
Proof. split; [vm_compute; reflexivity|]. exists (snd (final ["*=$FFFE"; " db $01"; " db $FF"]%string)). vm_compute. repeat split. Qed.

(** C71, the assembly.  Programs of several pieces, each with its own address line, in any
    order and overlapping or not: no report, and the cells of the second pass are those of
    the pieces, one piece after the other. *)
Theorem C71_cells : forall n o fs m s, m <> [] -> Forall fitting m ->
  assemble n o (init_state fs (memory_source m)) = (Ok tt, s) ->
  s.(reported) = [] /\ s.(ct).(errnumber) = 0 /\ code_cells (second_pass s.(emitted)) = memory m.
Proof. exact memory_bytes. Qed.
Print Assumptions C71_cells.

(** C71, the object file, where the program does not end at the address of its first byte.
    Missing: that case, in which the file is wrong, see below. *)
Theorem C71_object_partial : forall n o fs m a b l s, Forall fitting m -> memory m = (a, b) :: l -> a <> behind 0 m ->
  ogiven o.(o_scode) = true -> assemble n o (init_state fs (memory_source m)) = (Ok tt, s) ->
  exists t r, objtext s.(wr) = Written t /\ read_object t = Some r /\ closed r = true /\ cells (got r) = memory m.
Proof. exact memory_object. Qed.
Print Assumptions C71_object_partial.

(** Two pieces, the higher one first, with an empty one between. *)
Definition scattered : list piece := [(32, [7; 8]); (512, []); (16, [9])].
Example C71_case :
  Forall fitting scattered /\ memory_source scattered = src ["*=$0020"; " db $07"; " db $08"; "*=$0200"; "*=$0010"; " db $09"]%string /\
  memory scattered = [(32, 7); (33, 8); (16, 9)] /\ behind 0 scattered = 17 /\
  exists s, final ["*=$0020"; " db $07"; " db $08"; "*=$0200"; "*=$0010"; " db $09"]%string = (Ok tt, s) /\
  s.(ct).(errnumber) = 0 /\ objtext s.(wr) = Written (src ["S10500200708CB"; "S104001009E2"; "S9030000FC"]%string).
Proof.
  split; [|split; [vm_compute; reflexivity|split; [reflexivity|split; [reflexivity|]]]].
  - repeat (apply Forall_cons; [repeat split; try discriminate; repeat constructor; discriminate|]). apply Forall_nil.
  - exists (snd (final ["*=$0020"; " db $07"; " db $08"; "*=$0200"; "*=$0010"; " db $09"]%string)). vm_compute. repeat split.
Qed.

(** Without the condition: the second piece ends where the first one begins, and the first
    byte is written elsewhere. *)
Theorem C71_refuted : exists m s t r, Forall fitting m /\
  assemble 60 quiet (init_state nofiles (memory_source m)) = (Ok tt, s) /\ s.(ct).(errnumber) = 0 /\
  objtext s.(wr) = Written t /\ read_object t = Some r /\ memory m = [(32, 7); (31, 8)] /\ cells (got r) = [(31, 7); (31, 8)].
Proof.
  exists [(32, [7]); (31, [8])], (snd (assemble 60 quiet (init_state nofiles (memory_source [(32, [7]); (31, [8])])))),
    (src ["S104001F07D5"; "S104001F08D4"; "S9030000FC"]%string), (mkReader 0 [(31, [7]); (31, [8])] true).
  split; [repeat (apply Forall_cons; [repeat split; try discriminate; repeat constructor; discriminate|]); apply Forall_nil|].
  vm_compute. repeat split.
Qed.
Print Assumptions C71_refuted.
