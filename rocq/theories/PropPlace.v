(** Property C64: messages name the line that they are about. *)
From Coq Require Import String Ascii ZArith List Bool Arith.
From Verif Require Import Base State Label Macro Crasm Witness Run SpecEmit SpecStar SpecJoin SpecInput SpecPlace.
From Verif Require PlaceFacts PlaceEnd LayoutCheck BaseFacts.
Import ListNotations.
Open Scope Z_scope.

(** C64: when a pass reads a line outside macros and no line of the files is longer than 248
    characters, the line comes from the source file or from an included one, and the number kept
    for it is one more than the ends of lines before it in that file.  This holds for every round
    of the first pass, and of the second if the source ends with the end of a line. *)
Theorem C64_line : forall n o fs main k s0 m t a, short_lines main -> (forall name t, fs name = Some t -> short_lines t) ->
  pass_starts n o fs main k s0 -> k = 1 \/ at_start main -> rounds n s0 m t -> linegets t = (Ok tt, a) ->
  a.(ct).(passnumber) = k /\
  exists T before p rest, source_of fs main a T /\ T = before ++ p ++ rest /\
    (whole p \/ tail p /\ rest = []) /\ (p <> [] -> at_start before /\ a.(inp).(linenumber) = newlines before + 1) /\
    (~ In nul p -> a.(inp).(curline) = visible p).
Proof. exact PlaceEnd.pass_line. Qed.
Print Assumptions C64_line.

(** With lines of any length the number counts the pieces of the file that were read. *)
Theorem C64_piece : forall fs main s u a, placed fs main s -> outside_macros s -> linegets s = (Ok u, a) ->
  placed fs main a /\ outside_macros a /\
  exists T p rest e, source_of fs main a T /\ read_to T (a.(inp).(linenumber) - 1) (p ++ rest) e /\
    (whole p \/ part p \/ tail p /\ rest = []) /\ (~ In nul p -> a.(inp).(curline) = visible p).
Proof. exact PlaceFacts.reads_piece. Qed.
Print Assumptions C64_piece.

(** The count stays right through every line, block, macro call and INCLUDE: [placed] holds when
    a pass starts and is kept, so that the theorem above applies to the lines of conditional
    blocks too, and to the lines after a macro call or an included file. *)
Theorem C64_starts : forall n o fs main k s, pass_starts n o fs main k s -> s.(inp).(srcs) = [] ->
  placed fs main s /\ s.(ct).(passnumber) = k /\ outside_macros s.
Proof. exact PlaceFacts.start_placed. Qed.
Print Assumptions C64_starts.
Theorem C64_second : forall n o fs main s, at_start main -> pass_starts n o fs main 2 s -> s.(inp).(srcs) = [].
Proof. exact PlaceEnd.second_starts. Qed.
Print Assumptions C64_second.
Theorem C64_keeps : forall fs main n k li ex s r s', run n k li ex s = (r, s') ->
  match r with Ok _ | Bad (Err _) => True | _ => False end -> placed fs main s ->
  placed fs main s' /\ (outside_macros s -> outside_macros s') /\ s'.(ct).(passnumber) = s.(ct).(passnumber).
Proof. exact PlaceFacts.run_placed. Qed.
Print Assumptions C64_keeps.

(** A line without macro call, block and INCLUDE is reported at most once, and exactly once if
    it fails: with the number of the pass and the number of the line. *)
Theorem C64_reports : forall self n li ex s r s', (forall q, taken_apart s q -> of_its_own q) ->
  (forall q key l, taken_apart s q -> q.(q_mnemo) = Some (key, l) -> l.(l_ptr) <> PFun HInclude) ->
  asmline self n li ex s = (r, s') ->
  match r with
  | Ok _ => s'.(reported) = s.(reported)
  | Bad (Err _) => exists e, s'.(reported) = mkRep s.(ct).(passnumber) s.(inp).(linenumber) e :: s.(reported)
  | _ => True
  end.
Proof. exact PlaceFacts.own_reports. Qed.
Print Assumptions C64_reports.

(** A program with an INCLUDE line: after three rounds, of which two read the included file, the
    second line of the source is read, which fails. *)
Definition onefile (F : str) : str -> option str := fun name => if streq name (s2l "f") then Some F else None.
Definition file1 : str := src [" db 1"]%string.
Definition main1 : str := src [" include f"; " db )"]%string.
Definition begun (k : Z) (fs : str -> option str) (m : str) : state :=
  if k =? 1 then snd (passstart 1 (snd (init_label_list Tables.pseudos (init_state fs m))))
  else snd (passstart 2 (snd (between quiet (snd (first 12 (init_state fs m)))))).
Lemma begins : forall fs m, fst (init_label_list Tables.pseudos (init_state fs m)) = Ok tt -> fst (first 12 (init_state fs m)) = Ok tt ->
  pass_starts 12 quiet fs m 1 (begun 1 fs m) /\ pass_starts 12 quiet fs m 2 (begun 2 fs m).
Proof. unfold begun. intros fs m. exact (LayoutCheck.starts_meet 12 quiet fs m). Qed.
Definition no_part (t : str) : bool := (List.length t <? 249)%nat.
Lemma no_part_short : forall t, no_part t = true -> short_lines t.
Proof.
  intros t H a p b -> [_ L]. unfold no_part in H. rewrite !app_length in H. apply Nat.ltb_lt in H. rewrite L in H.
  apply (Nat.lt_irrefl 249). eapply Nat.le_lt_trans; [|exact H]. eapply Nat.le_trans; [apply Nat.le_add_r|]. apply Nat.le_add_l.
Qed.

(** The state in which the line after [m] rounds has been read has the property [Q]. *)
Definition sees (m : nat) (Q : state -> bool) (s : state) : bool :=
  match PlaceEnd.next_line m 12 s with Some a => Q a | None => false end.
Definition ready (k : Z) (fs : str -> option str) (m : str) (i : nat) (Q : state -> bool) : Prop :=
  fst (init_label_list Tables.pseudos (init_state fs m)) = Ok tt /\ fst (first 12 (init_state fs m)) = Ok tt /\ sees i Q (begun k fs m) = true.
Definition shown (k : Z) (fs : str -> option str) (m : str) (Q : state -> bool) : Prop :=
  exists s0 n t a, pass_starts 12 quiet fs m k s0 /\ rounds 12 s0 n t /\ linegets t = (Ok tt, a) /\ Q a = true.
Lemma ready_shown : forall k fs m i Q, k = 1 \/ k = 2 -> ready k fs m i Q -> shown k fs m Q.
Proof.
  intros k fs m i Q D (K1 & K2 & K3). destruct (PlaceEnd.next_reads i 12 _ Q K3) as (n & t & a & R & G & X). destruct (begins fs m K1 K2) as [B1 B2].
  exists (begun k fs m), n, t, a. split; [destruct D as [-> | ->]; assumption|]. auto.
Qed.
Definition is_line (number : Z) (line : str) (a : state) : bool :=
  (a.(inp).(linenumber) =? number) && streq a.(inp).(curline) line && match a.(inp).(srcs) with [] => true | _ => false end.
Lemma is_line_true : forall z l a, is_line z l a = true -> a.(inp).(linenumber) = z /\ a.(inp).(curline) = l /\ a.(inp).(srcs) = [].
Proof.
  intros z l a H. apply andb_prop in H. destruct H as [H H3]. apply andb_prop in H. destruct H as [H1 H2]. apply Z.eqb_eq in H1. apply BaseFacts.streq_eq in H2.
  split; [exact H1|]. split; [exact H2|]. destruct (srcs (inp a)); [reflexivity|discriminate H3].
Qed.

Example C64_applies :
  short_lines main1 /\ (forall name t, onefile file1 name = Some t -> short_lines t) /\ at_start main1 /\
  shown 2 (onefile file1) main1 (is_line 2 (s2l " db )")).
Proof.
  split; [apply no_part_short; reflexivity|]. split.
  { intros name t0 E. unfold onefile in E. destruct (streq _ _); [|discriminate E]. injection E as <-. apply no_part_short; reflexivity. }
  split; [right; exists (removelast main1); reflexivity|]. apply (ready_shown 2 _ _ 3); [right; reflexivity|]. vm_compute. repeat split.
Qed.

(** That line is one of its own, and it is reported. *)
Definition own (a : state) : bool :=
  match linestart a with
  | (Ok tt, s1) =>
      match stripline s1 with
      | (Ok t, s2) =>
          match splitline t s2 with
          | (Ok q, _) =>
              match q.(q_mnemo) with
              | Some (_, l) => match l.(l_type) with TMacro => false | _ => true end && negb l.(l_flags).(f_defcond) && negb l.(l_flags).(f_defmacro) &&
                               match l.(l_ptr) with PFun HInclude => false | _ => true end
              | None => true
              end
          | _ => true
          end
      | _ => true
      end
  | _ => true
  end.
Lemma own_true : forall a, own a = true -> (forall q, taken_apart a q -> of_its_own q) /\
  (forall q key l, taken_apart a q -> q.(q_mnemo) = Some (key, l) -> l.(l_ptr) <> PFun HInclude).
Proof.
  intros a H. assert (G : forall q, taken_apart a q -> match q.(q_mnemo) with
    | Some (_, l) => l.(l_type) <> TMacro /\ l.(l_flags).(f_defcond) = false /\ l.(l_flags).(f_defmacro) = false /\ l.(l_ptr) <> PFun HInclude
    | None => True end).
  { intros q (s1 & t & s2 & s3 & E1 & E2 & _ & E3). unfold own in H. rewrite E1, E2, E3 in H. destruct (q_mnemo q) as [[k l]|]; [|exact I].
    apply andb_prop in H. destruct H as [H H4]. apply andb_prop in H. destruct H as [H H3]. apply andb_prop in H. destruct H as [H1 H2].
    apply negb_true_iff in H2, H3. split; [intros X; rewrite X in H1; discriminate H1|]. split; [exact H2|]. split; [exact H3|].
    intros X. rewrite X in H4. discriminate H4. }
  split.
  - intros q T. specialize (G q T). unfold of_its_own. destruct (q_mnemo q) as [[k l]|]; [|exact I]. tauto.
  - intros q key l T M. specialize (G q T). rewrite M in G. tauto.
Qed.
Definition refused (a : state) : bool :=
  is_line 2 (s2l " db )") a && own a &&
  match asmline (run 5) 5 true true a with (Bad (Err _), s') => match s'.(reported) with r :: _ => (r.(rp_pass) =? 2) && (r.(rp_line) =? 2) | [] => false end | _ => false end.
Lemma refused_shown : shown 2 (onefile file1) main1 refused.
Proof. apply (ready_shown 2 _ _ 3); [right; reflexivity|]. vm_compute. repeat split. Qed.
Example C64_reports_applies : exists a e s', (forall q, taken_apart a q -> of_its_own q) /\
  (forall q key l, taken_apart a q -> q.(q_mnemo) = Some (key, l) -> l.(l_ptr) <> PFun HInclude) /\
  asmline (run 5) 5 true true a = (Bad (Err e), s') /\ a.(inp).(linenumber) = 2.
Proof.
  destruct refused_shown as (s0 & n & t & a & _ & _ & _ & Q). unfold refused in Q. apply andb_prop in Q. destruct Q as [Q Q3].
  apply andb_prop in Q. destruct Q as [Q1 Q2]. apply is_line_true in Q1. destruct Q1 as [Q1 _]. destruct (own_true a Q2) as [O1 O2].
  destruct (asmline (run 5) 5 true true a) as [[f|[e| | | |]] s'] eqn:E; try discriminate Q3. exists a, e, s'. split; [exact O1|]. split; [exact O2|]. split; [exact E|exact Q1].
Qed.

(** Longer lines count as several: the second line here has the number 3. *)
Definition longmain : str := ";"%char :: List.repeat "x"%char 249 ++ src [""; " db )"]%string.
Lemma long_shown : shown 1 nofiles longmain (is_line 3 (s2l " db )")).
Proof. apply (ready_shown 1 _ _ 2); [left; reflexivity|]. vm_compute. repeat split. Qed.
Theorem C64_refuted : exists n o fs main s0 m t a, pass_starts n o fs main 1 s0 /\ rounds n s0 m t /\ linegets t = (Ok tt, a) /\
  (exists before, main = before ++ a.(inp).(curline) ++ [newline] /\ at_start before /\ newlines before = 1) /\ a.(inp).(linenumber) = 3.
Proof.
  destruct long_shown as (s0 & m & t & a & P & R & G & Q). apply is_line_true in Q. destruct Q as (Q1 & Q2 & _).
  exists 12%nat, quiet, nofiles, longmain, s0, m, t, a. split; [exact P|]. split; [exact R|]. split; [exact G|]. split; [|exact Q1].
  exists (";"%char :: List.repeat "x"%char 249 ++ [newline]). rewrite Q2. split; [reflexivity|].
  split; [right; exists (";"%char :: List.repeat "x"%char 249); reflexivity|reflexivity].
Qed.
Print Assumptions C64_refuted.

(** A source whose last line includes a file and has no end: the second pass starts with that
    file, and gives the first line of the source the number 2. *)
Definition openmain : str := s2l " include f".
Lemma open_shown : shown 2 (onefile file1) openmain (is_line 2 openmain).
Proof. apply (ready_shown 2 _ _ 2); [right; reflexivity|]. vm_compute. repeat split. Qed.
Theorem C64_second_refuted : exists n o fs main s0 m t a, pass_starts n o fs main 2 s0 /\ rounds n s0 m t /\ linegets t = (Ok tt, a) /\
  a.(inp).(srcs) = [] /\ a.(inp).(curline) = main /\ short_lines main /\ newlines main = 0 /\ a.(inp).(linenumber) = 2.
Proof.
  destruct open_shown as (s0 & m & t & a & P & R & G & Q). apply is_line_true in Q. destruct Q as (Q1 & Q2 & Q3).
  exists 12%nat, quiet, (onefile file1), openmain, s0, m, t, a. split; [exact P|]. split; [exact R|]. split; [exact G|]. split; [exact Q3|].
  split; [exact Q2|]. split; [apply no_part_short; reflexivity|]. split; [reflexivity|exact Q1].
Qed.
Print Assumptions C64_second_refuted.

(** A warning about characters that the reader drops names the line before: 0 for the first. *)
Definition dirty : str := ascii_of_nat 1 :: src [" db 1"]%string.
Definition loud : options := mkOpt None true true false (Some (s2l "y")).
Theorem C64_warning_refuted : exists n o main u s, assemble n o (init_state nofiles main) = (Ok u, s) /\
  In (s2l ">>>>> 0 WARNING: Unprintable characters removed" ++ [newline]) s.(ls).(stdout).
Proof.
  exists 12%nat, loud, dirty, tt, (snd (assemble 12 loud (init_state nofiles dirty))).
  split; [vm_compute; reflexivity|]. vm_compute. repeat (first [left; reflexivity | right]).
Qed.
Print Assumptions C64_warning_refuted.
