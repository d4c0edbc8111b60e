(** Properties C31, C37, C39 and C41: lines of macros, lines of files, lines without
    instruction, command line. *)
From Coq Require Import String Ascii ZArith List Bool.
From Verif Require Import Base State Tree Output Macro Cpu6800 Crasm SpecInput InputFacts CallFacts Frame Witness.
From Verif Require SpecSplit PseudoFacts.
Import ListNotations.
Open Scope Z_scope.

(** A state that reads the given lines of a macro. *)
Definition inmacro (lines args : list string) (all : string) : state :=
  let s := init_state nofiles [] in
  set_inp (set_srcs [SMac (map s2l lines) (map s2l args) (s2l all) true " "%char 7] s.(inp)) s.
Definition lineof (s : state) : str := s.(inp).(curline).

(** C31: the next line of a macro body is its expansion, cut after 241 characters. *)
Theorem C31_line : forall s l lines args all ol op on r,
  s.(inp).(srcs) = SMac (shaped l :: lines) args all ol op on :: r -> readable l -> (List.length args <= 9)%nat ->
  exists s1, listed s s1 /\
    linegets s = (Ok tt, set_inp (set_curline (firstn 241 (expansion args all l))
      (set_srcs (SMac lines args all ol op on :: r) s.(inp))) s1).
Proof. exact linegets_macro. Qed.
Print Assumptions C31_line.

(** Every line can be read that way. *)
Theorem C31_every_line : forall q, exists l, readable l /\ shaped l = q.
Proof. exact every_line. Qed.
Print Assumptions C31_every_line.

Example C31_line_case :
  let l := [Lit "a"; Arg 1; Lit "\"; Lit "0"; Count; Whole; Arg 4]%char in
  let s := inmacro ["a\2\0\#\*\5"; "z"]%string ["x"; "yy"; "z"]%string "x,yy,z" in
  readable l /\
  s.(inp).(srcs) = [SMac (shaped l :: [s2l "z"]) (map s2l ["x"; "yy"; "z"]%string) (s2l "x,yy,z") true " "%char 7] /\
  lineof (snd (linegets s)) = s2l "ayy\03x,yy,z".
Proof.
  cbv zeta. split; [|vm_compute; repeat split].
  cbn [readable shaped flat_map app shape]. repeat split; try discriminate; try (apply Nat.ltb_lt; reflexivity).
  intros _ [H|[H|(i & L & H)]]; [discriminate H|discriminate H|].
  do 9 (destruct i as [|i]; [discriminate H|]). apply Nat.ltb_lt in L. discriminate L.
Qed.

(** A call hands over the items of the operand, at most nine, a last empty one not counted,
    each one cut after 59 characters like the operand itself. *)
Theorem C31_call : forall self key lines li o s u s',
  macrocall self key (PMac lines) li o s = (Ok u, s') ->
  let t := otext o in
  exists ts s1 f s2 b, SpecSplit.items [","%char] t ts /\ (List.length (passed ts) <= 9)%nat /\
    self KMac b true s1 = (Ok f, s2) /\
    s1.(inp).(srcs) = SMac lines (map (firstn 59) (passed ts)) (firstn 59 t) s.(fl).(a_list_on)
                           s.(inp).(lineprefix) s.(inp).(linenumber) :: s.(inp).(srcs).
Proof. exact macrocall_runs. Qed.
Print Assumptions C31_call.

(** A body that ends at once, after leaving the state as it found it. *)
Definition endsnow : kind -> bool -> bool -> M flag := fun _ _ _ => ret FEndm.
Example C31_call_case :
  fst (macrocall endsnow (s2l "M") (PMac [s2l "nop"]) true (Some (s2l "1 , (a,b),")) (init_state nofiles [])) = Ok tt /\
  fst (macroargs 11 (s2l "1 , (a,b),") [] (init_state nofiles [])) = Ok [s2l "1"; s2l "(a,b)"].
Proof. vm_compute. repeat split. Qed.

(** An argument of 60 characters loses its last one, without any error. *)
Theorem C31_refuted : exists t s args s', List.length t = 60%nat /\ ~ In ","%char t /\
  macroargs 11 t [] s = (Ok args, s') /\ args <> [t] /\ s'.(reported) = s.(reported).
Proof.
  exists (repeat "a"%char 60), (init_state nofiles []), [repeat "a"%char 59],
    (snd (macroargs 11 (repeat "a"%char 60) [] (init_state nofiles []))).
  split; [reflexivity|]. split; [intros H; apply repeat_spec in H; discriminate H|].
  split; [vm_compute; reflexivity|]. split; [intros H; apply (f_equal (fun l => List.length (hd [] l))) in H; discriminate H|].
  vm_compute. reflexivity.
Qed.
Print Assumptions C31_refuted.

(** C37: one call reads the next piece of the main file: a line with its newline, 249
    characters of a longer line, or the rest of the file; only control characters are lost. *)
Theorem C37_line : forall s, s.(inp).(srcs) = [] -> ~ In nul s.(inp).(mainrest) ->
  exists p rest ended s1, piece_read s.(inp).(mainrest) p rest ended /\ listed s s1 /\
    linegets s = (Ok tt, set_inp
      (set_mainrest rest (set_maineof ended (set_linenumber (s.(inp).(linenumber) + 1)
         (set_curline (visible p) s.(inp))))) s1).
Proof. exact linegets_main. Qed.
Print Assumptions C37_line.

(** The same for an included file. *)
Theorem C37_included : forall s rest e0 ol op on l, s.(inp).(srcs) = SFile false rest e0 ol op on :: l ->
  ~ In nul rest ->
  exists p rest' ended s1, piece_read rest p rest' ended /\ listed s s1 /\
    linegets s = (Ok tt, set_inp
      (set_srcs (SFile ended rest' ended ol op on :: l) (set_linenumber (s.(inp).(linenumber) + 1)
         (set_curline (visible p) s.(inp)))) s1).
Proof. exact linegets_file. Qed.
Print Assumptions C37_included.

(** Reading up to the end of the file yields all its pieces in order. *)
Theorem C37_file : forall s, s.(inp).(srcs) = [] -> ~ In nul s.(inp).(mainrest) ->
  exists ps, pieces_of s.(inp).(mainrest) ps /\ reads s (map visible ps).
Proof. exact reads_file. Qed.
Print Assumptions C37_file.

(** The pieces make up the file: nothing is lost, nothing is read twice. *)
Theorem C37_once : forall t ps, pieces_of t ps -> List.concat ps = t.
Proof. exact pieces_concat. Qed.
Print Assumptions C37_once.

Example C37_case :
  let t := s2l " nop" ++ [ascii_of_nat 13; nl] ++ repeat "a"%char 250 in
  let s := init_state nofiles t in
  ~ In nul t /\
  lineof (snd (linegets s)) = s2l " nop" /\
  lineof (snd (linegets (snd (linegets s)))) = repeat "a"%char 249 /\
  lineof (snd (linegets (snd (linegets (snd (linegets s)))))) = s2l "a".
Proof.
  cbv zeta. split; [|vm_compute; repeat split].
  intros H. apply in_app_or in H. destruct H as [H|H].
  - cbn in H. repeat (destruct H as [H|H]; [discriminate H|]). destruct H.
  - cbn [app] in H. destruct H as [H|[H|H]]; [discriminate H|discriminate H|]. apply repeat_spec in H. discriminate H.
Qed.

(** With a NUL in the file, visible characters are lost: those after it in its line. *)
Theorem C37_refuted : exists s, s.(inp).(srcs) = [] /\ reads s [s2l "a"] /\
  visible s.(inp).(mainrest) = s2l "ab".
Proof.
  exists (init_state nofiles ["a"%char; nul; "b"%char]). split; [reflexivity|]. split; [|reflexivity].
  apply (rd_last _ (snd (linegets (init_state nofiles ["a"%char; nul; "b"%char])))); vm_compute; reflexivity.
Qed.
Print Assumptions C37_refuted.

(** C39: a line of blanks, or of blanks and a comment, defines nothing, emits nothing, reports
    nothing and advances by nothing; the only other outcome is a fatal failure of the output. *)
Theorem C39_neutral : forall self n li ex s w,
  Forall SpecSplit.blank w -> s.(inp).(curline) = w \/ (exists r, s.(inp).(curline) = w ++ ";"%char :: r) ->
  zlen s.(inp).(curline) <= 249 ->
  (fst (asmline self n li ex s) = Ok FNone \/ how (fst (asmline self n li ex s)) = Dead) /\
  neutral s (snd (asmline self n li ex s)).
Proof. exact blank_line. Qed.
Print Assumptions C39_neutral.

Theorem C39_still : forall self n li ex s w,
  Forall SpecSplit.blank w -> s.(inp).(curline) = w \/ (exists r, s.(inp).(curline) = w ++ ";"%char :: r) ->
  zlen s.(inp).(curline) <= 249 ->
  (snd (asmline self n li ex s)).(ct).(advance) = 0.
Proof. exact blank_still. Qed.
Print Assumptions C39_still.

Example C39_case :
  let s := init_state nofiles [] in
  let s := set_inp (set_curline (s2l "  ; a: nop") s.(inp)) s in
  Forall SpecSplit.blank (s2l "  ") /\ zlen s.(inp).(curline) <= 249 /\
  fst (asmline endsnow 5 true true s) = Ok FNone.
Proof.
  cbv zeta. split; [repeat constructor|]. split; [vm_compute; discriminate|]. vm_compute. reflexivity.
Qed.

(** C41: with exactly one input and at most one -o, the program assembles that file under
    the given options. *)
Theorem C41_run : forall n fs l name, Forall named l -> all_inputs l = [name] ->
  (List.length (all_outputs l) <= 1)%nat ->
  program n fs (command l) =
  match fs name with
  | None => Seen (s2l "FATAL ERROR: can't open source file" ++ [nl]) 10 Untouched
  | Some t =>
      observe n (mkOpt (hd_error (all_outputs l)) (negb (existsb is_l (all_switches l)))
                       (negb (existsb is_s (all_switches l))) (existsb is_x (all_switches l)) (Some name))
        (init_state fs t)
  end.
Proof. exact program_runs. Qed.
Print Assumptions C41_run.

(** No input, two inputs, a letter that is no option: the usage and exit status 10. *)
Theorem C41_no_input : forall n fs l, Forall named l -> all_inputs l = [] ->
  (List.length (all_outputs l) <= 1)%nat ->
  program n fs (command l) = Seen (usage "No input!") 10 Untouched.
Proof. exact program_noinput. Qed.
Print Assumptions C41_no_input.

Theorem C41_two_inputs : forall n fs l, Forall named l -> (2 <= List.length (all_inputs l))%nat ->
  (List.length (all_outputs l) <= 1)%nat ->
  program n fs (command l) = Seen (usage "One input only") 10 Untouched.
Proof. exact program_twoinputs. Qed.
Print Assumptions C41_two_inputs.

Theorem C41_bad_letter : forall n fs l sw c t rest, Forall named l ->
  (List.length (all_inputs l) <= 1)%nat -> (List.length (all_outputs l) <= 1)%nat ->
  ~ In c (s2l "slxo") ->
  program n fs (command l ++ ("-"%char :: map letter sw ++ c :: t) :: rest) = Seen (usage "Bad Option(s)") 10 Untouched.
Proof. exact program_badletter. Qed.
Print Assumptions C41_bad_letter.

Example C41_case :
  let l := [Switches [NoListing; NoWarnings]; Input (s2l "y"); Output [Symbols] (s2l "x")] in
  command l = map s2l ["-ls"; "y"; "-xo"; "x"]%string /\ Forall named l /\ all_inputs l = [s2l "y"] /\
  all_outputs l = [s2l "x"] /\ all_switches l = [NoListing; NoWarnings; Symbols].
Proof. cbv zeta. repeat split. repeat constructor. Qed.

(** A final -o without a name is ignored: the program runs as if it were absent. *)
Theorem C41_refuted : exists args, args = map s2l ["y"; "-o"]%string /\
  forall n fs, program n fs args = program n fs [s2l "y"].
Proof. eexists. split; [reflexivity|]. intros n fs. reflexivity. Qed.
Print Assumptions C41_refuted.
