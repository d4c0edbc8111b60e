(** Programs that write down a piece of memory (property C70). *)
From Coq Require Import String Ascii ZArith List Bool Lia ZifyBool ZifyNat.
From Verif Require Import Base State Tree Filter Output Label Operator Parse Scode Pseudos Tables Cpu6800 Macro Crasm.
From Verif Require Import BaseFacts TreeFacts Frame Eval SpecEmit SpecStar SpecLine EmitFacts StarFacts PseudoFacts LineRun.
From Verif Require Import SpecImage.
From Verif Require Walk Run SplitFacts LineText SpecSplit KeepFacts SpecKeep SpecExpr SpecNumbers ExprEval MacroFacts InputFacts CallFacts AssignFacts ReasonFacts SpecReason
  SpecInput SpecMacro SymFacts CountFacts SpecObject SpecCpu SpecForms ChoiceFacts SpecChoice SpecRecords ObjRun.
Import ListNotations.
Open Scope Z_scope.
Ltac Zify.zify_post_hook ::= Z.div_mod_to_equations.

(** ** The numbers *)
Lemma figure_digit : forall d, 0 <= d < 16 -> SpecNumbers.digit (figure d) = Some d.
Proof.
  intros d H. assert (K : forallb (fun d => match SpecNumbers.digit (figure d) with Some x => x =? d | None => false end)
    [0;1;2;3;4;5;6;7;8;9;10;11;12;13;14;15] = true) by (vm_compute; reflexivity).
  rewrite forallb_forall in K. specialize (K d). destruct (SpecNumbers.digit (figure d)) as [x|].
  - f_equal. apply Z.eqb_eq, K. cbn. lia.
  - discriminate K. cbn. lia.
Qed.
Lemma byte_worth : forall env b, 0 <= b < 256 -> SpecExpr.worth 63 env (SpecExpr.Num ("$"%char :: two b)) b.
Proof.
  intros env b H. pose proof (figure_digit (b / 16) ltac:(lia)) as D1. pose proof (figure_digit (b mod 16) ltac:(lia)) as D2.
  assert (N : SpecNumbers.number 16 (two b) = b) by (unfold SpecNumbers.number, two; cbn [fold_left]; rewrite D1, D2; lia).
  rewrite <- N at 2. apply SpecExpr.w_num; [constructor| |discriminate|rewrite N; lia].
  repeat constructor; [exists (b / 16)|exists (b mod 16)]; (split; [assumption|lia]).
Qed.
Lemma address_worth : forall env a, 0 <= a < 65536 -> SpecExpr.worth 63 env (SpecExpr.Num ("$"%char :: four a)) a.
Proof.
  intros env a H. pose proof (figure_digit (a / 256 / 16) ltac:(lia)) as D1. pose proof (figure_digit ((a / 256) mod 16) ltac:(lia)) as D2.
  pose proof (figure_digit ((a mod 256) / 16) ltac:(lia)) as D3. pose proof (figure_digit ((a mod 256) mod 16) ltac:(lia)) as D4.
  assert (N : SpecNumbers.number 16 (four a) = a).
  { unfold SpecNumbers.number, four, two. cbn [fold_left app]. rewrite D1, D2, D3, D4. lia. }
  rewrite <- N at 2. apply SpecExpr.w_num; [constructor| |discriminate|rewrite N; lia].
  repeat constructor; eexists; (split; [eassumption|lia]).
Qed.
Lemma figure_in : forall d, 0 <= d < 16 -> List.In (figure d) (list_ascii_of_string "0123456789ABCDEF").
Proof. intros d H. apply nth_In. cbn. lia. Qed.

(** ** Relations *)
Definition tidy (s s' : state) : Prop :=
  s'.(fl) = s.(fl) /\ s'.(wr) = s.(wr) /\ s'.(sy) = s.(sy) /\ s'.(maintext) = s.(maintext) /\ s'.(emitted) = s.(emitted) /\
  s'.(reported) = s.(reported) /\ (exists b, s'.(ct) = set_bufferpos b s.(ct)) /\ (exists c, s'.(inp) = set_curline c s.(inp)).
Lemma tidy_refl : forall s, tidy s s.
Proof.
  intros s. unfold tidy. repeat split; [exists (bufferpos (ct s))|exists (curline (inp s))].
  - destruct (ct s); reflexivity.
  - destruct (inp s); reflexivity.
Qed.
Lemma tidy_trans : forall a b c, tidy a b -> tidy b c -> tidy a c.
Proof.
  unfold tidy. intros a b c (A1 & A2 & A3 & A4 & A5 & A6 & (x & A7) & (y & A8)) (B1 & B2 & B3 & B4 & B5 & B6 & (x' & B7) & (y' & B8)).
  repeat split; try congruence; [exists x'; rewrite B7, A7|exists y'; rewrite B8, A8]; reflexivity.
Qed.
Definition tidyR : relation := fun d s s' => match d with Fine => tidy s s' | Failed => False | Dead => True end.
Lemma tidyR_order : order tidyR.
Proof.
  constructor; unfold tidyR; auto using tidy_refl. intros d a b c X Y. destruct d; auto. exact (tidy_trans _ _ _ X Y).
Qed.
Lemma tidyR_osteps : osteps tidyR.
Proof.
  constructor; [exact tidyR_order|..]; intros; try exact I; try (exact (tidy_refl s)).
  destruct s as [? ? ? ? [] [] ? ? ? ? ?]. unfold tidyR, tidy. cbn. repeat split; eexists; reflexivity.
Qed.
Lemma listed_tidy : forall s s', InputFacts.listed s s' -> tidy s s'.
Proof.
  intros s s' (A1 & A2 & A3 & A4 & A5 & A6 & A7 & A8 & A9 & A10). unfold tidy. repeat split; auto; eexists; [exact A5|].
  rewrite A4. instantiate (1 := curline (inp s)). destruct (inp s); reflexivity.
Qed.
Lemma filter2_done : forall t p s r s', filter2 t p s = (r, s') ->
  how r = Dead \/ exists m, r = Ok m /\ tidy s s' /\ m = match fr_caps (filter_pure t (s2l p)) with Some (a :: b :: _) => Some (a, b) | _ => None end.
Proof.
  intros t p s r s' E. destruct r as [m|b].
  - right. exists m. destruct (MacroFacts.filter2_eq _ _ _ _ _ E) as [L M]. split; [reflexivity|]. split; [exact (listed_tidy _ _ L)|exact M].
  - left. unfold filter2, filterc, bind in E. cbn [gets] in E. destruct (4000 <=? _); [injection E as <- _; reflexivity|].
    destruct (fr_caps _); discriminate E.
Qed.
Lemma outline_done : forall s r s', outputline s = (r, s') -> how r = Dead \/ (r = Ok tt /\ tidy s s').
Proof.
  intros s r s' E. pose proof (pres_outputline _ tidyR_osteps s) as K. rewrite E in K. cbn [fst snd] in K.
  destruct r as [[]|b]; [right; split; [reflexivity|exact K]|]. destruct b; try (left; reflexivity). elim K.
Qed.

(** What a directive may do to a line that goes well. *)
Definition mild (s s' : state) : Prop :=
  s'.(fl) = s.(fl) /\ s'.(inp) = s.(inp) /\ s'.(maintext) = s.(maintext) /\ s'.(ct).(passnumber) = s.(ct).(passnumber) /\
  s'.(reported) = s.(reported).
Definition mildR : relation := fun d s s' => d = Fine -> mild s s'.
Lemma mildR_order : order mildR.
Proof.
  constructor; unfold mildR, mild; [repeat split|discriminate|]. intros d a b c X Y ->. specialize (X eq_refl). specialize (Y eq_refl).
  intuition congruence.
Qed.
Lemma mildR_osteps : osteps mildR.
Proof. constructor; [exact mildR_order|..]; intros; intros D; try discriminate D; repeat split. Qed.
Lemma mildR_error : forall A m, pres mildR A (error m).
Proof. intros A m s D. destruct (error m s) as [[a|b] s'] eqn:E; [elim (error_never _ _ _ _ _ E)|destruct b; discriminate D]. Qed.
Lemma mildR_esteps : esteps mildR.
Proof. constructor; [exact mildR_osteps|..]; intros; try (intros _; repeat split; fail). apply mildR_error. Qed.
Lemma mildR_wr : forall s w, mildR Fine s (set_wr w s).
Proof. intros s w _. repeat split. Qed.
Lemma mildR_lsteps : lsteps mildR.
Proof. constructor; [exact mildR_order|..]; intros; intros D; try discriminate D; repeat split. Qed.
Lemma mildR_insert8 : forall x, pres mildR _ (insert8 x).
Proof.
  intros x s. apply (Run.insert8_free _ mildR_order mildR_wr mildR_lsteps); try (intros; intros _; repeat split; fail). apply mildR_error.
Qed.
Ltac m1 :=
  lazymatch goal with
  | |- pres mildR _ (bind _ _) => apply (pres_bind mildR mildR_order); [ | intros ]
  | |- pres mildR _ (ret _) => apply (pres_ret mildR mildR_order)
  | |- pres mildR _ (gets _) => apply (pres_gets mildR mildR_order)
  | |- pres mildR _ (when _ _) => unfold when
  | |- pres mildR _ (error _) => apply mildR_error
  | |- pres mildR _ (err _) => apply mildR_error
  | |- pres mildR _ (stop _) => intros ? D; discriminate D
  | |- pres mildR _ (filter2 _ _) => apply (pe_filter2 mildR mildR_esteps)
  | |- pres mildR _ (parse _) => apply (pe_parse mildR mildR_esteps)
  | |- pres mildR _ (checktype _ _) => apply (pe_checktype mildR mildR_esteps)
  | |- pres mildR _ (insert8 _) => apply mildR_insert8
  | |- pres mildR _ (warning _) => apply (pres_warning mildR mildR_osteps)
  | |- pres mildR _ (position _) => apply (pres_position mildR mildR_osteps)
  | |- pres mildR _ (outputaddr _) => apply (pres_outputaddr mildR mildR_osteps)
  | |- pres mildR _ (upd_sy _) => intros ? _; repeat split
  | |- pres mildR _ (match ?x with _ => _ end) => destruct x
  end.
Ltac m := repeat first [m1 | progress (cbv beta zeta)].
Lemma mildR_stocke : forall t, pres mildR _ (stocke t 1).
Proof. intros t. unfold stocke. cbn [Z.eqb Pos.eqb]. m. Qed.
Lemma mildR_dcloop : forall n t, pres mildR _ (dcloop n t 1).
Proof. induction n as [|n IH]; intros t; cbn [dcloop]; m; first [apply mildR_stocke|apply IH]. Qed.
Lemma mildR_Xdc : forall o, pres mildR _ (Xdc 1 o).
Proof. intros o. apply mildR_dcloop. Qed.
Lemma mildR_Xequ : forall n o, pres mildR _ (Xequ n o).
Proof. intros n o. unfold Xequ, deflabel, searchlabel, makelabel. m. Qed.

(** ** The texts *)
Definition ranks : list ascii := list_ascii_of_string "0123456789ABCDEF".
Definition dollar (d : text) : text := "$"%char :: d.
Lemma two_in : forall b, 0 <= b < 256 -> Forall (fun c => List.In c ranks) (two b).
Proof. intros b H. unfold two. apply Forall_cons; [|apply Forall_cons; [|apply Forall_nil]]; apply figure_in; lia. Qed.
Lemma four_in : forall a, 0 <= a < 65536 -> Forall (fun c => List.In c ranks) (four a).
Proof. intros a H. unfold four. apply Forall_app. split; apply two_in; lia. Qed.
Definition safe (c : ascii) : Prop := c <> ";"%char /\ c <> ","%char /\ c <> SpecInput.newline /\ SpecInput.kept c = true /\ c <> SpecInput.nul.
Lemma ranks_safe : forall c, List.In c ranks -> safe c /\ ~ SpecSplit.blank c.
Proof.
  assert (K : Forall (fun c => safe c /\ ~ SpecSplit.blank c) ranks).
  { unfold ranks. cbn [list_ascii_of_string]. unfold safe, SpecSplit.blank.
    repeat (apply Forall_cons; [repeat split; first [vm_compute; reflexivity|vm_compute; discriminate|intros [X|X]; vm_compute in X; discriminate X]|]). apply Forall_nil. }
  rewrite Forall_forall in K. exact K.
Qed.
Lemma no_comment : forall u, Forall (fun c => c <> ";"%char) u -> SpecMacro.uncommented u u.
Proof.
  intros u H. right. split; [reflexivity|]. intros a b (y & E & Y & _). cbn [list_ascii_of_string] in Y.
  inversion Y as [|p w t W Y1|c p d t N U Y1]; subst; [|elim N; reflexivity]. inversion Y1 as [|p' w' t' W' Y2|c p d t' N U Y2]; subst.
  apply Forall_app in H. destruct H as [_ H]. apply Forall_app in H. destruct H as [H _]. apply Forall_app in H. destruct H as [_ H].
  inversion H as [|x l Hd _]; subst. apply Hd. symmetry. revert U. clear. destruct d as [[] [] [] [] [] [] [] []]; vm_compute; intros U; first [reflexivity|discriminate U].
Qed.
Lemma plain_statement : forall w t, Forall SpecSplit.blank w -> SpecSplit.tight t -> SpecSplit.tight (rev t) -> Forall (fun c => c <> ";"%char) t ->
  statement (w ++ t) t.
Proof.
  intros w t W T R H. exists w, t, []. rewrite app_nil_r. split; [reflexivity|]. split; [exact W|]. split; [exact T|].
  split; [apply no_comment; exact H|]. split; [constructor|exact R].
Qed.
Lemma no_comma : forall t, Forall (fun c => c <> ","%char) t -> SpecSplit.uncut [","%char] t.
Proof.
  intros t H a b (w1 & w2 & -> & _). apply Forall_app in H. destruct H as [_ H]. apply Forall_app in H. destruct H as [_ H].
  inversion H as [|x l X _]; subst. elim X. reflexivity.
Qed.

Lemma strip_done : forall s r s' t, stripline s = (r, s') -> statement s.(inp).(curline) t -> how r = Dead \/ (r = Ok t /\ tidy s s').
Proof.
  intros s r s' t E St. pose proof E as E0. unfold stripline in E. unfold bind at 1 in E. cbn [gets] in E. unfold bind at 1 in E.
  destruct (filter2 _ _ s) as [rf s1] eqn:F. destruct (filter2_done _ _ _ _ _ F) as [D|(fm & -> & T & _)].
  - left. destruct rf as [x|b]; [discriminate D|]. injection E as <- <-. destruct b; try discriminate D; reflexivity.
  - right. assert (X : exists x, r = Ok x /\ tidy s s').
    { destruct fm as [[x y]|]; [injection E as <- <-; exists x; split; [reflexivity|exact T]|].
      unfold upd_inp, bind, modify, ret in E. injection E as <- <-. eexists. split; [reflexivity|].
      apply (tidy_trans _ _ _ T). unfold tidy. cbn. repeat split; [exists (bufferpos (ct s1)); destruct (ct s1); reflexivity|eexists; reflexivity]. }
    destruct X as (x & -> & T'). split; [|exact T']. f_equal. exact (LineText.statement_unique _ _ _ (LineText.stripline_text _ _ _ E0) St).
Qed.

(** ** The directives *)
Lemma db_flags : forall e l, List.In e pseudos -> ChoiceFacts.key e = SpecChoice.identifier "db" -> KeepFacts.standing (snd e) l ->
  l.(l_flags).(f_nolabel) = false /\ l.(l_flags).(f_deflabel) = false /\ l.(l_flags).(f_defcond) = false /\ l.(l_flags).(f_defmacro) = false.
Proof.
  assert (K : forallb (fun e : entry => negb (streq (ChoiceFacts.key e) (SpecChoice.identifier "db")) ||
    (negb (snd e).(l_flags).(f_nolabel) && negb (snd e).(l_flags).(f_deflabel) && negb (snd e).(l_flags).(f_defcond) && negb (snd e).(l_flags).(f_defmacro))) pseudos = true)
    by (vm_compute; reflexivity).
  intros e l I Q [b ->]. rewrite forallb_forall in K. specialize (K e I). rewrite Q in K. rewrite streq_refl in K. cbn [negb orb] in K.
  destruct e as [? [[] ? ? ? ? ?]]. cbn in *. repeat (apply andb_true_iff in K; destruct K as [K ?]). repeat split; apply negb_true_iff; assumption.
Qed.
Lemma equ_flags : forall e l, List.In e pseudos -> ChoiceFacts.key e = SpecChoice.identifier "equ" -> KeepFacts.standing (snd e) l ->
  l.(l_flags).(f_nolabel) = false /\ l.(l_flags).(f_deflabel) = true /\ l.(l_flags).(f_defcond) = false /\ l.(l_flags).(f_defmacro) = false.
Proof.
  assert (K : forallb (fun e : entry => negb (streq (ChoiceFacts.key e) (SpecChoice.identifier "equ")) ||
    (negb (snd e).(l_flags).(f_nolabel) && (snd e).(l_flags).(f_deflabel) && negb (snd e).(l_flags).(f_defcond) && negb (snd e).(l_flags).(f_defmacro))) pseudos = true)
    by (vm_compute; reflexivity).
  intros e l I Q [b ->]. rewrite forallb_forall in K. specialize (K e I). rewrite Q in K. rewrite streq_refl in K. cbn [negb orb] in K.
  destruct e as [? [[] ? ? ? ? ?]]. cbn in *. repeat (apply andb_true_iff in K; destruct K as [K ?]). repeat split; try (apply negb_true_iff); assumption.
Qed.
Lemma spelled_db : SpecForms.spells (SpecCpu.t_ "db") (s2l "db").
Proof. repeat (apply SpecForms.sp_char; [discriminate|reflexivity|]). constructor. Qed.
Lemma spelled_equ : SpecForms.spells (SpecCpu.t_ "equ") (s2l "equ").
Proof. repeat (apply SpecForms.sp_char; [discriminate|reflexivity|]). constructor. Qed.
Lemma found_db : forall s, KeepFacts.kept s -> exists l, findmnemo (s2l "db") s = (Ok (Some (SpecChoice.identifier "db", l)), s) /\
  l.(l_type) = TMnemo /\ l.(l_ptr) = PFun HDc /\ l.(l_modifier) = 1 /\
  l.(l_flags).(f_nolabel) = false /\ l.(l_flags).(f_deflabel) = false /\ l.(l_flags).(f_defcond) = false /\ l.(l_flags).(f_defmacro) = false.
Proof.
  intros s K. destruct (KeepFacts.kept_name s "db" HDc 1 (s2l "db") K ltac:(unfold SpecKeep.directives; cbn [List.In]; tauto) spelled_db)
    as (l & _ & _ & _ & _ & T & P & Md & F & e & I & Q & St). exists l. pose proof (db_flags e l I Q St). tauto.
Qed.
Lemma found_equ : forall s, KeepFacts.kept s -> directive s "equ" HEqu /\ exists l, findmnemo (s2l "equ") s = (Ok (Some (SpecChoice.identifier "equ", l)), s) /\
  l.(l_type) = TMnemo /\ l.(l_ptr) = PFun HEqu /\
  l.(l_flags).(f_nolabel) = false /\ l.(l_flags).(f_deflabel) = true /\ l.(l_flags).(f_defcond) = false /\ l.(l_flags).(f_defmacro) = false.
Proof.
  intros s K. destruct (KeepFacts.kept_name s "equ" HEqu 0 (s2l "equ") K ltac:(unfold SpecKeep.directives; cbn [List.In]; tauto) spelled_equ)
    as (l & F0 & _ & U & _ & T & P & Md & F & e & I & Q & St). pose proof (equ_flags e l I Q St). split; exists l; tauto.
Qed.

(** ** The line of a byte *)
Definition small : list Z := map Z.of_nat (seq 0 256).
Lemma small_in : forall b, 0 <= b < 256 -> List.In b small.
Proof. intros b H. apply in_map_iff. exists (Z.to_nat b). split; [lia|]. apply in_seq. lia. Qed.
Definition statement_of (b : Z) : text := list_ascii_of_string "db $" ++ two b.
Definition pair_of (t : text) (p : string) : option (str * str) :=
  match fr_caps (filter_pure t (s2l p)) with Some (a :: b :: _) => Some (a, b) | _ => None end.
Lemma data_texts : forall b, 0 <= b < 256 -> pair_of (statement_of b) "?_=_?" = None /\
  pair_of (statement_of b) "? _?" = Some (s2l "db", "$"%char :: two b).
Proof.
  assert (K : forallb (fun b => match pair_of (statement_of b) "?_=_?" with None => true | _ => false end &&
    match pair_of (statement_of b) "? _?" with Some (x, y) => streq x (s2l "db") && streq y ("$"%char :: two b) | None => false end) small = true)
    by (vm_compute; reflexivity).
  intros b H. rewrite forallb_forall in K. specialize (K b (small_in b H)). apply andb_true_iff in K. destruct K as [K1 K2].
  destruct (pair_of (statement_of b) "?_=_?"); [discriminate K1|]. split; [reflexivity|].
  destruct (pair_of (statement_of b) "? _?") as [[x y]|]; [|discriminate K2]. apply andb_true_iff in K2. destruct K2 as [X Y].
  apply streq_eq in X, Y. rewrite X, Y. reflexivity.
Qed.

Lemma data_split : forall b s r s', 0 <= b < 256 -> KeepFacts.kept s -> splitline (statement_of b) s = (r, s') ->
  how r = Dead \/ (tidy s s' /\ exists l, r = Ok (mkFields (Some (SpecChoice.identifier "db", l)) None (s2l "db") (Some ("$"%char :: two b))) /\
    l.(l_type) = TMnemo /\ l.(l_ptr) = PFun HDc /\ l.(l_modifier) = 1 /\
    l.(l_flags).(f_nolabel) = false /\ l.(l_flags).(f_deflabel) = false /\ l.(l_flags).(f_defcond) = false /\ l.(l_flags).(f_defmacro) = false).
Proof.
  intros b s r s' H K E. destruct (data_texts b H) as [T1 T2]. unfold pair_of in T1, T2. unfold splitline in E. unfold bind at 1 in E.
  destruct (filter2 _ "?_=_?" s) as [rf s1] eqn:F. destruct (filter2_done _ _ _ _ _ F) as [D|(fm & -> & T & ->)].
  { left. destruct rf as [x|x]; [discriminate D|]. injection E as <- <-. destruct x; try discriminate D; reflexivity. }
  rewrite T1 in E. unfold splitrest, splitmnemo in E. unfold bind at 1 in E. unfold bind at 1 in E.
  destruct (filter2 _ "? _?" s1) as [rf s2] eqn:F2. destruct (filter2_done _ _ _ _ _ F2) as [D|(fm & -> & T' & ->)].
  { left. destruct rf as [x|x]; [discriminate D|]. injection E as <- <-. destruct x; try discriminate D; reflexivity. }
  rewrite T2 in E. pose proof (tidy_trans _ _ _ T T') as T3.
  assert (K2 : KeepFacts.kept s2) by (unfold KeepFacts.kept; destruct T3 as (_ & _ & -> & _); exact K).
  destruct (found_db s2 K2) as (l & Fd & L). right. cbn [s2l list_ascii_of_string] in E, Fd. unfold bind at 1 in E. rewrite Fd in E.
  unfold ret in E. injection E as <- <-. split; [exact T3|]. exists l. split; [reflexivity|exact L].
Qed.

(** ** The start of a line *)
Lemma linestart_org : forall s u s', starundef s = false -> linestart s = (Ok u, s') -> s'.(fl).(a_org_gv) = true.
Proof.
  intros s u s' H E. unfold linestart in E. apply seq_ok in E. destruct E as (x & s1 & E1 & E). unfold upd_ct, modify in E1. injection E1 as _ <-.
  apply seq_ok in E. destruct E as (y & s2 & E2 & E). cbn [gets] in E2. injection E2 as <- <-.
  match type of E with context [starundef ?a] => change (starundef a) with (starundef s) in E end. rewrite H in E.
  apply seq_ok in E. destruct E as (z & s3 & E3 & E). unfold zerobuffer, upd_ct, modify in E. injection E as _ <-. cbn [fl set_ct].
  apply seq_ok in E3. destruct E3 as (w & s4 & E4 & E3). unfold upd_fl, modify in E4. injection E4 as _ <-.
  match type of E3 with setpc ?v ?a = _ => assert (X : s3.(fl) = a.(fl)) end; [|rewrite X; reflexivity].
  unfold setpc in E3. apply seq_ok in E3. destruct E3 as (q & s5 & E5 & E3). cbn [gets] in E5. injection E5 as <- <-.
  destruct (_ =? _) in E3; [injection E3 as _ <-; reflexivity|].
  apply seq_ok in E3. destruct E3 as (q & s6 & E6 & E3). unfold upd_wr, modify in E3. injection E3 as _ <-. cbn [fl set_wr].
  match type of E6 with flushscoderaw ?a = _ => pose proof (flush_sy a) as K end. rewrite E6 in K. exact (proj2 K).
Qed.
Lemma start_done : forall s r s', has_star s -> pc_range s -> linestart s = (r, s') ->
  how r = Dead \/ (r = Ok tt /\ CallFacts.neutral s s' /\ s'.(inp) = s.(inp) /\ s'.(ct).(advance) = 0 /\ pc_range s' /\
    (starundef s = false -> s'.(fl).(a_org_gv) = true /\ s'.(wr).(pc) = starvalue s mod 2 ^ 64)).
Proof.
  intros s r s' H P E. destruct r as [[]|b]; [|left; exact (linestart_bad _ _ _ E)]. right. split; [reflexivity|].
  pose proof (CallFacts.quietly_linestart s) as [_ N]. rewrite E in N. cbn [snd] in N. split; [exact N|].
  split; [exact (AssignFacts.linestart_inp _ _ _ E)|]. destruct (linestart_ok _ _ _ H P E) as (_ & A & _ & Q & O).
  split; [exact A|]. split; [exact Q|]. intros U. pose proof (linestart_org _ _ _ U E) as G. split; [exact G|]. destruct O as [O|O]; [congruence|exact O].
Qed.

(** ** What a line has done *)
Definition here (s : state) (v : Z) : Prop := exists l, tfind starkey s.(sy) = Some l /\
  (l.(l_flags).(f_undef) = false /\ l.(l_flags).(f_noredef) = false) /\ l.(l_value) = v.
Definition done (es : list emission) (v : Z) (s s' : state) : Prop :=
  (exists c, s'.(inp) = set_curline c s.(inp)) /\ s'.(maintext) = s.(maintext) /\ s'.(ct).(passnumber) = s.(ct).(passnumber) /\
  s'.(reported) = s.(reported) /\ s'.(fl).(a_code_on) = s.(fl).(a_code_on) /\ pc_range s' /\ here s' v /\ s'.(emitted) = es ++ s.(emitted).

Lemma here_value : forall s v, here s v -> has_star s /\ starundef s = false /\ starvalue s = v.
Proof. intros s v (l & F & [U _] & V). unfold has_star, starundef, starvalue, star. rewrite F. repeat split; auto. exists l. reflexivity. Qed.

(** Where a line begins and its text is known. *)
Lemma opening : forall self n s r s' t, has_star s -> pc_range s -> statement s.(inp).(curline) t -> t <> [] ->
  asmline self n true true s = (r, s') ->
  how r = Dead \/ exists s1 s2 col0, CallFacts.neutral s s1 /\ s1.(inp) = s.(inp) /\ s1.(ct).(advance) = 0 /\ pc_range s1 /\
    (starundef s = false -> s1.(fl).(a_org_gv) = true /\ s1.(wr).(pc) = starvalue s mod 2 ^ 64) /\ tidy s1 s2 /\
    (q <- splitline t ;;
     match q.(q_mnemo) with
     | Some (key, l) => dispatch self n true true key l q.(q_label) q.(q_oper)
     | None =>
         if (col0 : bool) && negb (ogiven q.(q_label)) && negb (ogiven q.(q_oper)) then
           when true (herelabel q.(q_text)) ;;; when true outputline ;;; ret FNone
         else err "unknown macro or mnemonic"
     end) s2 = (r, s').
Proof.
  intros self n s r s' t H P St N E. unfold asmline in E. unfold bind at 1 in E.
  destruct (linestart s) as [r1 s1] eqn:E1. destruct (start_done _ _ _ H P E1) as [D|(-> & A)].
  { left. destruct r1 as [x|x]; [discriminate D|]. injection E as <- <-. destruct x; try discriminate D; reflexivity. }
  destruct A as (A1 & A2 & A3 & A4 & A5). unfold bind at 1 in E. cbn [gets] in E.
  unfold bind at 1 in E. destruct (stripline s1) as [r2 s2] eqn:E2. rewrite <- A2 in St. destruct (strip_done _ _ _ _ E2 St) as [D|(-> & T)].
  { left. destruct r2 as [x|x]; [discriminate D|]. injection E as <- <-. destruct x; try discriminate D; reflexivity. }
  right. destruct t as [|c t]; [elim N; reflexivity|]. eexists s1, s2, _. split; [exact A1|]. split; [exact A2|]. split; [exact A3|]. split; [exact A4|]. split; [exact A5|].
  split; [exact T|]. exact E.
Qed.

Lemma value_of_byte : forall s b r, 0 <= b < 256 -> value_at s ("$"%char :: two b) r -> r.(r_value) = b.
Proof.
  intros s b r H (s1 & s2 & _ & P & _).
  destruct (ExprEval.parse_value s1 (SpecExpr.Num ("$"%char :: two b)) b (byte_worth _ b H) ltac:(exact I)) as [(s3 & X)|(a & s3 & X & _ & V & _)];
    cbn [SpecExpr.show] in X; rewrite P in X; [discriminate X|]. injection X as <- <-. exact V.
Qed.
Lemma byte_commas : forall b, 0 <= b < 256 -> SpecSplit.uncut [","%char] ("$"%char :: two b).
Proof.
  intros b H. apply no_comma. constructor; [discriminate|]. eapply Forall_impl; [|exact (two_in b H)]. intros c I. destruct (ranks_safe c I) as [(_ & X & _) _]. exact X.
Qed.
Lemma data_statement : forall b, 0 <= b < 256 -> statement (data_line b) (statement_of b).
Proof.
  intros b H. change (data_line b) with ([" "%char] ++ statement_of b). pose proof (two_in b H) as T.
  apply plain_statement.
  - constructor; [left; reflexivity|constructor].
  - cbn. intros [X|X]; discriminate X.
  - unfold two in T. inversion T as [|x l _ T1]; subst. inversion T1 as [|x l T2 _]; subst. cbn. exact (proj2 (ranks_safe _ T2)).
  - unfold statement_of. apply Forall_app. split; [repeat constructor; discriminate|]. eapply Forall_impl; [|exact T]. intros c I. exact (proj1 (proj1 (ranks_safe c I))).
Qed.

Lemma byte_directive : forall b s r s', 0 <= b < 256 -> pc_range s -> s.(fl).(a_org_gv) = true -> Xdc 1 (Some ("$"%char :: two b)) s = (r, s') ->
  how r = Dead \/ (r = Ok tt /\ good [b] s s' /\ s'.(reported) = s.(reported)).
Proof.
  intros b s r s' H P O E. destruct r as [[]|[]]; try (left; reflexivity).
  - right. split; [reflexivity|]. assert (M : mild s s') by (pose proof (mildR_Xdc (Some ("$"%char :: two b)) s) as M; rewrite E in M; exact (M eq_refl)).
    unfold Xdc in E. destruct (dcloop_good _ _ _ _ _ _ P E) as (ts & rs & I & V & G). cbn [otext] in *.
    inversion I as [t U|t x y l C _]; subst; [|elim (byte_commas b H _ _ (proj1 C))].
    inversion V as [|? r ? ? V1 V2]; subst. inversion V2; subst. cbn [flat_map] in G. rewrite app_nil_r in G.
    rewrite (value_of_byte _ _ _ H V1) in G. split; [|exact (proj2 (proj2 (proj2 (proj2 M))))].
    assert (X : unit_bytes 1 s.(fl).(a_lohi) b = [b]) by (unfold unit_bytes; cbn [Z.eqb Pos.eqb]; destruct (a_lohi (fl s)); unfold word; cbn [little rev app]; rewrite Z.mod_small by lia; reflexivity). rewrite X in G. exact G.
  - exfalso. assert (R : SpecReason.reason s None (Some ("$"%char :: two b)) HDc) by exact (ReasonFacts.refused HDc 1 None _ _ _ _ P O eq_refl E).
    inversion R as [t I U| | | | | | | | | | | | | | | | |]; subst;
      try (exfalso; match goal with H : List.In HDc _ |- _ => cbn in H; intuition discriminate | H : HDc = _ \/ _ |- _ => intuition discriminate end).
    cbn [SpecCpu.given] in I. inversion I as [t' Un|t' x y C|t' x y c C _]; subst.
    + exact (ReasonFacts.usable_expr s (SpecExpr.Num ("$"%char :: two b)) b (byte_worth _ b H) Logic.I U).
    + elim (byte_commas b H _ _ (proj1 C)).
    + elim (byte_commas b H _ _ (proj1 C)).
Qed.

Lemma keeps_here : forall s s' v, keeps s.(sy) s'.(sy) -> here s v -> here s' v.
Proof.
  intros s s' v K (l & F & [U N] & V). destruct (AssignFacts.option_unused _ _ (K _ _ F)) as (l' & F' & E). exists l'. split; [exact F'|].
  split; [split; [rewrite <- U; exact (f_equal (fun x => f_undef (l_flags x)) E)|rewrite <- N; exact (f_equal (fun x => f_noredef (l_flags x)) E)]|
    rewrite <- V; exact (AssignFacts.unused_value _ _ E)].
Qed.
Lemma byte_line : forall self n s r s' b v, 0 <= b < 256 -> KeepFacts.kept s -> pc_range s -> here s v -> 0 <= v < 2 ^ 64 ->
  statement s.(inp).(curline) (statement_of b) -> asmline self n true true s = (r, s') ->
  how r = Dead \/ (r = Ok FNone /\ done [mkEm s.(ct).(passnumber) v b s.(fl).(a_code_on)] (v + 1) s s').
Proof.
  intros self n s r s' b v H K P Hv V St E. destruct (here_value _ _ Hv) as (HS & HU & HV).
  destruct (opening _ _ _ _ _ _ HS P St ltac:(discriminate) E) as [D|(s1 & s2 & c0 & N & I1 & A1 & P1 & O & T & X)]; [left; exact D|].
  destruct (O HU) as [O1 O2]. rewrite HV, (Z.mod_small v) in O2 by exact V.
  destruct N as (N1 & N2 & _ & _ & N5 & N6 & (g & N7) & (aa & bb & N8 & _) & _).
  unfold bind at 1 in X. destruct (splitline _ s2) as [r3 s3] eqn:E3.
  assert (K2 : KeepFacts.kept s2) by (unfold KeepFacts.kept; destruct T as (_ & _ & -> & _); rewrite N1; exact K).
  destruct (data_split _ _ _ _ H K2 E3) as [D|(T3 & l & -> & L1 & L2 & L3 & L4 & L5 & L6 & L7)].
  { left. destruct r3 as [x|x]; [discriminate D|]. injection X as <- <-. destruct x; try discriminate D; reflexivity. }
  pose proof (tidy_trans _ _ _ T T3) as (T1 & T2' & T3' & T4 & T5 & T6 & (bp & T7) & (c & T8)). clear T T3.
  cbn [q_mnemo q_label q_oper] in X. unfold dispatch in X. cbv zeta in X. rewrite L1, L2, L3, L4, L5, L6, L7 in X.
  cbn [andb ogiven orb when] in X. unfold bind at 1 in X. cbn [ret] in X. unfold bind at 1 in X. cbn [ret] in X. unfold bind at 1 in X. cbn [exec] in X.
  destruct (Xdc 1 _ s3) as [r4 s4] eqn:E4.
  assert (P3 : pc_range s3) by (unfold pc_range; rewrite T2'; exact P1).
  assert (O3 : s3.(fl).(a_org_gv) = true) by (rewrite T1; exact O1).
  destruct (byte_directive _ _ _ _ H P3 O3 E4) as [D|(-> & [G1 G2] & G3)].
  { left. destruct r4 as [x|x]; [discriminate D|]. injection X as <- <-. destruct x; try discriminate D; reflexivity. }
  unfold bind at 1 in X. destruct (star_advance s4) as [r5 s5] eqn:E5. unfold star_advance, bind in E5. cbn [gets] in E5.
  destruct (in_s64 _); [|injection E5 as <- <-; injection X as <- <-; left; reflexivity].
  unfold upd_sy, modify in E5. injection E5 as <- <-. unfold bind at 1 in X.
  set (s5 := set_sy _ s4) in X. destruct (outputline s5) as [r6 s6] eqn:E6. destruct (outline_done _ _ _ E6) as [D|(-> & T)].
  { left. destruct r6 as [x|x]; [discriminate D|]. injection X as <- <-. destruct x; try discriminate D; reflexivity. }
  injection X as <- <-. right. split; [reflexivity|]. destruct T as (U1 & U2 & U3 & U4 & U5 & U6 & (bp' & U7) & (c' & U8)).
  pose proof (emits_pc _ _ _ G1) as P4. destruct G1 as (G11 & G12 & G13). destruct G2 as (G21 & G22 & _ & _ & G25 & G26 & G27).
  assert (H3 : here s3 v).
  { destruct Hv as (l0 & F0 & Hv). exists l0. rewrite T3', N1. split; [exact F0|exact Hv]. }
  pose proof (keeps_here _ _ _ G27 H3) as H4. destruct (here_value _ _ H4) as (_ & _ & V4). destruct H4 as (l4 & F4 & F4u & F4v).
  unfold done. rewrite U4, U5, U6, U1, U7, U8. unfold pc_range. rewrite U2. cbn [passnumber set_bufferpos]. unfold s5. cbn [inp maintext ct reported fl wr emitted sy set_sy].
  assert (Pn : passnumber (ct s3) = passnumber (ct s)) by (rewrite T7, N8; reflexivity).
  assert (Cd : a_code_on (fl s3) = a_code_on (fl s)) by (rewrite T1, N7; reflexivity).
  split; [exists c'; rewrite G22, T8, I1; reflexivity|]. split; [congruence|]. split; [congruence|]. split; [congruence|].
  split; [rewrite G21, Cd; reflexivity|]. split; [exact P4|]. split.
  - exists (set_l_value (v + 1) l4). rewrite U3. unfold s5. cbn [sy set_sy]. rewrite tfind_tupd_same, F4. cbn [option_map].
    rewrite V4, G13, T7. cbn [advance set_bufferpos]. rewrite A1. cbn [List.length Z.of_nat]. split; [reflexivity|]. split; [exact F4u|reflexivity].
  - rewrite G11, Pn, Cd, T2', O2, T5, N2. cbn [placed rev app]. rewrite Z.mod_small by exact V. reflexivity.
Qed.

(** ** The first line and the end *)
Lemma blank_line : forall self n s r s' v, pc_range s -> here s v -> 0 <= v < 2 ^ 64 -> s.(inp).(curline) = [] ->
  asmline self n true true s = (r, s') -> how r = Dead \/ (r = Ok FNone /\ done [] v s s' /\ s'.(wr).(pc) = v).
Proof.
  intros self n s r s' v P Hv V C E. destruct (here_value _ _ Hv) as (HS & HU & HV). unfold asmline in E. unfold bind at 1 in E.
  destruct (linestart s) as [r1 s1] eqn:E1. destruct (start_done _ _ _ HS P E1) as [D|(-> & N & I1 & A1 & P1 & O)].
  { left. destruct r1 as [x|x]; [discriminate D|]. injection E as <- <-. destruct x; try discriminate D; reflexivity. }
  destruct (O HU) as [O1 O2]. rewrite HV, (Z.mod_small v) in O2 by exact V.
  destruct N as (N1 & N2 & _ & _ & N5 & N6 & (g & N7) & (aa & bb & N8 & _) & _).
  unfold bind at 1 in E. cbn [gets] in E. unfold bind at 1 in E. destruct (stripline s1) as [r2 s2] eqn:E2.
  assert (St : statement s1.(inp).(curline) []).
  { rewrite I1, C. apply (plain_statement [] []); constructor. }
  destruct (strip_done _ _ _ _ E2 St) as [D|(-> & T)].
  { left. destruct r2 as [x|x]; [discriminate D|]. injection E as <- <-. destruct x; try discriminate D; reflexivity. }
  unfold bind at 1 in E. cbn [when] in E. destruct (outputline s2) as [r3 s3] eqn:E3. destruct (outline_done _ _ _ E3) as [D|(-> & T')].
  { left. destruct r3 as [x|x]; [discriminate D|]. injection E as <- <-. destruct x; try discriminate D; reflexivity. }
  injection E as <- <-. right. split; [reflexivity|].
  pose proof (tidy_trans _ _ _ T T') as (T1 & T2 & T3 & T4 & T5 & T6 & (bp & T7) & (c & T8)).
  unfold done. split; [|rewrite T2; exact O2]. unfold pc_range. rewrite T2, T4, T5, T6, T7, T8, T1.
  split; [exists c; rewrite I1; reflexivity|]. split; [exact N5|]. split; [rewrite N8; reflexivity|]. split; [exact N6|]. split; [rewrite N7; reflexivity|].
  split; [exact P1|]. split; [|exact N2]. unfold here. rewrite T3, N1. exact Hv.
Qed.

Definition unset (s : state) : Prop := exists l, tfind starkey s.(sy) = Some l /\ l.(l_flags).(f_noredef) = false.
Lemma here_unset : forall s v, here s v -> unset s.
Proof. intros s v (l & F & [_ N] & _). exists l. auto. Qed.
Lemma origin_statement : forall a, 0 <= a < 65536 -> statement (origin_line a) (origin_line a).
Proof.
  intros a H. pose proof (four_in a H) as T. apply (plain_statement []); [constructor| | |].
  - cbn. intros [X|X]; discriminate X.
  - unfold four in T. apply Forall_app in T. destruct T as [_ T]. inversion T as [|x l _ T1]; subst. inversion T1 as [|x l T2 _]; subst. cbn. exact (proj2 (ranks_safe _ T2)).
  - unfold origin_line. apply Forall_app. split; [repeat constructor; discriminate|]. eapply Forall_impl; [|exact T]. intros c I. exact (proj1 (proj1 (ranks_safe c I))).
Qed.
Lemma origin_cut : forall a, SpecSplit.first_cut ["="%char] (origin_line a) (s2l "*") ("$"%char :: four a).
Proof.
  intros a. split.
  - exists [], []. split; [reflexivity|]. split; [constructor|]. split; [constructor|]. split; [|reflexivity]. cbn. intros [X|X]; discriminate X.
  - intros [|c a'] b (w1 & w2 & E & W & _); [|cbn; lia]. exfalso. destruct w1 as [|d w1]; [discriminate E|]. injection E as E _. subst d.
    inversion W as [|x l X _]; subst. destruct X as [X|X]; discriminate X.
Qed.
Lemma origin_split : forall a s r s', KeepFacts.kept s -> splitline (origin_line a) s = (r, s') ->
  how r = Dead \/ (tidy s s' /\ exists k l, r = Ok (mkFields (Some (k, l)) (Some (s2l "*")) (s2l "equ") (Some ("$"%char :: four a))) /\
    l.(l_type) = TMnemo /\ l.(l_ptr) = PFun HEqu /\
    l.(l_flags).(f_nolabel) = false /\ l.(l_flags).(f_deflabel) = true /\ l.(l_flags).(f_defcond) = false /\ l.(l_flags).(f_defmacro) = false).
Proof.
  intros a s r s' K E. unfold splitline in E. unfold bind at 1 in E.
  destruct (filter2 _ "?_=_?" s) as [rf s1] eqn:F. destruct (filter2_done _ _ _ _ _ F) as [D|(fm & -> & T & _)].
  { left. destruct rf as [x|x]; [discriminate D|]. injection E as <- <-. destruct x; try discriminate D; reflexivity. }
  destruct (SplitFacts.filter2_sep ["="%char] "?_=_?" _ s fm s1 eq_refl ltac:(discriminate) eq_refl F) as [_ M].
  destruct fm as [[x y]|]; [|elim (M _ _ (proj1 (origin_cut a)))].
  destruct (LineText.first_cut_unique ["="%char] _ _ _ _ _ ltac:(discriminate) eq_refl (origin_cut a) M) as [<- <-].
  change (nospacein (s2l "*")) with true in E. cbn iota in E. unfold bind at 1 in E.
  assert (K1 : KeepFacts.kept s1) by (unfold KeepFacts.kept; destruct T as (_ & _ & -> & _); exact K).
  destruct (found_equ s1 K1) as (_ & l & Fd & L). rewrite Fd in E. change (checklabel (s2l "*")) with true in E. cbn [negb when] in E.
  unfold bind at 1 in E. cbn [ret] in E. injection E as <- <-. right. split; [exact T|]. exists (SpecChoice.identifier "equ"), l. split; [reflexivity|exact L].
Qed.
Lemma Xequ_pc : forall n o s u s', Xequ n o s = (Ok u, s') -> s'.(wr).(pc) = s.(wr).(pc).
Proof.
  intros n o s u s' E. unfold Xequ in E. apply seq_ok in E. destruct E as (x & s1 & E1 & E). destruct (parse_keeps _ _ _ _ E1) as [_ (W & _)].
  cbv zeta in E. apply seq_ok in E. destruct E as (y & s2 & E2 & E). cbn [gets] in E2. injection E2 as <- <-.
  apply seq_ok in E. destruct E as (z & s3 & E3 & E).
  assert (W3 : s3.(wr).(pc) = s1.(wr).(pc)).
  { unfold when in E3. destruct (_ && _) in E3; [|injection E3 as _ <-; reflexivity]. apply seq_ok in E3. destruct E3 as (w & s4 & E4 & E3).
    pose proof (pres_position _ held_osteps 2 s1) as Q1. rewrite E4 in Q1. pose proof (pres_outputaddr _ held_osteps x.(r_value) s4) as Q2.
    cbn [r_value set_r_flags] in E3. rewrite E3 in Q2. destruct Q1 as (_ & Q1 & _), Q2 as (_ & Q2 & _). cbn [snd] in *. congruence. }
  rewrite <- W, <- W3. apply seq_ok in E. destruct E as (k & s4 & E4 & E). unfold upd_sy, modify in E. injection E as _ <-. cbn [wr set_sy].
  rewrite deflabel_eq in E4. destruct (Frame.refused _ _) in E4; [elim (error_never _ _ _ _ _ E4)|]. apply (f_equal snd) in E4. cbn [snd] in E4. subst s4. reflexivity.
Qed.
Lemma Xequ_noredef : forall o s u s', s.(inp).(segment) = 0 -> unset s -> Xequ (s2l "*") o s = (Ok u, s') -> unset s'.
Proof.
  intros o s u s' Sg (l & F & N) E. unfold Xequ in E. apply seq_ok in E. destruct E as (x & s1 & E1 & E). destruct (parse_keeps _ _ _ _ E1) as [(_ & In1 & _ & _ & _ & _ & K) _].
  destruct (AssignFacts.option_unused _ _ (K _ _ F)) as (l1 & F1 & Q1).
  cbv zeta in E. apply seq_ok in E. destruct E as (y & s2 & E2 & E). cbn [gets] in E2. injection E2 as <- <-.
  apply seq_ok in E. destruct E as (z & s3 & E3 & E).
  assert (W3 : s3.(sy) = s1.(sy) /\ s3.(inp).(segment) = 0).
  { assert (Sg1 : s1.(inp).(segment) = 0) by (rewrite In1; exact Sg).
    unfold when in E3. destruct (_ && _) in E3; [|injection E3 as _ <-; auto]. apply seq_ok in E3. destruct E3 as (w & s4 & E4 & E3).
    pose proof (pres_position _ tidyR_osteps 2 s1) as Q2. rewrite E4 in Q2. pose proof (pres_outputaddr _ tidyR_osteps x.(r_value) s4) as Q3.
    cbn [r_value set_r_flags] in E3. rewrite E3 in Q3. cbn [fst snd how tidyR] in Q2, Q3. destruct (tidy_trans _ _ _ Q2 Q3) as (_ & _ & X1 & _ & _ & _ & _ & (c & X2)).
    rewrite X2. auto. }
  destruct W3 as [W3 Sg3]. apply seq_ok in E. destruct E as (k & s4 & E4 & E). unfold upd_sy, modify in E. injection E as _ <-.
  rewrite deflabel_eq, Sg3, W3 in E4. change (lkey 0 (s2l "*")) with starkey in E4. rewrite F1 in E4. destruct (Frame.refused _ _) in E4; [elim (error_never _ _ _ _ _ E4)|].
  injection E4 as <- <-. unfold unset. cbn [sy set_sy]. rewrite !tfind_tupd_same, F1. cbn [option_map]. eexists. split; [reflexivity|].
  pose proof (f_equal (fun x => f_noredef (l_flags x)) Q1) as Y. cbn in Y.
  cbn [l_flags set_l_ptr set_l_modifier def_flags lf_or f_noredef set_f_used r_flags set_r_flags Pseudos.equ_flags set_f_undef set_f_noredef].
  destruct (r_flags x); cbn. rewrite Y, N. reflexivity.
Qed.
Lemma origin_directive : forall a s r s', 0 <= a < 65536 -> unset s -> s.(inp).(segment) = 0 -> Xequ (s2l "*") (Some ("$"%char :: four a)) s = (r, s') ->
  how r = Dead \/ (r = Ok tt /\ here s' a /\ s'.(emitted) = s.(emitted) /\ s'.(ct).(advance) = s.(ct).(advance) /\ mild s s').
Proof.
  intros a s r s' H (l & F & U) Sg E.
  assert (Vl : forall s1 r s2, parse ("$"%char :: four a) s1 = (r, s2) -> (exists x, r = Ok x /\ r_value x = a) \/ how r = Dead).
  { intros s1 r1 s2 X. destruct (ExprEval.parse_value s1 (SpecExpr.Num ("$"%char :: four a)) a (address_worth _ a H) Logic.I) as [(s3 & Y)|(x & s3 & Y & _ & V & _)];
      cbn [SpecExpr.show] in Y; rewrite X in Y; injection Y as -> ->; [right; reflexivity|left; eauto]. }
  destruct r as [[]|[]]; try (left; reflexivity).
  - right. split; [reflexivity|]. assert (M : mild s s') by (pose proof (mildR_Xequ (s2l "*") (Some ("$"%char :: four a)) s) as M; rewrite E in M; exact (M eq_refl)).
    destruct (AssignFacts.Xequ_ok _ _ _ _ _ E) as (x & s2 & Px & (A & _ & Em) & Ad). cbn [otext] in Px.
    destruct (Vl _ _ _ Px) as [(x' & X1 & X2)|X]; [|discriminate X]. injection X1 as <-. rewrite Sg in A. change (lkey 0 (s2l "*")) with starkey in A.
    destruct A as (l' & F' & _ & V' & _ & _ & U'). destruct (Xequ_noredef _ _ _ _ Sg (ex_intro _ l (conj F U)) E) as (l2 & F2 & N2).
    assert (l2 = l') by congruence. subst l2. split; [exists l'; split; [exact F'|]; split; [split; assumption|congruence]|]. auto.
  - exfalso. pose proof (ReasonFacts.Xequ_bad _ _ _ _ _ E) as R.
    inversion R as [| | | | |? X| |? X| | | | | | | | |s1 s2 m0 Sm Px|nm x s1 l1 Nm Px F1 _ U1]; subst;
      try (exfalso; match goal with H : List.In HEqu _ |- _ => cbn in H; intuition discriminate | H : HEqu = _ \/ _ |- _ => intuition discriminate end).
    + cbn [SpecCpu.given] in Px. destruct (Vl _ _ _ Px) as [(x' & X1 & _)|X]; discriminate.
    + injection Nm as <-. rewrite Sg in F1. match type of F1 with tfind ?k _ = _ => change k with starkey in F1 end.
      destruct (parse_keeps _ _ _ _ Px) as [(_ & _ & _ & _ & _ & _ & K) _]. destruct (AssignFacts.option_unused _ _ (K _ _ F)) as (l' & F' & Q).
      assert (l' = l1) by congruence. subst l'. pose proof (f_equal (fun x => f_noredef (l_flags x)) Q) as Y. cbn in Y. congruence.
Qed.
Lemma first_line : forall self n s r s' a, 0 <= a < 65536 -> KeepFacts.kept s -> pc_range s -> unset s -> s.(inp).(segment) = 0 ->
  s.(inp).(curline) = origin_line a -> asmline self n true true s = (r, s') -> how r = Dead \/ (r = Ok FNone /\ done [] a s s').
Proof.
  intros self n s r s' a H K P Un Sg C E. assert (HS : has_star s) by (destruct Un as (l & F & _); exists l; exact F).
  assert (St : statement s.(inp).(curline) (origin_line a)) by (rewrite C; apply origin_statement; exact H).
  destruct (opening _ _ _ _ _ _ HS P St ltac:(discriminate) E) as [D|(s1 & s2 & c0 & N & I1 & A1 & P1 & _ & T & X)]; [left; exact D|].
  destruct N as (N1 & N2 & _ & _ & N5 & N6 & (g & N7) & (aa & bb & N8 & _) & _).
  unfold bind at 1 in X. destruct (splitline _ s2) as [r3 s3] eqn:E3.
  assert (K2 : KeepFacts.kept s2) by (unfold KeepFacts.kept; destruct T as (_ & _ & -> & _); rewrite N1; exact K).
  destruct (origin_split _ _ _ _ K2 E3) as [D|(T3 & k & l & -> & L1 & L2 & L4 & L5 & L6 & L7)].
  { left. destruct r3 as [x|x]; [discriminate D|]. injection X as <- <-. destruct x; try discriminate D; reflexivity. }
  pose proof (tidy_trans _ _ _ T T3) as TT. destruct TT as (T1 & T2' & T3' & T4 & T5 & T6 & (bp & T7) & (c & T8)). clear T T3.
  cbn [q_mnemo q_label q_oper] in X. unfold dispatch in X. cbv zeta in X. rewrite L1, L2, L4, L5, L6, L7 in X.
  cbn [andb ogiven orb negb when] in X. unfold bind at 1 in X. cbn [ret] in X. unfold bind at 1 in X. cbn [ret] in X. unfold bind at 1 in X. cbn [exec] in X.
  match type of X with context [Xequ ?x ?y s3] => destruct (Xequ x y s3) as [r4 s4] eqn:E4 end.
  assert (U3 : unset s3) by (destruct Un as (l0 & F0 & Un); exists l0; rewrite T3', N1; auto).
  assert (S3 : segment (inp s3) = 0) by (rewrite T8, I1; exact Sg).
  destruct (origin_directive _ _ _ _ H U3 S3 E4) as [D|(-> & H4 & G2 & G3 & (M1 & M2 & M3 & M4 & M5))].
  { left. destruct r4 as [x|x]; [discriminate D|]. injection X as <- <-. destruct x; try discriminate D; reflexivity. }
  assert (P4 : pc_range s4).
  { unfold pc_range. rewrite (Xequ_pc _ _ _ _ _ E4), T2'. exact P1. }
  unfold bind at 1 in X. destruct (star_advance s4) as [r5 s5] eqn:E5. unfold star_advance, bind in E5. cbn [gets] in E5.
  destruct (in_s64 _); [|injection E5 as <- <-; injection X as <- <-; left; reflexivity].
  unfold upd_sy, modify in E5. injection E5 as <- <-. unfold bind at 1 in X.
  set (s5 := set_sy _ s4) in X. destruct (outputline s5) as [r6 s6] eqn:E6. destruct (outline_done _ _ _ E6) as [D|(-> & T)].
  { left. destruct r6 as [x|x]; [discriminate D|]. injection X as <- <-. destruct x; try discriminate D; reflexivity. }
  injection X as <- <-. right. split; [reflexivity|]. destruct T as (U1 & U2 & U3' & U4 & U5 & U6 & (bp' & U7) & (c' & U8)).
  destruct (here_value _ _ H4) as (_ & _ & V4). destruct H4 as (l4 & F4 & F4u & F4v).
  unfold done. rewrite U4, U5, U6, U1, U7, U8. unfold pc_range. rewrite U2. cbn [passnumber set_bufferpos]. unfold s5. cbn [inp maintext ct reported fl wr emitted sy set_sy].
  split; [exists c'; rewrite M2, T8, I1; reflexivity|]. split; [congruence|]. split; [rewrite M4, T7, N8; reflexivity|]. split; [congruence|].
  split; [rewrite M1, T1, N7; reflexivity|]. split; [exact P4|]. split.
  - exists (set_l_value a l4). rewrite U3'. unfold s5. cbn [sy set_sy]. rewrite tfind_tupd_same, F4. cbn [option_map].
    rewrite V4, G3, T7. cbn [advance set_bufferpos]. rewrite A1, Z.add_0_r. split; [reflexivity|]. split; [exact F4u|reflexivity].
  - rewrite G2, T5, N2. reflexivity.
Qed.

(** ** Reading *)
Definition nice (l : text) : Prop := Forall safe l /\ (List.length l <= 200)%nat.
Lemma nice_newline : forall l, nice l -> Forall (fun c => c <> SpecInput.newline) l.
Proof. intros l [H _]. eapply Forall_impl; [|exact H]. intros c (_ & _ & X & _). exact X. Qed.
Lemma piece_line : forall l R p rest e, nice l -> InputFacts.piece_read (ended l ++ R) p rest e -> p = ended l /\ rest = R /\ e = false.
Proof.
  intros l R p rest e N [E P]. pose proof (nice_newline l N) as Nl. unfold ended in *. rewrite <- app_assoc in E. cbn [app] in E.
  change (ascii_of_nat 10) with SpecInput.newline in *. destruct e.
  - exfalso. destruct P as [[P _] ->]. rewrite app_nil_r in E. apply P. rewrite <- E. apply in_or_app. right. left. reflexivity.
  - destruct P as [(l' & -> & P & _)|[P Q]].
    + rewrite <- app_assoc in E. cbn [app] in E.
      destruct (SymFacts.span_unique (fun c => c <> SpecInput.newline) l l' _ _ R rest Nl ltac:(apply Forall_forall; intros x I ->; exact (P I)) ltac:(auto) ltac:(auto) E) as [<- X].
      injection X as <-. auto.
    + exfalso. destruct N as [_ L]. apply P. assert (X : nth_error (p ++ rest) (List.length l) = Some SpecInput.newline).
      { rewrite <- E. rewrite nth_error_app2 by lia. rewrite Nat.sub_diag. reflexivity. }
      rewrite nth_error_app1 in X by lia. exact (nth_error_In _ _ X).
Qed.
Lemma visible_line : forall l, nice l -> SpecInput.visible (ended l) = l.
Proof.
  intros l [H _]. unfold SpecInput.visible, ended. rewrite filter_app.
  assert (X : List.filter SpecInput.kept l = l).
  { induction H as [|c l (_ & _ & _ & C & _) _ IH]; [reflexivity|]. cbn [List.filter]. rewrite C, IH. reflexivity. }
  rewrite X. change (List.filter SpecInput.kept [ascii_of_nat 10]) with (@nil ascii). apply app_nil_r.
Qed.
Lemma byte_nice : forall b, 0 <= b < 256 -> nice (data_line b).
Proof.
  intros b H. split; [|cbn; lia]. unfold data_line. apply Forall_app. split.
  - cbn [list_ascii_of_string]. unfold safe. repeat (apply Forall_cons; [repeat split; first [vm_compute; reflexivity|vm_compute; discriminate]|]). apply Forall_nil.
  - eapply Forall_impl; [|exact (two_in b H)]. intros c I. exact (proj1 (ranks_safe c I)).
Qed.
Lemma origin_nice : forall a, 0 <= a < 65536 -> nice (origin_line a).
Proof.
  intros a H. split; [|cbn; lia]. unfold origin_line. apply Forall_app. split.
  - cbn [list_ascii_of_string]. unfold safe. repeat (apply Forall_cons; [repeat split; first [vm_compute; reflexivity|vm_compute; discriminate]|]). apply Forall_nil.
  - eapply Forall_impl; [|exact (four_in a H)]. intros c I. exact (proj1 (ranks_safe c I)).
Qed.

Definition pure (t : text) : Prop := Forall (fun c => c <> SpecInput.nul) t.
Lemma nice_pure : forall l t, nice l -> pure t -> pure (ended l ++ t).
Proof.
  intros l t [H _] T. unfold pure, ended. apply Forall_app. split; [|exact T]. apply Forall_app. split; [|repeat constructor; discriminate].
  eapply Forall_impl; [|exact H]. intros c (_ & _ & _ & _ & X). exact X.
Qed.

(** ** The lines of a pass *)
Record common (k : Z) (mt : text) (s : state) : Prop := {
  c_srcs : s.(inp).(srcs) = []; c_segment : s.(inp).(segment) = 0; c_kept : KeepFacts.kept s; c_pc : pc_range s;
  c_code : s.(fl).(a_code_on) = true; c_pass : s.(ct).(passnumber) = k; c_reported : s.(reported) = []; c_text : s.(maintext) = mt }.

Lemma gets_line : forall k mt s, common k mt s -> pure s.(inp).(mainrest) -> exists p rest e a,
  InputFacts.piece_read s.(inp).(mainrest) p rest e /\ linegets s = (Ok tt, a) /\ common k mt a /\ a.(inp).(mainrest) = rest /\
  a.(inp).(maineof) = e /\ a.(inp).(curline) = SpecInput.visible p /\ a.(sy) = s.(sy) /\ a.(emitted) = s.(emitted).
Proof.
  intros k mt s C P. destruct (InputFacts.linegets_main s (c_srcs _ _ _ C)) as (p & rest & e & s1 & Pr & L & E).
  { intros I. unfold pure in P. rewrite Forall_forall in P. exact (P _ I eq_refl). }
  eexists p, rest, e, _. split; [exact Pr|]. split; [exact E|]. destruct L as (L1 & L2 & L3 & L4 & L5 & L6 & L7 & L8 & L9 & L10). destruct C as [C1 C2 C3 C4 C5 C6 C7 C8].
  split; [|cbn [inp set_inp sy emitted]; auto 9]. constructor; cbn [inp set_inp fl ct reported maintext]; auto.
  - unfold KeepFacts.kept. cbn [sy set_inp]. rewrite L3. exact C3.
  - unfold pc_range. cbn [wr set_inp]. rewrite L2. exact C4.
  - rewrite L1. exact C5.
  - rewrite L5. exact C6.
  - rewrite L10. exact C7.
  - rewrite L8. exact C8.
Qed.

Lemma loop_step : forall n k mt s s' l R es v, common k mt s -> pure R -> nice l -> s.(inp).(mainrest) = ended l ++ R ->
  (forall self m a r b, common k mt a -> a.(inp).(curline) = l -> a.(sy) = s.(sy) -> asmline self m true true a = (r, b) ->
     how r = Dead \/ (r = Ok FNone /\ done es v a b)) ->
  passloop n s = (Ok tt, s') ->
  exists n' s1, (n' < n)%nat /\ passloop n' s1 = (Ok tt, s') /\ common k mt s1 /\ here s1 v /\ s1.(emitted) = es ++ s.(emitted) /\ s1.(inp).(mainrest) = R.
Proof.
  intros n k mt s s' l R es v C P N Mr X E. destruct n as [|n]; [discriminate E|]. cbn [passloop] in E.
  destruct (gets_line k mt s C) as (p & rest & e & a & Pr & G & Ca & A1 & A2 & A3 & A4 & A5); [rewrite Mr; apply nice_pure; assumption|].
  rewrite Mr in Pr. destruct (piece_line _ _ _ _ _ N Pr) as (-> & -> & ->). rewrite (visible_line _ N) in A3.
  unfold bind at 1 in E. unfold catch at 1 in E. unfold passline in E. unfold bind at 1 in E. rewrite G in E. unfold bind at 1 in E.
  destruct n as [|m]; [discriminate E|]. destruct (run (S m) KLine true true a) as [r b] eqn:Q.
  pose proof (Walk.J_run _ (pres_walk _ KeepFacts.keeping_steps) (S m) KLine true true a (c_kept _ _ _ Ca)) as Kb. rewrite Q in Kb. cbn [fst snd] in Kb.
  cbn [run] in Q. destruct (X _ _ _ _ _ Ca A3 A4 Q) as [D|[-> Dn]].
  { destruct r as [x|x]; [discriminate D|]. destruct x; discriminate. }
  unfold bind, mainfeof in E. cbn [ret gets] in E. destruct Dn as ((c & D1) & D2 & D3 & D4 & D5 & D6 & D7 & D8). rewrite D1 in E. cbn [maineof set_curline] in E. rewrite A2 in E.
  exists (S m), b. split; [lia|]. split; [exact E|]. destruct Ca as [C1 C2 C3 C4 C5 C6 C7 C8].
  split; [|split; [exact D7|split; [rewrite D8, A5; reflexivity|rewrite D1; exact A1]]].
  constructor; try (rewrite D1); cbn [srcs segment set_curline]; try congruence. exact Kb.
Qed.

Lemma piece_end : forall p rest e, InputFacts.piece_read [] p rest e -> p = [] /\ e = true.
Proof.
  intros p rest e [E P]. symmetry in E. apply app_eq_nil in E. destruct E as [-> ->]. split; [reflexivity|]. destruct e; [reflexivity|].
  destruct P as [(l & X & _)|[_ X]]; [destruct l; discriminate X|discriminate X].
Qed.
Definition bytes (bs : list Z) : Prop := Forall (fun b => 0 <= b < 256) bs.
Notation data bs := (List.concat (map (fun b => ended (data_line b)) bs)).
Lemma data_pure : forall bs, bytes bs -> pure (data bs).
Proof. intros bs H. induction H as [|b bs B _ IH]; [constructor|]. cbn [map List.concat]. apply nice_pure; [apply byte_nice; exact B|exact IH]. Qed.

Lemma data_loop : forall bs n k mt s s' v, bytes bs -> common k mt s -> here s v -> 0 <= v -> v + Z.of_nat (List.length bs) < 2 ^ 64 ->
  s.(inp).(mainrest) = data bs -> passloop n s = (Ok tt, s') ->
  common k mt s' /\ s'.(emitted) = rev (placed k true v bs) ++ s.(emitted) /\ s'.(wr).(pc) = v + Z.of_nat (List.length bs).
Proof.
  induction bs as [|b bs IH]; intros n k mt s s' v B C Hv V0 V1 Mr E.
  - cbn [map List.concat List.length placed rev app] in *. destruct n as [|n]; [discriminate E|]. cbn [passloop] in E.
    destruct (gets_line k mt s C) as (p & rest & e & a & Pr & G & Ca & A1 & A2 & A3 & A4 & A5); [rewrite Mr; constructor|].
    rewrite Mr in Pr. destruct (piece_end _ _ _ Pr) as [-> ->]. cbn in A3.
    unfold bind at 1 in E. unfold catch at 1 in E. unfold passline in E. unfold bind at 1 in E. rewrite G in E. unfold bind at 1 in E.
    destruct n as [|m]; [discriminate E|]. destruct (run (S m) KLine true true a) as [r c] eqn:Q.
    pose proof (Walk.J_run _ (pres_walk _ KeepFacts.keeping_steps) (S m) KLine true true a (c_kept _ _ _ Ca)) as Kb. rewrite Q in Kb. cbn [fst snd] in Kb.
    cbn [run] in Q. assert (Ha : here a v) by (destruct Hv as (l & Hv); exists l; rewrite A4; exact Hv).
    destruct (blank_line _ _ _ _ _ _ (c_pc _ _ _ Ca) Ha ltac:(lia) A3 Q) as [D|(-> & Dn & Pc)].
    { destruct r as [x|x]; [discriminate D|]. destruct x; discriminate. }
    unfold bind, mainfeof in E. cbn [ret gets] in E. destruct Dn as ((d & D1) & D2 & D3 & D4 & D5 & D6 & D7 & D8). rewrite D1 in E. cbn [maineof set_curline] in E. rewrite A2 in E.
    injection E as <-. destruct Ca as [C1 C2 C3 C4 C5 C6 C7 C8]. split; [|split; [rewrite D8, A5; reflexivity|lia]].
    constructor; try (rewrite D1); cbn [srcs segment set_curline]; try congruence. exact Kb.
  - inversion B as [|x y B1 B2]; subst. cbn [map List.concat List.length placed rev] in *.
    destruct (loop_step n k mt s s' (data_line b) (data bs) [mkEm k v b true] (v + 1) C (data_pure _ B2) (byte_nice _ B1) Mr) as (n' & s1 & _ & E1 & C1 & H1 & M1 & R1); [|exact E|].
    + intros self m a r c Ca A1 A2 Q. assert (Ha : here a v) by (destruct Hv as (l & Hv); exists l; rewrite A2; exact Hv).
      rewrite <- (c_pass _ _ _ Ca) at 1. rewrite <- (c_code _ _ _ Ca). eapply byte_line; try eassumption; [exact (c_kept _ _ _ Ca)|exact (c_pc _ _ _ Ca)|lia|].
      rewrite A1. apply data_statement. exact B1.
    + destruct (IH n' k mt s1 s' (v + 1) B2 C1 H1 ltac:(lia) ltac:(lia) R1 E1) as (C2 & M2 & P2). split; [exact C2|]. split; [|lia].
      rewrite M2, M1, (Z.mod_small v) by lia. rewrite <- app_assoc. reflexivity.
Qed.

(** Several pieces. *)
Lemma pure_app : forall a b, pure a -> pure b -> pure (a ++ b).
Proof. intros a b A B. apply Forall_app. split; assumption. Qed.
Lemma memory_pure : forall m, Forall fitting m -> pure (memory_source m).
Proof.
  intros m H. induction H as [|p m (A & L & B) _ IH]; [constructor|]. change (pure (image_source (fst p) (snd p) ++ memory_source m)). apply pure_app; [|exact IH].
  unfold image_source. apply nice_pure; [apply origin_nice; exact A|apply data_pure; exact B].
Qed.
Definition laid (k : Z) (m : list piece) : list emission := List.concat (map (fun p => placed k true (fst p) (snd p)) m).
Lemma piece_rest : forall p m, memory_source (p :: m) = ended (origin_line (fst p)) ++ data (snd p) ++ memory_source m.
Proof. intros p m. unfold memory_source. cbn [map List.concat]. unfold image_source. rewrite <- app_assoc. reflexivity. Qed.
Lemma laid_cons : forall k p m, laid k (p :: m) = placed k true (fst p) (snd p) ++ laid k m.
Proof. reflexivity. Qed.

Lemma memory_loop : forall m bs n k mt s s' v, bytes bs -> Forall fitting m -> common k mt s -> here s v -> 0 <= v ->
  v + Z.of_nat (List.length bs) < 2 ^ 64 -> s.(inp).(mainrest) = data bs ++ memory_source m -> passloop n s = (Ok tt, s') ->
  common k mt s' /\ s'.(emitted) = rev (placed k true v bs ++ laid k m) ++ s.(emitted) /\ s'.(wr).(pc) = behind (v + Z.of_nat (List.length bs)) m.
Proof.
  induction m as [|p m IHm]; intros bs n k mt s s' v B Fm C Hv V0 V1 Mr E.
  { change (memory_source []) with (@nil ascii) in Mr. rewrite app_nil_r in Mr. change (laid k []) with (@nil emission). rewrite app_nil_r. cbn [behind].
    exact (data_loop bs n k mt s s' v B C Hv V0 V1 Mr E). }
  inversion Fm as [|x y (P1 & P2 & P3) Fm']; subst.
  revert n s v B C Hv V0 V1 Mr E. induction bs as [|b bs IH]; intros n s v B C Hv V0 V1 Mr E.
  - cbn [map List.concat List.length placed app] in *. rewrite piece_rest in Mr.
    destruct (loop_step n k mt s s' (origin_line (fst p)) (data (snd p) ++ memory_source m) [] (fst p) C
      (pure_app _ _ (data_pure _ P3) (memory_pure _ Fm')) (origin_nice (fst p) P1) Mr) as (n' & s1 & _ & E1 & C1 & H1 & M1 & R1); [|exact E|].
    + intros self q a r c Ca A1 A2 Q. assert (Ha : here a v) by (destruct Hv as (l & Hv); exists l; rewrite A2; exact Hv).
      eapply first_line; try eassumption; [exact (c_kept _ _ _ Ca)|exact (c_pc _ _ _ Ca)|exact (here_unset _ _ Ha)|exact (c_segment _ _ _ Ca)].
    + destruct (IHm (snd p) n' k mt s1 s' (fst p) P3 Fm' C1 H1 ltac:(lia) ltac:(lia) R1 E1) as (C2 & M2 & P2'). split; [exact C2|].
      split; [|cbn [behind]; exact P2']. rewrite M2, M1, laid_cons. reflexivity.
  - inversion B as [|x y B1 B2]; subst. cbn [map List.concat List.length placed] in *. rewrite <- app_assoc in Mr.
    destruct (loop_step n k mt s s' (data_line b) (data bs ++ memory_source (p :: m)) [mkEm k v b true] (v + 1) C
      (pure_app _ _ (data_pure _ B2) (memory_pure _ Fm)) (byte_nice _ B1) Mr) as (n' & s1 & _ & E1 & C1 & H1 & M1 & R1); [|exact E|].
    + intros self q a r c Ca A1 A2 Q. assert (Ha : here a v) by (destruct Hv as (l & Hv); exists l; rewrite A2; exact Hv).
      rewrite <- (c_pass _ _ _ Ca) at 1. rewrite <- (c_code _ _ _ Ca). eapply byte_line; try eassumption; [exact (c_kept _ _ _ Ca)|exact (c_pc _ _ _ Ca)|lia|].
      rewrite A1. apply data_statement. exact B1.
    + destruct (IH n' s1 (v + 1) B2 C1 H1 ltac:(lia) ltac:(lia) R1 E1) as (C2 & M2 & P2'). split; [exact C2|]. split.
      * rewrite M2, M1, (Z.mod_small v) by lia. cbn [app rev]. rewrite <- app_assoc. reflexivity.
      * rewrite P2'. f_equal. lia.
Qed.

Lemma pass_image : forall n k p m s s', Forall fitting (p :: m) ->
  KeepFacts.kept s -> pc_range s -> s.(reported) = [] -> s.(inp).(srcs) = [] -> s.(maintext) = memory_source (p :: m) -> pass n k s = (Ok tt, s') ->
  common k (memory_source (p :: m)) s' /\ s'.(emitted) = rev (laid k (p :: m)) ++ s.(emitted) /\ s'.(wr).(pc) = behind 0 (p :: m).
Proof.
  intros n k p m s s' Fm K P Rp Sr Mt E. pose proof Fm as Fm0. inversion Fm as [|x y (P1 & P2 & P3) Fm']; subst. unfold pass in E. unfold bind in E.
  pose proof (KeepFacts.kept_started k s K) as K1. unfold Run.started in K1. rewrite Run.passstart_eq in E, K1. cbn [snd] in K1.
  set (s0 := set_ct _ _) in E, K1.
  assert (C0 : common k (memory_source (p :: m)) s0).
  { constructor; try reflexivity; auto. unfold s0. cbn [fl set_ct set_sy set_inp set_fl a_code_on set_a_iflist_on set_a_macrolist_on]. destruct (a_nolist (fl s)); reflexivity. }
  assert (U0 : unset s0).
  { unfold unset, s0. cbn [sy set_ct set_sy]. unfold Run.startstar. rewrite !tfind_tupd_same.
    destruct (tfind starkey (sy s)) as [l|] eqn:F.
    - rewrite F. cbn [option_map]. eexists. split; reflexivity.
    - rewrite tfind_tins_same by exact F. cbn [option_map]. eexists. split; reflexivity. }
  assert (M0 : s0.(inp).(mainrest) = ended (origin_line (fst p)) ++ data (snd p) ++ memory_source m)
    by (rewrite <- piece_rest; unfold s0; cbn [inp set_ct set_sy set_inp]; cbn; exact Mt).
  assert (Em0 : s0.(emitted) = s.(emitted)) by reflexivity. clearbody s0.
  destruct (loop_step n k (memory_source (p :: m)) s0 s' (origin_line (fst p)) (data (snd p) ++ memory_source m) [] (fst p) C0
      (pure_app _ _ (data_pure _ P3) (memory_pure _ Fm')) (origin_nice (fst p) P1) M0)
    as (n' & s1 & _ & E1 & C1 & H1 & M1 & R1); [|exact E|].
  - intros self q x r c Cx X1 X2 Q. assert (Ux : unset x) by (destruct U0 as (l & U0); exists l; rewrite X2; exact U0).
    eapply first_line; try eassumption; [exact (c_kept _ _ _ Cx)|exact (c_pc _ _ _ Cx)|exact (c_segment _ _ _ Cx)].
  - destruct (memory_loop m (snd p) n' k _ s1 s' (fst p) P3 Fm' C1 H1 ltac:(lia) ltac:(lia) R1 E1) as (C2 & M2 & P2'). split; [exact C2|]. split; [|exact P2'].
    rewrite M2, M1, Em0, laid_cons. reflexivity.
Qed.

(** ** The whole run *)
Definition settled : relation := always (fun s s' => s'.(emitted) = s.(emitted) /\ s'.(reported) = s.(reported)).
Lemma settled_lsteps : lsteps settled.
Proof.
  constructor; [constructor|..]; unfold settled, always; intros; try (split; reflexivity).
  - assumption.
  - destruct H as (A1 & A2), H0 as (B1 & B2). split; congruence.
Qed.
Lemma finish_settled : pres settled _ finish.
Proof. apply Run.finish_free; [exact settled_lsteps|..]; unfold settled, always; intros; split; reflexivity. Qed.

Lemma placed_pass : forall k c bs a, Forall (fun e => em_pass e = k) (placed k c a bs).
Proof. intros k c. induction bs as [|b bs IH]; intros a; cbn [placed]; constructor; [reflexivity|apply IH]. Qed.
Lemma filter_pass : forall l k, Forall (fun e => em_pass e = k) l -> List.filter (fun e => em_pass e =? 2) l = if k =? 2 then l else [].
Proof.
  intros l k H. induction H as [|e l E _ IH]; cbn [List.filter]; [destruct (k =? 2); reflexivity|]. rewrite IH, E. destruct (k =? 2); reflexivity.
Qed.
Lemma placed_cells : forall bs a, 0 <= a -> a + Z.of_nat (List.length bs) <= 65536 -> SpecObject.code_cells (placed 2 true a bs) = from a bs.
Proof.
  unfold SpecObject.code_cells. induction bs as [|b bs IH]; intros a H0 H1; [reflexivity|]. cbn [placed List.filter em_code map em_pc em_byte from List.length] in *.
  rewrite IH by lia. f_equal. f_equal. rewrite (Z.mod_small a) by lia. apply Z.mod_small. lia.
Qed.
Lemma laid_pass : forall k m, Forall (fun e => em_pass e = k) (laid k m).
Proof. intros k m. induction m as [|p m IH]; [constructor|]. rewrite laid_cons. apply Forall_app. split; [apply placed_pass|exact IH]. Qed.
Lemma cells_app : forall a b, SpecObject.code_cells (a ++ b) = SpecObject.code_cells a ++ SpecObject.code_cells b.
Proof. intros a b. unfold SpecObject.code_cells. rewrite filter_app, map_app. reflexivity. Qed.
Lemma laid_cells : forall m, Forall fitting m -> SpecObject.code_cells (laid 2 m) = memory m.
Proof.
  intros m H. induction H as [|p m (A & L & B) _ IH]; [reflexivity|]. rewrite laid_cons, cells_app, IH, placed_cells by lia. reflexivity.
Qed.
Lemma all_moved : forall l, Forall (fun e => em_code e = true) l -> SpecObject.moved None l.
Proof. intros l H. induction H as [|e l E _ IH]; cbn [SpecObject.moved]; [exact I|]. rewrite E. split; [discriminate|exact IH]. Qed.
Lemma laid_code : forall k m, Forall (fun e => em_code e = true) (laid k m).
Proof.
  intros k m. induction m as [|p m IH]; [constructor|]. rewrite laid_cons. apply Forall_app. split; [|exact IH].
  generalize (fst p). induction (snd p) as [|b bs IHb]; intros a; cbn [placed]; constructor; [reflexivity|apply IHb].
Qed.
Lemma laid_moved : forall m v, Forall fitting m -> (forall a b l, memory m = (a, b) :: l -> a <> v) -> SpecObject.moved (Some v) (laid 2 m).
Proof.
  intros m v Fm H. pose proof (laid_cells m Fm) as C. pose proof (laid_code 2 m) as D.
  assert (Sm : Forall (fun e => 0 <= em_pc e < 65536) (laid 2 m)).
  { clear H C D. induction Fm as [|p m (A & L & B) _ IH]; [constructor|]. rewrite laid_cons. apply Forall_app. split; [|exact IH]. clear IH.
    destruct p as [a bs]. cbn [fst snd] in *. clear B. revert a A L. induction bs as [|b bs IHb]; intros a A L; cbn [placed]; [constructor|]. cbn [List.length] in L.
    constructor; [cbn [em_pc]; rewrite Z.mod_small by lia; lia|]. destruct bs; [constructor|]. apply IHb; cbn [List.length] in *; lia. }
  destruct (laid 2 m) as [|e l]; [exact I|]. inversion D as [|x y D1 D2]; inversion Sm as [|x' y' S1 _]; subst. cbn [SpecObject.moved]. rewrite D1. split; [|apply all_moved; exact D2].
  intros _ X. injection X as X. unfold SpecObject.code_cells in C. cbn [List.filter] in C. rewrite D1 in C. cbn [map] in C. symmetry in C. apply H in C. rewrite Z.mod_small in C by lia. congruence.
Qed.

Theorem memory_run : forall n o fs m s, m <> [] -> Forall fitting m ->
  assemble n o (init_state fs (memory_source m)) = (Ok tt, s) ->
  s.(reported) = [] /\ s.(ct).(errnumber) = 0 /\ SpecObject.second_pass s.(emitted) = laid 2 m /\
  (ogiven o.(o_scode) = true -> memory m <> [] -> (forall a b l, memory m = (a, b) :: l -> a <> behind 0 m) ->
     exists t r, objtext s.(wr) = Written t /\ SpecRecords.read_object t = Some r /\
     SpecRecords.closed r = true /\ SpecRecords.cells (SpecRecords.got r) = memory m).
Proof.
  intros n o fs m s Nm Fm E0. destruct m as [|p m]; [contradiction|]. pose proof E0 as E. rewrite KeepFacts.assemble_body in E. unfold KeepFacts.body in E. set (s0 := set_sy _ _) in E.
  assert (P0 : pc_range s0) by (unfold pc_range; cbn; lia).
  destruct (pass n 1 s0) as [r1 s1] eqn:E1. unfold bind at 1 in E. rewrite E1 in E. destruct r1 as [[]|]; [|discriminate E].
  assert (K0 : KeepFacts.kept s0) by exact KeepFacts.kept_init.
  destruct (pass_image n 1 p m s0 s1 Fm K0 P0 eq_refl eq_refl eq_refl E1) as (C1 & M1 & Q1).
  assert (First : (init_label_list pseudos ;;; pass n 1) (init_state fs (memory_source (p :: m))) = (Ok tt, s1)).
  { rewrite (KeepFacts.bind_ok _ _ _ (fun _ => pass n 1) _ _ _ (KeepFacts.init_tree fs _)). exact E1. }
  change (emitted s0) with (@nil emission) in M1. clearbody s0.
  pose proof (KeepFacts.kept_between o s1 (c_kept _ _ _ C1)) as K2. unfold bind at 1 in E. rewrite Run.between_eq in E, K2. cbn [snd] in K2.
  set (s2 := set_sy _ _) in E, K2. destruct C1 as [X1 X2 X3 X4 X5 X6 X7 X8].
  assert (H2 : pc_range s2 /\ reported s2 = [] /\ srcs (inp s2) = [] /\ maintext s2 = memory_source (p :: m) /\ emitted s2 = emitted s1) by (repeat split; assumption || exact (proj1 X4) || exact (proj2 X4)).
  destruct H2 as (P2 & R2 & S2 & T2 & M2). clearbody s2.
  destruct (pass n 2 s2) as [r3 s3] eqn:E3. unfold bind at 1 in E. rewrite E3 in E. destruct r3 as [[]|]; [|discriminate E].
  destruct (pass_image n 2 p m s2 s3 Fm K2 P2 R2 S2 T2 E3) as (C3 & M3 & Q3).
  pose proof (finish_settled s3) as F. rewrite E in F. cbn [fst snd how] in F. destruct F as [F1 F2].
  assert (Rp : reported s = []) by (rewrite F2; exact (c_reported _ _ _ C3)).
  assert (Sp : SpecObject.second_pass (emitted s) = laid 2 (p :: m)).
  { unfold SpecObject.second_pass. rewrite F1, M3, M2, M1, app_nil_r, rev_app_distr, !rev_involutive, filter_app.
    rewrite (filter_pass _ 1) by apply laid_pass. rewrite (filter_pass _ 2) by apply laid_pass. reflexivity. }
  split; [exact Rp|]. split; [rewrite (CountFacts.run_errors _ _ _ _ _ E0), Rp; reflexivity|]. split; [exact Sp|].
  intros Oc Ne Aw. pose proof (ObjRun.object_image n o fs _ s1 s Oc First E0) as Im. pose proof (ObjRun.object_bytes n o fs _ s Oc E0) as Ob. rewrite Sp in Im, Ob.
  rewrite Q1 in Im. specialize (Im (laid_moved _ _ Fm Aw)). rewrite laid_cells in Im by exact Fm.
  assert (Nl : laid 2 (p :: m) <> []) by (intros X; apply Ne; rewrite <- (laid_cells _ Fm), X; reflexivity).
  destruct (objtext (wr s)) as [|t|]; try contradiction.
  destruct Im as (r & I1 & I2). destruct Ob as (r' & O1 & O2 & _). rewrite I1 in O1. injection O1 as <-. exists t, r. repeat split; assumption.
Qed.

(** A single piece. *)
Lemma single : forall a bs, memory_source [(a, bs)] = image_source a bs /\ memory [(a, bs)] = from a bs /\ laid 2 [(a, bs)] = placed 2 true a bs.
Proof. intros a bs. unfold memory_source, memory, laid. cbn [map List.concat fst snd]. rewrite !app_nil_r. auto. Qed.
Lemma image_bytes : forall n o fs a bs s, 0 <= a < 65536 -> a + Z.of_nat (List.length bs) <= 65536 -> bytes bs ->
  assemble n o (init_state fs (image_source a bs)) = (Ok tt, s) ->
  s.(reported) = [] /\ s.(ct).(errnumber) = 0 /\ SpecObject.second_pass s.(emitted) = placed 2 true a bs.
Proof.
  intros n o fs a bs s A L B E. destruct (single a bs) as (X1 & _ & X3). rewrite <- X1 in E. rewrite <- X3.
  destruct (memory_run n o fs [(a, bs)] s ltac:(discriminate) ltac:(constructor; [exact (conj A (conj L B))|constructor]) E) as (H1 & H2 & H3 & _). auto.
Qed.
Lemma image_object : forall n o fs a bs s, 0 <= a < 65536 -> a + Z.of_nat (List.length bs) <= 65536 -> bytes bs -> bs <> [] ->
  ogiven o.(o_scode) = true -> assemble n o (init_state fs (image_source a bs)) = (Ok tt, s) ->
  exists t r, objtext s.(wr) = Written t /\ SpecRecords.read_object t = Some r /\
     SpecRecords.closed r = true /\ SpecRecords.cells (SpecRecords.got r) = from a bs.
Proof.
  intros n o fs a bs s A L B N O E. destruct (single a bs) as (X1 & X2 & _). rewrite <- X1 in E. rewrite <- X2.
  destruct (memory_run n o fs [(a, bs)] s ltac:(discriminate) ltac:(constructor; [exact (conj A (conj L B))|constructor]) E) as (_ & _ & _ & H).
  rewrite X2 in *. destruct bs as [|b bs]; [contradiction|]. apply H; [exact O|discriminate|]. intros a' b' l Y. injection Y as <- _ _. cbn [behind fst snd List.length]. lia.
Qed.
Lemma memory_bytes : forall n o fs m s, m <> [] -> Forall fitting m -> assemble n o (init_state fs (memory_source m)) = (Ok tt, s) ->
  s.(reported) = [] /\ s.(ct).(errnumber) = 0 /\ SpecObject.code_cells (SpecObject.second_pass s.(emitted)) = memory m.
Proof. intros n o fs m s N Fm E. destruct (memory_run n o fs m s N Fm E) as (H1 & H2 & H3 & _). rewrite H3, laid_cells by exact Fm. auto. Qed.
Lemma memory_object : forall n o fs m a b l s, Forall fitting m -> memory m = (a, b) :: l -> a <> behind 0 m -> ogiven o.(o_scode) = true ->
  assemble n o (init_state fs (memory_source m)) = (Ok tt, s) ->
  exists t r, objtext s.(wr) = Written t /\ SpecRecords.read_object t = Some r /\
     SpecRecords.closed r = true /\ SpecRecords.cells (SpecRecords.got r) = memory m.
Proof.
  intros n o fs m a b l s Fm Me Aw O E. assert (N : m <> []) by (intros ->; discriminate Me).
  destruct (memory_run n o fs m s N Fm E) as (_ & _ & _ & H). rewrite Me in *. apply H; [exact O|discriminate|]. intros a' b' l' Y. injection Y as <- _ _. exact Aw.
Qed.
