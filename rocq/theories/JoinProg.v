(** A program with an INCLUDE line against the program with the file in its place.  Nothing
    here is part of the model. *)
From Coq Require Import String Ascii ZArith List Bool Lia.
From Verif Require Import Base BaseFacts State Tree Filter Output Label Scode Tables Cpu6800 Macro Crasm.
From Verif Require Import SpecJoin Walk Frame Run CountFacts KeepFacts FuelFacts JoinFacts JoinFeed JoinLine JoinRun.
Import ListNotations.
Open Scope Z_scope.

(** ** Parts of a run *)
Lemma body_parts : forall n o s0 s, body n o s0 = (Ok tt, s) -> exists s2 s4,
  passloop n (started 1 s0) = (Ok tt, s2) /\ passloop n (turned o s2) = (Ok tt, s4) /\ finish s4 = (Ok tt, s).
Proof.
  intros n o s0 s E. unfold body, pass in E. rewrite bind_assoc in E. unfold bind at 1 in E. rewrite passstart_eq in E.
  unfold turned, started. rewrite passstart_eq. cbn [snd]. set (s1 := set_ct _ _) in *. clearbody s1.
  unfold bind at 1 in E. destruct (passloop n s1) as [[[]|b] s2]; [|discriminate E]. exists s2.
  unfold bind at 1 in E. rewrite between_eq in *. cbn [snd]. set (s2' := set_sy _ _) in *. clearbody s2'.
  rewrite bind_assoc in E. unfold bind at 1 in E. rewrite passstart_eq in *. cbn [snd]. set (s3 := set_ct _ _) in *. clearbody s3.
  unfold bind in E. destruct (passloop n s3) as [[[]|b] s4]; [|discriminate E]. exists s4. auto.
Qed.
Lemma blur_started : forall k s t, blur s = blur t -> blur (started k s) = blur (started k t).
Proof.
  intros k s t V. assert (H : forall x, blur (started k x) = blur (started k (blur x))).
  { intros x. unfold started. rewrite !passstart_eq. cbn [snd]. unfold blur. cbn [fl ls wr sy inp ct cp files emitted reported looked set_ct set_sy set_inp set_fl].
    change (a_relatif (hush (fl x))) with (a_relatif (fl x)). change (a_nolist (hush (fl x))) with true. cbv iota. rewrite map_map.
    destruct (a_nolist (fl x)); f_equal; apply map_ext; reflexivity. }
  rewrite (H s), (H t), V. reflexivity.
Qed.
Lemma blur_between : forall o s t, blur s = blur t -> blur (snd (between o s)) = blur (snd (between o t)).
Proof.
  intros o s t V. assert (H : forall x, blur (snd (between o x)) = blur (snd (between o (blur x)))).
  { intros x. rewrite !between_eq. cbn [snd]. unfold blur. cbn [fl ls wr sy inp ct cp files emitted reported looked set_ct set_sy set_inp set_fl].
    rewrite map_map. destruct (ogiven (o_scode o)), (o_list o), (o_warn o); f_equal; apply map_ext; reflexivity. }
  rewrite (H s), (H t), V. reflexivity.
Qed.
Lemma place_started : forall k s, place_of (started k s) = (map rough (srcs (inp s)), maintext s, false).
Proof. intros k s. unfold started. rewrite passstart_eq. reflexivity. Qed.
Lemma loop_eof : forall n s s', passloop n s = (Ok tt, s') -> maineof (inp s') = true.
Proof.
  induction n as [|n IH]; intros s s' E; [discriminate E|]. cbn [passloop] in E. unfold bind in E.
  destruct (catch (passline n) s) as [[r|b] s1]; [|discriminate E]. destruct r as [u|]; [|exact (IH _ _ E)].
  unfold mainfeof in E. cbn [gets] in E. destruct (maineof (inp s1)) eqn:M; [injection E as <-; exact M|exact (IH _ _ E)].
Qed.
Lemma finish_like : both0 (fun _ _ => True) finish finish.
Proof.
  change (I (fun _ _ => True) unit finish). unfold finish. apply i_look; [reflexivity|intros w]. apply i_bind; [destruct (scode w); [apply i_close|apply i_ret]|intros _].
  apply i_bind; [apply i_hidden; reflexivity|intros _]. apply i_unseen, (pres_results _ unseen_osteps).
Qed.
Lemma world_between : forall o s, world s (snd (between o s)).
Proof. intros o s. rewrite between_eq. split; reflexivity. Qed.
Lemma world_started : forall k s, world s (started k s).
Proof. intros k s. unfold started. rewrite passstart_eq. split; reflexivity. Qed.

Lemma pend_over : forall p q, pend p q -> snd p = true -> p = q.
Proof. intros p q [] H; [reflexivity|discriminate H|discriminate H]. Qed.

Definition start (fs : str -> option str) (main : str) : state := set_sy first_tree (init_state fs main).
Lemma start_kept : forall fs main, kept (start fs main).
Proof. intros fs main. exact kept_init. Qed.
Lemma start_init : forall fs main, init_label_list pseudos (init_state fs main) = (Ok tt, start fs main).
Proof. intros fs main. exact (init_tree fs main). Qed.
Lemma start_body : forall n o fs main, assemble n o (init_state fs main) = body n o (start fs main).
Proof. intros n o fs main. exact (assemble_body n o fs main). Qed.
Lemma pass_is : forall n k s, pass n k s = passloop n (started k s).
Proof. intros n k s. unfold pass, bind, started. rewrite passstart_eq. reflexivity. Qed.
Lemma start_first : forall n fs main, first n (init_state fs main) = passloop n (started 1 (start fs main)).
Proof.
  intros n fs main. rewrite first_eq. etransitivity; [exact (bind_ok _ _ _ (fun _ => pass n 1) _ _ _ (start_init fs main))|]. apply pass_is.
Qed.
Lemma passstart_is : forall k s, passstart k s = (Ok tt, started k s).
Proof. intros k s. unfold started. rewrite passstart_eq. reflexivity. Qed.
Lemma between_is : forall o s, between o s = (Ok tt, snd (between o s)).
Proof. intros o s. rewrite between_eq. reflexivity. Qed.
Lemma start_facts : forall fs m m', blur (start fs m) = blur (start fs m') /\ srcs (inp (start fs m)) = srcs (inp (start fs m')) /\
  maintext (start fs m) = m /\ files (start fs m) = fs.
Proof. intros fs m m'. repeat split. Qed.
Lemma between_srcs : forall o s, srcs (inp (snd (between o s))) = srcs (inp s).
Proof. intros o s. rewrite between_eq. reflexivity. Qed.
Global Opaque start.

Section Program.
Variables (n : nat) (o : options) (fs : str -> option str) (A L C name F B : str).
Hypothesis HL : include_line L name.
Hypothesis LL : (List.length L <= 248)%nat.
Hypothesis HC : idle_line C.
Hypothesis LC : (List.length C <= 248)%nat.
Hypothesis CA : closed A.
Hypothesis Ff : fs name = Some F.
Notation X := (L ++ nl :: B).
Notation Y := (C ++ nl :: F ++ nl :: B).

Lemma one_pass : forall s t, blur s = blur t -> map rough (srcs (inp s)) = map rough (srcs (inp t)) ->
  maintext s = A ++ X -> maintext t = A ++ Y -> kept s -> files s = fs -> forall k s2 t2,
  comes_to n (started k s) X -> passloop n (started k s) = (Ok tt, s2) -> passloop n (started k t) = (Ok tt, t2) ->
  blur s2 = blur t2 /\ place_of s2 = place_of t2.
Proof.
  intros s t V R Ms Mt K Fi k s2 t2 (m & s' & Ro & Mr & Dn) E E'.
  assert (W : fore X Y (place_of (started k s)) (place_of (started k t))).
  { rewrite !place_started, Ms, Mt, R. exists (map rough (srcs (inp t))), A. auto. }
  assert (Ks : kept (started k s)) by (apply kept_started; exact K).
  assert (Fs : files (started k s) name = Some F) by (destruct (world_started k s) as [Q _]; rewrite Q, Fi; exact Ff).
  pose proof (before_include L C name F B HL LL HC LC n _ m s' Ro Mr Dn _ (blur_started k s t V) W Ks Fs) as Cl.
  rewrite E, E' in Cl. destruct Cl as [_ [V2 W2]]. split; [exact V2|].
  exact (pend_over _ _ W2 (loop_eof _ _ _ E)).
Qed.
Lemma both_passes : forall s t,
  (forall k s0, pass_starts n o fs (A ++ X) k s0 -> comes_to n s0 X) ->
  assemble n o (init_state fs (A ++ X)) = (Ok tt, s) -> assemble n o (init_state fs (A ++ Y)) = (Ok tt, t) -> blur s = blur t.
Proof.
  intros s t Q E E'. rewrite start_body in E, E'.
  apply body_parts in E. destruct E as (s2 & s4 & E1 & E2 & E3). apply body_parts in E'. destruct E' as (t2 & t4 & T1 & T2 & T3).
  destruct (start_facts fs (A ++ X) (A ++ Y)) as (S1 & S2 & S3 & S4). destruct (start_facts fs (A ++ Y) (A ++ X)) as (_ & _ & S5 & S6).
  pose proof (start_kept fs (A ++ X)) as S7. pose proof (start_init fs (A ++ X)) as S8. pose proof (start_first n fs (A ++ X)) as S9. rewrite E1 in S9.
  set (s0 := start fs (A ++ X)) in *. set (t0 := start fs (A ++ Y)) in *.
  assert (C1 : comes_to n (started 1 s0) X).
  { apply (Q 1). left. split; [reflexivity|]. exists s0. split; [exact S8|apply passstart_is]. }
  assert (S2' : map rough (srcs (inp s0)) = map rough (srcs (inp t0))) by (rewrite S2; reflexivity).
  destruct (one_pass s0 t0 S1 S2' S3 S5 S7 S4 1 s2 t2 C1 E1 T1) as [V2 P2].
  pose proof (J_passloop _ world_walk n (started 1 s0)) as Ws. rewrite E1 in Ws. cbn [snd] in Ws.
  pose proof (J_passloop _ world_walk n (started 1 t0)) as Wt. rewrite T1 in Wt. cbn [snd] in Wt.
  pose proof (stays_pres _ _ (J_passloop _ (pres_walk _ keeping_steps) n) (started 1 s0) (kept_started 1 s0 S7)) as K2.
  rewrite E1 in K2. cbn [snd] in K2.
  assert (C2 : comes_to n (turned o s2) X).
  { apply (Q 2). right. split; [reflexivity|]. exists s2, (snd (between o s2)). split; [exact S9|]. split; [apply between_is|apply passstart_is]. }
  assert (V4 : blur s4 = blur t4).
  { unfold turned in *. destruct (world_between o s2) as [X1 X2]. destruct (world_between o t2) as [X3 X4]. destruct Ws as [X5 X6]. destruct Wt as [X7 X8].
    destruct (world_started 1 s0) as [X9 X10]. destruct (world_started 1 t0) as [_ X12].
    refine (proj1 (one_pass (snd (between o s2)) (snd (between o t2)) (blur_between o s2 t2 V2) _ _ _ _ _ 2 s4 t4 C2 E2 T2)).
    - rewrite !between_srcs. exact (f_equal (fun p => fst (fst p)) P2).
    - rewrite X2, X6, X10. exact S3.
    - rewrite X4, X8, X12. exact S5.
    - apply kept_between. exact K2.
    - rewrite X1, X5, X9. exact S4. }
  pose proof (finish_like s4 t4 (conj V4 Logic.I)) as Cl. rewrite E3, T3 in Cl. destruct Cl as [_ [V _]]. exact V.
Qed.
End Program.

(** ** Budgets *)
Lemma rounds_budget : forall n s m s', rounds n s m s' -> forall k, rounds (k + n) s (k + m) s'.
Proof.
  intros n s m s' R k. induction R as [n s|n s r s1 m s2 E Q R IH]; [apply rounds_none|].
  rewrite Nat.add_succ_r. apply (rounds_more (k + n) s r s1); [|exact Q|exact IH].
  destruct (below_catch _ _ _ (below_passline n (k + n) (Nat.le_add_l _ _)) s) as [X|X]; [rewrite E in X; discriminate X|congruence].
Qed.
Lemma below_pass : forall n n' k, (n <= n')%nat -> below (pass n k) (pass n' k).
Proof. intros n n' k H. unfold pass. apply below_bind; [apply below_refl|intros _; apply below_passloop; exact H]. Qed.
Lemma first_budget : forall n n' s s', (n <= n')%nat -> first n s = (Ok tt, s') -> first n' s = (Ok tt, s').
Proof.
  intros n n' s s' H E. assert (X : below (first n) (first n')) by (apply below_bind; [apply below_refl|intros _; apply below_pass; exact H]).
  destruct (X s) as [Y|Y]; [rewrite E in Y; discriminate Y|congruence].
Qed.
Lemma comes_budget : forall n o fs main X, (exists s, first n (init_state fs main) = (Ok tt, s)) ->
  (forall k s0, pass_starts n o fs main k s0 -> comes_to n s0 X) -> forall n', (n <= n')%nat ->
  forall k s0, pass_starts n' o fs main k s0 -> comes_to n' s0 X.
Proof.
  intros n o fs main X (s & Es) H n' Le k s0 P.
  assert (P' : pass_starts n o fs main k s0).
  { destruct P as [P|(-> & a & b & P1 & P2)]; [left; exact P|right]. split; [reflexivity|]. exists a, b. split; [|exact P2].
    pose proof (first_budget n n' _ _ Le Es) as Q. congruence. }
  destruct (H k s0 P') as (m & s' & R & M). exists (n' - n + m)%nat, s'. split; [|exact M].
  pose proof (rounds_budget _ _ _ _ R (n' - n)) as Q. replace (n' - n + n)%nat with n' in Q by lia. exact Q.
Qed.
Lemma assemble_first : forall n o s s', assemble n o s = (Ok tt, s') -> exists s1, first n s = (Ok tt, s1).
Proof.
  intros n o s s' E. rewrite assemble_split in E. unfold bind at 1 in E. destruct (first n s) as [[[]|b] s1]; [eauto|discriminate E].
Qed.

Theorem include_inline : forall n n' o fs A L C name F B s t,
  (A = [] \/ exists a, A = a ++ [newline]) -> include_line L name -> (List.length L <= 248)%nat ->
  idle_line C -> (List.length C <= 248)%nat -> fs name = Some F ->
  (forall k s0, pass_starts n o fs (A ++ L ++ newline :: B) k s0 -> comes_to n s0 (L ++ newline :: B)) ->
  assemble n o (init_state fs (A ++ L ++ newline :: B)) = (Ok tt, s) ->
  assemble n' o (init_state fs (A ++ C ++ newline :: F ++ newline :: B)) = (Ok tt, t) ->
  same_outcome s t /\ leftover o s = leftover o t.
Proof.
  intros n n' o fs A L C name F B s t CA HL LL HC LC Ff Q E E'.
  assert (V : blur s = blur t).
  { pose proof (Nat.le_max_l n n') as Le. pose proof (Nat.le_max_r n n') as Le'. set (N := Nat.max n n') in *.
    apply (both_passes N o fs A L C name F B HL LL HC LC CA Ff).
    - exact (comes_budget n o fs _ _ (assemble_first _ _ _ _ E) Q N Le).
    - apply (assemble_budget n N _ _ _ _ Le E). discriminate.
    - apply (assemble_budget n' N _ _ _ _ Le' E'). discriminate. }
  assert (W : wr s = wr t) by exact (f_equal wr V). assert (Er : errnumber (ct s) = errnumber (ct t)) by exact (f_equal (fun x => errnumber (ct x)) V).
  split; [|unfold leftover; rewrite W, Er; reflexivity].
  split; [exact (f_equal sy V)|]. split; [exact W|]. split; [exact (f_equal emitted V)|]. split; [exact Er|].
  pose proof (f_equal reported V) as R. cbn [reported blur] in R.
  apply (f_equal (map complaint)) in R. rewrite !map_map in R. exact R.
Qed.

(** ** In the middle of a run *)
Lemma blur_outcome : forall s t, blur s = blur t -> same_outcome s t.
Proof.
  intros s t V. split; [exact (f_equal sy V)|]. split; [exact (f_equal wr V)|]. split; [exact (f_equal emitted V)|].
  split; [exact (f_equal (fun x => errnumber (ct x)) V)|]. pose proof (f_equal reported V) as R. cbn [reported blur] in R.
  apply (f_equal (map complaint)) in R. rewrite !map_map in R. exact R.
Qed.
Lemma close_agree : forall feed A (x y : res A * state), close0 feed x y -> agree x y.
Proof.
  intros feed A [[a|[]] s] [[b|[]] t] H; cbn in *; auto; destruct H as [-> [H _]]; (split; [reflexivity|apply blur_outcome; exact H]).
Qed.
Lemma Xinclude_is : forall name s s1, Xinclude (Some name) s = (Ok tt, s1) -> exists F, files s name = Some F /\ blur s1 = blur s /\
  place_of s1 = (SFile false F false false (cz 0) 0 :: map rough (srcs (inp s)), mainrest (inp s), maineof (inp s)).
Proof.
  intros name s s1 E. unfold Xinclude, bind at 1 in E. cbn [gets] in E. destruct (files s name) as [F|] eqn:Fi.
  2:{ exfalso. unfold err in E. exact (Eval.error_never _ _ _ _ _ E). }
  exists F. split; [reflexivity|].
  generalize dependent (a_list_on (fl s)). intros lo E. generalize dependent (lineprefix (inp s)). intros lp E. generalize dependent (linenumber (inp s)). intros ln E.
  assert (O : order unseen) by apply (o_order _ unseen_osteps).
  assert (U1 : pres unseen unit checkdepth).
  { unfold checkdepth. apply (pres_bind _ O); [apply (pres_gets _ O)|intros x]. unfold when. destruct (_ <=? _); [|apply (pres_ret _ O)]. intros s'. exact Logic.I. }
  assert (U2 : pres unseen unit (when lo outputline)) by (destruct lo; [apply (pres_outputline _ unseen_osteps)|apply (pres_ret _ O)]).
  unfold bind at 1 in E. specialize (U1 s). destruct (checkdepth s) as [[u|b] s2]; [|discriminate E]. cbn in U1.
  unfold bind at 1 in E. specialize (U2 s2). destruct (when lo outputline s2) as [[v|b] s3]; [|discriminate E]. cbn in U2.
  assert (V : view s3 = view s) by congruence. pose proof (view_blur _ _ V) as B. pose proof (view_place _ _ V) as P. clear U1 U2 V.
  unfold bind, upd_inp, modify in E. cbn [gets] in E. injection P as P1 P2 P3.
  assert (Q : forall f, blur (set_fl (set_a_list_on f (fl s3)) s3) = blur s3) by reflexivity.
  unfold when in E. destruct (negb _); unfold upd_fl, modify, ret in E; injection E as <-.
  - split; [exact B|]. unfold place_of. cbn [inp set_inp set_fl srcs set_srcs mainrest maineof map rough set_linenumber set_includelevel]. rewrite P1, P2, P3. reflexivity.
  - split; [exact B|]. unfold place_of. cbn [inp set_inp set_fl srcs set_srcs mainrest maineof map rough set_linenumber set_includelevel]. rewrite P1, P2, P3. reflexivity.
Qed.
Theorem include_continue : forall name F s s1, Xinclude (Some name) s = (Ok tt, s1) -> files s name = Some F ->
  maineof (inp s) = false -> (srcs (inp s) = [] \/ exists r x y z low, srcs (inp s) = SFile false r false x y z :: low) ->
  (forall n, agree (passloop n s1) (passloop n (inline F s))) /\
  (forall n k li ex, agree (run n k li ex s1) (run n k li ex (inline F s))).
Proof.
  intros name F s s1 E Fi M Sr. destruct (Xinclude_is name s s1 E) as (F' & Fi' & B & P).
  assert (F' = F) by congruence. subst F'.
  assert (V : like pend s1 (inline F s)).
  { split.
    - rewrite B. unfold inline. destruct (srcs (inp s)) as [|[] l]; reflexivity.
    - rewrite P, M. unfold inline, place_of. destruct Sr as [Q|(r & x & y & z & low & Q)]; rewrite Q; cbn [inp set_inp srcs set_srcs mainrest set_mainrest maineof map rough]; try rewrite Q; cbn [map]; clear Q.
      + rewrite M. pose proof (PMain [] false F false false (cz 0) 0 (mainrest (inp s))) as Q. cbn [app ins] in Q. rewrite <- app_assoc in Q. exact Q.
      + rewrite M. pose proof (PFile [] false F false false (cz 0) 0 r false (cz 0) 0 (map rough low) (mainrest (inp s))) as Q. cbn [app ins] in Q. rewrite <- app_assoc in Q. exact Q. }
  split.
  - intros n. apply (close_agree pend). apply pend_close; [apply (J_passloop _ pend_walk)|exact V].
  - intros n k li ex. apply (close_agree pend). apply pend_close; [apply (J_run _ pend_walk)|exact V].
Qed.

(** ** Checking that a line is reached *)
Definition is_done (x : source) : bool := match x with SFile true _ _ _ _ _ => true | _ => false end.
Fixpoint reaches (n : nat) (s : state) (X : str) : bool :=
  if streq s.(inp).(mainrest) X && forallb is_done s.(inp).(srcs) then true else
  match n with
  | O => false
  | S n' => match catch (passline n') s with
            | (Ok r, s1) => match r with None => reaches n' s1 X | Some _ => if s1.(inp).(maineof) then false else reaches n' s1 X end
            | _ => false
            end
  end.
Lemma reaches_sound : forall n s X, reaches n s X = true -> comes_to n s X.
Proof.
  assert (D : forall l, forallb is_done l = true -> Forall file_done l).
  { induction l as [|[[] ? ? ? ? ?|? ? ? ? ? ?] l IH]; cbn; intros H; try discriminate H; constructor; cbn; auto. }
  induction n as [|n IH]; intros s X H; cbn [reaches] in H.
  - destruct (_ && _) eqn:Q; [|discriminate H]. apply andb_prop in Q. destruct Q as [Q1 Q2]. exists 0%nat, s. split; [apply rounds_none|].
    split; [apply streq_eq; exact Q1|apply D; exact Q2].
  - destruct (_ && _) eqn:Q.
    + apply andb_prop in Q. destruct Q as [Q1 Q2]. exists (S n), s. split; [apply rounds_none|]. split; [apply streq_eq; exact Q1|apply D; exact Q2].
    + destruct (catch (passline n) s) as [[r|b] s1] eqn:E; [|discriminate H].
      assert (R : (r = None \/ maineof (inp s1) = false) /\ reaches n s1 X = true).
      { destruct r; [|auto]. destruct (maineof (inp s1)); [discriminate H|auto]. }
      destruct R as [R1 R2]. destruct (IH s1 X R2) as (m & s' & Ro & K). exists m, s'. split; [|exact K]. exact (rounds_more n s r s1 m s' E R1 Ro).
Qed.
Definition reaches_both (n : nat) (o : options) (fs : str -> option str) (main X : str) : bool :=
  if reaches n (started 1 (start fs main)) X then
    match passloop n (started 1 (start fs main)) with
    | (Ok _, s2) => reaches n (turned o s2) X
    | _ => true
    end
  else false.
Lemma reaches_both_sound : forall n o fs main X, reaches_both n o fs main X = true ->
  forall k s0, pass_starts n o fs main k s0 -> comes_to n s0 X.
Proof.
  intros n o fs main X H k s0 P. unfold reaches_both in H. destruct (reaches n (started 1 (start fs main)) X) eqn:R; [|discriminate H].
  apply reaches_sound. destruct P as [(-> & s & P1 & P2)|(-> & s & s' & P1 & P2 & P3)].
  - rewrite start_init in P1. rewrite passstart_is in P2. injection P1 as <-. injection P2 as <-. exact R.
  - rewrite start_first in P1. rewrite P1 in H. unfold turned in H. rewrite P2 in H. cbn [snd] in H. rewrite passstart_is in P3. injection P3 as <-. exact H.
Qed.
