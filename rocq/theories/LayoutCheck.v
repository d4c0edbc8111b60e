(** Deciding the conditions of the layout theorem for a given program. *)
From Coq Require Import String Ascii ZArith List Bool Lia.
From Verif Require Import Base State Tree Output Label Macro Crasm Run.
From Verif Require Import SpecStar SpecJoin SpecLayout TreeFacts LayoutRun.
From Verif Require BaseFacts.
Import ListNotations.
Open Scope Z_scope.

Definition lateb (e : str) : bool :=
  streq e (s2l "too long branch") || streq e (s2l "Bad RST vector") || streq e (s2l "Bad interruption mode").
Definition apart (s : state) : option fields :=
  match linestart s with
  | (Ok _, s1) => match stripline s1 with
                  | (Ok (c :: t), s2) => match splitline (c :: t) s2 with (Ok q, _) => Some q | _ => None end
                  | _ => None
                  end
  | _ => None
  end.
Definition ordinaryb (q : fields) : bool :=
  match q.(q_mnemo) with
  | Some (_, l) => negb (existsb (Ascii.eqb "."%char) q.(q_text)) &&
      match l.(l_type), l.(l_ptr) with TMacro, _ => false | _, PFun HInclude => false | _, _ => true end &&
      negb l.(l_flags).(f_defcond) && negb l.(l_flags).(f_defmacro)
  | None => true
  end.
Definition reservesb (q : fields) : bool := match q.(q_mnemo) with Some (_, l) => match l.(l_ptr) with PFun HDs => true | _ => false end | None => false end.
Fixpoint checked (n : nat) (s : state) : bool :=
  match n with
  | O => true
  | S m =>
      match linegets s with
      | (Ok _, a) => match apart a with
                     | Some q => ordinaryb q && (if reservesb q then match run m KLine true true a with (Ok _, b) => negb b.(ct).(calcresult).(r_flags).(f_forward) | _ => true end else true)
                     | None => true
                     end
      | _ => true
      end &&
      match passline m s with
      | (Ok _, s1) => if s1.(inp).(maineof) then true else checked m s1
      | (Bad (Err e), s1) => lateb e && checked m (set_ct (set_errnumber (s1.(ct).(errnumber) + 1) s1.(ct)) s1)
      | _ => true
      end
  end.
Lemma lateb_ok : forall e, lateb e = true -> late e.
Proof.
  intros e H. unfold lateb in H. rewrite !orb_true_iff in H. unfold late. destruct H as [[H|H]|H]; apply BaseFacts.streq_eq in H; auto.
Qed.
Lemma ordinaryb_ok : forall q, ordinaryb q = true -> ordinary q.
Proof.
  intros q H. unfold ordinary, direct, plainly, undotted, of_its_own. unfold ordinaryb in H.
  destruct (q_mnemo q) as [[k l]|]; [|repeat split; congruence].
  rewrite !andb_true_iff, !negb_true_iff in H. destruct H as [[[A B] C] D]. split; [|split].
  - intros _ I. assert (X : existsb (Ascii.eqb "."%char) (q_text q) = true) by (apply existsb_exists; exists "."%char; split; [exact I|apply Ascii.eqb_refl]). congruence.
  - split; [|split; assumption]. intros E. rewrite E in B. discriminate B.
  - intros E. rewrite E in B. destruct (l_type l); discriminate B.
Qed.
Lemma apart_ok : forall s q, taken_apart s q -> apart s = Some q.
Proof.
  intros s q (s1 & t & s2 & s3 & A & B & C & D). unfold apart. rewrite A, B. destruct t; [congruence|]. rewrite D. reflexivity.
Qed.
Lemma reservesb_ok : forall q, reserves q -> reservesb q = true.
Proof. intros q (k & l & A & B). unfold reservesb. rewrite A, B. reflexivity. Qed.
Lemma checked_here : forall m s, checked (S m) s = true ->
  (forall a q, linegets s = (Ok tt, a) -> taken_apart a q ->
     ordinary q /\ (reserves q -> forall f b, run m KLine true true a = (Ok f, b) -> settled b.(ct).(calcresult))) /\
  (forall e s', passline m s = (Bad (Err e), s') -> late e) /\
  (forall s', turn_ok m s s' -> checked m s' = true).
Proof.
  intros m s H. cbn [checked] in H. apply andb_prop in H. destruct H as [A B]. split; [|split].
  - intros a q E T. rewrite E, (apart_ok _ _ T) in A. apply andb_prop in A. destruct A as [A1 A2]. split; [apply ordinaryb_ok; exact A1|].
    intros R f b Er. rewrite (reservesb_ok _ R), Er in A2. unfold settled. apply negb_true_iff in A2. exact A2.
  - intros e s' E. rewrite E in B. apply andb_prop in B. apply lateb_ok, B.
  - intros s' (r & E & C). unfold catch in E. destruct (passline m s) as [[u|[e|?|?| |]] s1]; try discriminate E.
    + injection E as <- <-. destruct C as [C|C]; [discriminate C|]. rewrite C in B. exact B.
    + apply andb_prop in B. destruct B as [_ B]. injection E as <- <-. exact B.
Qed.
Lemma checked_rounds : forall n s m t, rounds n s m t -> checked n s = true -> checked m t = true.
Proof.
  intros n s m t R. induction R as [|n s r s1 m s2 E C R IH]; [auto|]. intros H. apply IH.
  destruct (checked_here _ _ H) as (_ & _ & K). apply K. exists r. auto.
Qed.
Lemma checked_straight : forall n s, checked n s = true -> straight n s.
Proof. intros n s H m t a q R. destruct (checked_here _ _ (checked_rounds _ _ _ _ R H)) as (K & _). apply K. Qed.
Lemma checked_late : forall n s, checked n s = true -> forall e, complains n s e -> late e.
Proof. intros n s H e (m & t & t' & R & E). destruct (checked_here _ _ (checked_rounds _ _ _ _ R H)) as (_ & K & _). exact (K _ _ E). Qed.
Definition numbersb (k : str) (l : label) : bool :=
  negb l.(l_flags).(f_forward) || (negb (streq k starkey) && match l.(l_type) with TAbs => true | _ => false end).
Lemma numbersb_ok : forall t, tall numbersb t = true -> forward_numbers t.
Proof.
  intros t H k l E F. pose proof (tall_find _ _ _ _ H E) as K. unfold numbersb in K. rewrite F in K. cbn in K. apply andb_prop in K. destruct K as [A B].
  split; [intros ->; discriminate A|]. destruct (l_type l); congruence.
Qed.
Lemma whole : forall A (p : res A * state) x, fst p = Ok x -> p = (Ok x, snd p).
Proof. intros A [r s] x E. cbn in *. congruence. Qed.
Lemma starts_meet : forall n o fs m, fst (init_label_list Tables.pseudos (init_state fs m)) = Ok tt -> fst (first n (init_state fs m)) = Ok tt ->
  pass_starts n o fs m 1 (snd (passstart 1 (snd (init_label_list Tables.pseudos (init_state fs m))))) /\
  pass_starts n o fs m 2 (snd (passstart 2 (snd (between o (snd (first n (init_state fs m))))))).
Proof.
  intros n o fs m A B. apply whole in A, B. split; [left|right]; split; auto.
  - exists (snd (init_label_list Tables.pseudos (init_state fs m))). split; [exact A|]. rewrite passstart_eq. reflexivity.
  - exists (snd (first n (init_state fs m))), (snd (between o (snd (first n (init_state fs m))))). split; [exact B|]. rewrite between_eq, passstart_eq. split; reflexivity.
Qed.

(** Deciding [steadily]. *)
Definition assignsb (q : fields) : option str :=
  match q.(q_mnemo) with Some (_, l) => match l.(l_ptr) with PFun HEqu => q.(q_label) | _ => None end | None => None end.
Lemma assignsb_ok : forall q x, assigns q x -> assignsb q = Some x.
Proof. intros q x (A & k & l & B & C). unfold assignsb. rewrite B, C. exact A. Qed.
Fixpoint steadyb (n : nat) (s : state) (k : str) : bool :=
  match n with
  | O => true
  | S m =>
      match linegets s with
      | (Ok _, a) => match apart a with
                     | Some q => match assignsb q with
                                 | Some x => match run m KLine true true a with
                                             | (Ok _, b) => negb (streq (lkey b.(inp).(segment) x) k) || negb b.(ct).(calcresult).(r_flags).(f_forward)
                                             | _ => true
                                             end
                                 | None => true
                                 end
                     | None => true
                     end
      | _ => true
      end &&
      match passline m s with
      | (Ok _, s1) => if s1.(inp).(maineof) then true else steadyb m s1 k
      | (Bad (Err e), s1) => steadyb m (set_ct (set_errnumber (s1.(ct).(errnumber) + 1) s1.(ct)) s1) k
      | _ => true
      end
  end.
Lemma steady_here : forall m s k, steadyb (S m) s k = true ->
  (forall a q x f b, linegets s = (Ok tt, a) -> taken_apart a q -> assigns q x -> run m KLine true true a = (Ok f, b) ->
     lkey b.(inp).(segment) x = k -> settled b.(ct).(calcresult)) /\
  (forall s', turn_ok m s s' -> steadyb m s' k = true).
Proof.
  intros m s k H. cbn [steadyb] in H. apply andb_prop in H. destruct H as [A B]. split.
  - intros a q x f b E T As Er K. rewrite E, (apart_ok _ _ T), (assignsb_ok _ _ As), Er in A.
    rewrite K in A. unfold settled. destruct (f_forward _); [|reflexivity]. rewrite BaseFacts.streq_refl in A. discriminate A.
  - intros s' (r & E & C). unfold catch in E. destruct (passline m s) as [[u|[e|?|?| |]] s1]; try discriminate E.
    + injection E as <- <-. destruct C as [C|C]; [discriminate C|]. rewrite C in B. exact B.
    + injection E as <- <-. exact B.
Qed.
Lemma steadyb_rounds : forall n s m t, rounds n s m t -> forall k, steadyb n s k = true -> steadyb m t k = true.
Proof.
  intros n s m t R. induction R as [|n s r s1 m s2 E C R IH]; [auto|]. intros k H. apply IH.
  destruct (steady_here _ _ _ H) as (_ & K). apply K. exists r. auto.
Qed.
Lemma steadyb_ok : forall n s k, steadyb n s k = true -> steadily n s k.
Proof. intros n s k H m t a q x f b R. destruct (steady_here _ _ _ (steadyb_rounds _ _ _ _ R _ H)) as (K & _). apply K. Qed.
