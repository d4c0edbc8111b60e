(** Texts that give the same lines.  Nothing here is part of the model. *)
From Coq Require Import String Ascii ZArith List Bool Lia.
From Verif Require Import Base State Tree Output Macro Crasm Walk Frame JoinFacts.
Import ListNotations.
Open Scope Z_scope.

(** ** Lines of a text *)
Lemma zc_nl : (zc nl =? 10) = true.
Proof. reflexivity. Qed.
Lemma fgets_end : forall n rest t r, fgets n rest = (t, r, true) ->
  r = [] /\ forall b, fgets n (rest ++ nl :: b) = (t ++ [nl], b, false).
Proof.
  induction n as [|n IH]; intros rest t r E; [discriminate E|]. destruct rest as [|c rest].
  - injection E as <- <-. split; [reflexivity|]. intros b. cbn [app fgets]. rewrite zc_nl. reflexivity.
  - cbn [fgets] in E. destruct (zc c =? 10) eqn:C; [discriminate E|].
    destruct (fgets n rest) as [[t' r'] e] eqn:F. injection E as <- <- ->. destruct (IH _ _ _ F) as [-> K].
    split; [reflexivity|]. intros b. cbn [app fgets]. rewrite C, K. reflexivity.
Qed.
Lemma fgets_more : forall n rest t r, fgets n rest = (t, r, false) -> forall x, fgets n (rest ++ x) = (t, r ++ x, false).
Proof.
  induction n as [|n IH]; intros rest t r E x.
  - injection E as <- <-. reflexivity.
  - destruct rest as [|c rest]; [discriminate E|]. cbn [app fgets] in *. destruct (zc c =? 10) eqn:C.
    + injection E as <- <-. reflexivity.
    + destruct (fgets n rest) as [[t' r'] e] eqn:F. injection E as <- <- ->. rewrite (IH _ _ _ F). reflexivity.
Qed.
Lemma uptonl_end : forall t, uptonl (t ++ [nl]) = uptonl t.
Proof.
  induction t as [|c t IH]; cbn [app uptonl].
  - rewrite zc_nl, orb_true_r. reflexivity.
  - destruct (_ || _); [reflexivity|]. rewrite IH. reflexivity.
Qed.
(** Reading a text that ends with a line end. *)
Definition closed (a : str) : Prop := a = [] \/ exists a', a = a' ++ [nl].
Lemma fgets_closed : forall n a', exists t r, closed r /\ forall x, fgets n ((a' ++ [nl]) ++ x) = (t, r ++ x, false).
Proof.
  induction n as [|n IH]; intros a'.
  - exists [], (a' ++ [nl]). split; [right; exists a'; reflexivity|]. intros x. reflexivity.
  - destruct a' as [|c a'].
    + exists [nl], []. split; [left; reflexivity|]. intros x. cbn [app fgets]. rewrite zc_nl. reflexivity.
    + cbn [app fgets]. destruct (zc c =? 10) eqn:C.
      * exists [c], (a' ++ [nl]). split; [right; exists a'; reflexivity|]. intros x. reflexivity.
      * destruct (IH a') as (t & r & Cl & K). exists (c :: t), r. split; [exact Cl|]. intros x. rewrite K. reflexivity.
Qed.
Lemma fgets_reads : forall n c x, zlen (snd (fst (fgets (S n) (c :: x)))) < zlen (c :: x).
Proof.
  intros n c x. cbn [fgets]. destruct (zc c =? 10).
  - cbn [fst snd]. unfold zlen. cbn [List.length]. lia.
  - pose proof (fgets_rest n x) as L. destruct (fgets n x) as [[t r] e]. cbn [fst snd] in *. unfold zlen in *. cbn [List.length]. lia.
Qed.
(** Reading a whole line. *)
Lemma fgets_line : forall n l b, (List.length l < n)%nat -> Forall (fun c => (zc c =? 10) = false) l ->
  fgets n (l ++ nl :: b) = (l ++ [nl], b, false).
Proof.
  induction n as [|n IH]; intros l b L F; [lia|]. destruct l as [|c l]; cbn [app fgets].
  - rewrite zc_nl. reflexivity.
  - inversion F as [|? ? C F']; subst. rewrite C, IH; [reflexivity|cbn in L; lia|exact F'].
Qed.
Lemma uptonl_line : forall l, Forall (fun c => keepchar c = true) l -> uptonl (l ++ [nl]) = l.
Proof.
  intros l F. rewrite uptonl_end. induction F as [|c l C F IH]; [reflexivity|]. cbn [uptonl].
  assert (K : (zc c =? 0) || (zc c =? 10) = false).
  { unfold keepchar in C. destruct ((zc c =? 0) || (zc c =? 10)) eqn:K; [|reflexivity]. exfalso.
    assert (X : zc c = 0 \/ zc c = 10) by lia. unfold isprint, isascii in C. destruct X as [X|X]; rewrite X in C; discriminate C. }
  rewrite K, IH. reflexivity.
Qed.
Lemma keep_all : forall l, Forall (fun c => keepchar c = true) l -> List.filter keepchar l = l.
Proof. intros l F. induction F as [|c l C F IH]; [reflexivity|]. cbn [List.filter]. rewrite C, IH. reflexivity. Qed.

(** ** A file being read against the same text in the file below it *)
Definition ins (ended : bool) (rest : str) : str := if ended then [] else rest ++ [nl].
Inductive pend : place -> place -> Prop :=
| PAfter : forall p, pend p p
| PMain : forall top ended rest c x y z r,
    pend (top ++ [SFile ended rest c x y z], r, false) (top, ins ended rest ++ r, false)
| PFile : forall top ended rest c x y z r0 x0 y0 z0 low r,
    pend (top ++ SFile ended rest c x y z :: SFile false r0 false x0 y0 z0 :: low, r, false)
         (top ++ SFile false (ins ended rest ++ r0) false x0 y0 z0 :: low, r, false).
Lemma dropped_app : forall a b, (dropped a = [] /\ dropped (a ++ b) = dropped b) \/
  (exists x l, dropped a = x :: l /\ dropped (a ++ b) = (x :: l) ++ b).
Proof.
  induction a as [|[[] ? ? ? ? ?|? ? ? ? ? ?] a IH]; intros b; cbn [app dropped].
  - left. split; reflexivity.
  - apply IH.
  - right. eexists _, _. split; reflexivity.
  - right. eexists _, _. split; reflexivity.
Qed.
Lemma pend_eof : forall p q, pend p q -> snd p = snd q.
Proof. intros p q []; reflexivity. Qed.
Lemma pend_push : forall x l r e l' r' e', pend (l, r, e) (l', r', e') -> pend (x :: l, r, e) (x :: l', r', e').
Proof.
  intros x l r e l' r' e' H. inversion H; subst.
  - apply PAfter.
  - exact (PMain (x :: l') ended rest c x0 y z r).
  - exact (PFile (x :: top) ended rest c x0 y z r0 x1 y0 z0 low r').
Qed.
Ltac rdone := split; [reflexivity|].
Lemma pend_fetch : forall p q, pend p q -> zlen (rest_of (snd (fetch p))) < 0 \/
  (fst (fetch p) = fst (fetch q) /\ pend (snd (fetch p)) (snd (fetch q))).
Proof.
  intros p q H. right. destruct H as [p|top ended rest c x y z r|top ended rest c x y z r0 x0 y0 z0 low r].
  - split; [reflexivity|apply PAfter].
  - unfold fetch. destruct (dropped_app top [SFile ended rest c x y z]) as [[D ->]|(u & l & D & ->)]; rewrite D.
    + destruct ended; cbn [dropped ins app].
      * destruct (fgets 249 r) as [[t r'] e]. split; [reflexivity|apply PAfter].
      * destruct (fgets 249 rest) as [[t rest'] e] eqn:F. destruct e.
        -- destruct (fgets_end _ _ _ _ F) as [-> K]. rewrite <- app_assoc. cbn [app]. rewrite K. cbn [fst snd].
           rewrite uptonl_end. split; [reflexivity|]. exact (PMain [] true [] true x y z r).
        -- rewrite <- app_assoc. rewrite (fgets_more _ _ _ _ F). cbn [fst snd]. split; [reflexivity|].
           pose proof (PMain [] false rest' false x y z r) as K. cbn [app ins] in K. rewrite <- app_assoc in K. exact K.
    + destruct u as [a b d e f g|[|w lines] b d e f g]; cbn [app].
      * destruct (fgets 249 b) as [[t b'] e']. split; [reflexivity|]. exact (PMain (SFile e' b' e' e f g :: l) ended rest c x y z r).
      * split; [reflexivity|apply PMain].
      * split; [reflexivity|]. exact (PMain (SMac lines b d e f g :: l) ended rest c x y z r).
  - unfold fetch. destruct (dropped_app top (SFile ended rest c x y z :: SFile false r0 false x0 y0 z0 :: low)) as [[D ->]|(u & l & D & ->)];
      (destruct (dropped_app top (SFile false (ins ended rest ++ r0) false x0 y0 z0 :: low)) as [[D' ->]|(u' & l' & D' & ->)]);
      rewrite D in D'; try discriminate D'.
    + destruct ended; cbn [dropped ins app].
      * destruct (fgets 249 r0) as [[t r'] e]. split; [reflexivity|apply PAfter].
      * destruct (fgets 249 rest) as [[t rest'] e] eqn:F. destruct e.
        -- destruct (fgets_end _ _ _ _ F) as [-> K]. rewrite <- app_assoc. cbn [app]. rewrite K. cbn [fst snd].
           rewrite uptonl_end. split; [reflexivity|]. 
           exact (PFile [] true [] true x y z r0 x0 y0 z0 low r).
        -- rewrite <- app_assoc. rewrite (fgets_more _ _ _ _ F). cbn [fst snd]. split; [reflexivity|].
           pose proof (PFile [] false rest' false x y z r0 x0 y0 z0 low r) as K. cbn [app ins] in K. rewrite <- app_assoc in K. exact K.
    + injection D' as <- <-. destruct u as [a b d e f g|[|w lines] b d e f g]; cbn [app].
      * destruct (fgets 249 b) as [[t b'] e']. split; [reflexivity|]. exact (PFile (SFile e' b' e' e f g :: l) ended rest c x y z r0 x0 y0 z0 low r).
      * split; [reflexivity|apply PFile].
      * split; [reflexivity|]. exact (PFile (SMac lines b d e f g :: l) ended rest c x y z r0 x0 y0 z0 low r).
Qed.

(** ** Two main files that start alike *)
Definition fore (X Y : str) (p q : place) : Prop :=
  exists l a, p = (l, a ++ X, false) /\ q = (l, a ++ Y, false) /\ closed a.
Lemma fore_eof : forall X Y p q, fore X Y p q -> snd p = snd q.
Proof. intros X Y p q (l & a & -> & -> & _). reflexivity. Qed.
Lemma fore_push : forall X Y x l r e l' r' e', fore X Y (l, r, e) (l', r', e') -> fore X Y (x :: l, r, e) (x :: l', r', e').
Proof.
  intros X Y x l r e l' r' e' (l0 & a & E & E' & C). injection E as -> -> ->. injection E' as -> -> ->. exists (x :: l0), a. auto.
Qed.
Lemma fore_fetch : forall X Y, X <> [] -> forall p q, fore X Y p q -> zlen (rest_of (snd (fetch p))) < zlen X \/
  (fst (fetch p) = fst (fetch q) /\ fore X Y (snd (fetch p)) (snd (fetch q))).
Proof.
  intros X Y N p q (l & a & -> & -> & C). unfold fetch. destruct (dropped l) as [|[b rest c x y z|[|w lines] b d e f g] l'].
  - destruct C as [-> | [a' ->]].
    + left. cbn [app]. destruct X as [|c X]; [contradiction|]. pose proof (fgets_reads 248 c X) as L.
      destruct (fgets 249 (c :: X)) as [[t r] e]. exact L.
    + right. destruct (fgets_closed 249 a') as (t & r & Cl & K). rewrite !K. cbn [fst snd]. split; [reflexivity|].
      exists [], r. auto.
  - right. destruct (fgets 249 rest) as [[t r] e]. split; [reflexivity|]. exists (SFile e r e x y z :: l'), a. auto.
  - right. split; [reflexivity|]. exists l, a. auto.
  - right. split; [reflexivity|]. exists (SMac lines b d e f g :: l'), a. auto.
Qed.
