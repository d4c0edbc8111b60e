(** The recursion budget of the model has no influence on a run that ends within it.
    Nothing here is part of the model. *)
From Coq Require Import String Ascii ZArith List Bool Lia.
From Verif Require Import Base State Tree Filter Output Label Operator Parse Scode Tables.
From Verif Require Import Cpu6800 Cpu6502 CpuZ80 Pseudos Macro Xref Crasm.
Import ListNotations.
Open Scope Z_scope.

(** The second computation does what the first one does, unless the first one runs out of budget. *)
Definition below {A} (m m' : M A) : Prop := forall s, fst (m s) = Bad NoFuel \/ m s = m' s.

Lemma below_refl : forall A (m : M A), below m m.
Proof. intros A m s. right. reflexivity. Qed.
Lemma below_out : forall A (m : M A), below (stop NoFuel) m.
Proof. intros A m s. left. reflexivity. Qed.
Lemma below_bind : forall A B (m m' : M A) (k k' : A -> M B), below m m' -> (forall a, below (k a) (k' a)) ->
  below (bind m k) (bind m' k').
Proof.
  intros A B m m' k k' H K s. unfold bind. destruct (H s) as [E|E].
  - left. destruct (m s) as [[a|b] s1]; cbn [fst] in E; [discriminate|]. injection E as ->. reflexivity.
  - rewrite <- E. destruct (m s) as [[a|b] s1]; [apply K|right; reflexivity].
Qed.
Lemma below_catch : forall A (m m' : M A), below m m' -> below (catch m) (catch m').
Proof.
  intros A m m' H s. unfold catch. destruct (H s) as [E|E].
  - left. destruct (m s) as [[a|b] s1]; cbn [fst] in E; [discriminate|]. injection E as ->. reflexivity.
  - rewrite <- E. right. reflexivity.
Qed.

Ltac b1 :=
  lazymatch goal with
  | |- below ?m ?m => apply below_refl
  | |- below (bind _ _) (bind _ _) => apply below_bind; [ | intros ]
  | |- below (catch _) (catch _) => apply below_catch
  | |- below (when _ _) (when _ _) => unfold when
  | |- below (match ?x with _ => _ end) _ => destruct x
  | |- below (let (_, _) := ?x in _) _ => destruct x
  end.
Ltac b := repeat first [b1 | solve [auto]].

Lemma below_macrolines : forall n n' li acc, (n <= n')%nat -> below (macrolines n li acc) (macrolines n' li acc).
Proof.
  induction n as [|n IH]; intros n' li acc L; [apply below_out|]. destruct n' as [|n']; [lia|]. cbn [macrolines].
  assert (L' : (n <= n')%nat) by lia. b.
Qed.
Section Self.
Variables self self' : kind -> bool -> bool -> M flag.
Hypothesis H : forall k li ex, below (self k li ex) (self' k li ex).
Lemma below_ifround : forall li ex, below (ifround self li ex) (ifround self' li ex).
Proof. intros. unfold ifround. b. Qed.
Lemma below_macround : forall li ex, below (macround self li ex) (macround self' li ex).
Proof. intros. unfold macround. b. Qed.
Lemma below_Xif : forall li ex o, below (Xif self li ex o) (Xif self' li ex o).
Proof. intros. unfold Xif. b. Qed.
Lemma below_macrocall : forall key ptr li o, below (macrocall self key ptr li o) (macrocall self' key ptr li o).
Proof. intros. unfold macrocall. b. Qed.
Variables n n' : nat.
Hypothesis L : (n <= n')%nat.
Lemma below_Xmacro : forall li ex l o, below (Xmacro n li ex l o) (Xmacro n' li ex l o).
Proof. intros. pose proof below_macrolines. unfold Xmacro. b. Qed.
Lemma below_dispatch : forall li ex key l label oper,
  below (dispatch self n li ex key l label oper) (dispatch self' n' li ex key l label oper).
Proof. intros. pose proof below_Xmacro. pose proof below_Xif. pose proof below_macrocall. unfold dispatch, execblock. b. Qed.
Lemma below_asmline : forall li ex, below (asmline self n li ex) (asmline self' n' li ex).
Proof. intros. pose proof below_dispatch. unfold asmline. b. Qed.
End Self.
Lemma below_run : forall n n' k li ex, (n <= n')%nat -> below (run n k li ex) (run n' k li ex).
Proof.
  induction n as [|n IH]; intros n' k li ex L; [apply below_out|]. destruct n' as [|n']; [lia|].
  assert (L' : (n <= n')%nat) by lia. cbn [run].
  destruct k; [apply below_asmline|apply below_ifround|apply below_macround]; auto.
Qed.
Lemma below_passline : forall n n', (n <= n')%nat -> below (passline n) (passline n').
Proof. intros n n' L. pose proof (fun k li ex => below_run n n' k li ex L). unfold passline. b. Qed.
Lemma below_passloop : forall n n', (n <= n')%nat -> below (passloop n) (passloop n').
Proof.
  induction n as [|n IH]; intros n' L; [apply below_out|]. destruct n' as [|n']; [lia|].
  assert (L' : (n <= n')%nat) by lia. pose proof (below_passline n n' L'). cbn [passloop]. b.
Qed.
Lemma below_assemble : forall n n' o, (n <= n')%nat -> below (assemble n o) (assemble n' o).
Proof. intros n n' o L. pose proof (below_passloop n n' L). unfold assemble, pass. b. Qed.

Theorem assemble_budget : forall n n' o s r s', (n <= n')%nat -> assemble n o s = (r, s') -> r <> Bad NoFuel ->
  assemble n' o s = (r, s').
Proof.
  intros n n' o s r s' L E N. destruct (below_assemble n n' o L s) as [F|F]; [rewrite E in F; contradiction|]. rewrite <- F. exact E.
Qed.
Theorem observe_budget : forall n n' o s x, (n <= n')%nat -> observe n o s = x -> x <> Crash NoFuel -> observe n' o s = x.
Proof.
  intros n n' o s x L <- N. unfold observe in *. destruct (below_assemble n n' o L s) as [F|F].
  - destruct (assemble n o s) as [r s1]. cbn [fst] in F. subst r. contradiction N. reflexivity.
  - rewrite <- F. reflexivity.
Qed.
Theorem program_budget : forall n n' fs args x, (n <= n')%nat -> program n fs args = x -> x <> Crash NoFuel -> program n' fs args = x.
Proof.
  intros n n' fs args x L <- N. unfold program in *. destruct (arguments args opt0) as [o|m]; [|reflexivity].
  destruct (o_input o) as [name|]; [|reflexivity]. destruct (fs name) as [text|]; [|reflexivity].
  exact (observe_budget n n' o _ _ L eq_refl N).
Qed.
