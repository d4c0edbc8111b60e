(** Lemmas on the parser: names and constants. *)
From Coq Require Import String Ascii ZArith List Bool Lia ZifyBool ZifyNat.
From Verif Require Import Base BaseFacts State Tree Filter Output Label Operator Parse FilterFacts.
Import ListNotations.
Open Scope Z_scope.

(** Characters that belong to no operator. *)
Definition plain (c : ascii) : bool :=
  isalnum c || (zc c =? 36) || (zc c =? 37) || (zc c =? 46) || (zc c =? 95).

Definition avoids (pat : str) : bool :=
  existsb (fun f => negb (zc f =? 63) && negb (zc f =? 95) &&
     forallb (fun c => negb (plain c && charmatch f c)) allchars) pat.

Lemma avoids_lacks : forall pat t, avoids pat = true -> forallb plain t = true -> lacks t pat = true.
Proof.
  intros pat t H T. unfold avoids in H. apply existsb_exists in H. destruct H as (f & Hf & H).
  apply andb_true_iff in H. destruct H as [H1 H2]. unfold lacks. apply existsb_exists.
  exists f. split; [exact Hf|]. rewrite H1. cbn [andb].
  destruct (existsb (charmatch f) t) eqn:E; [|reflexivity].
  apply existsb_exists in E. destruct E as (c & Hc & Hm).
  rewrite forallb_forall in T. pose proof (byte_cases _ H2 c) as K. cbv beta in K.
  rewrite (T c Hc), Hm in K. discriminate.
Qed.

Lemma plain_noquote : forall t, forallb plain t = true -> forallb noquote t = true.
Proof.
  intros t H. rewrite forallb_forall in *. intros c Hc. specialize (H c Hc).
  assert (K : forallb (fun c => implb (plain c) (noquote c)) allchars = true) by (vm_compute; reflexivity).
  pose proof (byte_cases _ K c) as K'. cbv beta in K'. rewrite H in K'. exact K'.
Qed.

Definition rowavoids (r : row) : bool :=
  match r with
  | R2 l => forallb (fun p => avoids (s2l (fst p)) && (zlen (snd (segments (s2l (fst p)))) <=? 3)) l
  | R1 f _ | RPar f => avoids (s2l f) && (zlen (snd (segments (s2l f))) <=? 3)
  end.

Lemma trygroup_plain : forall s t l, room s t -> forallb plain t = true ->
  rowavoids (R2 l) = true -> trygroup t l s = (Ok None, s).
Proof.
  intros s t l R T. induction l as [|[f o] l IH]; intros H; [reflexivity|].
  cbn [rowavoids forallb fst] in H. apply andb_true_iff in H. destruct H as [H H'].
  apply andb_true_iff in H. destruct H as [H1 H2]. cbn [trygroup].
  unfold bind at 1. rewrite filter2_lacks; [|exact R|unfold short; lia|apply avoids_lacks; assumption].
  unfold bind at 1. rewrite IH by exact H'. reflexivity.
Qed.

Lemma parserows_plain : forall rec top r s t rows, room s t -> forallb plain t = true ->
  forallb rowavoids rows = true ->
  parserows rec top r t rows s = parserows rec top r t [] s.
Proof.
  intros rec top r s t rows R T. induction rows as [|x rows IH]; intros H; [reflexivity|].
  cbn [forallb] in H. apply andb_true_iff in H. destruct H as [H1 H2].
  destruct x as [l|f o|f]; cbn [parserows].
  - unfold bind at 1. rewrite (trygroup_plain s t l) by assumption. apply IH. exact H2.
  - unfold bind at 1. cbn [rowavoids] in H1. apply andb_true_iff in H1. destruct H1 as [H1 H3].
    rewrite filter1_lacks; [apply IH; exact H2|exact R|unfold short; lia|apply avoids_lacks; assumption].
  - unfold bind at 1. cbn [rowavoids] in H1. apply andb_true_iff in H1. destruct H1 as [H1 H3].
    rewrite filter1_lacks; [apply IH; exact H2|exact R|unfold short; lia|apply avoids_lacks; assumption].
Qed.

(** A text without operator characters is a name or a constant. *)
Theorem parse_plain : forall t s, t <> [] -> room s t -> forallb plain t = true ->
  parse t s =
  (if checklabel t then cstlabel true t s
   else trycst true s.(ct).(calcresult) t cstlist s).
Proof.
  intros t s Ht R T. unfold parse. destruct t as [|c t]; [congruence|]. clear Ht.
  set (e := c :: t) in *. unfold bind at 1.
  rewrite filter1_lacks; [|exact R|discriminate|apply avoids_lacks; [vm_compute; reflexivity|exact T]].
  unfold bind at 1. cbn [when ret]. unfold bind at 1. cbn [gets]. cbn [parse2].
  rewrite (reverse_plain e) by (apply plain_noquote; exact T).
  rewrite parserows_plain.
  - cbn [parserows]. rewrite (reverse_plain (rev e)) by (rewrite forallb_rev; apply plain_noquote; exact T).
    rewrite rev_involutive. destruct (checklabel e); reflexivity.
  - unfold room, zlen in *. rewrite rev_length. exact R.
  - rewrite forallb_rev. exact T.
  - vm_compute. reflexivity.
Qed.
