(** How a single instruction ends, from a page format that PAGE can select.  Nothing here
    is part of the model. *)
From Coq Require Import String Ascii ZArith List Bool Lia.
From Verif Require Import Base State Tree Filter Output Label Operator Parse Scode Tables.
From Verif Require Import Cpu6800 Cpu6502 CpuZ80 Pseudos Macro Xref Crasm.
From Verif Require Import EndFacts ParseEnd SpecEnd Local.
Import ListNotations.
Open Scope Z_scope.

(** The outcomes of an instruction other than FAIL and INCLUDE. *)
Definition line_bad (b : bad) (s' : state) : Prop :=
  reg_bad b s' \/ b = UB "scode: null stream" \/ exists w, In w local_ub /\ b = UB w.

Ltac lb H := left; split; [exact H|intros [B|B]; discriminate B].
Lemma lbL : forall s, s.(ls).(llen) = 1000 -> line_bad (UB "linebuffer overflow") s.
Proof. intros s H. lb (pbL s H). Qed.
Lemma lbF : forall s, line_bad (UB "filter: buffer overflow") s.
Proof. intros s. lb (pbF s). Qed.
Lemma lbX : forall m s, line_bad (Exit m) s.
Proof. intros m s. lb I. Qed.
Lemma lbE : forall m s, line_bad (Err m) s.
Proof. intros m s. lb I. Qed.
Lemma lbM : forall s, ~ 0 <= s.(inp).(linenumber) < 10000000 -> line_bad (UB "error: message buffer overflow") s.
Proof. intros s H. lb (pbM s H). Qed.
Lemma lbS : forall s, line_bad (UB "star: signed overflow") s.
Proof. intros s. lb (pbS s). Qed.

Notation L := (ends line_bad).

Lemma ends_mono : forall (P Q : bad -> state -> Prop) A (m : M A), (forall b s, P b s -> Q b s) -> ends P A m -> ends Q A m.
Proof.
  intros P Q A m I H s W. specialize (H s W). destruct (m s) as [[a|b] s']; [exact H|].
  split; [exact (proj1 H)|apply I; exact (proj2 H)].
Qed.
Lemma l_parse : forall t, L _ (parse t).
Proof. intros t. apply (ends_mono reg_bad); [intros b s H; left; exact H|apply e_parse_reg]. Qed.
Lemma l_err : forall A m, zlen (s2l m) <=? 64 = true -> L A (err m).
Proof. exact (ends_err _ lbL lbF lbX lbE lbM lbS). Qed.
Lemma l_warning : forall m, L _ (warning m).
Proof. exact (ends_warning _). Qed.
Lemma l_outputline : L _ outputline.
Proof. exact (ends_outputline _ lbL lbF lbX). Qed.
Lemma l_outputEOL : L _ outputEOL.
Proof. exact (ends_outputEOL _ lbL lbF lbX). Qed.
Lemma l_filterc : forall t p, L _ (filterc t p).
Proof. exact (ends_filterc _ lbF). Qed.
Lemma l_filter2 : forall t p, L _ (filter2 t p).
Proof. exact (e_filter2 _ lbF). Qed.
Lemma l_star_advance : L _ star_advance.
Proof. exact (ends_star_advance _ lbS). Qed.
Lemma l_outputbyte : forall b, L _ (outputbyte b).
Proof. exact (ends_outputbyte _ lbL lbF lbX). Qed.

Ltac um := apply ends_modify; [let s0 := fresh in let W0 := fresh in intros s0 W0; exact W0|intro; unfold kept; repeat split; reflexivity].
Ltac l1 :=
  lazymatch goal with
  | |- L _ (bind _ _) => apply ends_bind; [ | intros ]
  | |- L _ (ret _) => apply ends_ret
  | |- L _ (gets _) => apply ends_gets
  | |- L _ (when _ _) => unfold when
  | |- L _ (err _) => apply l_err; reflexivity
  | |- L _ (warning _) => apply l_warning
  | |- L _ outputline => apply l_outputline
  | |- L _ outputEOL => apply l_outputEOL
  | |- L _ (outputbyte _) => apply l_outputbyte
  | |- L _ star_advance => apply l_star_advance
  | |- L _ (filterc _ _) => apply l_filterc
  | |- L _ (filter2 _ _) => apply l_filter2
  | |- L _ (parse _) => apply l_parse
  | |- L _ (upd_ls _) => um
  | |- L _ (upd_fl _) => um
  | |- L _ (upd_ct _) => um
  | |- L _ (upd_sy _) => um
  | |- L _ (upd_inp _) => um
  | |- L _ (upd_wr _) => um
  | |- L _ (upd_cp _) => um
  | |- L _ (modify _) => um
  | |- L _ (match ?x with _ => _ end) => destruct x
  | |- L _ (let (_, _) := ?x in _) => destruct x
  end.
Ltac l := repeat first [l1 | progress (cbv beta zeta)].

(** The end of a page. *)
Lemma raw_pos : forall t s r s', s.(fl).(a_list_on) = true -> 0 < s.(ls).(ppos) -> outputraw t s = (r, s') ->
  s'.(fl) = s.(fl) /\ s'.(ls).(plen) = s.(ls).(plen) /\
  (s'.(ls).(ppos) = 0 \/ s'.(ls).(ppos) = s.(ls).(ppos) + 1 /\ (s'.(ls).(ppos) < s.(ls).(plen) \/ s.(ls).(plen) = 0)).
Proof.
  intros t s r s' F P E. unfold outputraw in E. unfold bind at 1 in E. cbn [gets] in E. rewrite F in E.
  replace (ppos (ls s) =? 0) with false in E by (symmetry; apply Z.eqb_neq; lia).
  unfold bind, ret, print, upd_ls, modify, gets in E.
  match type of E with context [if ?c then _ else _] => destruct c eqn:C end; injection E as <- <-; cbn.
  - repeat split. left. reflexivity.
  - repeat split. right. split; [reflexivity|]. cbn in C. lia.
Qed.

Lemma EOL_pos : forall s r s', s.(fl).(a_list_on) = true -> 0 < s.(ls).(ppos) -> outputEOL s = (r, s') ->
  s'.(fl) = s.(fl) /\ s'.(ls).(plen) = s.(ls).(plen) /\
  (s'.(ls).(ppos) = 0 \/ s'.(ls).(ppos) = s.(ls).(ppos) + 1 /\ (s'.(ls).(ppos) < s.(ls).(plen) \/ s.(ls).(plen) = 0)).
Proof.
  intros s r s' F P E. unfold outputEOL, bind in E. cbn [gets] in E.
  destruct (outputraw (cstr (linebuffer (ls s))) s) as [r1 s1] eqn:E1. pose proof (raw_pos _ _ _ _ F P E1) as H.
  destruct r1 as [v|b]; [|injection E as _ <-; exact H].
  unfold upd_ls, modify, lbwrite in E. cbn [Z.leb Z.compare] in E. injection E as _ <-. exact H.
Qed.
Lemma eop_end : forall n s, wide s -> s.(fl).(a_list_on) = true -> s.(ls).(plen) <> 0 ->
  (1 <= n)%nat -> (s.(ls).(ppos) = 0 \/ s.(ls).(plen) - s.(ls).(ppos) < Z.of_nat n /\ (2 <= n)%nat) ->
  match eoploop n s with (Ok _, s') => after s s' | (Bad b, s') => after s s' /\ line_bad b s' end.
Proof.
  induction n as [|n IH]; intros s W F N G K; [lia|]. cbn [eoploop]. unfold bind at 1. cbn [gets].
  destruct (ppos (ls s) =? 0) eqn:Z0; [apply after_refl; exact W|].
  unfold bind. pose proof (l_outputEOL s W) as H. destruct (outputEOL s) as [r s1] eqn:E.
  destruct (EOL_pos _ _ _ F ltac:(unfold wide in W; lia) E) as (F1 & N1 & P1).
  destruct r as [v|b]; [|exact H]. apply (after_any _ _ _ _ _ H). apply IH.
  - exact (proj1 H).
  - rewrite F1. exact F.
  - rewrite N1. exact N.
  - lia.
  - destruct P1 as [P1|[P1 P2]]; [left; exact P1|right]. rewrite N1. lia.
Qed.
Lemma l_outputEOP : L _ outputEOP.
Proof.
  intros s W. unfold outputEOP. unfold bind at 1. cbn [gets]. destruct (a_list_on (fl s)) eqn:F; [|apply after_refl; exact W].
  destruct (negb (plen (ls s) =? 0)) eqn:N.
  - apply eop_end; auto; unfold wide in W; lia.
  - pose proof (ends_print line_bad [nl; nl; nl] s W) as H. exact H.
Qed.
Lemma l_position : forall n, L _ (position n).
Proof. exact (ends_position _ lbL lbF lbX). Qed.
Lemma l_settitle : forall t, L _ (settitle t).
Proof. intros t. unfold settitle. l. Qed.
Lemma l_setpage : forall a b, L _ (setpage a b).
Proof.
  intros a b. unfold setpage.
  apply ends_bind; [l|intros li]. apply ends_bind; [l|intros _].
  destruct (_ || _) eqn:C.
  - unfold when. intros s W. unfold bind at 1. pose proof (l_err unit "illegal values" eq_refl s W) as H.
    destruct (err "illegal values" s) as [[v|x] s'] eqn:E; [exfalso; exact (Eval.error_never _ _ _ _ _ E)|exact H].
  - unfold when at 1. apply ends_bind; [l|intros _]. intros s W.
    unfold bind at 1. cbn [upd_ls modify]. unfold bind at 1. cbn [upd_ls modify].
    set (s2 := set_ls _ _). assert (A : after s s2).
    { split; [|unfold kept; repeat split; reflexivity]. unfold wide in *. cbn. lia. }
    apply (after_any _ _ _ _ _ A). match goal with |- match ?m s2 with _ => _ end => assert (K : L _ m) end; [l|].
    exact (K s2 (proj1 A)).
Qed.
Lemma l_scwrite : forall t, L _ (scwrite t).
Proof. intros t. unfold scwrite. l. apply ends_stop. intros s. right. left. reflexivity. Qed.
Lemma l_flushscoderaw : L _ flushscoderaw.
Proof. unfold flushscoderaw. l; apply l_scwrite. Qed.
Lemma l_insert8 : forall x, L _ (insert8 x).
Proof. intros x. unfold insert8. l. apply l_flushscoderaw. Qed.
Lemma l_findlabel : forall n, L _ (findlabel n).
Proof. exact (e_findlabel _). Qed.
Lemma l_searchlabel : forall n, L _ (searchlabel n).
Proof. intros n. unfold searchlabel. l. Qed.
Lemma l_deflabel : forall n f t v, L _ (deflabel n f t v).
Proof. intros n f t v. unfold deflabel. l; try apply l_searchlabel. unfold makelabel. l. Qed.
Lemma l_makelabel : forall k f t, L _ (makelabel k f t).
Proof. intros. unfold makelabel. l. Qed.
Lemma l_herelabel : forall n, L _ (herelabel n).
Proof.
  intros n. unfold herelabel. l; first [apply l_deflabel|apply l_position|exact (ends_outputaddr _ lbL lbF lbX _)].
Qed.
Lemma l_equ : forall label (r : result),
  L _ (k <- deflabel label (equ_flags r.(r_flags)) r.(r_type) r.(r_value) ;;
       upd_sy (tupd k (fun l => set_l_ptr r.(r_ptr) (set_l_modifier r.(r_modifier) l)))).
Proof. intros. l. apply l_deflabel. Qed.
Lemma l_setpc : forall a, L _ (setpc a).
Proof. intros a. unfold setpc. l. apply l_flushscoderaw. Qed.
Lemma l_linestart : L _ linestart.
Proof. unfold linestart, zerobuffer. l. apply l_setpc. Qed.
Lemma l_init_entry : forall e, L _ (init_entry e).
Proof. intros e. unfold init_entry. l. apply l_searchlabel. Qed.
Lemma l_init_inner : forall n i k t, L _ (init_inner n i k t).
Proof. induction n as [|n IH]; intros; cbn [init_inner]; l; [apply l_init_entry|apply IH]. Qed.
Lemma l_init_outer : forall n k t, L _ (init_outer n k t).
Proof. induction n as [|n IH]; intros; cbn [init_outer]; l; [apply l_init_inner|apply IH]. Qed.
Lemma l_init : forall t, L _ (init_label_list t).
Proof. intros. apply l_init_outer. Qed.
Lemma l_checktype : forall r t, L _ (checktype r t).
Proof. exact (e_checktype _ lbL lbF lbX lbE lbM lbS). Qed.
Lemma l_insert16 : forall x, L _ (insert16 x).
Proof. intros x. unfold insert16. l; apply l_insert8. Qed.
Lemma l_insert32 : forall x, L _ (insert32 x).
Proof. intros x. unfold insert32. l; apply l_insert16. Qed.
Lemma l_stocke : forall t m, L _ (stocke t m).
Proof.
  intros t m. unfold stocke, flip_lohi. l; first [apply l_checktype|apply l_insert8|apply l_insert16|apply l_insert32].
Qed.
Lemma l_dcloop : forall n o m, (List.length o < n)%nat -> L _ (dcloop n o m).
Proof.
  induction n as [|n IH]; intros o m K; [lia|]. cbn [dcloop]. apply ends_bind'; [apply l_filter2|].
  intros s r s' E. destruct r as [[a b]|]; [|apply l_stocke]. apply ends_bind; [apply l_stocke|intros _].
  apply IH. apply filter2_len in E. cbn in E. lia.
Qed.

Lemma l_local : local (fun A m => L A m).
Proof.
  constructor; intros.
  all: lazymatch goal with
  | H : forall s, ?m s = ?m' s |- _ => apply (ends_ext _ _ m); assumption
  | |- L _ (bind _ _) => idtac
  | |- L _ (stop (UB ?w)) => apply ends_stop; intros s; right; right; exists w; split; [|reflexivity];
       match goal with H : existsb _ _ = true |- _ => apply existsb_exists in H; destruct H as (x & I & H);
         apply String.eqb_eq in H; subst x; exact I end
  | |- L _ (fatal _) => exact (ends_fatal _ lbX _ _)
  | |- L _ (err _) => apply l_err; assumption
  | |- L _ outputEOP => apply l_outputEOP
  | |- L _ (position _) => apply l_position
  | |- L _ (outputaddr _) => exact (ends_outputaddr _ lbL lbF lbX _)
  | |- L _ (settitle _) => apply l_settitle
  | |- L _ (setpage _ _) => apply l_setpage
  | |- L _ (insert8 _) => apply l_insert8
  | |- L _ linestart => apply l_linestart
  | |- L _ (findlabel _) => apply l_findlabel
  | |- L _ (herelabel _) => apply l_herelabel
  | |- L _ (init6800 _) => unfold init6800; l; apply l_init
  | |- L _ (init6502 _) => unfold init6502; l; apply l_init
  | |- L _ (initz80 _) => unfold initz80; l; apply l_init
  | |- L _ zerobuffer => unfold zerobuffer; l
  | |- L _ flip_lohi => unfold flip_lohi; l
  | |- L _ newsegment => unfold newsegment; l
  | |- L _ (Xdc _ _) => unfold Xdc; apply l_dcloop; lia
  | |- L _ _ => l
  end.
  - apply ends_bind; assumption.
  - l.
Qed.
Lemma l_Xequ : forall t o, L _ (Xequ t o).
Proof. intros t o. apply (J_Xequ _ l_local). intros r. apply l_equ. Qed.
Lemma l_Xds : forall o, L _ (Xds o).
Proof. intros o. apply (J_Xds _ l_local). intros v. l. Qed.
