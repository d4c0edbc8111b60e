(** C68: the chosen block of a conditional is assembled like lines outside conditionals. *)
From Coq Require Import String Ascii ZArith List Bool.
From Verif Require Import Base State Tree Output Label Parse Macro Crasm SpecStar SpecSkip SpecJoin ChosenFacts.
From Verif Require Import Witness PropIf.
Import ListNotations.
Open Scope Z_scope.

(** The condition is true.  From where IF stands, the loop of the pass itself ([rounds]) would
    come to the line that closes the block.  That line is ENDC; or it is ELSE, and a block that
    is not executed follows; or it is EXITM, which leaves the macro being expanded. *)
Theorem C68_true : forall n o s s1 g s', s.(ct).(advance) = 0 -> testtrue o s = (Ok true, s1) -> Xif (run n) true true o s = (Ok g, s') ->
  exists s2 m t a f s3, standing s1 s2 /\ rounds n s2 (S m) t /\ linegets t = (Ok tt, a) /\ run m KLine true true a = (Ok f, s3) /\
    ((f = FEndc /\ g = FNone /\ standing s3 s') \/ (f = FExitm /\ g = FExitm /\ standing s3 s') \/
     (f = FElse /\ g = FNone /\ exists s4 li s5, standing s3 s4 /\ s4.(ct).(advance) = 0 /\ run n KIf li false s4 = (Ok FEndc, s5) /\ standing s5 s')).
Proof. exact true_block. Qed.
Print Assumptions C68_true.

(** The condition is false.  A block that is not executed comes first; if it is closed by ELSE
    the loop of the pass would come from there to the line that closes the second block. *)
Theorem C68_false : forall n o s s1 g s', s.(ct).(advance) = 0 -> testtrue o s = (Ok false, s1) -> Xif (run n) true true o s = (Ok g, s') ->
  exists s2 li f s3, standing s1 s2 /\ s2.(ct).(advance) = 0 /\ run n KIf li false s2 = (Ok f, s3) /\
    ((f = FEndc /\ g = FNone /\ standing s3 s') \/
     (f = FElse /\ exists s4 m t a f' s5, standing s3 s4 /\ rounds n s4 (S m) t /\ linegets t = (Ok tt, a) /\ run m KLine true true a = (Ok f', s5) /\
        (f' = FEndc /\ g = FNone \/ f' = FExitm /\ g = FExitm) /\ standing s5 s')).
Proof. exact false_block. Qed.
Print Assumptions C68_false.

(** The line that closes a block carries ENDC or ELSE, without operand. *)
Theorem C68_last : forall m li ex a f s', run m KLine li ex a = (Ok f, s') -> f = FEndc \/ f = FElse ->
  exists q k l, taken_apart a q /\ q.(q_mnemo) = Some (k, l) /\ q.(q_oper) = None /\
    l.(l_ptr) = PFun (if match f with FEndc => true | _ => false end then HEndc else HElse).
Proof. exact closing. Qed.
Print Assumptions C68_last.

Definition two_blocks : list string := ["* = 5"; " db 1"; " bad"; " else"; " db 2"; " endc"; " db 3"]%string.

(** A line with an error does not end the block. *)
Example C68_applies : let s := begun two_blocks in s.(ct).(advance) = 0 /\
  (exists s1 s', testtrue (Some (s2l "1")) s = (Ok true, s1) /\ Xif (run 20) true true (Some (s2l "1")) s = (Ok FNone, s') /\
     s'.(inp).(mainrest) = src [" db 3"]%string /\ map em_byte s'.(emitted) = [1] /\ s'.(ct).(errnumber) = 1) /\
  (exists s1 s', testtrue (Some (s2l "0")) s = (Ok false, s1) /\ Xif (run 20) true true (Some (s2l "0")) s = (Ok FNone, s') /\
     s'.(inp).(mainrest) = src [" db 3"]%string).
Proof.
  cbv zeta. split; [reflexivity|]. split.
  - exists (snd (testtrue (Some (s2l "1")) (begun two_blocks))), (snd (Xif (run 20) true true (Some (s2l "1")) (begun two_blocks))). vm_compute. repeat split.
  - exists (snd (testtrue (Some (s2l "0")) (begun two_blocks))), (snd (Xif (run 20) true true (Some (s2l "0")) (begun two_blocks))). vm_compute. repeat split.
Qed.

Example C68_last_applies : exists s', run 3 KLine true true (snd (linegets (begun [" endc ; done"]%string))) = (Ok FEndc, s').
Proof. exists (snd (run 3 KLine true true (snd (linegets (begun [" endc ; done"]%string))))). vm_compute. reflexivity. Qed.
