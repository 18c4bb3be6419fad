(* P_FormatWide.v -- C90 for large digit counts: what Format::addF with code 'e'
   does when more than ten digits are asked for.
   The first argument of addF is a bound on the iterations of each loop; None
   means that a loop is still running.  sep is Format::separator. *)
From Coq Require Import ZArith Lia Reals Lra.
From Flocq Require Import Core.Core IEEE754.BinarySingleNaN.
From Verif Require Import Base M_Stream M_Float M_Format M_FormatF S_Num S_Field S_FormatF
  L_Field L_Float L_FormatF L_FormatI L_FormatJ L_FormatL L_FormatX L_FormatM C_FormatF L_FormatWide.
Local Open Scope R_scope.

Lemma addF_ub fuel sep f v fm w sd : addF fuel sep f v fm w sd = Some UB <-> addF_text fuel sep v fm w sd = Some UB.
Proof. unfold addF. destruct (addF_text fuel sep v fm w sd) as [[t|e|]|]; cbn; split; intros H; try discriminate; reflexivity. Qed.

(* With any number of digits: a call that is defined prints at most ten digits
   of the fraction that are not leading zeros, because the fraction is collected
   in an int.  So from 14 digits on the call is undefined unless the fraction
   begins with zeros. *)
Theorem C90_fraction_partial : forall sep f v w sd, finite v -> real_of v <> 0 -> (1 <= sd < two31)%Z ->
  3 * powerRZ 2 (-1074) <= Rabs (real_of v) <= IZR (limit sd) * powerRZ 2 971 ->
  addF 501 sep f v "e" w sd = Some UB \/
  exists t neg ip fp ex, addF 501 sep f v "e" w sd = Some (Ok (insertField f t)) /\
    engineering t neg ip fp ex /\ (sd - 3 <= Z.of_nat (length fp) <= sd)%Z /\
    (forall k c, nth_error fp k = Some c -> (k + 10 < length fp)%nat -> c = "0"%char).
Proof.
  intros sep f v w sd F N Hs R.
  destruct (eng_lead 501 sep v w sd ltac:(lia) F N (or_intror R) Hs) as [U|(t & neg & ip & fp & ex & E & G)].
  - left. apply addF_ub. exact U.
  - right. exists t, neg, ip, fp, ex. split; [apply addF_text_ok; exact E|exact G].
Qed.
Print Assumptions C90_fraction_partial.

(* From 29 digits on a call that is defined prints a fraction of zeros only:
   every other fraction overflows the int that collects it. *)
Theorem C90_wide_partial : forall sep f v w sd, finite v -> real_of v <> 0 -> (29 <= sd < two31)%Z ->
  3 * powerRZ 2 (-1074) <= Rabs (real_of v) <= IZR (limit sd) * powerRZ 2 971 ->
  addF 501 sep f v "e" w sd = Some UB \/
  exists t neg ip fp ex, addF 501 sep f v "e" w sd = Some (Ok (insertField f t)) /\
    engineering t neg ip fp ex /\ (forall c, In c fp -> c = "0"%char).
Proof.
  intros sep f v w sd F N Hs R.
  destruct (eng_wide 501 sep v w sd ltac:(lia) F N (or_intror R) Hs) as [U|(t & neg & ip & fp & ex & E & G & Z0)].
  - left. apply addF_ub. exact U.
  - right. exists t, neg, ip, fp, ex. split; [apply addF_text_ok; exact E|]. split; assumption.
Qed.
Print Assumptions C90_wide_partial.

(* Between 1 and 10 the exact line: defined for the integers, undefined for
   every other number. *)
Theorem C90_wide_refuted : forall sep f v w sd, finite v -> 1 <= Rabs (real_of v) < 10 -> (29 <= sd < two31)%Z ->
  (addF 501 sep f v "e" w sd = Some UB <-> forall z, real_of v <> IZR z).
Proof.
  intros sep f v w sd F B Hs. rewrite addF_ub. apply eng_wide_small; [lia|exact F|exact B|exact Hs].
Qed.
Print Assumptions C90_wide_refuted.

Example C90_wide_nonvacuous :
  let v := @B754_finite 53 1024 false 6755399441055744 (-52) eq_refl : double in   (* 1.5 *)
  let u := @B754_finite 53 1024 true 6755399441055744 (-51) eq_refl : double in    (* -3 *)
  finite v /\ finite u /\ 1 <= Rabs (real_of v) < 10 /\ 1 <= Rabs (real_of u) < 10 /\
  (forall z, real_of v <> IZR z) /\ real_of u = IZR (-3) /\
  addF_text 501 "."%char v "e" 0%Z 14 = Some UB /\
  addF_text 501 "."%char (@B754_finite 53 1024 false 4503600077730416 (-52) eq_refl) "e" 0%Z 14 = Some (Ok (lit " 1.0000001000000e+0 ")) /\
  addF_text 501 "."%char u "e" 0%Z 30 = Some (Ok (lit "-3.00000000000000000000000000000e+0 ")).
Proof.
  intros v u. assert (V : real_of v = 3 / 2).
  { unfold v, B2R, F2R. cbn [cond_Zopp Fnum Fexp]. change (bpow radix2 (-52)) with (/ 4503599627370496). lra. }
  assert (U : real_of u = -3).
  { unfold u, B2R, F2R. change (Fnum _) with (-6755399441055744)%Z. change (bpow radix2 _) with (/ 2251799813685248). lra. }
  split; [reflexivity|]. split; [reflexivity|]. rewrite V, U. split; [rewrite Rabs_pos_eq; lra|]. split; [rewrite Rabs_left; lra|].
  split; [|split; [reflexivity|split; [vm_compute; reflexivity|split; vm_compute; reflexivity]]].
  intros z H. assert (E : IZR 3 = IZR (2 * z)) by (rewrite mult_IZR; lra). apply eq_IZR in E. lia.
Qed.
