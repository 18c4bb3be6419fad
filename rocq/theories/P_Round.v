(* P_Round.v -- property theorems: printing a Format to a stream (operator<<)
   and Format::roundToSigDigs. *)
From Coq Require Import Reals Lra.
From Flocq Require Import Core.Core IEEE754.BinarySingleNaN.
From Verif Require Import Base M_Float M_Format M_FormatF M_Round S_Field S_Format S_FormatF L_Field C_Format L_Float L_Round L_RoundB.
Local Open Scope R_scope.

(* ---- C98: os << format ---- *)
Theorem C98_print : forall im s f vals os, newFormat im s = Ok f ->
  let g := fold_left insertField vals f in
  exists text t, fmt_str g false = Ok text /\
    (forall out, fmt_str g true = Ok out -> out = text) /\
    (if os_left os then left_justified (os_fill os) (os_width os) text t else right_justified (os_fill os) (os_width os) text t) /\
    print os g = Ok (mkOs 0 (os_fill os) (os_left os) (os_text os ++ t)).
Proof.
  intros im s f vals os H g. destruct (c08 im s f H) as (ps & A). specialize (A vals). fold g in A.
  set (text := concat _) in A. clearbody text.
  exists text. eexists. split; [exact A|]. split.
  { intros out. unfold fmt_str in *. destruct (assemble (f_segs g)) as (ret & u). destruct (true && negb (Nat.eqb u 0)); [discriminate|].
    cbn [andb] in A. congruence. }
  split; [|unfold print; rewrite A; reflexivity].
  destruct (os_left os); [|apply pad_l_spec]. exists (M_Stream.fill_count (os_width os) text). split; [reflexivity|].
  unfold M_Stream.fill_count. lia.
Qed.
Print Assumptions C98_print.
(* a field that has not been given a value is printed as it stands: no exception *)
Theorem C98_print_never_throws : forall f os, exists os', print os f = Ok os'.
Proof.
  intros f os. unfold print, fmt_str. destruct (assemble (f_segs f)) as (ret & u). eexists. reflexivity.
Qed.
Print Assumptions C98_print_never_throws.
Example C98_nonvacuous : exists f, newFormat Glibc (lit "%0 of %1") = Ok f /\
  print (mkOs 8 "*"%char false (lit "> ")) (fold_left insertField [lit "3"; lit "7"] f) = Ok (mkOs 0 "*"%char false (lit "> **3 of 7")) /\
  print (mkOs 0 " "%char true []) (fold_left insertField [lit "3"] f) = Ok (mkOs 0 " "%char true (lit "3 of %1")).
Proof. eexists. split; [vm_compute; reflexivity|]. split; vm_compute; reflexivity. Qed.

(* ---- C99: rounding to significant digits ---- *)
(* zero, every negative value and both infinities: the call does not return *)
Theorem C99_round_refuted : forall (v : double) sd, (0 <= sd <= 15)%Z ->
  (finite v /\ real_of v <= 0) \/ v = B754_infinity true \/ v = B754_infinity false ->
  forall fuel, roundToSigDigs fuel v sd = None.
Proof.
  intros v sd H [A|[A|A]] fuel; [apply stuck_forever; [exact H|left; exact A]|apply stuck_forever; [exact H|right; exact A]|subst v; apply inf_forever; exact H].
Qed.
Print Assumptions C99_round_refuted.
Theorem C99_round_partial : forall fuel (v : double) sd, (400 <= fuel)%nat -> finite v -> (1 <= sd <= 15)%Z ->
  IZR (10 ^ sd) * bpow radix2 (-1018) <= real_of v <= bpow radix2 1023 ->
  exists r n j, roundToSigDigs fuel v sd = Some r /\ finite r /\
    (10 ^ (sd - 1) <= n <= 10 ^ sd)%Z /\
    Rabs (IZR n * powerRZ 10 j - real_of v) <= (5 / IZR (10 ^ sd) + / 10 ^ 12) * real_of v /\
    Rabs (real_of r - IZR n * powerRZ 10 j) <= / 10 ^ 12 * real_of v.
Proof.
  intros fuel v sd Hf F H B. destruct (rts_ok fuel v sd Hf F H B) as (r & n & j & A & Fr & N & E1 & E2).
  exists r, n, j. replace (10 ^ 12) with 1000000000000 by (rewrite (pow_IZR 10 12); reflexivity). auto.
Qed.
Print Assumptions C99_round_partial.
(* up to 15 digits, the call returns exactly for NaN and for the positive finite values *)
Theorem C99_returns_iff : forall (v : double) sd, (0 <= sd <= 15)%Z ->
  ((exists fuel r, roundToSigDigs fuel v sd = Some r) <-> v = B754_nan \/ (finite v /\ 0 < real_of v)).
Proof. exact rts_returns_iff. Qed.
Print Assumptions C99_returns_iff.
(* a NaN comes back as a NaN, whatever the number of digits *)
Theorem C99_nan : forall fuel sd, roundToSigDigs fuel B754_nan sd = Some B754_nan.
Proof. exact rts_nan. Qed.
Print Assumptions C99_nan.
(* a negative number of digits: the call does not return for any value outside [-1/2, -3/8] *)
Theorem C99_negative_digits_refuted : forall (v : double) sd, (sd < 0)%Z ->
  (finite v /\ (real_of v < - / 2 \/ - (3 / 8) < real_of v)) \/ v = B754_infinity true \/ v = B754_infinity false ->
  forall fuel, roundToSigDigs fuel v sd = None.
Proof.
  intros v sd H A fuel. apply neg_forever; [exact H|]. unfold floats, sinks. tauto.
Qed.
Print Assumptions C99_negative_digits_refuted.
(* at both ends of the range the result is not next to the value: the least positive
   double is rounded to zero, the greatest to infinity *)
Definition dmin : double := @B754_finite 53 1024 false 1 (-1074) eq_refl.
Definition dmax : double := @B754_finite 53 1024 false 9007199254740991 971 eq_refl.
Theorem C99_extremes_refuted : forall fuel, (400 <= fuel)%nat ->
  (forall sd, (1 <= sd <= 15)%Z -> roundToSigDigs fuel dmin sd = Some (B754_zero false)) /\
  (forall sd, (1 <= sd <= 5)%Z -> roundToSigDigs fuel dmax sd = Some (B754_infinity false)).
Proof.
  intros fuel Hf. assert (G : forall v sd r, option_map B2SF (roundToSigDigs 400 v sd) = Some (B2SF r) -> match r with B754_zero _ | B754_infinity _ => True | _ => False end ->
    roundToSigDigs fuel v sd = Some r).
  { intros v sd r E K. destruct (roundToSigDigs 400 v sd) as [x|] eqn:X; [|discriminate E]. rewrite (rts_mono _ _ _ _ _ Hf X). f_equal.
    injection E as E. destruct r; try destruct K; destruct x; try discriminate E; cbn in E; congruence. }
  split; intros sd H; apply G; try exact I.
  - assert (C : (sd = 1 \/ sd = 2 \/ sd = 3 \/ sd = 4 \/ sd = 5 \/ sd = 6 \/ sd = 7 \/ sd = 8 \/ sd = 9 \/ sd = 10 \/ sd = 11 \/ sd = 12 \/ sd = 13 \/ sd = 14 \/ sd = 15)%Z) by lia.
    repeat (destruct C as [->|C]; [vm_compute; reflexivity|]). subst sd. vm_compute. reflexivity.
  - assert (C : (sd = 1 \/ sd = 2 \/ sd = 3 \/ sd = 4 \/ sd = 5)%Z) by lia.
    repeat (destruct C as [->|C]; [vm_compute; reflexivity|]). subst sd. vm_compute. reflexivity.
Qed.
Print Assumptions C99_extremes_refuted.
Definition d1234p5 : double := @B754_finite 53 1024 false 5429388417957888 (-42) eq_refl.   (* 1234.5 *)
Example C99_nonvacuous : finite d1234p5 /\ IZR (10 ^ 2) * bpow radix2 (-1018) <= real_of d1234p5 <= bpow radix2 1023 /\
  option_map B2SF (roundToSigDigs 400 d1234p5 2) = Some (B2SF (dlit 1200)) /\
  finite (B754_zero false : double) /\ real_of (B754_zero false) <= 0.
Proof.
  split; [reflexivity|]. split.
  - assert (V : real_of d1234p5 = 2469 / 2).
    { unfold d1234p5, B2R, F2R. cbn [Fnum Fexp SpecFloat.cond_Zopp]. change (bpow radix2 (-42)) with (/ 4398046511104). lra. }
    rewrite V. split.
    + change (IZR (10 ^ 2)) with 100. assert (bpow radix2 (-1018) <= bpow radix2 0) by (apply bpow_le; lia). change (bpow radix2 0) with 1 in *. lra.
    + apply Rle_trans with (bpow radix2 11); [change (bpow radix2 11) with 2048; lra|apply bpow_le; lia].
  - split; [vm_compute; reflexivity|]. split; [reflexivity|cbn; lra].
Qed.
Example C99_negative_nonvacuous : finite d1234p5 /\ - (3 / 8) < real_of d1234p5 /\ roundToSigDigs 1000 d1234p5 (-1) = None.
Proof.
  assert (P : 0 < real_of d1234p5) by (apply F2R_gt_0; reflexivity).
  split; [reflexivity|]. split; [lra|]. apply C99_negative_digits_refuted; [lia|]. left. split; [reflexivity|right; lra].
Qed.
