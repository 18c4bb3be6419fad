(* P_FormatTestProg.v -- property theorems for test/FormatTest.cxx *)
From Coq Require Import ZArith Lia Reals Lra.
From Flocq Require Import Core.Core IEEE754.BinarySingleNaN.
From Verif Require Import Base M_Stream M_StreamIn M_Float M_StreamFloat M_Format M_FormatF M_Round M_FormatTestProg
  S_Num S_Field S_Format S_FormatF S_FloatIn S_FormatTestProg
  L_Dec L_Float L_FormatI L_FormatK C_Format C_FormatF L_FloatIn L_FloatR L_FloatBack C_FloatIn L_FormatTestProg C_FormatTestProg.
Local Open Scope R_scope.

Lemma room_eq : room = / 1000000000.
Proof. unfold room. rewrite r10. reflexivity. Qed.
Lemma tolerance_eq p : tolerance p = 5 * bpow radix10 (- p).
Proof. unfold tolerance. rewrite r10. reflexivity. Qed.
Lemma ordinary_range v : ordinary v -> fin v /\ bpow radix2 (-1015) <= val v <= bpow radix2 1000.
Proof. unfold ordinary. rewrite !two_bpow. auto. Qed.

(* ---- C144 ---- *)
(* of a positive number, the check complains about a text that begins with a
   number exactly when that number is off by more than the tolerance (the
   rounding of the check itself blurs the border by 10^-9) *)
Theorem C144_flags_partial : forall v text y p, ordinary v -> reads_as text y -> Rabs (real_of y) <= powerRZ 2 1023 -> (0 <= p <= 4)%Z ->
  exists b, check_val v text p = Ok b /\
    (within (tolerance p - room) v y -> b = false) /\ (~ within (tolerance p + room) v y -> b = true).
Proof.
  intros v text y p Ov (neg & ip & fp & ex & x & L & D & N) Hy Hp. apply ordinary_range in Ov. destruct Ov as (F & Hv). rewrite two_bpow in Hy.
  exists (bad_diff v y p). unfold check_val. rewrite (read_double_ok text y neg ip fp ex x L D N). split; [reflexivity|].
  assert (Fy : fin y) by apply N. assert (PL := bpow_gt_0 radix2 (-1015)).
  destruct (check_margin v y p F Fy Hv Hy Hp) as (A & B). unfold within. rewrite tolerance_eq, room_eq.
  change (@real_of) with (@B2R 53 1024) in *. rewrite (Rabs_pos_eq (val v)) by lra. split; [exact A|]. intros C. apply B. lra.
Qed.
Print Assumptions C144_flags_partial.
(* of a negative number it never complains, whatever the text says *)
Theorem C144_negative_refuted : forall v text p, finite v -> real_of v < 0 -> (0 <= p <= 4)%Z -> check_val v text p <> Ok true.
Proof.
  intros v text p F N Hp. unfold check_val. destruct (read_double text) as [y|[y|]]; [| |discriminate]; rewrite (check_negative v y p F N Hp); discriminate.
Qed.
Print Assumptions C144_negative_refuted.
(* a text without a number counts as 0: with no digits asked for it passes *)
Theorem C144_nonsense_refuted : forall v, ordinary v -> check_val v (lit "no number") 0 = Ok false.
Proof.
  intros v Ov. apply ordinary_range in Ov. destruct Ov as (F & Hv). unfold check_val.
  replace (read_double (lit "no number")) with (@RdFail double (Some dzero)) by (vm_compute; reflexivity). f_equal.
  assert (PL := bpow_gt_0 radix2 (-1015)).
  apply (check_margin v dzero 0 F eq_refl Hv).
  - change (val dzero) with 0. rewrite Rabs_R0. apply bpow_ge_0.
  - lia.
  - change (val dzero) with 0. change (bpow radix10 (- (0))) with 1. rewrite Rminus_0_l, Rabs_Ropp, Rabs_pos_eq by lra. lra.
Qed.
Print Assumptions C144_nonsense_refuted.
(* the check is not the one it looks like: -2.5 printed as 7 is accepted *)
Definition dm2p5 : double := @B754_finite 53 1024 true 5629499534213120 (-51) eq_refl.
Definition d2p5 : double := @B754_finite 53 1024 false 5629499534213120 (-51) eq_refl.
Lemma d2p5_ordinary : ordinary d2p5.
Proof.
  split; [reflexivity|]. rewrite !two_bpow. unfold d2p5. cbn [B2R]. unfold F2R. cbn [Fnum Fexp SpecFloat.cond_Zopp].
  replace (IZR 5629499534213120 * bpow radix2 (-51)) with (5 / 2) by (change (bpow radix2 (-51)) with (/ 2251799813685248); lra). split.
  - apply Rle_trans with 1; [change 1 with (bpow radix2 0); apply bpow_le; lia|lra].
  - apply Rle_trans with 4; [lra|]. change 4 with (bpow radix2 2). apply bpow_le. lia.
Qed.
Example C144_nonvacuous : ordinary d2p5 /\ finite dm2p5 /\ real_of dm2p5 < 0 /\
  check_val d2p5 (lit " 2.6e+0") 2 = Ok false /\ check_val d2p5 (lit " 2.7e+0") 2 = Ok true /\ check_val dm2p5 (lit "7") 2 = Ok false.
Proof.
  split; [exact d2p5_ordinary|]. split; [reflexivity|]. split; [apply F2R_lt_0; reflexivity|]. repeat split; vm_compute; reflexivity.
Qed.

(* ---- C145 ---- *)
(* the library's own texts are never complained about *)
Theorem C145_own_text : forall fuel im sep v p w fm, (500 < fuel)%nat -> ordinary v -> (0 <= p <= 4)%Z -> (0 <= w <= 1000)%Z -> tested_format fm ->
  do_test fuel im sep v p w fm = Some (Ok false).
Proof. intros fuel im sep v p w fm Hf Ov. apply ordinary_range in Ov. destruct Ov as (F & Hv). intros. apply own_text; assumption. Qed.
Print Assumptions C145_own_text.
Lemma drawable_drawn v : drawable v -> drawn v.
Proof.
  intros [-> |(F & L & U)]; [left; reflexivity|right]. rewrite two_bpow in L. split; [exact F|]. split; [exact L|].
  apply Rle_trans with (1 := U). apply Rle_trans with 2; [lra|]. change 2 with (bpow radix2 1). apply bpow_le. lia.
Qed.
(* the program exits with 0 whatever the random generator hands out *)
Theorem C145_passes : forall fuel im random, (500 < fuel)%nat -> (forall k, drawable (random k)) ->
  format_test_main fuel im "." 50000 random = Some (Ok 0%Z).
Proof. intros fuel im random Hf Hr. apply main_passes; [lia|exact Hf|]. intros k. apply drawable_drawn, Hr. Qed.
Print Assumptions C145_passes.
(* and 0 tells that none of the checks complained *)
Theorem C145_tells : forall fuel im sep random, format_test_main fuel im sep 50000 random = Some (Ok 0%Z) ->
  (exists f, newFormat im (lit "%0") = Ok f /\ fmt_str (addB f true) false = Ok (lit "T") /\ fmt_str (addB f false) false = Ok (lit "F")) /\
  forall k e p w fm, (13 * Z.of_nat k < 50000)%Z -> (-18 <= e <= 17)%Z -> (0 <= p <= 4)%Z -> (0 <= w <= 9)%Z -> tested_format fm ->
    do_test fuel im sep (dmul (match k with O => dlit 64 | S k' => random k' end) (dpow10 e)) p w fm = Some (Ok false) /\
    do_test fuel im sep (dmul (dlit (13 * Z.of_nat k)) (dpow10 e)) p w fm = Some (Ok false).
Proof.
  intros fuel im sep random H. apply main_tells in H. destruct H as (B & _ & R). split.
  - destruct im; (eexists; split; [reflexivity|]; split; reflexivity).
  - intros k e p w fm Hk. apply (run_tells fuel im sep 50000 random R k e p w fm). lia.
Qed.
Print Assumptions C145_tells.
Example C145_nonvacuous : (forall k : nat, drawable (if Nat.even k then B754_zero false else dlit 1)) /\
  do_test 501 Strict "." d2p5 2 7 "e" = Some (Ok false) /\
  addF_text 501 "." d2p5 "e" 7 2 = Some (Ok (lit " 2.5e+0  ")) /\ ordinary d2p5.
Proof.
  split; [|split; [vm_compute; reflexivity|split; [vm_compute; reflexivity|exact d2p5_ordinary]]].
  intros k. destruct (Nat.even k); [left; reflexivity|right]. destruct (dlit_ok 1 ltac:(lia)) as (F & V). split; [exact F|]. rewrite V, two_bpow. split; [|lra].
  change 1 with (bpow radix2 0). apply bpow_le. lia.
Qed.
