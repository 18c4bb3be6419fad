(* P_FormatF.v -- property theorems for Format::addF.
   The first argument of addF is a bound on the iterations of each loop; None
   means that a loop is still running.  sep is Format::separator. *)
From Coq Require Import Reals Lra.
From Flocq Require Import Core.Core IEEE754.BinarySingleNaN.
From Verif Require Import Base M_Stream M_Float M_Format M_FormatF S_Num S_Field S_FormatF
  L_Field L_Float L_FormatF L_FormatG L_FormatI L_FormatJ L_FormatL L_FormatX L_FormatM C_FormatF.
Local Open Scope R_scope.

(* doubles used in the examples: m * 2 ^ e *)
Definition dbl (s : bool) (m : positive) (e : Z) (H : SpecFloat.bounded 53 1024 m e = true) : double := B754_finite s m e H.
Definition d0_1 : double := dbl false 7205759403792794 (-56) eq_refl.              (* 0.1 *)
Definition d1234 : double := dbl true 5429686605511341 (-42) eq_refl.              (* -1234.5678 *)

(* more iterations allowed: the same result *)
Theorem C23_fuel_irrelevant : forall fuel fuel' sep f v fm w sd o, (fuel <= fuel')%nat ->
  addF fuel sep f v fm w sd = Some o -> addF fuel' sep f v fm w sd = Some o.
Proof.
  intros fuel fuel' sep f v fm w sd o H. unfold addF.
  destruct (addF_text fuel sep v fm w sd) as [t|] eqn:E; [|discriminate]. rewrite (text_mono _ _ _ _ _ _ _ _ H E). auto.
Qed.
Print Assumptions C23_fuel_irrelevant.

(* C22 *)
Theorem C22_nan : forall fuel sep f v fm w sd, is_nan v = true ->
  exists t, addF fuel sep f v fm w sd = Some (Ok (insertField f t)) /\ left_justified " "%char (requested w sd) (lit "nan") t.
Proof.
  intros. eexists. split; [apply addF_text_ok; apply text_nan; assumption|]. apply pad_r_spec.
Qed.
Print Assumptions C22_nan.
Theorem C22_inf : forall fuel sep f (s : bool) fm w sd,
  exists t, addF fuel sep f (B754_infinity s) fm w sd = Some (Ok (insertField f t)) /\
    left_justified " "%char (requested w sd) (lit "inf") t.
Proof. intros. eexists. split; [apply addF_text_ok; apply text_inf|]. apply pad_r_spec. Qed.
Print Assumptions C22_inf.
Example C22_nonvacuous : addF_text 0 "."%char (B754_infinity true) "e" 0 6 = Some (Ok (lit "inf       ")) /\
  addF_text 0 "."%char B754_nan "q" 5 6 = Some (Ok (lit "nan  ")).
Proof. split; vm_compute; reflexivity. Qed.

(* C23 is false: near the top of the range the rounding increment overflows to
   infinity, and the two smallest doubles scale by a zero power of ten. *)
Theorem C23_terminates_refuted :
  (exists v, finite v /\ forall fuel sep f w, addF fuel sep f v "e" w 6 = None) /\
  (exists v, finite v /\ real_of v = powerRZ 2 (-1074) /\ forall fuel sep f w sd, addF fuel sep f v "e" w sd = None).
Proof.
  split.
  - exists dmax. split; [reflexivity|]. intros fuel sep f w. unfold addF. rewrite text_fin by reflexivity. cbv zeta.
    change (Ascii.eqb "e" "f") with false. change (Ascii.eqb "e" "s") with false. change (Ascii.eqb "e" "g") with false.
    change (Ascii.eqb "e" "e") with true. cbv iota.
    assert (D : deq dmax dzero = false) by reflexivity. rewrite D. change (to_i32 6) with 6%Z. change (dabs dmax) with dmax.
    assert (P : 0 < val dmax) by (rewrite val_dmax; apply Rlt_Rminus, bpow_lt; lia).
    assert (O : overflows 500 dmax 6 = true) by (vm_compute; reflexivity).
    rewrite (inf_never 500 fuel dmax 6 eq_refl P O). reflexivity.
  - exists dmin. split; [reflexivity|]. split; [|intros; unfold addF; rewrite eng_none; [reflexivity|reflexivity|apply Rgt_not_eq, F2R_gt_0; reflexivity|
      change (dabs dmin) with dmin; apply tiny_log; auto]].
    change 2%R with (IZR radix2). rewrite <- bpow_powerRZ. unfold dmin, dtiny, B2R, F2R. cbn [Fnum Fexp cond_Zopp]. apply Rmult_1_l.
Qed.
Print Assumptions C23_terminates_refuted.
(* 501 iterations are enough for zero, and for numbers from 3 * 2^-1074 to the
   limit for this number of digits *)
Theorem C23_terminates_partial : forall sep f v fm w sd, finite v -> (0 <= sd < 2 ^ 32)%Z ->
  real_of v = 0 \/ 3 * powerRZ 2 (-1074) <= Rabs (real_of v) <= IZR (limit sd) * powerRZ 2 971 ->
  exists o, forall fuel, (500 < fuel)%nat -> addF fuel sep f v fm w sd = Some o.
Proof.
  intros sep f v fm w sd F Hs H. destruct (ends 501 sep v fm w sd ltac:(lia) Hs F H) as (o & E).
  exists (do t <- o; Ok (insertField f t)). intros fuel Hf. unfold addF. rewrite (text_mono 501 fuel _ _ _ _ _ _ ltac:(lia) E). reflexivity.
Qed.
Print Assumptions C23_terminates_partial.
(* all other numbers never return *)
Theorem C23_never_returns : forall fuel sep f v w sd, finite v -> (0 <= sd < 2 ^ 32)%Z ->
  0 < Rabs (real_of v) < 3 * powerRZ 2 (-1074) \/ IZR (limit sd) * powerRZ 2 971 < Rabs (real_of v) ->
  addF fuel sep f v "e" w sd = None.
Proof. intros fuel sep f v w sd F Hs H. unfold addF. rewrite (never fuel sep v w sd F Hs H). reflexivity. Qed.
Print Assumptions C23_never_returns.
(* what the limits are, up to roundings: 10^308 for no digits, otherwise the
   number that 5 units after the last digit takes to 2^1024 *)
Theorem C23_limits : forall sd, (0 <= sd < 2 ^ 32)%Z ->
  if (counted sd =? 0)%Z then (Z.abs (10 ^ 308 - limit sd * 2 ^ 971) * 10 ^ 12 <= 10 ^ 308)%Z
  else (Z.abs (2 ^ 1024 - 5 * 10 ^ (308 - Z.min (counted sd) 308) - limit sd * 2 ^ 971) * 10 ^ 12 <= 2 ^ 1024)%Z.
Proof. exact limits_near. Qed.
Print Assumptions C23_limits.
Example C23_nonvacuous : finite third /\ real_of third = 3 * powerRZ 2 (-1074) /\ real_of third <= IZR (limit 6) * powerRZ 2 971 /\
  (exists t, addF_text 501 "."%char third "e" 0 6 = Some (Ok t)) /\
  finite dmax /\ IZR (limit 6) * powerRZ 2 971 < Rabs (real_of dmax) /\ limit 6 = 9007174202636491%Z.
Proof.
  split; [reflexivity|]. split; [apply third_val|]. split.
  { eapply Rle_trans; [|apply under_limit; unfold two32; lia]. rewrite third_val, r2. apply Rle_trans with (bpow radix2 2 * bpow radix2 (-1074)).
    - apply Rmult_le_compat_r; [apply bpow_ge_0|]. cbn. lra.
    - rewrite <- bpow_plus. apply bpow_le. lia. }
  split; [eexists; vm_compute; reflexivity|]. split; [reflexivity|]. split; [|reflexivity].
  assert (V : real_of dmax = IZR 9007199254740991 * bpow radix2 971) by reflexivity.
  rewrite V, Rabs_pos_eq, r2 by (apply Rmult_le_pos; [apply IZR_le; lia|apply bpow_ge_0]).
  apply Rmult_lt_compat_r; [apply bpow_gt_0|]. apply IZR_lt. reflexivity.
Qed.

(* C24 is false: the rounding can carry to an integer part of 1000, and with no
   significant digits the integer part is 0. *)
Theorem C24_engineering_refuted :
  (exists v, finite v /\ real_of v = 995 /\ forall sep, addF_text 501 sep v "e" 0 2 = Some (Ok (lit " 1000e+0 "))) /\
  (exists v, finite v /\ real_of v = 3 /\ forall sep, addF_text 501 sep v "e" 0 0 = Some (Ok (lit " 0e+0 "))).
Proof.
  split.
  - exists (dlit 995). split; [reflexivity|]. split; [apply (dlit_ok 995); lia|]. intros sep. vm_compute. reflexivity.
  - exists (dlit 3). split; [reflexivity|]. split; [apply (dlit_ok 3); lia|]. intros sep. vm_compute. reflexivity.
Qed.
Print Assumptions C24_engineering_refuted.
Theorem C24_engineering_partial : forall fuel sep f v w sd f', finite v -> real_of v <> 0 -> (1 <= sd < two31)%Z ->
  addF fuel sep f v "e" w sd = Some (Ok f') ->
  exists t neg ip fp ex i, f' = insertField f t /\ engineering t neg ip fp ex /\ (neg = true <-> real_of v < 0) /\
    value false 10 ip = Some i /\ (1 <= i <= 1000)%N /\ (i = 1000%N -> forall c, In c fp -> c = "0"%char) /\ (3 | ex)%Z.
Proof.
  intros fuel sep f v w sd f' F N Hs E. destruct (addF_inv _ _ _ _ _ _ _ _ E) as (t & Et & ->).
  destruct (eng_all _ _ _ _ _ _ F N Hs Et) as (neg & ip & fp & ex & i & x & H1 & H2 & H3 & H4 & H5 & H6 & _).
  exists t, neg, ip, fp, ex, i. auto 10.
Qed.
Print Assumptions C24_engineering_partial.
Example C24_nonvacuous : finite d1234 /\ addF_text 501 "."%char d1234 "e" 12 6 = Some (Ok (lit "-1.23457e+3   ")) /\
  engineering (lit "-1.23457e+3   ") true (lit "1") (lit "23457") 3.
Proof.
  split; [reflexivity|]. split; [vm_compute; reflexivity|]. exists (lit "3"), (lit "   ").
  split; [reflexivity|]. split; [discriminate|]. split; [reflexivity|]. split; [reflexivity|].
  split; [split; [reflexivity|right; discriminate]|]. intros c [<-|[<-|[<-|[]]]]; reflexivity.
Qed.

(* C25 is false: 123 with two digits prints 120, 1000 with 17 digits prints 18. *)
Theorem C25_digit_count_refuted :
  (exists v, finite v /\ real_of v = 123 /\ forall sep, addF_text 501 sep v "e" 0 2 = Some (Ok (lit " 120e+0 "))) /\
  (exists v, finite v /\ real_of v = 1000 /\ forall sep, addF_text 501 sep v "e" 0 17 = Some (Ok (lit " 1000.00000000000000e+0 "))).
Proof.
  split.
  - exists (dlit 123). split; [reflexivity|]. split; [apply (dlit_ok 123); lia|]. intros sep. vm_compute. reflexivity.
  - exists (dlit 1000). split; [reflexivity|]. split; [apply (dlit_ok 1000); lia|]. intros sep. vm_compute. reflexivity.
Qed.
Print Assumptions C25_digit_count_refuted.
(* at least the requested digits are printed; what exceeds them (three digits at
   most) is zeros *)
Theorem C25_digit_count_partial : forall fuel sep f v w sd f', finite v -> real_of v <> 0 -> (1 <= sd < two31)%Z ->
  addF fuel sep f v "e" w sd = Some (Ok f') ->
  exists t neg ip fp ex sig k, f' = insertField f t /\ engineering t neg ip fp ex /\
    ip ++ fp = sig ++ repeat "0"%char k /\ Z.of_nat (length sig) = sd /\ (k <= 3)%nat.
Proof.
  intros fuel sep f v w sd f' F N Hs E. destruct (addF_inv _ _ _ _ _ _ _ _ E) as (t & Et & ->).
  destruct (eng_all _ _ _ _ _ _ F N Hs Et) as (neg & ip & fp & ex & i & x & H1 & H2 & H3 & H4 & H5 & H6 & (a & k & H7) & _).
  exists t, neg, ip, fp, ex, a, k. auto.
Qed.
Print Assumptions C25_digit_count_partial.
Example C25_nonvacuous : finite d1234 /\ real_of d1234 <> 0 /\ addF_text 501 "."%char d1234 "e" 0 3 = Some (Ok (lit "-1.23e+3 ")) /\
  lit "1" ++ lit "23" = lit "123" ++ repeat "0"%char 0.
Proof.
  split; [reflexivity|]. split; [|split; [vm_compute; reflexivity|reflexivity]].
  intros H. apply eq_0_F2R in H. discriminate.
Qed.

(* C26 is false only in the padding *)
Theorem C26_zero_refuted : exists v, finite v /\ real_of v = 0 /\
  forall fuel, addF_text fuel "."%char v "e" 20 4 = Some (Ok (lit "0.000e0")).
Proof. exists dzero. split; [reflexivity|]. split; [reflexivity|]. reflexivity. Qed.
Print Assumptions C26_zero_refuted.
Theorem C26_zero_partial : forall fuel sep f v w sd, finite v -> real_of v = 0 -> (0 <= sd < two31)%Z ->
  addF fuel sep f v "e" w sd =
    Some (Ok (insertField f (lit "0" ++ [sep] ++ repeat "0"%char (Z.to_nat (Z.max 1 (sd - 1))) ++ lit "e0"))).
Proof.
  intros fuel sep f v w sd F Z Hs. apply addF_text_ok. rewrite text_fin by exact F. cbv zeta.
  change (Ascii.eqb "e" "f") with false. change (Ascii.eqb "e" "s") with false. change (Ascii.eqb "e" "g") with false.
  change (Ascii.eqb "e" "e") with true. cbv iota. apply deq_zero in Z; [|exact F]. rewrite Z.
  rewrite to_i32_small by (unfold two31 in *; lia). change (put_int 0) with (repeat "0"%char 1).
  unfold pad_r, fill_count. rewrite repeat_length, <- repeat_app.
  replace (1 + Z.to_nat (sd - 1 - Z.of_nat 1))%nat with (Z.to_nat (Z.max 1 (sd - 1))) by lia. reflexivity.
Qed.
Print Assumptions C26_zero_partial.
Example C26_nonvacuous : finite (B754_zero true) /\ real_of (B754_zero true) = 0 /\
  addF_text 0 ","%char (B754_zero true) "e" 3 6 = Some (Ok (lit "0,00000e0")).
Proof. repeat split. Qed.

(* C27 is false for nine digits *)
Definition d_c27 : double := dbl false 6448908785868796 (-883) eq_refl.           (* 1.000000144999999e-250 *)
Theorem C27_accuracy_refuted : exists v x, finite v /\ powerRZ 2 (-960) <= Rabs (real_of v) /\
  (forall sep, addF_text 501 sep v "e" 0 9 = Some (Ok (lit " 100.000015e-252"))) /\
  engineering (lit " 100.000015e-252") false (lit "100") (lit "000015") (-252) /\
  denotes false (lit "100") (lit "000015") (-252) x /\
  5 * powerRZ 10 (-9) * Rabs (real_of v) < Rabs (x - real_of v).
Proof.
  assert (V : val d_c27 = IZR 6448908785868796 * / IZR (2 ^ 883)).
  { unfold d_c27, dbl, B2R, F2R. cbn [cond_Zopp Fnum Fexp]. f_equal. }
  assert (P1 : 0 < IZR (2 ^ 883)) by (apply IZR_lt; reflexivity).
  assert (Pv : 0 < val d_c27) by (rewrite V; apply Rmult_lt_0_compat; [lra|apply Rinv_0_lt_compat; exact P1]).
  exists d_c27, (IZR 100000015 * / IZR (10 ^ 258)). split; [reflexivity|]. split.
  { rewrite Rabs_pos_eq by lra. change 2%R with (IZR radix2). rewrite <- bpow_powerRZ. rewrite V.
    change (-960)%Z with (- (960))%Z. rewrite bpow_opp. replace 960%Z with (883 + 77)%Z by reflexivity. rewrite bpow_plus, Rinv_mult.
    change (bpow radix2 883) with (IZR (2 ^ 883)). rewrite Rmult_comm. apply Rmult_le_compat_r; [left; apply Rinv_0_lt_compat; exact P1|].
    apply Rle_trans with 1; [|lra]. rewrite <- Rinv_1. apply Rinv_le; [lra|]. change 1 with (bpow radix2 0). apply bpow_le. lia. }
  split; [intros sep; vm_compute; reflexivity|]. split.
  { exists (lit "252"), []. split; [reflexivity|]. split; [discriminate|]. split; [reflexivity|]. split; [reflexivity|].
    split; [split; [reflexivity|right; discriminate]|]. intros c []. }
  split.
  { exists 100000015%N. split; [reflexivity|]. change (-252 - Z.of_nat (length (lit "000015")))%Z with (- (258))%Z.
    rewrite r10, bpow_opp. change (bpow radix10 258) with (IZR (10 ^ 258)). change (Z.of_N 100000015) with 100000015%Z. ring. }
  assert (P2 : 0 < IZR (10 ^ 258)) by (apply IZR_lt; reflexivity).
  rewrite (Rabs_pos_eq (val d_c27)) by lra. rewrite r10. change (bpow radix10 (-9)) with (/ 1000000000).
  apply Rlt_le_trans with (IZR 100000015 * / IZR (10 ^ 258) - val d_c27); [|apply Rle_abs].
  assert (K : val d_c27 * (1 + 5 * / 1000000000) < IZR 100000015 * / IZR (10 ^ 258)); [|lra].
  rewrite V. apply Rmult_lt_reg_r with (IZR (2 ^ 883) * IZR (10 ^ 258)); [apply Rmult_lt_0_compat; assumption|].
  replace (IZR 6448908785868796 * / IZR (2 ^ 883) * (1 + 5 * / 1000000000) * (IZR (2 ^ 883) * IZR (10 ^ 258)))
    with (IZR 6448908785868796 * (1 + 5 * / 1000000000) * IZR (10 ^ 258)) by (field; lra).
  replace (IZR 100000015 * / IZR (10 ^ 258) * (IZR (2 ^ 883) * IZR (10 ^ 258))) with (IZR 100000015 * IZR (2 ^ 883)) by (field; lra).
  apply Rmult_lt_reg_r with 1000000000; [lra|].
  replace (IZR 6448908785868796 * (1 + 5 * / 1000000000) * IZR (10 ^ 258) * 1000000000)
    with (IZR (6448908785868796 * 1000000005 * 10 ^ 258)) by (rewrite !mult_IZR; field).
  replace (IZR 100000015 * IZR (2 ^ 883) * 1000000000) with (IZR (100000015 * 2 ^ 883 * 1000000000)) by (rewrite !mult_IZR; reflexivity).
  apply IZR_lt. vm_compute. reflexivity.
Qed.
Print Assumptions C27_accuracy_refuted.
(* and for tiny numbers: the power of ten that restores the magnitude is itself
   subnormal; one percent off with four digits asked for *)
Theorem C27_tiny_refuted : exists v x, finite v /\ real_of v = 100 * powerRZ 2 (-1074) /\
  (forall sep, addF_text 501 sep v "e" 0 4 = Some (Ok (lit " 489.1e-324"))) /\
  engineering (lit " 489.1e-324") false (lit "489") (lit "1") (-324) /\
  denotes false (lit "489") (lit "1") (-324) x /\
  / 100 * Rabs (real_of v) < Rabs (x - real_of v).
Proof.
  set (v := dbl false 100 (-1074) eq_refl).
  assert (V : val v = 100 * / IZR (2 ^ 1074)) by (unfold v, dbl, B2R, F2R; cbn [cond_Zopp Fnum Fexp]; reflexivity).
  assert (P1 : 0 < IZR (2 ^ 1074)) by (apply IZR_lt; reflexivity).
  assert (P2 : 0 < IZR (10 ^ 325)) by (apply IZR_lt; reflexivity).
  assert (Pv : 0 < val v) by (rewrite V; apply Rmult_lt_0_compat; [lra|apply Rinv_0_lt_compat; exact P1]).
  exists v, (IZR 4891 * / IZR (10 ^ 325)). split; [reflexivity|]. split.
  { rewrite V. change 2%R with (IZR radix2). rewrite <- bpow_powerRZ. change (-1074)%Z with (- (1074))%Z. rewrite bpow_opp. reflexivity. }
  split; [intros sep; vm_compute; reflexivity|]. split.
  { exists (lit "324"), []. split; [reflexivity|]. split; [discriminate|]. split; [reflexivity|]. split; [reflexivity|].
    split; [split; [reflexivity|right; discriminate]|]. intros c []. }
  split.
  { exists 4891%N. split; [reflexivity|]. change (-324 - Z.of_nat (length (lit "1")))%Z with (- (325))%Z.
    rewrite r10, bpow_opp. change (bpow radix10 325) with (IZR (10 ^ 325)). change (Z.of_N 4891) with 4891%Z. ring. }
  rewrite (Rabs_pos_eq (val v)) by lra. rewrite Rabs_minus_sym. eapply Rlt_le_trans; [|apply Rle_abs].
  assert (K : IZR 4891 * / IZR (10 ^ 325) < val v * (99 / 100)); [|lra].
  rewrite V. apply Rmult_lt_reg_r with (IZR (2 ^ 1074) * IZR (10 ^ 325)); [apply Rmult_lt_0_compat; assumption|].
  replace (IZR 4891 * / IZR (10 ^ 325) * (IZR (2 ^ 1074) * IZR (10 ^ 325))) with (IZR (4891 * 2 ^ 1074)) by (rewrite mult_IZR; field; lra).
  replace (100 * / IZR (2 ^ 1074) * (99 / 100) * (IZR (2 ^ 1074) * IZR (10 ^ 325))) with (IZR (99 * 10 ^ 325)) by (rewrite mult_IZR; field; lra).
  apply IZR_lt. vm_compute. reflexivity.
Qed.
Print Assumptions C27_tiny_refuted.
(* proved as stated for one to seven digits; within a further 4 * 10^-13 for
   eight to ten.  Working range: from 2^-1015. *)
Theorem C27_accuracy_partial : forall fuel sep f v w sd f', finite v -> powerRZ 2 (-1015) <= Rabs (real_of v) -> (1 <= sd <= 10)%Z ->
  addF fuel sep f v "e" w sd = Some (Ok f') ->
  exists t neg ip fp ex x, f' = insertField f t /\ engineering t neg ip fp ex /\ denotes neg ip fp ex x /\
    Rabs (x - real_of v) <= (5 * powerRZ 10 (- sd) + 4 / 10000000000000) * Rabs (real_of v) /\
    ((sd <= 7)%Z -> Rabs (x - real_of v) <= 5 * powerRZ 10 (- sd) * Rabs (real_of v)).
Proof.
  intros fuel sep f v w sd f' F Hv Hs E. destruct (addF_inv _ _ _ _ _ _ _ _ E) as (t & Et & ->).
  change 2%R with (IZR radix2) in Hv. rewrite <- bpow_powerRZ in Hv.
  assert (N : val v <> 0) by (intros Z; rewrite Z, Rabs_R0 in Hv; assert (P := bpow_gt_0 radix2 (-1015)); lra).
  assert (Hs2 : (1 <= sd < two31)%Z) by (unfold two31; lia).
  destruct (eng_all _ _ _ _ _ _ F N Hs2 Et) as (neg & ip & fp & ex & i & x & H1 & H2 & H3 & H4 & H5 & H6 & H7 & H8 & H9).
  exists t, neg, ip, fp, ex, x. split; [reflexivity|]. split; [exact H1|]. split; [exact H8|]. apply H9; [exact Hv|lia].
Qed.
Print Assumptions C27_accuracy_partial.
Example C27_nonvacuous : powerRZ 2 (-1015) <= Rabs (real_of d1) /\
  addF_text 501 "."%char d1 "e" 0 6 = Some (Ok (lit " 1.00000e+0 ")).
Proof.
  split; [|vm_compute; reflexivity]. rewrite d1_val, Rabs_pos_eq by lra. change 2%R with (IZR radix2). rewrite <- bpow_powerRZ.
  change 1 with (bpow radix2 0). apply bpow_le. lia.
Qed.

(* C28 is false: zero in 'e' format and unknown format codes are not padded. *)
Theorem C28_width_refuted :
  (forall fuel, addF_text fuel "."%char dzero "e" 20 4 = Some (Ok (lit "0.000e0"))) /\
  (forall fuel v, finite v -> addF_text fuel "."%char v "d" 20 4 = Some (Ok [])).
Proof. split; [reflexivity|]. intros fuel v F. rewrite text_fin by exact F. reflexivity. Qed.
Print Assumptions C28_width_refuted.
Theorem C28_width_partial : forall fuel sep f v fm w sd f', (0 <= sd < two32)%Z -> (0 <= requested w sd < two31)%Z ->
  is_finite v = false \/ In fm (lit "fsg") \/ fm = "e"%char /\ real_of v <> 0 ->
  addF fuel sep f v fm w sd = Some (Ok f') ->
  exists t, f' = insertField f t /\ (requested w sd <= Z.of_nat (length t))%Z.
Proof.
  intros fuel sep f v fm w sd f' Hs Hw C E. destruct (addF_inv _ _ _ _ _ _ _ _ E) as (t & Et & ->).
  exists t. split; [reflexivity|]. exact (c28 _ _ _ _ _ _ _ Hs Hw C Et).
Qed.
Print Assumptions C28_width_partial.
Example C28_nonvacuous : requested 12 3 = 12%Z /\ addF_text 501 "."%char d1234 "e" 12 3 = Some (Ok (lit "-1.23e+3      ")) /\
  addF_text 0 "."%char d1234 "f" 12 2 = Some (Ok (lit "-1234.57    ")) /\ requested 0 3 = 7%Z.
Proof. repeat split; vm_compute; reflexivity. Qed.

(* C29 *)
Theorem C29_fixed : forall fuel sep f v w sd, finite v -> (0 <= sd < two31)%Z -> (0 <= requested w sd < two31)%Z ->
  exists ip fp x t, addF fuel sep f v "f" w sd = Some (Ok (insertField f t)) /\
    left_justified " "%char (requested w sd) (decimal (Bsign v) ip fp) t /\
    ip <> [] /\ all_digits ip /\ all_digits fp /\ no_leading_zero ip /\ Z.of_nat (length fp) = sd /\
    denotes (Bsign v) ip fp 0 x /\ Rabs (x - real_of v) <= / 2 * powerRZ 10 (- sd).
Proof.
  intros fuel sep f v w sd F Hs Hw. destruct (c29 fuel sep v w sd F Hs Hw) as (ip & fp & x & t & E & H).
  exists ip, fp, x, t. split; [apply addF_text_ok; exact E|exact H].
Qed.
Print Assumptions C29_fixed.
(* the sign bit is the sign *)
Theorem C29_sign : forall v, finite v -> (real_of v < 0 -> Bsign v = true) /\ (0 < real_of v -> Bsign v = false).
Proof.
  intros v F. assert (H := sign_abs v F). assert (A := Rabs_pos (val v)). destruct (Bsign v); split; intros; try reflexivity; lra.
Qed.
Print Assumptions C29_sign.
Example C29_nonvacuous : addF_text 0 "."%char d0_1 "f" 0 20 = Some (Ok (lit "0.10000000000000000555  ")) /\
  addF_text 0 "."%char (dlit 5) "f" 4 0 = Some (Ok (lit "5   ")) /\ finite d0_1.
Proof. repeat split; vm_compute; reflexivity. Qed.

(* C30 *)
Theorem C30_scientific : forall fuel sep f v w sd, finite v -> real_of v <> 0 -> (0 <= sd < two31)%Z -> (0 <= requested w sd < two31)%Z ->
  exists c fp ex x body t, addF fuel sep f v "s" w sd = Some (Ok (insertField f t)) /\
    left_justified " "%char (requested w sd) body t /\ scientific body (Bsign v) [c] fp ex /\
    c <> "0"%char /\ all_digits [c] /\ all_digits fp /\ Z.of_nat (length fp) = sd /\
    denotes (Bsign v) [c] fp ex x /\ Rabs (x - real_of v) <= / 2 * powerRZ 10 (ex - sd).
Proof.
  intros fuel sep f v w sd F N Hs Hw. destruct (c30 fuel sep v w sd F N Hs Hw) as (c & fp & ex & x & body & t & E & H).
  exists c, fp, ex, x, body, t. split; [apply addF_text_ok; exact E|exact H].
Qed.
Print Assumptions C30_scientific.
Theorem C30_scientific_zero : forall fuel sep f v w sd, finite v -> real_of v = 0 -> (0 <= sd < two31)%Z -> (0 <= requested w sd < two31)%Z ->
  exists t, addF fuel sep f v "s" w sd = Some (Ok (insertField f t)) /\
    left_justified " "%char (requested w sd)
      (decimal (Bsign v) (lit "0") (repeat "0"%char (Z.to_nat sd)) ++ lit "e+00") t.
Proof.
  intros fuel sep f v w sd F N Hs Hw. destruct (c30_zero fuel sep v w sd F N Hs Hw) as (t & E & H).
  exists t. split; [apply addF_text_ok; exact E|exact H].
Qed.
Print Assumptions C30_scientific_zero.
Example C30_nonvacuous : addF_text 0 "."%char d1234 "s" 0 3 = Some (Ok (lit "-1.235e+03")) /\
  scientific (lit "-1.235e+03") true (lit "1") (lit "235") 3.
Proof. split; [vm_compute; reflexivity|]. exists (lit "03"). repeat split; vm_compute; repeat constructor. Qed.

(* C31 is false: nothing is inserted. *)
Theorem C31_unknown_code_refuted : exists fm, ~ In fm (lit "fsge") /\
  forall fuel sep f v w sd, finite v -> addF fuel sep f v fm w sd = Some (Ok (insertField f [])).
Proof.
  exists "d"%char. split; [intros [H|[H|[H|[H|[]]]]]; discriminate|]. intros fuel sep f v w sd F.
  apply addF_text_ok. rewrite text_fin by exact F. reflexivity.
Qed.
Print Assumptions C31_unknown_code_refuted.
Theorem C31_unknown_code_partial : forall fuel sep f v fm w sd, ~ In fm (lit "fsge") ->
  (finite v -> addF fuel sep f v fm w sd = Some (Ok (insertField f []))) /\
  (is_finite v = false -> exists t, addF fuel sep f v fm w sd = Some (Ok (insertField f t)) /\
     left_justified " "%char (requested w sd) (if is_nan v then lit "nan" else lit "inf") t).
Proof.
  intros fuel sep f v fm w sd H. split; intros F.
  - apply addF_text_ok. rewrite text_fin by exact F. cbv zeta.
    destruct (Ascii.eqb_spec fm "f"); [subst; exfalso; apply H; cbn; auto|].
    destruct (Ascii.eqb_spec fm "s"); [subst; exfalso; apply H; cbn; auto|].
    destruct (Ascii.eqb_spec fm "g"); [subst; exfalso; apply H; cbn; auto|].
    destruct (Ascii.eqb_spec fm "e"); [subst; exfalso; apply H; cbn; auto|]. reflexivity.
  - destruct v as [s|s| |]; try discriminate.
    + eexists. split; [apply addF_text_ok; apply text_inf|]. apply pad_r_spec.
    + eexists. split; [apply addF_text_ok; apply text_nan; reflexivity|]. apply pad_r_spec.
Qed.
Print Assumptions C31_unknown_code_partial.
Example C31_nonvacuous : ~ In "E"%char (lit "fsge") /\ finite d0_1 /\ exists f, newFormat Strict (lit "<%0>") = Ok f /\
  fmt_str (insertField f []) true = Ok (lit "<>").
Proof.
  split; [intros [H|[H|[H|[H|[]]]]]; discriminate|]. split; [reflexivity|]. eexists. split; vm_compute; reflexivity.
Qed.

(* C32 is false: only zero uses the separator. *)
Theorem C32_separator_refuted : exists v, finite v /\ real_of v = 1 /\
  addF_text 501 ","%char v "e" 0 3 = Some (Ok (lit " 1.00e+0 ")).
Proof. exists d1. split; [reflexivity|]. split; [apply d1_val|]. vm_compute. reflexivity. Qed.
Print Assumptions C32_separator_refuted.
Theorem C32_separator_partial : forall fuel sep sep' f v w sd, finite v ->
  (real_of v <> 0 -> addF fuel sep f v "e" w sd = addF fuel sep' f v "e" w sd) /\
  (real_of v = 0 -> (0 <= sd < two31)%Z ->
     exists zeros, addF fuel sep f v "e" w sd = Some (Ok (insertField f (lit "0" ++ [sep] ++ zeros ++ lit "e0")))).
Proof.
  intros fuel sep sep' f v w sd F. split.
  - intros N. unfold addF. rewrite !text_fin by exact F. cbv zeta. change (Ascii.eqb "e" "f") with false. change (Ascii.eqb "e" "s") with false.
    change (Ascii.eqb "e" "g") with false. change (Ascii.eqb "e" "e") with true. cbv iota.
    assert (D : deq v dzero = false) by (destruct (deq v dzero) eqn:D; [apply deq_zero in D; [contradiction|exact F]|reflexivity]).
    rewrite D. reflexivity.
  - intros Z Hs. eexists. rewrite (C26_zero_partial fuel sep f v w sd F Z Hs). reflexivity.
Qed.
Print Assumptions C32_separator_partial.
Example C32_nonvacuous : addF_text 0 ","%char dzero "e" 0 3 = Some (Ok (lit "0,00e0")).
Proof. reflexivity. Qed.

(* C89: 'g' *)
Theorem C89_general : forall fuel sep f v w sd, finite v -> real_of v <> 0 -> (0 <= sd < two31)%Z -> (0 <= requested w sd < two31)%Z ->
  exists ip fp ex body t x q, addF fuel sep f v "g" w sd = Some (Ok (insertField f t)) /\
    left_justified " "%char (requested w sd) body t /\
    (ex = 0%Z /\ body = decimal (Bsign v) ip fp \/
     scientific body (Bsign v) ip fp ex /\ exists c, ip = [c] /\ c <> "0"%char) /\
    ip <> [] /\ all_digits ip /\ all_digits fp /\ no_leading_zero ip /\ last fp "1"%char <> "0"%char /\
    denotes (Bsign v) ip fp ex x /\
    powerRZ 10 q <= Rabs x <= powerRZ 10 (q + 1) /\
    Rabs (x - real_of v) <= / 2 * powerRZ 10 (q + 1 - Z.max 1 sd).
Proof.
  intros fuel sep f v w sd F N Hs Hw. destruct (c89 fuel sep v w sd F N Hs Hw) as (ip & fp & ex & body & t & x & q & E & H).
  exists ip, fp, ex, body, t, x, q. split; [apply addF_text_ok; exact E|exact H].
Qed.
Print Assumptions C89_general.
Example C89_nonvacuous : addF_text 0 "."%char d0_1 "g" 5 6 = Some (Ok (lit "0.1  ")) /\
  addF_text 0 "."%char (dlit 1234567) "g" 0 3 = Some (Ok (lit "1.23e+06")).
Proof. split; vm_compute; reflexivity. Qed.

(* C90 is false from 11 digits on: the fraction is collected in an int. *)
Theorem C90_defined_refuted : exists v, finite v /\ real_of v = 3 / 2 /\
  forall sep f w, addF 501 sep f v "e" w 11 = Some UB.
Proof.
  exists (dbl false 6755399441055744 (-52) eq_refl). split; [reflexivity|]. split.
  { unfold dbl, B2R, F2R. cbn [cond_Zopp Fnum Fexp]. change (bpow radix2 (-52)) with (/ 4503599627370496). lra. }
  intros sep f w. unfold addF. assert (E : addF_text 501 sep (dbl false 6755399441055744 (-52) eq_refl) "e" w 11 = Some UB); [|rewrite E; reflexivity].
  vm_compute. reflexivity.
Qed.
Print Assumptions C90_defined_refuted.
Theorem C90_defined_partial : forall sep f v fm w sd, finite v -> (0 <= sd <= 10)%Z ->
  real_of v = 0 \/ 3 * powerRZ 2 (-1074) <= Rabs (real_of v) <= IZR (limit sd) * powerRZ 2 971 ->
  exists t, addF 501 sep f v fm w sd = Some (Ok (insertField f t)).
Proof.
  intros sep f v fm w sd F Hs C'.
  destruct (defined 501 sep v fm w sd ltac:(lia) Hs F C') as (t & E). exists t. apply addF_text_ok. exact E.
Qed.
Print Assumptions C90_defined_partial.
Example C90_nonvacuous : finite d0_1 /\ 3 * powerRZ 2 (-1074) <= Rabs (real_of d0_1) <= IZR (limit 10) * powerRZ 2 971.
Proof.
  split; [reflexivity|]. assert (V : real_of d0_1 = 7205759403792794 * / 72057594037927936) by (unfold d0_1, dbl, B2R, F2R; cbn [cond_Zopp Fnum Fexp]; reflexivity).
  rewrite V, Rabs_pos_eq by lra. rewrite r2. split.
  - assert (H : bpow radix2 (-1074) <= bpow radix2 (-10)) by (apply bpow_le; lia). change (bpow radix2 (-10)) with (/ 1024) in H. lra.
  - eapply Rle_trans; [|apply under_limit; unfold two32; lia]. assert (H : bpow radix2 0 <= bpow radix2 1023) by (apply bpow_le; lia). change (bpow radix2 0) with 1 in H. lra.
Qed.
