(* L_FormatH.v -- fractionate: the digits taken from the normalized value. *)
From Coq Require Import Reals Lra Psatz.
From Flocq Require Import Core.Core IEEE754.BinarySingleNaN Relative.
From Verif Require Import Base M_Stream M_Float M_Format M_FormatF L_Float L_FormatF.
Local Open Scope R_scope.

Lemma dfloor_ok d : fin d -> fin (dfloor d) /\ val (dfloor d) = IZR (Zfloor (val d)).
Proof.
  intros F. destruct (@Bnearbyint_correct 53 1024 emax64 mode_DN d) as (V & Fi & _).
  unfold dfloor. rewrite Fi, V. split; [exact F|]. apply round_FIX_IZR.
Qed.
Lemma dtrunc_ok d : fin d -> fin (dtrunc d) /\ val (dtrunc d) = IZR (Ztrunc (val d)).
Proof.
  intros F. destruct (@Bnearbyint_correct 53 1024 emax64 mode_ZR d) as (V & Fi & _).
  unfold dtrunc. rewrite Fi, V. split; [exact F|]. apply round_FIX_IZR.
Qed.
Lemma d_to_int_ok d n : fin d -> val d = IZR n -> d_to_int d = if ((- two31 <=? n) && (n <? two31))%Z then Ok n else UB.
Proof.
  intros F V. unfold d_to_int. rewrite F.
  assert (E : Btrunc d = n).
  { apply eq_IZR. rewrite (Btrunc_correct 53 1024 emax64 d), round_FIX_IZR, V, Ztrunc_IZR. reflexivity. }
  rewrite E. reflexivity.
Qed.

(* the fraction of a double is a double *)
Lemma frac_fmt x : fmt64 x -> 0 <= x -> fmt64 (x - IZR (Zfloor x)).
Proof.
  intros Hx P. destruct (Rlt_or_le x 1) as [L|G].
  { rewrite (Zfloor_imp 0); [rewrite Rminus_0_r; exact Hx|]. cbn. lra. }
  set (e := cexp radix2 fexp64 x). set (M := Ztrunc (scaled_mantissa radix2 fexp64 x)).
  assert (E : x = IZR M * bpow radix2 e) by exact Hx.
  assert (He : (-52 <= e)%Z).
  { unfold e, cexp, FLT_exp. assert (1 <= mag radix2 x)%Z; [|lia].
    apply mag_ge_bpow. cbn. rewrite Rabs_pos_eq; lra. }
  destruct (Z_le_gt_dec 0 e) as [Ge|Le].
  - assert (X : x = IZR (M * 2 ^ e)).
    { rewrite E at 1. rewrite mult_IZR. f_equal. rewrite <- (IZR_Zpower radix2) by exact Ge. reflexivity. }
    rewrite X at 1 2. rewrite Zfloor_IZR. rewrite Rminus_diag_eq by reflexivity. apply fmt_0.
  - set (q := (2 ^ (- e))%Z).
    assert (Q : IZR q * bpow radix2 e = 1).
    { unfold q. rewrite (IZR_Zpower radix2) by lia. rewrite <- bpow_plus. replace (- e + e)%Z with 0%Z by lia. reflexivity. }
    assert (D : x - IZR (Zfloor x) = IZR (M - Zfloor x * q) * bpow radix2 e).
    { rewrite minus_IZR, mult_IZR, Rmult_minus_distr_r, Rmult_assoc, Q, <- E. lra. }
    rewrite D. apply fmt_F2R; [|lia].
    assert (B : 0 <= x - IZR (Zfloor x) < 1).
    { generalize (Zfloor_lb x) (Zfloor_ub x). intros. lra. }
    rewrite D in B. assert (bp := bpow_gt_0 radix2 e).
    assert (L0 : (0 <= M - Zfloor x * q)%Z) by (apply le_IZR; nra).
    assert (L1 : (M - Zfloor x * q < q)%Z) by (apply lt_IZR; nra).
    assert (L2 : (q <= 2 ^ 52)%Z) by (unfold q; apply Z.pow_le_mono_r; lia). lia.
Qed.
Lemma Ztrunc_pos x : 0 <= x -> Ztrunc x = Zfloor x.
Proof. apply Ztrunc_floor. Qed.

Lemma dmodf_ok x : fin x -> 0 <= val x ->
  let '(f, i) := dmodf x in
  fin f /\ val f = val x - IZR (Zfloor (val x)) /\ fin i /\ val i = IZR (Zfloor (val x)).
Proof.
  intros F P. unfold dmodf. destruct (dtrunc_ok x F) as (Ft & Vt). rewrite (Ztrunc_pos _ P) in Vt.
  assert (B : 0 <= val x - IZR (Zfloor (val x)) < 1) by (generalize (Zfloor_lb (val x)) (Zfloor_ub (val x)); intros; lra).
  destruct (dsub_ok x (dtrunc x) F Ft) as (Fs & Vs).
  { rewrite Vt, rnd_fmt by (apply frac_fmt; [apply val_fmt|exact P]). apply abs_pos_lt; [lra|].
    apply Rlt_trans with 1; [lra|]. apply (small_top 1). lia. }
  rewrite Vt, rnd_fmt in Vs by (apply frac_fmt; [apply val_fmt|exact P]). auto.
Qed.

(* one digit *)
Lemma below_one x : fmt64 x -> x < 1 -> x <= 1 - bpow radix2 (-53).
Proof.
  intros Hx L. change 1 with (bpow radix2 0). change (-53)%Z with (fexp64 0).
  rewrite <- (pred_bpow radix2 fexp64). apply pred_ge_gt; [apply vexp64|exact Hx|apply (fmt_bpow 0); lia|exact L].
Qed.
Definition dlast : double := @B754_finite 53 1024 false 9007199254740991 (-53) eq_refl.
Lemma val_dlast : val dlast = 1 - bpow radix2 (-53).
Proof.
  unfold dlast, B2R, F2R. cbn [cond_Zopp Fnum Fexp].
  change (bpow radix2 (-53)) with (/ 9007199254740992). lra.
Qed.
Lemma dlast_10 : dlt (dmul dlast d10) d10 = true.
Proof. vm_compute. reflexivity. Qed.

Lemma digit_ok f : fin f -> 0 <= val f < 1 ->
  fin (dmul f d10) /\ 0 <= val (dmul f d10) < 10 /\ Rabs (val (dmul f d10) - 10 * val f) <= bpow radix2 (-50).
Proof.
  intros F B.
  assert (T : fmt64 10) by (apply (nonneg_fmt 10); lia). assert (T' : 10 < top) by (apply (small_top 10); lia).
  destruct (mul_ok 10 f 10 ltac:(lia) F (proj1 B) T T') as (Fd & Vd & Bd); [lra|].
  destruct (mul_ok 10 dlast 10 ltac:(lia) eq_refl) as (Fl & Vl & Bl); auto.
  { rewrite val_dlast. change (bpow radix2 (-53)) with (/ 9007199254740992). lra. }
  { rewrite val_dlast. change (bpow radix2 (-53)) with (/ 9007199254740992). lra. }
  assert (L := dlast_10). apply dlt_true in L; [|exact Fl|apply d10_fin]. rewrite d10_val in L.
  split; [exact Fd|]. split.
  - split; [unfold d10; lra|]. apply Rle_lt_trans with (2 := L). unfold d10. rewrite Vd, Vl. apply rnd_le.
    assert (val f <= val dlast) by (rewrite val_dlast; apply below_one; [apply val_fmt|lra]). nra.
  - unfold d10. rewrite Vd. rewrite (Rmult_comm (val f)).
    destruct (Req_dec (10 * val f) 0) as [Z|NZ].
    { rewrite Z, round_0, Rminus_0_r, Rabs_R0 by apply valid_rnd_N. apply bpow_ge_0. }
    eapply Rle_trans; [apply error_le_half_ulp; apply vexp64|].
    assert (U : ulp radix2 fexp64 (10 * val f) <= bpow radix2 (-49)).
    { rewrite ulp_neq_0 by exact NZ. apply bpow_le. unfold cexp, FLT_exp.
      assert (mag radix2 (10 * val f) <= 4)%Z; [|lia]. apply mag_le_bpow; [exact NZ|].
      rewrite Rabs_pos_eq by lra. change (bpow radix2 4) with 16. lra. }
    change (bpow radix2 (-49)) with (/ 562949953421312) in U. change (bpow radix2 (-50)) with (/ 1125899906842624). lra.
Qed.

(* the digits loop *)
Lemma floor_digit x : 0 <= x < 10 -> (0 <= Zfloor x <= 9)%Z.
Proof.
  intros B. split; [apply Zfloor_lub; cbn; lra|]. assert (Zfloor x < 10)%Z; [|lia]. apply lt_IZR.
  apply Rle_lt_trans with x; [apply Zfloor_lb|lra].
Qed.
Lemma frac_step f t : fin f -> 0 <= val f < 1 -> (0 <= t < two31)%Z ->
  let d := dmul f d10 in let g := Zfloor (val d) in
  (0 <= g <= 9)%Z /\
  d_to_int (dadd (dlit t) (dfloor d)) = (if (t + g <? two31)%Z then Ok (t + g)%Z else UB) /\
  fin (fst (dmodf d)) /\ val (fst (dmodf d)) = val d - IZR g /\ 0 <= val (fst (dmodf d)) < 1.
Proof.
  intros F B Ht d g. destruct (digit_ok f F B) as (Fd & Bd & _). fold d in Fd, Bd.
  assert (G : (0 <= g <= 9)%Z) by (apply floor_digit; exact Bd). split; [exact G|].
  destruct (dfloor_ok d Fd) as (Fl & Vl). fold g in Vl.
  destruct (dlit_ok t) as (Ft & Vt); [unfold two31 in *; lia|].
  assert (S53 : (0 <= t + g < 2 ^ 53)%Z) by (unfold two31 in *; lia).
  assert (R : rnd (val (dlit t) + val (dfloor d)) = IZR (t + g)).
  { rewrite Vt, Vl, <- plus_IZR. apply rnd_fmt. apply nonneg_fmt. exact S53. }
  split.
  - destruct (dadd_ok (dlit t) (dfloor d) Ft Fl) as (Fa & Va).
    { rewrite R. apply abs_pos_lt; [apply IZR_le; lia|]. apply small_top. exact S53. }
    rewrite R in Va. rewrite (d_to_int_ok _ _ Fa Va).
    replace (- two31 <=? t + g)%Z with true by (symmetry; apply Z.leb_le; unfold two31 in *; lia). reflexivity.
  - assert (M := dmodf_ok d Fd (proj1 Bd)). destruct (dmodf d) as (fr, ip). destruct M as (Ff & Vf & _).
    cbn [fst]. fold g in Vf. split; [exact Ff|]. split; [exact Vf|]. rewrite Vf.
    generalize (Zfloor_lb (val d)) (Zfloor_ub (val d)). fold g. intros. lra.
Qed.

Lemma frac_loop_S n f t : frac_loop (S n) f t =
  (if ((- two31 <=? 10 * t) && (10 * t <? two31))%Z
   then do g <- d_to_int (dadd (dlit (10 * t)) (dfloor (dmul f d10))); frac_loop n (fst (dmodf (dmul f d10))) g
   else UB).
Proof. reflexivity. Qed.

Lemma frac_loop_ok n : forall f t g, fin f -> 0 <= val f < 1 -> (0 <= t < two31)%Z -> frac_loop n f t = Ok g ->
  (t * 10 ^ Z.of_nat n <= g < (t + 1) * 10 ^ Z.of_nat n)%Z /\ (g < two31)%Z /\
  exists r, 0 <= r < 1 /\
    Rabs (IZR g + r - (IZR t + val f) * IZR (10 ^ Z.of_nat n)) <= IZR (10 ^ Z.of_nat n - 1) / 9 * bpow radix2 (-50).
Proof.
  induction n as [|n IH]; intros f t g F B Ht.
  - cbn [frac_loop]. intros H. injection H as <-. change (10 ^ Z.of_nat 0)%Z with 1%Z. split; [lia|]. split; [lia|].
    exists (val f). split; [exact B|].
    replace (IZR t + val f - (IZR t + val f) * 1) with 0 by lra. rewrite Rabs_R0. change (1 - 1)%Z with 0%Z. lra.
  - rewrite frac_loop_S. destruct ((- two31 <=? 10 * t) && (10 * t <? two31))%Z eqn:C; [|discriminate].
    rewrite andb_true_iff, Z.leb_le, Z.ltb_lt in C.
    destruct (frac_step f (10 * t) F B ltac:(lia)) as (G & E & Ff & Vf & Bf). rewrite E.
    set (d := dmul f d10) in *. set (dg := Zfloor (val d)) in *.
    destruct (10 * t + dg <? two31)%Z eqn:C2; [|discriminate]. rewrite Z.ltb_lt in C2. cbn [obind].
    assert (N0 : (0 <= 10 * t + dg < two31)%Z) by lia. intros H. destruct (IH _ _ _ Ff Bf N0 H) as (R1 & R2 & r & Br & A).
    replace (Z.of_nat (S n)) with (1 + Z.of_nat n)%Z by lia. rewrite Z.pow_add_r by lia. change (10 ^ 1)%Z with 10%Z.
    set (p := (10 ^ Z.of_nat n)%Z) in *. assert (P : (1 <= p)%Z) by (unfold p; lia).
    assert (P' : 1 <= IZR p) by (apply IZR_le; exact P).
    split; [nia|]. split; [exact R2|]. exists r. split; [exact Br|].
    destruct (digit_ok f F B) as (_ & _ & De). fold d in De.
    rewrite Vf in A. rewrite plus_IZR, mult_IZR in A. rewrite mult_IZR, minus_IZR, mult_IZR. rewrite minus_IZR in A.
    apply Rabs_le_inv in A. apply Rabs_le_inv in De. apply Rabs_le. set (u := bpow radix2 (-50)) in *.
    assert (U : 0 <= u) by apply bpow_ge_0. fold dg in A. nra.
Qed.
(* no fraction, no overflow *)
Lemma frac_loop_0 n : forall f, fin f -> val f = 0 -> frac_loop n f 0 = Ok 0%Z.
Proof.
  induction n as [|n IH]; intros f F Z; [reflexivity|].
  rewrite frac_loop_S. change ((- two31 <=? 10 * 0) && (10 * 0 <? two31))%Z with true. cbv iota.
  destruct (frac_step f (10 * 0) F ltac:(lra)) as (G & E & Ff & Vf & Bf); [unfold two31; lia|]. rewrite E.
  assert (V0 : val (dmul f d10) = 0).
  { destruct (dmul_ok f d10 F) as (_ & ->); [reflexivity| |]; rewrite Z, Rmult_0_l, round_0 by apply valid_rnd_N; [rewrite Rabs_R0; apply bpow_gt_0|reflexivity]. }
  rewrite V0, Zfloor_IZR in *. cbn [obind]. apply IH; [exact Ff|]. rewrite Vf. lra.
Qed.
(* no overflow for nine digits *)
Lemma frac_loop_def n : forall f t a, fin f -> 0 <= val f < 1 -> (0 <= t < 10 ^ a)%Z -> (0 <= a)%Z -> (a + Z.of_nat n <= 9)%Z ->
  exists g, frac_loop n f t = Ok g.
Proof.
  induction n as [|n IH]; intros f t a F B Ht Ha Hn; [exists t; reflexivity|].
  assert (P9 : (10 ^ a * 10 <= 10 ^ 9)%Z) by (change 10%Z with (10 ^ 1)%Z at 2; rewrite <- Z.pow_add_r by lia; apply Z.pow_le_mono_r; lia).
  change (10 ^ 9)%Z with 1000000000%Z in P9.
  rewrite frac_loop_S. replace ((- two31 <=? 10 * t) && (10 * t <? two31))%Z with true
    by (symmetry; rewrite andb_true_iff, Z.leb_le, Z.ltb_lt; unfold two31; lia).
  destruct (frac_step f (10 * t) F B) as (G & E & Ff & Vf & Bf); [unfold two31; lia|]. rewrite E.
  set (dg := Zfloor _) in *.
  replace (10 * t + dg <? two31)%Z with true by (symmetry; rewrite Z.ltb_lt; unfold two31; lia). cbn [obind].
  apply (IH _ _ (a + 1)%Z Ff Bf); [|lia|lia]. rewrite Z.pow_add_r by lia. change (10 ^ 1)%Z with 10%Z. lia.
Qed.
