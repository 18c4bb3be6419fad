(* L_FormatK.v -- log1k: how far the normalized value is from the number. *)
From Coq Require Import Reals Lra Psatz.
From Flocq Require Import Core.Core IEEE754.BinarySingleNaN.
From Verif Require Import Base M_Stream M_Float M_FormatF L_Float L_Near L_FormatF L_FormatG L_FormatH L_FormatI L_FormatJ.
Local Open Scope R_scope.

Lemma dmul_fin x y : fin x -> fin y -> fin (dmul x y) -> val (dmul x y) = rnd (val x * val y).
Proof.
  intros Hx Hy H. destruct (Rlt_or_le (Rabs (rnd (val x * val y))) top) as [L|G].
  - apply dmul_ok; assumption.
  - exfalso. generalize (@Bmult_correct 53 1024 prec64 emax64 mode_NE x y).
    change (round radix2 (SpecFloat.fexp 53 1024) (round_mode mode_NE)) with rnd.
    rewrite Rlt_bool_false by exact G. intros E. unfold dmul in H.
    destruct (Bmult mode_NE x y); cbn in E; try discriminate.
Qed.

Lemma near_ups c k x : (1 <= c < 2 ^ 53)%Z -> bpow radix2 (-1022) <= val x ->
  (forall i, (i <= k)%nat -> fin (ups c i x)) -> (forall i, (i < k)%nat -> val x <= val (ups c i x)) ->
  near k (val (ups c k x)) (val x * IZR c ^ k).
Proof.
  intros Hc Hx F G. assert (C1 : 1 <= IZR c) by (apply IZR_le; lia).
  assert (P := bpow_gt_0 radix2 (-1022)).
  induction k as [|k IH].
  - cbn [pow]. rewrite Rmult_1_r. apply near_refl. lra.
  - assert (IH' : near k (val (ups c k x)) (val x * IZR c ^ k)) by (apply IH; intros i Hi; [apply F|apply G]; lia).
    assert (Fk := F k ltac:(lia)). assert (Fs := F (S k) ltac:(lia)). assert (Gk := G k ltac:(lia)).
    change (ups c (S k) x) with (dmul (ups c k x) (dlit c)) in *. destruct (dlit_ok c ltac:(lia)) as (Fc & Vc).
    rewrite (dmul_fin _ _ Fk Fc Fs), Vc. cbn [pow].
    replace (val x * (IZR c * IZR c ^ k)) with (val x * IZR c ^ k * IZR c) by ring.
    change (S k) with (1 + k)%nat. eapply near_trans; [apply near_rnd; nra|]. apply near_scale; [exact IH'|lra].
Qed.
Lemma near_downs c k x : (1 <= c < 2 ^ 53)%Z -> fin x -> 0 < val x ->
  (forall i, (i < k)%nat -> bpow radix2 (-1022) * IZR c <= val (downs c i x)) ->
  near k (val (downs c k x)) (val x / IZR c ^ k).
Proof.
  intros Hc Fx Px G. assert (C1 : 1 <= IZR c) by (apply IZR_le; lia).
  induction k as [|k IH].
  - cbn [pow]. unfold Rdiv. rewrite Rinv_1, Rmult_1_r. apply near_refl. exact Px.
  - assert (IH' : near k (val (downs c k x)) (val x / IZR c ^ k)) by (apply IH; intros i Hi; apply G; lia).
    destruct (downs_mono c k x x Hc Fx Fx ltac:(lra)) as (Fk & _ & (Pk & _) & _). assert (Gk := G k ltac:(lia)).
    change (downs c (S k) x) with (ddiv (downs c k x) (dlit c)).
    destruct (div_ok c _ Hc Fk Pk) as (_ & -> & _). cbn [pow].
    assert (0 < IZR c ^ k) by (apply pow_lt; lra).
    replace (val x / (IZR c * IZR c ^ k)) with (val x / IZR c ^ k * / IZR c) by (field; lra).
    change (S k) with (1 + k)%nat. unfold Rdiv at 1. eapply near_trans.
    + apply near_rnd. apply Rmult_le_reg_r with (IZR c); [lra|]. rewrite Rmult_assoc, Rinv_l, Rmult_1_r by lra. exact Gk.
    + apply near_scale; [exact IH'|apply Rinv_0_lt_compat; lra].
Qed.

Lemma pow10_bpow k : IZR 10 ^ k = bpow radix10 (Z.of_nat k).
Proof. rewrite pow_IZR. change 10%Z with (radix_val radix10). apply IZR_Zpower. lia. Qed.
Lemma bpow10_1000 k : IZR 1000 ^ k = bpow radix10 (3 * Z.of_nat k).
Proof.
  induction k as [|k IH]; [reflexivity|]. cbn [pow]. rewrite IH.
  replace (3 * Z.of_nat (S k))%Z with (3 + 3 * Z.of_nat k)%Z by lia. rewrite bpow_plus. reflexivity.
Qed.

(* the powers of ten that occur *)
Definition dsmall : double := @B754_finite 53 1024 false 4503599627370496 (-1070) eq_refl.
Lemma val_dsmall : val dsmall = bpow radix2 (-1018).
Proof.
  unfold dsmall, B2R, F2R. cbn [cond_Zopp Fnum Fexp].
  replace (-1018)%Z with (52 + -1070)%Z by reflexivity. rewrite bpow_plus. f_equal.
Qed.
Lemma small_table : dge (downs 10 306 d1) dsmall = true /\ dge (downs 10 306 (dlit 5)) dsmall = true.
Proof. split; vm_compute; reflexivity. Qed.
Lemma d5_ok : fin (dlit 5) /\ val (dlit 5) = 5. Proof. apply (dlit_ok 5). lia. Qed.
Lemma downs_small x : fin x -> 0 <= val x -> dge (downs 10 306 x) dsmall = true ->
  forall i, (i <= 306)%nat -> bpow radix2 (-1018) <= val (downs 10 i x).
Proof.
  intros Fx Px H i Hi. rewrite <- val_dsmall.
  destruct (downs_mono 10 306 x x ltac:(lia) Fx Fx ltac:(lra)) as (F & _).
  apply (dge_true _ dsmall F eq_refl) in H. replace 306%nat with (i + (306 - i))%nat in H by lia.
  eapply Rle_trans; [exact H|]. apply downs_dec; [lia|exact Fx|exact Px].
Qed.
Lemma small_1022 : bpow radix2 (-1022) * IZR 10 <= bpow radix2 (-1018).
Proof.
  replace (-1018)%Z with (-1022 + 4)%Z by reflexivity. rewrite bpow_plus. apply Rmult_le_compat_l; [apply bpow_ge_0|].
  change (bpow radix2 4) with 16. lra.
Qed.
Lemma near_downs10_d1 k : (k <= 306)%nat -> near k (val (downs 10 k d1)) (bpow radix10 (- Z.of_nat k)).
Proof.
  intros H. rewrite bpow_opp, <- pow10_bpow. replace (/ IZR 10 ^ k) with (val d1 / IZR 10 ^ k) by (rewrite d1_val; unfold Rdiv; lra).
  apply near_downs; [lia|apply d1_fin|rewrite d1_val; lra|]. intros i Hi. eapply Rle_trans; [apply small_1022|].
  apply downs_small; [apply d1_fin|rewrite d1_val; lra|apply small_table|lia].
Qed.
Lemma near_ri n : (n <= 306)%nat -> near n (val (round_incr n)) (5 * bpow radix10 (- Z.of_nat n)).
Proof.
  intros H. rewrite round_incr_eq, bpow_opp, <- pow10_bpow. destruct d5_ok as (F5 & V5).
  replace (5 * / IZR 10 ^ n) with (val (dlit 5) / IZR 10 ^ n) by (rewrite V5; unfold Rdiv; lra).
  apply near_downs; [lia|exact F5|rewrite V5; lra|]. intros i Hi. eapply Rle_trans; [apply small_1022|].
  apply downs_small; [exact F5|rewrite V5; lra|apply small_table|lia].
Qed.
Lemma near_ups10_d1 k : (k <= 308)%nat -> near k (val (ups 10 k d1)) (bpow radix10 (Z.of_nat k)).
Proof.
  intros H. rewrite <- pow10_bpow. replace (IZR 10 ^ k) with (val d1 * IZR 10 ^ k) by (rewrite d1_val; lra).
  apply near_ups; [lia|rewrite d1_val; change 1 with (bpow radix2 0); apply bpow_le; lia| |].
  - intros i Hi. apply ups10_fin. lia.
  - intros i Hi. rewrite d1_val. apply ups10_fin. lia.
Qed.
Lemma beta_2 n : (n <= 1000)%nat -> beta ^ n <= 1 + / 1000000000000.
Proof.
  intros H. eapply Rle_trans; [apply beta_bound; exact H|].
  assert (K : INR n <= 1000) by (replace 1000 with (INR 1000) by (rewrite INR_IZR_INZ; reflexivity); apply le_INR; exact H).
  assert (N0 : 0 <= INR n) by apply pos_INR.
  apply Rplus_le_compat_l. apply Rle_trans with (1000 * (bpow radix2 (-52) + bpow radix2 (-90))).
  - apply Rmult_le_compat_r; [|exact K]. assert (A := bpow_gt_0 radix2 (-52)). assert (B := bpow_gt_0 radix2 (-90)). lra.
  - assert (A : bpow radix2 (-90) <= bpow radix2 (-60)) by (apply bpow_le; lia).
    change (bpow radix2 (-52)) with (/ 4503599627370496) in *. change (bpow radix2 (-60)) with (/ 1152921504606846976) in A. lra.
Qed.

(* Format.cxx 287-294, for numbers that are not tiny *)
Lemma norm_near fuel v m r s : (400 < fuel)%nat -> fin v -> bpow radix2 (-1015) <= val v ->
  scale_down fuel (v, d1) = Some s -> scale_up fuel s = Some (m, r) ->
  fin m /\ 1 <= val m <= 10 /\ fin r /\ bpow radix2 (-1018) <= val r /\
  exists K, (-308 <= K <= 308)%Z /\ near 308 (val m) (val v * bpow radix10 (- K)) /\ near 308 (val r) (bpow radix10 K) /\
    (val v < 1 -> val r <= 1).
Proof.
  intros Hf Fv Hv E1 E2. assert (P1015 := bpow_gt_0 radix2 (-1015)).
  destruct (norm_ok fuel v Hf Fv ltac:(lra)) as (m' & r' & s' & E1' & E2' & Fm & Bm & Fr & C).
  assert (s' = s) as -> by congruence. assert (m' = m /\ r' = r) as (-> & ->) by (split; congruence).
  split; [exact Fm|]. split; [exact Bm|]. split; [exact Fr|].
  destruct C as [(Lv & k & Hk & Em & Er & I & _)|(Gv & k & Hk & Em & Er & I)].
  - assert (NU : forall j, (j <= k)%nat -> near j (val (ups 10 j v)) (val v * IZR 10 ^ j)).
    { intros j Hj. apply near_ups; [lia| | |].
      - eapply Rle_trans; [|exact Hv]. apply bpow_le. lia.
      - intros i Hi. destruct (Nat.eq_dec i k) as [-> | N]; [rewrite <- Em; exact Fm|apply I; lia].
      - intros i Hi. apply I. lia. }
    assert (K306 : (k <= 306)%nat).
    { destruct (Nat.le_gt_cases k 306) as [L|G]; [exact L|]. exfalso.
      destruct (I 306%nat ltac:(lia)) as (_ & _ & L1). destruct (NU 306%nat ltac:(lia)) as (_ & _ & _ & U).
      assert (B := beta_2 306 ltac:(lia)). rewrite pow10_bpow in U.
      assert (T : bpow radix2 1016 <= bpow radix10 (Z.of_nat 306)).
      { rewrite <- !IZR_Zpower by lia. apply IZR_le. vm_compute. discriminate. }
      assert (bpow radix2 (-1015) * bpow radix2 1016 <= val v * bpow radix10 (Z.of_nat 306)) by (apply Rmult_le_compat; auto using bpow_ge_0).
      rewrite <- bpow_plus in H. change (bpow radix2 (-1015 + 1016)) with 2 in H.
      assert (0 < beta ^ 306) by (assert (Q := pow_beta 306); lra). nra. }
    split. { rewrite Er. apply downs_small; [apply d1_fin|rewrite d1_val; lra|apply small_table|exact K306]. }
    exists (- Z.of_nat k)%Z. split; [lia|]. split; [|split].
    + apply near_mono with k; [lia|]. rewrite Em, Z.opp_involutive, <- pow10_bpow. apply NU. lia.
    + apply near_mono with k; [lia|]. rewrite Er. apply near_downs10_d1. exact K306.
    + intros _. rewrite Er. apply downs10_d1.
  - assert (U1 := proj2 (ups10_fin k Hk)).
    split. { rewrite Er. eapply Rle_trans; [|exact U1]. change 1 with (bpow radix2 0). apply bpow_le. lia. }
    exists (Z.of_nat k). split; [lia|]. split; [|split].
    + apply near_mono with k; [lia|]. rewrite Em, bpow_opp, <- pow10_bpow. apply near_downs; [lia|exact Fv|lra|].
      intros i Hi. eapply Rle_trans; [apply small_1022|]. eapply Rle_trans; [|apply I; exact Hi].
      apply Rle_trans with 1; [change 1 with (bpow radix2 0); apply bpow_le; lia|lra].
    + apply near_mono with k; [lia|]. rewrite Er. apply near_ups10_d1. exact Hk.
    + intros; lra.
Qed.

(* the product before its rounding *)
Lemma restored_near m r sd v K : fin m -> 1 <= val m <= 10 -> fin r -> bpow radix2 (-1018) <= val r -> (0 <= sd <= 300)%Z ->
  near 308 (val m) (val v * bpow radix10 (- K)) -> near 308 (val r) (bpow radix10 K) ->
  near 626 (val (dadd m (round_incr (Z.to_nat sd))) * val r) (val v + 5 * bpow radix10 (K - sd)) /\
  1 * bpow radix2 (-1018) <= val (dadd m (round_incr (Z.to_nat sd))) * val r.
Proof.
  intros Fm Bm Fr Br Hs Nm Nr. destruct (add_ri m sd Fm Bm) as (Fa & Va & Ba).
  assert (P := bpow_gt_0 radix2 (-1018)). split; [|apply Rmult_le_compat; lra].
  assert (NR := near_ri (Z.to_nat sd) ltac:(lia)). rewrite Z2Nat.id in NR by lia.
  assert (PR : 0 < val (round_incr (Z.to_nat sd))) by apply NR.
  replace (val v + 5 * bpow radix10 (K - sd)) with ((val v * bpow radix10 (- K) + 5 * bpow radix10 (- sd)) * bpow radix10 K).
  2:{ rewrite Rmult_plus_distr_r, !Rmult_assoc, <- !bpow_plus. replace (- K + K)%Z with 0%Z by lia. rewrite Rmult_1_r.
      replace (- sd + K)%Z with (K - sd)%Z by lia. reflexivity. }
  change 626%nat with (318 + 308)%nat. apply near_mul; [|exact Nr].
  rewrite Va. apply near_mono with (1 + 317)%nat; [lia|]. eapply near_trans.
  - apply near_rnd. apply Rle_trans with 1; [change 1 with (bpow radix2 0); apply bpow_le; lia|lra].
  - apply near_add; [apply near_mono with 308%nat; [lia|exact Nm]|apply near_mono with (Z.to_nat sd); [lia|exact NR]].
Qed.

Lemma thousands_near fuel z e y : (108 < fuel)%nat -> fin z -> bpow radix2 (-1018) <= val z ->
  thousands fuel z = Some (e, y) -> near 108 (val y * bpow radix10 e) (val z).
Proof.
  intros Hf Fz Hz H. assert (P := bpow_gt_0 radix2 (-1018)).
  destruct (thousands_ok fuel z Hf Fz ltac:(lra)) as (k & Hk & [(L & T & F & B & I)|(L & T & F & B & I)]).
  - assert (e = (- 3 * Z.of_nat k)%Z /\ y = ups 1000 k z) as (-> & ->) by (split; congruence).
    apply near_mono with k; [exact Hk|].
    replace (val z) with (val z * IZR 1000 ^ k * bpow radix10 (- 3 * Z.of_nat k)).
    2:{ rewrite bpow10_1000, Rmult_assoc, <- bpow_plus. replace (3 * Z.of_nat k + - 3 * Z.of_nat k)%Z with 0%Z by lia. cbn [bpow]. lra. }
    apply near_scale; [|apply bpow_gt_0]. apply near_ups; [lia| | |].
    + eapply Rle_trans; [|exact Hz]. apply bpow_le. lia.
    + intros i Hi. destruct (Nat.eq_dec i k) as [-> | N]; [exact F|apply I; lia].
    + intros i Hi. apply I. exact Hi.
  - assert (e = (3 * Z.of_nat k)%Z /\ y = downs 1000 k z) as (-> & ->) by (split; congruence).
    apply near_mono with k; [exact Hk|].
    replace (val z) with (val z / IZR 1000 ^ k * bpow radix10 (3 * Z.of_nat k)).
    2:{ rewrite <- bpow10_1000. field. apply pow_nonzero. lra. }
    apply near_scale; [|apply bpow_gt_0]. apply near_downs; [lia|exact Fz|lra|].
    intros i Hi. destruct (I i Hi) as (_ & G). apply Rle_trans with (1 * 1000); [|lra].
    apply Rmult_le_compat_r; [lra|]. change 1 with (bpow radix2 0). apply bpow_le. lia.
Qed.

Lemma log1k_near fuel v sd e y : fin v -> bpow radix2 (-1015) <= val v -> (0 <= sd <= 10)%Z -> log1k fuel v sd = Some (e, y) ->
  fin y /\ 1 <= val y <= 1000 /\
  exists K m, 1 <= m <= 10 /\ near 308 m (val v * bpow radix10 (- K)) /\
    near 740 (val y * bpow radix10 e) (val v + 5 * bpow radix10 (K - sd)).
Proof.
  intros Fv Hv Hs H. assert (P := bpow_gt_0 radix2 (-1015)).
  destruct (log1k_ok fuel v sd e y Fv ltac:(lra) H) as (Fy & By & _ & m & r & s & E1 & E2 & Fz & Pz & T).
  split; [exact Fy|]. split; [exact By|].
  destruct (norm_near (fuel + 500) v m r s ltac:(lia) Fv Hv E1 E2) as (Fm & Bm & Fr & Br & K & HK & Nm & Nr & _).
  exists K, (val m). split; [exact Bm|]. split; [exact Nm|].
  destruct (restored_near m r sd v K Fm Bm Fr Br ltac:(lia) Nm Nr) as (NR & GR). rewrite Rmult_1_l in GR.
  destruct (add_ri m sd Fm Bm) as (Fa & Va & Ba).
  assert (Vz : val (restored m r sd) = rnd (val (dadd m (round_incr (Z.to_nat sd))) * val r)) by (apply dmul_fin; assumption).
  assert (Gz : bpow radix2 (-1018) <= val (restored m r sd)).
  { rewrite Vz. apply rnd_ge_fmt; [apply fmt_bpow; lia|exact GR]. }
  apply near_mono with (108 + (1 + 626))%nat; [lia|].
  eapply near_trans; [eapply thousands_near; [|exact Fz|exact Gz|exact T]; lia|].
  rewrite Vz. eapply near_trans; [|exact NR]. apply near_rnd. eapply Rle_trans; [|exact GR]. apply bpow_le. lia.
Qed.
