(* L_FormatL.v -- accuracy of the 'e' format. *)
From Coq Require Import Reals Lra Psatz.
From Flocq Require Import Core.Core IEEE754.BinarySingleNaN.
From Verif Require Import Base M_Stream M_Float M_FormatF L_Float L_Near L_FormatF L_FormatG L_FormatH L_FormatI L_FormatJ L_FormatK.
Local Open Scope R_scope.

Lemma printed_multiple y sd p : shape y sd p -> 1 <= y -> (1 <= sd < two31)%Z ->
  (exists N, printed p = IZR N * bpow radix10 (p_iwid p - sd)) /\ bpow radix10 (p_iwid p - 1) <= printed p.
Proof.
  intros H Hy Hs. assert (EF := shape_fwid _ _ _ H Hs). assert (W := sh_wid _ _ _ H). assert (FW := shape_fwid0 _ _ _ H).
  assert (P := pow10_pos _ FW). assert (F := proj1 (sh_frac _ _ _ H)).
  set (T := IZR (10 ^ p_fwid p)). assert (T0 : 0 < T) by (apply IZR_lt; exact P).
  split.
  - destruct (Z.le_gt_cases sd (p_iwid p)) as [C|C].
    + assert (Z0 : p_fwid p = 0%Z) by lia. rewrite Z0 in F. change (10 ^ 0)%Z with 1%Z in F.
      exists (Zfloor y / 10 ^ (p_iwid p - sd))%Z. unfold printed. assert (p_frac p = 0%Z) as -> by lia. rewrite Z0.
      assert (Q : bpow radix10 (p_iwid p - sd) = IZR (10 ^ (p_iwid p - sd))) by (rewrite <- IZR_Zpower by lia; reflexivity).
      rewrite Q, <- mult_IZR. change (IZR (10 ^ 0)) with 1. unfold Rdiv. rewrite Rmult_0_l, Rplus_0_r. f_equal.
      rewrite (sh_int _ _ _ H), Z.max_r by lia. set (q := (10 ^ (p_iwid p - sd))%Z).
      assert (0 < q)%Z by (apply pow10_pos; lia). assert (N := Z.div_mod (Zfloor y) q ltac:(lia)). lia.
    + exists (p_int p * 10 ^ p_fwid p + p_frac p)%Z. unfold printed.
      replace (p_iwid p - sd)%Z with (- p_fwid p)%Z by lia. rewrite bpow_opp.
      replace (bpow radix10 (p_fwid p)) with T by (unfold T; rewrite <- IZR_Zpower by exact FW; reflexivity).
      rewrite plus_IZR, mult_IZR. fold T. field. lra.
  - assert (0 <= IZR (p_frac p) / T) by (apply Rmult_le_pos; [apply IZR_le; lia|left; apply Rinv_0_lt_compat; exact T0]).
    unfold printed. fold T. destruct (shape_int _ _ _ H ltac:(lia)) as [(A & E)|(A & L & _)].
    + rewrite A, E. change (bpow radix10 (0 - 1)) with (/ 10). lra.
    + apply IZR_le in L. replace (bpow radix10 (p_iwid p - 1)) with (IZR (10 ^ (p_iwid p - 1))); [lra|].
      rewrite <- IZR_Zpower by lia. reflexivity.
Qed.

Lemma near_308 x y : near 308 x y -> Rabs (x - y) <= y * (7 / 100000000000000).
Proof.
  intros H. eapply Rle_trans; [apply (near_abs 308); [lia|exact H]|]. destruct H as (_ & P & _).
  apply Rmult_le_compat_l; [lra|]. rewrite INR_IZR_INZ. change (Z.of_nat 308) with 308%Z.
  assert (A : bpow radix2 (-90) <= bpow radix2 (-70)) by (apply bpow_le; lia).
  change (bpow radix2 (-52)) with (/ 4503599627370496). change (bpow radix2 (-70)) with (/ 1180591620717411303424) in A. lra.
Qed.
Lemma near_740 x y : near 740 x y -> Rabs (x - y) <= y * (165 / 1000000000000000).
Proof.
  intros H. eapply Rle_trans; [apply (near_abs 740); [lia|exact H]|]. destruct H as (_ & P & _).
  apply Rmult_le_compat_l; [lra|]. rewrite INR_IZR_INZ. change (Z.of_nat 740) with 740%Z.
  assert (A : bpow radix2 (-90) <= bpow radix2 (-70)) by (apply bpow_le; lia).
  change (bpow radix2 (-52)) with (/ 4503599627370496). change (bpow radix2 (-70)) with (/ 1180591620717411303424) in A. lra.
Qed.

(* a multiple of q in [c q, (c + 1) q) is c q *)
Lemma multiple_eq N c q : 0 < q -> IZR c * q <= IZR N * q -> IZR N * q < (IZR c + 1) * q -> IZR N * q = IZR c * q.
Proof.
  intros Q A B. f_equal. f_equal. apply Rmult_le_reg_r in A; [|exact Q]. apply Rmult_lt_reg_r in B; [|exact Q].
  apply le_IZR in A. replace (IZR c + 1) with (IZR (c + 1)) in B by (rewrite plus_IZR; reflexivity). apply lt_IZR in B. lia.
Qed.

(* everything divided by 10 ^ K: x is the number, Y the normalized value, P the
   printed one, h = 10 ^ -sd *)
Lemma accuracy_scaled x m Y P f err h d c N :
  1 <= m <= 10 -> near 308 m x -> near 740 Y (x + 5 * h) -> / 10000000000 <= h <= / 10 ->
  0 <= f < 1 -> Rabs err <= Y * (/ 1000000000000000) ->
  bpow radix10 (d - 1) < Y <= bpow radix10 d ->
  P + f * (bpow radix10 d * h) = Y + err -> P = IZR N * (bpow radix10 d * h) -> bpow radix10 (d - 1) <= P ->
  IZR c * (10 * h) = 1 ->
  Rabs (P - x) <= (5 * h + 4 / 10000000000000) * x /\
  (/ 10000000 <= h -> Rabs (P - x) <= 5 * h * x).
Proof.
  intros Hm Nm NY Hh Hf He HY EP EN LP Ec.
  apply near_308, Rabs_le_inv in Nm. assert (PY : 0 < Y) by apply NY. apply near_740, Rabs_le_inv in NY. apply Rabs_le_inv in He.
  assert (X : 9999 / 10000 <= x <= 10001 / 1000) by lra.
  assert (Y1 : 1 < Y < 11) by lra.
  assert (D : (d = 1 \/ d = 2)%Z).
  { assert (L : (0 < d)%Z) by (apply (lt_bpow radix10); change (bpow radix10 0) with 1; lra).
    assert (U : (d - 1 < 2)%Z) by (apply (lt_bpow radix10); change (bpow radix10 2) with 100; lra). lia. }
  destruct D as [-> | ->].
  - change (bpow radix10 1) with 10 in *. change (bpow radix10 (1 - 1)) with 1 in *.
    assert (F10 : 0 <= f * (10 * h) <= 10 * h) by (split; nra).
    assert (A : Rabs (P - x) <= 5 * h + (x + 5 * h) * (165 / 1000000000000000) + Y * / 1000000000000000).
    { apply Rabs_le. split; lra. }
    split.
    + eapply Rle_trans; [exact A|]. assert (h * (1 - 7 / 100000000000000) <= h * x) by (apply Rmult_le_compat_l; lra). lra.
    + intros H7. destruct (Rle_or_lt (1 + 45 / 10 * h) x) as [G|L].
      * eapply Rle_trans; [exact A|]. assert (0 <= (h - / 10000000) * (x - 1)) by (apply Rmult_le_pos; lra). lra.
      * assert (E1 : P = 1).
        { rewrite EN, <- Ec. apply multiple_eq; [lra|rewrite Ec; lra|]. rewrite Rmult_plus_distr_r, Ec. lra. }
        rewrite E1. apply Rabs_le. assert (h * (9999 / 10000) <= h * x) by (apply Rmult_le_compat_l; lra). split; lra.
  - change (bpow radix10 2) with 100 in *. change (bpow radix10 (2 - 1)) with 10 in *.
    assert (E1 : P = 10).
    { replace 10 with (IZR c * (100 * h)) by lra. rewrite EN. apply multiple_eq; [lra| |].
      - replace (IZR c * (100 * h)) with (IZR c * (10 * h) * 10) by ring. rewrite Ec. lra.
      - replace ((IZR c + 1) * (100 * h)) with (IZR c * (10 * h) * 10 + 100 * h) by ring. rewrite Ec.
        assert (0 <= f * (100 * h)) by (apply Rmult_le_pos; lra). lra. }
    assert (X9 : 9 <= x) by lra. assert (h * 9 <= h * x) by (apply Rmult_le_compat_l; lra).
    rewrite E1. split; [|intros _]; apply Rabs_le; split; lra.
Qed.

Lemma accuracy fuel v sd e y p : fin v -> bpow radix2 (-1015) <= val v -> (1 <= sd <= 10)%Z ->
  log1k fuel v sd = Some (e, y) -> shape (val y) sd p ->
  Rabs (printed p * bpow radix10 e - val v) <= (5 * bpow radix10 (- sd) + 4 / 10000000000000) * val v /\
  ((sd <= 7)%Z -> Rabs (printed p * bpow radix10 e - val v) <= 5 * bpow radix10 (- sd) * val v).
Proof.
  intros Fv Hv Hs EL HS. destruct (log1k_near fuel v sd e y Fv Hv ltac:(lia) EL) as (Fy & By & K & m & Hm & Nm & NY).
  assert (S31 : (1 <= sd < two31)%Z) by (unfold two31; lia).
  destruct (printed_multiple _ _ _ HS ltac:(lra) S31) as ((N & EN) & LP).
  destruct (shape_near _ _ _ HS S31) as (f & Hf & ER).
  set (h := bpow radix10 (- sd)). set (w := p_iwid p) in *.
  set (s := bpow radix10 (- K)). assert (S0 : 0 < s) by apply bpow_gt_0.
  set (g := bpow radix10 (e - K)). assert (G0 : 0 < g) by apply bpow_gt_0.
  assert (Eg : bpow radix10 e * s = g) by (unfold s, g, Z.sub; symmetry; apply bpow_plus).
  assert (Hh : / 10000000000 <= h <= / 10).
  { unfold h. split; [change (/ 10000000000) with (bpow radix10 (-10))|change (/ 10) with (bpow radix10 (-1))]; apply bpow_le; lia. }
  assert (K5 : (val v + 5 * bpow radix10 (K - sd)) * s = val v * s + 5 * h).
  { rewrite Rmult_plus_distr_r, Rmult_assoc. unfold s, h. rewrite <- bpow_plus. replace (K - sd + - K)%Z with (- sd)%Z by lia. reflexivity. }
  apply (near_scale _ _ _ s) in NY; [|exact S0]. rewrite K5, Rmult_assoc, Eg in NY.
  assert (BQ : bpow radix10 (w + (e - K)) * h = bpow radix10 (w - sd) * g).
  { unfold h, g. rewrite <- !bpow_plus. f_equal. lia. }
  destruct (accuracy_scaled (val v * s) m (val y * g) (printed p * g) f ((printed p + f * bpow radix10 (w - sd) - val y) * g) h
    (w + (e - K)) (10 ^ (sd - 1)) N Hm Nm NY Hh Hf) as (A & B).
  - rewrite Rabs_mult, (Rabs_pos_eq g) by lra. rewrite (Rmult_comm (val y)), (Rmult_comm _ g), Rmult_assoc.
    apply Rmult_le_compat_l; [lra|]. eapply Rle_trans; [exact ER|].
    change (bpow radix2 (-50)) with (/ 1125899906842624). lra.
  - replace (w + (e - K) - 1)%Z with ((w - 1) + (e - K))%Z by lia. rewrite !bpow_plus. fold g.
    assert (L : bpow radix10 (w - 1) < val y <= bpow radix10 w).
    { destruct (sh_lo _ _ _ HS) as [(W0 & ->)|(W1 & L & U)].
      - fold w in W0. rewrite W0. change (bpow radix10 (0 - 1)) with (/ 10). change (bpow radix10 0) with 1. lra.
      - fold w in W1, L, U. rewrite <- !IZR_Zpower by lia. split; [exact L|exact U]. }
    split; [apply Rmult_lt_compat_r; lra|apply Rmult_le_compat_r; lra].
  - rewrite BQ. ring.
  - rewrite BQ, EN. ring.
  - replace (w + (e - K) - 1)%Z with ((w - 1) + (e - K))%Z by lia. rewrite bpow_plus. fold g. apply Rmult_le_compat_r; lra.
  - assert (Q : IZR (10 ^ (sd - 1)) = bpow radix10 (sd - 1)) by (rewrite <- IZR_Zpower by lia; reflexivity).
    rewrite Q. change 10 with (bpow radix10 1). unfold h. rewrite <- !bpow_plus. replace (sd - 1 + (1 + - sd))%Z with 0%Z by lia. reflexivity.
  - assert (Sc : forall a, (printed p * bpow radix10 e - val v) * s = a -> True) by auto. clear Sc.
    assert (Re : printed p * g - val v * s = (printed p * bpow radix10 e - val v) * s) by (rewrite <- Eg; ring).
    rewrite Re, Rabs_mult, (Rabs_pos_eq s), <- Rmult_assoc in A, B by lra.
    split; [apply Rmult_le_reg_r with s; [exact S0|exact A]|].
    intros H7. apply Rmult_le_reg_r with s; [exact S0|]. apply B.
    unfold h. change (/ 10000000) with (bpow radix10 (-7)). apply bpow_le. lia.
Qed.

(* ---- termination ---- *)
Lemma top_e308 : 15 / 10 * bpow radix10 308 <= 9 / 10 * top /\ bpow radix10 308 <= top /\ 1 < bpow radix10 308.
Proof.
  assert (A : bpow radix10 308 = IZR (10 ^ 308)) by reflexivity. assert (B : top = IZR (2 ^ 1024)) by reflexivity.
  assert (15 * IZR (10 ^ 308) <= 9 * IZR (2 ^ 1024)) by (rewrite <- !mult_IZR; apply IZR_le; vm_compute; discriminate).
  assert (1 < bpow radix10 308) by (apply (bpow_lt radix10 0 308); lia). rewrite A in *. rewrite B. lra.
Qed.
Lemma top_gap : top * (1 - / 10000000000000) <= val dmax.
Proof.
  rewrite val_dmax. replace 1024%Z with (53 + 971)%Z by reflexivity. rewrite bpow_plus. assert (P := bpow_gt_0 radix2 971).
  change (bpow radix2 53) with 9007199254740992. lra.
Qed.
Lemma ri_dec n k : (n <= k)%nat -> val (round_incr k) <= val (round_incr n).
Proof.
  intros H. rewrite !round_incr_eq. destruct d5_ok as (F5 & V5). replace k with (n + (k - n))%nat by lia. apply downs_dec; [lia|exact F5|lra].
Qed.
Lemma add_ri_dec m sd sd' : fin m -> 1 <= val m <= 10 -> (Z.to_nat sd' <= Z.to_nat sd)%nat ->
  val (dadd m (round_incr (Z.to_nat sd))) <= val (dadd m (round_incr (Z.to_nat sd'))).
Proof.
  intros F B H. destruct (add_ri m sd F B) as (_ & -> & _). destruct (add_ri m sd' F B) as (_ & -> & _).
  apply rnd_le. assert (I := ri_dec _ _ H). lra.
Qed.

(* 1 - 10^-12 *)
Definition lower : R := 1 - / 1000000000000.
Definition digs (sd : Z) : Z := Z.min (Z.max sd 0) 12.

Lemma log1k_ends fuel v sd : (500 < fuel)%nat -> fin v -> val third <= val v ->
  val v <= lower * bpow radix10 308 \/ val v + 5 * bpow radix10 (308 - digs sd) <= lower * top ->
  exists r, log1k fuel v sd = Some r.
Proof.
  intros Hf Fv Hv HU. assert (P3 : 0 < val third).
  { change (val third) with (F2R (Float radix2 3 (-1074))). apply F2R_gt_0. reflexivity. }
  destruct (norm_ok fuel v ltac:(lia) Fv ltac:(lra)) as (m & r & s & E1 & E2 & Fm & Bm & Fr & C).
  rewrite (log1k_eq _ _ _ _ _ _ E1 E2). destruct (add_ri m sd Fm Bm) as (Fa & Va & Ba).
  assert (Pr : 0 < val r).
  { destruct C as [(_ & k & _ & _ & -> & _ & K3)|(_ & k & Hk & _ & -> & _)]; [apply downs10_d1, K3, Hv|].
    destruct (ups10_fin k Hk). lra. }
  assert (Bd : val (dadd m (round_incr (Z.to_nat sd))) * val r <= val dmax).
  { destruct top_e308 as (T1 & T2 & T3). assert (TG := top_gap). assert (T15 : 32 <= top) by (change 32 with (bpow radix2 5); apply bpow_le; lia).
    destruct (Rlt_or_le (val v) 1) as [L1|G1].
    { destruct C as [(_ & k & _ & _ & -> & _)|(G1 & _)]; [|lra].
      destruct (downs10_d1 k) as (_ & (_ & D1) & _).
      apply Rle_trans with (15 * 1); [apply Rmult_le_compat; lra|lra]. }
    assert (G1' : bpow radix2 (-1015) <= val v) by (eapply Rle_trans; [|exact G1]; change 1 with (bpow radix2 0); apply bpow_le; lia).
    destruct (norm_near fuel v m r s ltac:(lia) Fv G1' E1 E2) as (_ & _ & _ & Br & K & HK & Nm & Nr & _).
    assert (DG : (0 <= digs sd <= 12)%Z) by (unfold digs; lia).
    destruct (restored_near m r (digs sd) v K Fm Bm Fr Br ltac:(lia) Nm Nr) as (NR & _).
    apply (near_mono 626 740) in NR; [|lia]. apply near_740, Rabs_le_inv in NR.
    assert (AD : val (dadd m (round_incr (Z.to_nat sd))) <= val (dadd m (round_incr (Z.to_nat (digs sd))))).
    { apply add_ri_dec; [exact Fm|exact Bm|unfold digs; lia]. }
    assert (AM : val (dadd m (round_incr (Z.to_nat sd))) * val r <= val (dadd m (round_incr (Z.to_nat (digs sd)))) * val r).
    { apply Rmult_le_compat_r; lra. }
    assert (UX : val v + 5 * bpow radix10 (K - digs sd) <= lower * top).
    { destruct HU as [HU|HU].
      - assert (K7 : (K <= 307)%Z).
        { destruct (Z.eq_dec K 308) as [-> |]; [exfalso|lia]. apply near_308, Rabs_le_inv in Nm.
          assert (VB : val v * bpow radix10 (- (308)) <= lower * 1).
          { replace 1 with (bpow radix10 308 * bpow radix10 (- (308))) by (rewrite <- bpow_plus; reflexivity). rewrite <- Rmult_assoc.
            apply Rmult_le_compat_r; [apply bpow_ge_0|exact HU]. }
          unfold lower in VB. lra. }
        assert (B307 : bpow radix10 (K - digs sd) <= bpow radix10 307) by (apply bpow_le; lia).
        replace 308%Z with (1 + 307)%Z in * by reflexivity. rewrite bpow_plus in *. change (bpow radix10 1) with 10 in *. unfold lower in *. lra.
      - eapply Rle_trans; [|exact HU]. apply Rplus_le_compat_l, Rmult_le_compat_l; [lra|]. apply bpow_le. lia. }
    unfold lower in UX. assert (B5 := bpow_gt_0 radix10 (K - digs sd)). lra. }
  set (a := dadd m (round_incr (Z.to_nat sd))) in *.
  assert (Pa : 0 < val a * val r) by (apply Rmult_lt_0_compat; lra).
  assert (R7 : rnd (val a * val r) <= val dmax) by (apply rnd_le_fmt; [apply val_fmt|exact Bd]).
  assert (R0 : 0 <= rnd (val a * val r)) by (apply rnd_ge_fmt; [apply fmt_0|lra]).
  destruct (dmul_ok a r Fa Fr) as (Fz & Vz); [rewrite Rabs_pos_eq by exact R0; eapply Rle_lt_trans; [exact R7|apply val_lt_top]|].
  assert (Gz : val r <= val (dmul a r)) by (rewrite Vz; apply rnd_ge_fmt; [apply val_fmt|nra]).
  change (restored m r sd) with (dmul a r).
  destruct (thousands_ok fuel (dmul a r) ltac:(lia) Fz ltac:(lra)) as (k & _ & [(_ & T & _)|(_ & T & _)]); rewrite T; eauto.
Qed.
