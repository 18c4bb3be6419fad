(* L_FormatI.v -- Format.cxx 333-381: the printed digits. *)
From Coq Require Import Reals Lra.
From Flocq Require Import Core.Core IEEE754.BinarySingleNaN.
From Verif Require Import Base M_Stream M_Float M_FormatF L_Float L_FormatF L_FormatG L_FormatH L_Field.
Local Open Scope R_scope.

Lemma trim_loop_ok w sd : (0 <= w <= 3)%Z -> (0 <= sd)%Z ->
  trim_loop (Z.to_nat w) sd 1 w = (10 ^ Z.max 0 (w - sd), Z.min w sd)%Z.
Proof.
  intros Hw Hs. assert (C : (sd = 0 \/ sd = 1 \/ sd = 2 \/ 3 <= sd)%Z) by lia.
  assert (W : (w = 0 \/ w = 1 \/ w = 2 \/ w = 3)%Z) by lia.
  destruct W as [-> | [-> | [-> | ->]]]; destruct C as [-> | [-> | [-> | G]]]; try reflexivity.
  - cbn [Z.to_nat trim_loop]. rewrite Z.max_l, Z.min_l by lia. reflexivity.
  - change (Z.to_nat 1) with 1%nat. cbn [trim_loop]. destruct (Z.ltb_spec sd 1); [lia|]. rewrite Z.max_l, Z.min_l by lia. reflexivity.
  - change (Z.to_nat 2) with 2%nat. cbn [trim_loop]. destruct (Z.ltb_spec sd 2); [lia|]. rewrite Z.max_l, Z.min_l by lia. reflexivity.
  - change (Z.to_nat 3) with 3%nat. cbn [trim_loop]. destruct (Z.ltb_spec sd 3); [lia|]. rewrite Z.max_l, Z.min_l by lia. reflexivity.
Qed.

Lemma frac_loop_zero n : forall f, fin f -> val f = 0 -> frac_loop n f 0 = Ok 0%Z.
Proof.
  induction n as [|n IH]; intros f Ff Vf; [reflexivity|]. rewrite frac_loop_S.
  change (10 * 0)%Z with 0%Z.
  destruct (frac_step f 0 Ff) as (_ & E & F2 & V2 & _); [rewrite Vf; lra|unfold two31; lia|].
  destruct (digit_ok f Ff) as (Fd & (Pd & _) & D); [rewrite Vf; lra|].
  assert (V : val (dmul f d10) = 0).
  { destruct (dmul_ok f d10) as (_ & Vm); [exact Ff|apply d10_fin| |].
    - rewrite Vf, Rmult_0_l, round_0 by apply valid_rnd_N. rewrite Rabs_R0. apply bpow_gt_0.
    - rewrite Vm, Vf, Rmult_0_l. apply round_0, valid_rnd_N. }
  rewrite V, Zfloor_IZR in E. change (0 + 0 <? two31)%Z with true in E. cbv iota in E.
  change ((- two31 <=? 0)%Z && (0 <? two31)%Z)%bool with true. cbv iota. rewrite E. cbn [obind].
  apply IH; [exact F2|]. rewrite V2, V, Zfloor_IZR. lra.
Qed.

(* what is known of the parts printed for y: w is the counted width *)
Record shape (y : R) (sd : Z) (p : parts) : Prop := mkShape {
  sh_wid : (0 <= p_iwid p <= 3)%Z;
  sh_lo : (p_iwid p = 0)%Z /\ y = 1 \/ (1 <= p_iwid p)%Z /\ IZR (10 ^ (p_iwid p - 1)) < y <= IZR (10 ^ p_iwid p);
  sh_fwid : p_fwid p = Z.max 0 (to_i32 (sd - Z.min (p_iwid p) sd));
  sh_int : p_int p = (Zfloor y - Zfloor y mod 10 ^ Z.max 0 (p_iwid p - sd))%Z;
  sh_frac : (0 <= p_frac p < 10 ^ p_fwid p)%Z /\ (p_frac p < two31)%Z;
  sh_exact : y = IZR (Zfloor y) -> p_frac p = 0%Z;
  sh_near : exists r, 0 <= r < 1 /\
    Rabs ((IZR (p_frac p) + r) - (y - IZR (Zfloor y)) * IZR (10 ^ p_fwid p)) <= IZR (10 ^ p_fwid p - 1) / 9 * bpow radix2 (-50)
}.

Lemma pow10_pos n : (0 <= n)%Z -> (0 < 10 ^ n)%Z.
Proof. intros H. apply Z.pow_pos_nonneg; lia. Qed.

(* the fuel in a valid call is irrelevant; the only failure is an int overflow
   in the fraction *)
Lemma fractionate_eq fuel y sd : (3 < fuel)%nat -> fin y -> 1 <= val y <= 1000 -> (0 <= sd < two32)%Z ->
  exists w, (0 <= w <= 3)%Z /\
    ((w = 0)%Z /\ val y = 1 \/ (1 <= w)%Z /\ IZR (10 ^ (w - 1)) < val y <= IZR (10 ^ w)) /\
    fin (fst (dmodf y)) /\ val (fst (dmodf y)) = val y - IZR (Zfloor (val y)) /\
    fractionate fuel y sd = Some
      (do frac <- frac_loop (Z.to_nat (to_i32 (sd - Z.min w sd))) (fst (dmodf y)) 0;
       Ok (mkParts (Zfloor (val y) - Zfloor (val y) mod 10 ^ Z.max 0 (w - sd)) frac w
                   (Z.max 0 (to_i32 (sd - Z.min w sd))))).
Proof.
  intros Hf Fy Hy Hs. destruct (width_ok fuel y Hf Fy Hy) as (k & Hk & E & C).
  exists (Z.of_nat k). split; [lia|].
  assert (D := dmodf_ok y Fy ltac:(lra)). unfold fractionate. rewrite E.
  destruct (dmodf y) as [df di]. destruct D as (Ff & Vf & Fi & Vi). cbn [fst].
  split. { destruct C as [(-> & H) | [(-> & H) | [(-> & H) | (-> & H)]]]; [left|right|right|right]; cbn; split; lra || lia. }
  split; [exact Ff|]. split; [exact Vf|].
  assert (B : (1 <= Zfloor (val y) <= 1000)%Z).
  { split; [apply Zfloor_lub; apply Hy|]. apply le_IZR. apply Rle_trans with (val y); [apply Zfloor_lb|apply Hy]. }
  rewrite (d_to_int_ok di _ Fi Vi).
  assert (T : ((- two31 <=? Zfloor (val y)) && (Zfloor (val y) <? two31))%Z%bool = true).
  { apply andb_true_intro. split; [apply Z.leb_le|apply Z.ltb_lt]; unfold two31; lia. }
  rewrite T. cbn [obind]. rewrite trim_loop_ok by lia. cbv beta iota zeta.
  rewrite Z.rem_mod_nonneg by (try apply pow10_pos; lia). reflexivity.
Qed.
Lemma fractionate_ok fuel y sd p : (3 < fuel)%nat -> fin y -> 1 <= val y <= 1000 -> (0 <= sd < two32)%Z ->
  fractionate fuel y sd = Some (Ok p) -> shape (val y) sd p.
Proof.
  intros Hf Fy Hy Hs. destruct (fractionate_eq fuel y sd Hf Fy Hy Hs) as (w & Hw & Lo & Ff & Vf & ->).
  set (n := to_i32 (sd - Z.min w sd)). destruct (frac_loop _ _ _) as [g| |] eqn:G; try discriminate. cbn [obind].
  intros [= <-].
  assert (V01 : 0 <= val (fst (dmodf y)) < 1).
  { rewrite Vf. assert (A := Zfloor_lb (val y)). assert (B := Zfloor_ub (val y)). lra. }
  destruct (frac_loop_ok _ _ 0 g Ff V01 ltac:(unfold two31; lia) G) as (B1 & B2 & r & Hr & R).
  assert (E : Z.of_nat (Z.to_nat n) = Z.max 0 n) by lia. rewrite E in *.
  constructor; cbn [p_iwid p_fwid p_int p_frac].
  - exact Hw.
  - exact Lo.
  - reflexivity.
  - reflexivity.
  - split; [|exact B2]. fold n. lia.
  - intros Ex. rewrite frac_loop_zero in G; [injection G as <-; reflexivity|exact Ff|]. rewrite Vf. lra.
  - exists r. split; [exact Hr|]. fold n. rewrite Rplus_0_l in R. rewrite Vf in R. exact R.
Qed.

(* consequences for at least one requested digit *)
Lemma shape_fwid y sd p : shape y sd p -> (1 <= sd < two31)%Z -> p_fwid p = Z.max 0 (sd - p_iwid p).
Proof.
  intros H Hs. rewrite (sh_fwid _ _ _ H). assert (W := sh_wid _ _ _ H).
  destruct (Z.le_ge_cases (p_iwid p) sd).
  - rewrite Z.min_l by lia. rewrite to_i32_small; [reflexivity|unfold two31 in *; lia].
  - rewrite Z.min_r by lia. rewrite Z.sub_diag. change (to_i32 0) with 0%Z. lia.
Qed.
Lemma shape_floor y sd p : shape y sd p ->
  (p_iwid p = 0)%Z /\ Zfloor y = 1%Z \/ (1 <= p_iwid p)%Z /\ (10 ^ (p_iwid p - 1) <= Zfloor y <= 10 ^ p_iwid p)%Z.
Proof.
  intros H. destruct (sh_lo _ _ _ H) as [(A & ->)|(A & L & U)].
  - left. split; [exact A|]. apply Zfloor_IZR.
  - right. split; [exact A|]. split; [apply Zfloor_lub; lra|]. apply le_IZR. apply Rle_trans with y; [apply Zfloor_lb|exact U].
Qed.
Lemma shape_int y sd p : shape y sd p -> (1 <= sd)%Z ->
  (p_iwid p = 0)%Z /\ p_int p = 1%Z \/ (1 <= p_iwid p)%Z /\ (10 ^ (p_iwid p - 1) <= p_int p <= 10 ^ p_iwid p)%Z.
Proof.
  intros H Hs. rewrite (sh_int _ _ _ H). assert (W := sh_wid _ _ _ H).
  destruct (shape_floor _ _ _ H) as [(A & ->)|(A & L & U)].
  - left. split; [exact A|]. rewrite A, Z.max_l by lia. reflexivity.
  - right. split; [exact A|]. set (w := p_iwid p) in *.
    assert (P : (0 < 10 ^ Z.max 0 (w - sd))%Z) by (apply pow10_pos; lia).
    assert (M := Z.mod_pos_bound (Zfloor y) _ P). split; [|lia].
    (* the subtracted remainder leaves a multiple of the modulus *)
    assert (D : (10 ^ (w - 1) = 10 ^ Z.max 0 (w - sd) * 10 ^ (w - 1 - Z.max 0 (w - sd)))%Z) by (rewrite <- Z.pow_add_r by lia; f_equal; lia).
    set (q := (10 ^ Z.max 0 (w - sd))%Z) in *. set (c := (10 ^ (w - 1 - Z.max 0 (w - sd)))%Z) in *.
    assert (N := Z.div_mod (Zfloor y) q ltac:(lia)).
    assert (c <= Zfloor y / q)%Z by (apply Z.div_le_lower_bound; lia). nia.
Qed.
Lemma shape_top y sd p : shape y sd p -> (1 <= sd)%Z -> p_int p = (10 ^ p_iwid p)%Z -> p_frac p = 0%Z.
Proof.
  intros H Hs E. assert (W := sh_wid _ _ _ H).
  destruct (sh_lo _ _ _ H) as [(A & Y)|(A & L & U)].
  - apply (sh_exact _ _ _ H). rewrite Y, Zfloor_IZR. reflexivity.
  - rewrite (sh_int _ _ _ H) in E.
    assert (M := Z.mod_pos_bound (Zfloor y) _ (pow10_pos (Z.max 0 (p_iwid p - sd)) ltac:(lia))).
    assert (IZR (10 ^ p_iwid p) <= IZR (Zfloor y)) by (apply IZR_le; lia).
    assert (F := Zfloor_lb y). assert (Y : y = IZR (10 ^ p_iwid p)) by lra.
    apply (sh_exact _ _ _ H). rewrite Y, Zfloor_IZR. reflexivity.
Qed.
Definition radix10 : radix := Build_radix 10 eq_refl.
(* the printed number is y with its digits after the sd-th cut off *)
Definition printed (p : parts) : R := IZR (p_int p) + IZR (p_frac p) / IZR (10 ^ p_fwid p).
Lemma shape_near y sd p : shape y sd p -> (1 <= sd < two31)%Z ->
  exists f, 0 <= f < 1 /\ Rabs (printed p + f * bpow radix10 (p_iwid p - sd) - y) <= bpow radix2 (-50) / 9.
Proof.
  intros H Hs. assert (Efw := shape_fwid _ _ _ H Hs). assert (W := sh_wid _ _ _ H).
  assert (B50 := bpow_gt_0 radix2 (-50)). unfold printed.
  destruct (Z.le_gt_cases sd (p_iwid p)) as [C|C].
  - assert (Z0 : p_fwid p = 0%Z) by lia. rewrite Z0. assert (F0 := sh_frac _ _ _ H). rewrite Z0 in F0. change (10 ^ 0)%Z with 1%Z in *.
    assert (p_frac p = 0%Z) as -> by lia.
    set (q := bpow radix10 (p_iwid p - sd)). assert (Q0 : 0 < q) by apply bpow_gt_0.
    assert (Q : q = IZR (10 ^ (p_iwid p - sd))) by (unfold q; rewrite <- IZR_Zpower by lia; reflexivity).
    assert (I := sh_int _ _ _ H). rewrite Z.max_r in I by lia.
    assert (M := Z.mod_pos_bound (Zfloor y) _ (pow10_pos (p_iwid p - sd) ltac:(lia))).
    assert (F1 := Zfloor_lb y). assert (F2 := Zfloor_ub y).
    assert (A1 : IZR (p_int p) <= IZR (Zfloor y)) by (apply IZR_le; lia).
    assert (A2 : IZR (Zfloor y) + 1 <= IZR (p_int p) + q) by (rewrite Q, <- !plus_IZR; apply IZR_le; lia).
    exists ((y - IZR (p_int p)) / q). split.
    + split; [apply Rmult_le_pos; [lra|left; apply Rinv_0_lt_compat; exact Q0]|].
      apply Rmult_lt_reg_r with q; [exact Q0|]. unfold Rdiv. rewrite Rmult_assoc, Rinv_l by lra. lra.
    + replace (IZR (p_int p) + 0 / 1 + (y - IZR (p_int p)) / q * q - y) with 0 by (field; lra). rewrite Rabs_R0. lra.
  - assert (Z1 : p_fwid p = (sd - p_iwid p)%Z) by lia.
    assert (I := sh_int _ _ _ H). rewrite Z.max_l in I by lia. change (10 ^ 0)%Z with 1%Z in I. rewrite Z.mod_1_r, Z.sub_0_r in I.
    destruct (sh_near _ _ _ H) as (r & Hr & N). exists r. split; [exact Hr|].
    set (T := IZR (10 ^ p_fwid p)) in *.
    assert (T1 : 1 <= T) by (apply IZR_le; assert (P := pow10_pos (p_fwid p)); lia).
    assert (Q : bpow radix10 (p_iwid p - sd) = / T).
    { replace (p_iwid p - sd)%Z with (- p_fwid p)%Z by lia. rewrite bpow_opp. f_equal.
      unfold T. rewrite <- IZR_Zpower by lia. reflexivity. }
    rewrite Q, I.
    replace (IZR (Zfloor y) + IZR (p_frac p) / T + r * / T - y) with ((IZR (p_frac p) + r - (y - IZR (Zfloor y)) * T) / T) by (field; lra).
    unfold Rdiv. rewrite Rabs_mult, (Rabs_pos_eq (/ T)) by (left; apply Rinv_0_lt_compat; lra).
    apply Rmult_le_reg_r with T; [lra|]. rewrite Rmult_assoc, Rinv_l, Rmult_1_r by lra.
    eapply Rle_trans; [exact N|]. rewrite minus_IZR. fold T. nra.
Qed.
