(* L_Round.v -- Format::roundToSigDigs. *)
From Coq Require Import Reals Lra.
From Flocq Require Import Core.Core IEEE754.BinarySingleNaN.
From Verif Require Import Base M_Float M_FormatF M_Round L_Float L_FormatF L_FormatH L_Near.
Local Open Scope R_scope.

Lemma first_false (c : nat -> bool) K : (exists k, (k <= K)%nat /\ c k = false /\ forall i, (i < k)%nat -> c i = true) \/
  (forall i, (i <= K)%nat -> c i = true).
Proof.
  induction K as [|K [(k & Hk & A)|IH]].
  - destruct (c O) eqn:E; [right; intros i Hi; replace i with O by lia; exact E|left; exists O; split; [lia|split; [exact E|intros; lia]]].
  - left. exists k. split; [lia|exact A].
  - destruct (c (S K)) eqn:E.
    + right. intros i Hi. destruct (Nat.eq_dec i (S K)) as [->|]; [exact E|apply IH; lia].
    + left. exists (S K). split; [lia|]. split; [exact E|]. intros i Hi. apply IH. lia.
Qed.

Lemma d0p1_fin : fin d0p1. Proof. reflexivity. Qed.
Lemma d0p1_val : val d0p1 = 7205759403792794 / 72057594037927936.
Proof. unfold d0p1, B2R, F2R. cbn [Fnum Fexp SpecFloat.cond_Zopp]. change (bpow radix2 (-56)) with (/ 72057594037927936). reflexivity. Qed.
Lemma d0p5_val : val d0p5 = / 2.
Proof. unfold d0p5, B2R, F2R. cbn [Fnum Fexp SpecFloat.cond_Zopp]. change (bpow radix2 (-53)) with (/ 9007199254740992). lra. Qed.
Lemma tenth_near : near 1 (val d0p1) (/ 10).
Proof.
  unfold near, beta. rewrite d0p1_val. change (bpow radix2 (-52)) with (/ 4503599627370496). repeat split; lra.
Qed.

Definition tval (sd : Z) : R := IZR (10 ^ sd) - / 2.
Lemma pow10_range sd : (0 <= sd <= 15)%Z -> (1 <= 10 ^ sd <= 10 ^ 15)%Z.
Proof. intros H. split; [apply (Z.pow_le_mono_r 10 0 sd); lia|apply Z.pow_le_mono_r; lia]. Qed.
Lemma threshold_ok sd : (0 <= sd <= 15)%Z -> fin (threshold sd) /\ val (threshold sd) = tval sd.
Proof.
  intros H. assert (P := pow10_range sd H). unfold threshold, dpow10. destruct (Z.ltb_spec sd 0); [lia|].
  destruct (dlit_ok (10 ^ sd)) as (F & V); [lia|].
  assert (G : fmt64 (tval sd)).
  { unfold tval. replace (IZR (10 ^ sd) - / 2) with (IZR (2 * 10 ^ sd - 1) * bpow radix2 (-1)).
    - apply fmt_F2R; lia.
    - rewrite minus_IZR, mult_IZR. change (bpow radix2 (-1)) with (/ 2). field. }
  assert (E : rnd (val (dlit (10 ^ sd)) - val d0p5) = tval sd) by (rewrite V, d0p5_val; apply rnd_fmt; exact G).
  destruct (dsub_ok (dlit (10 ^ sd)) d0p5 F eq_refl) as (F2 & V2).
  - rewrite E. apply Rle_lt_trans with (IZR (10 ^ 15)); [|change (IZR (10 ^ 15)) with 1000000000000000; apply Rlt_trans with (bpow radix2 50); [change (bpow radix2 50) with 1125899906842624; lra|apply bpow_lt; lia]].
    unfold tval. destruct P as (P1 & P2). apply IZR_le in P1, P2. rewrite Rabs_pos_eq; lra.
  - split; [exact F2|]. rewrite V2. exact E.
Qed.

Lemma mul_near x y a b n m : fin x -> fin y -> near n (val x) a -> near m (val y) b ->
  bpow radix2 (-1022) <= val x * val y <= 3 * bpow radix2 1022 ->
  fin (dmul x y) /\ near (1 + (n + m)) (val (dmul x y)) (a * b) /\ val (dmul x y) = rnd (val x * val y).
Proof.
  intros Fx Fy Nx Ny (L & U). assert (P : 0 <= val x * val y) by (assert (Q := bpow_ge_0 radix2 (-1022)); lra).
  destruct (dmul_ok x y Fx Fy) as (F & V).
  - rewrite Rabs_pos_eq by (apply rnd_pos; exact P). apply Rle_lt_trans with (3 * bpow radix2 1022).
    + apply rnd_le_fmt; [apply (fmt_F2R 3 1022); lia|exact U].
    + replace top with (4 * bpow radix2 1022) by (change 4 with (bpow radix2 2); rewrite <- bpow_plus; reflexivity).
      assert (Q := bpow_gt_0 radix2 1022). lra.
  - split; [exact F|]. split; [|exact V]. rewrite V. apply near_trans with (val x * val y); [apply near_rnd; exact L|apply near_mul; assumption].
Qed.
Lemma p10_pos k : 0 < 10 ^ k. Proof. apply pow_lt. lra. Qed.
Definition half_pow n := INR n * (bpow radix2 (-52) + bpow radix2 (-90)).
Lemma near_ge n x y : (n <= 1000)%nat -> near n x y -> y * (1 - 3 / 10000000000000) <= x <= y * (1 + 3 / 10000000000000).
Proof.
  intros H N. assert (A := near_abs n x y H N). destruct N as (_ & Py & _).
  assert (B : INR n * (bpow radix2 (-52) + bpow radix2 (-90)) <= 3 / 10000000000000).
  { apply le_INR in H. replace (INR 1000) with 1000 in H by (rewrite INR_IZR_INZ; reflexivity).
    assert (C : bpow radix2 (-90) <= / 10000000000000000000) by (apply Rle_trans with (bpow radix2 (-64)); [apply bpow_le; lia|change (bpow radix2 (-64)) with (/ 18446744073709551616); lra]).
    change (bpow radix2 (-52)) with (/ 4503599627370496). assert (0 <= INR n) by apply pos_INR. assert (D := bpow_ge_0 radix2 (-90)). nra. }
  apply Rabs_le_inv in A. nra.
Qed.

(* the loop dividing down, as long as it runs *)
Definition dn (s : double * double) := (dmul (fst s) d0p1, dmul (snd s) d10).
Definition up (s : double * double) := (dmul (fst s) d10, dmul (snd s) d0p1).
Lemma down_inv v T k : fin v -> val v <= bpow radix2 1023 -> 9 <= T <= val v -> (k <= 309)%nat ->
  (forall i, (i < k)%nat -> T < val (fst (at_ dn i (v, d1)))) ->
  let s := at_ dn k (v, d1) in
  fin (fst s) /\ fin (snd s) /\ near (2 * k) (val (fst s)) (val v / 10 ^ k) /\ near k (val (snd s)) (10 ^ k) /\
  val (fst s) <= val v /\ ((0 < k)%nat -> rnd (T * val d0p1) <= val (fst s)).
Proof.
  intros Fv Hv HT. induction k as [|k IH]; intros Hk Hi.
  - cbv zeta. unfold at_. cbn [Nat.iter nat_rect fst snd pow Nat.mul]. split; [exact Fv|]. split; [exact d1_fin|].
    rewrite d1_val.
    split; [replace (val v / 1) with (val v) by field; apply (near_refl (val v)); lra|]. split; [apply near_refl; lra|]. split; [lra|lia].
  - cbv zeta. rewrite at_succ. destruct IH as (F1 & F2 & N1 & N2 & U & _); [lia|intros i Hlt; apply Hi; lia|].
    assert (G := Hi k ltac:(lia)). set (s := at_ dn k (v, d1)) in *. unfold dn at 1 2 3 4 5 6. cbn [fst snd].
    assert (B9 : bpow radix2 (-1022) <= / 10000) by (apply Rle_trans with (bpow radix2 (-14)); [apply bpow_le; lia|change (bpow radix2 (-14)) with (/ 16384); lra]).
    assert (B10 : bpow radix2 1023 = 2 * bpow radix2 1022) by (change 2 with (bpow radix2 1); rewrite <- bpow_plus; reflexivity).
    destruct (mul_near (fst s) d0p1 (val v / 10 ^ k) (/ 10) (2 * k) 1 F1 d0p1_fin N1 tenth_near) as (A1 & A2 & A3).
    { rewrite d0p1_val. assert (Q := bpow_gt_0 radix2 1022). split; lra. }
    assert (Ten : near 0 (val d10) 10) by (rewrite d10_val; apply near_refl; lra).
    assert (C : val (snd s) * 10 <= 3 * bpow radix2 1022).
    { assert (X := near_ge k _ _ ltac:(lia) N2). assert (Y := near_ge (2 * k) _ _ ltac:(lia) N1).
      (* T < fst s <= v / 10^k * 1.1, so 10^k <= v / 8 *)
      assert (Pk := p10_pos k). assert (Q : 10 ^ k * 8 <= val v).
      { assert (Z1 : 8 <= val v / 10 ^ k) by lra. apply (Rmult_le_compat_r (10 ^ k)) in Z1; [|lra].
        replace (val v / 10 ^ k * 10 ^ k) with (val v) in Z1 by (field; lra). lra. }
      lra. }
    destruct (mul_near (snd s) d10 (10 ^ k) 10 k 0 F2 d10_fin N2 Ten) as (C1 & C2 & _).
    { rewrite d10_val. split; [|exact C]. assert (X := near_ge k _ _ ltac:(lia) N2). assert (Pk : 1 <= 10 ^ k) by (apply pow_R1_Rle; lra). lra. }
    split; [exact A1|]. split; [exact C1|].
    split; [apply near_mono with (1 + (2 * k + 1))%nat; [lia|]; replace (val v / 10 ^ S k) with (val v / 10 ^ k * / 10) by (cbn; field; assert (Pk := p10_pos k); lra); exact A2|].
    split; [apply near_mono with (1 + (k + 0))%nat; [lia|]; replace (10 ^ S k) with (10 ^ k * 10) by (cbn; ring); exact C2|].
    split.
    + rewrite A3. apply rnd_le_fmt; [apply val_fmt|]. rewrite d0p1_val. lra.
    + intros _. rewrite A3. apply rnd_le. rewrite d0p1_val. lra.
Qed.

Lemma up_inv v T k : fin v -> T * bpow radix2 (-1018) <= val v -> 9 <= T <= 1000000000000000 -> (k <= 309)%nat ->
  (forall i, (i < k)%nat -> val (fst (at_ up i (v, d1))) < T) ->
  let s := at_ up k (v, d1) in
  fin (fst s) /\ fin (snd s) /\ near k (val (fst s)) (val v * 10 ^ k) /\ near (2 * k) (val (snd s)) (/ 10 ^ k) /\
  ((0 < k)%nat -> val (fst s) <= rnd (T * 10)).
Proof.
  intros Fv Hv HT. assert (Q18 := bpow_gt_0 radix2 (-1018)).
  assert (Lo : 9 * bpow radix2 (-1018) <= val v) by (apply Rle_trans with (2 := Hv); apply Rmult_le_compat_r; lra).
  assert (Pv : 0 < val v) by lra.
  induction k as [|k IH]; intros Hk Hi.
  - cbv zeta. unfold at_. cbn [Nat.iter nat_rect fst snd pow Nat.mul]. split; [exact Fv|]. split; [exact d1_fin|]. rewrite d1_val.
    split; [rewrite Rmult_1_r; apply (near_refl (val v)); exact Pv|]. split; [rewrite Rinv_1; apply near_refl; lra|]. lia.
  - cbv zeta. rewrite at_succ. destruct IH as (F1 & F2 & N1 & N2 & U); [lia|intros i Hlt; apply Hi; lia|].
    assert (G := Hi k ltac:(lia)). set (s := at_ up k (v, d1)) in *. unfold up at 1 2 3 4 5. cbn [fst snd].
    assert (Pk := p10_pos k). assert (P1 : 1 <= 10 ^ k) by (apply pow_R1_Rle; lra).
    assert (Y := near_ge k _ _ ltac:(lia) N1). assert (X := near_ge (2 * k) _ _ ltac:(lia) N2).
    assert (Top : bpow radix2 60 <= bpow radix2 1022) by (apply bpow_le; lia). change (bpow radix2 60) with 1152921504606846976 in Top.
    assert (Sm : bpow radix2 (-1018) = 16 * bpow radix2 (-1022)) by (change 16 with (bpow radix2 4); rewrite <- bpow_plus; reflexivity).
    assert (P22 := bpow_gt_0 radix2 (-1022)).
    assert (Ten : near 0 (val d10) 10) by (rewrite d10_val; apply near_refl; lra).
    assert (Big : val v <= val v * 10 ^ k) by (rewrite <- (Rmult_1_r (val v)) at 1; apply Rmult_le_compat_l; lra).
    destruct (mul_near (fst s) d10 (val v * 10 ^ k) 10 k 0 F1 d10_fin N1 Ten) as (A1 & A2 & A3).
    { rewrite d10_val. split; lra. }
    assert (Iv : 0 < / 10 ^ k <= 1).
    { split; [apply Rinv_0_lt_compat; exact Pk|]. rewrite <- Rinv_1. apply Rinv_le; lra. }
    assert (C : bpow radix2 (-1022) * 15 <= / 10 ^ k).
    { assert (V2 : val v * 10 ^ k <= T * (16 / 15)) by lra.
      assert (B : T * (16 * bpow radix2 (-1022)) * 10 ^ k <= T * (16 / 15)) by (apply Rle_trans with (2 := V2); apply Rmult_le_compat_r; [lra|rewrite <- Sm; exact Hv]).
      assert (D : bpow radix2 (-1022) * 15 * 10 ^ k <= 1).
      { apply Rmult_le_reg_l with (T * (16 / 15)); [lra|]. replace (T * (16 / 15) * (bpow radix2 (-1022) * 15 * 10 ^ k)) with (T * (16 * bpow radix2 (-1022)) * 10 ^ k) by field. lra. }
      apply Rmult_le_reg_r with (10 ^ k); [exact Pk|]. rewrite Rinv_l by lra. exact D. }
    destruct (mul_near (snd s) d0p1 (/ 10 ^ k) (/ 10) (2 * k) 1 F2 d0p1_fin N2 tenth_near) as (C1 & C2 & _).
    { rewrite d0p1_val. split; lra. }
    split; [exact A1|]. split; [exact C1|].
    split; [apply near_mono with (1 + (k + 0))%nat; [lia|]; replace (val v * 10 ^ S k) with (val v * 10 ^ k * 10) by (cbn [pow]; ring); exact A2|].
    split; [apply near_mono with (1 + (2 * k + 1))%nat; [lia|]; replace (/ 10 ^ S k) with (/ 10 ^ k * / 10) by (cbn [pow]; field; lra); exact C2|].
    intros _. rewrite A3, d10_val. apply rnd_le. lra.
Qed.

Lemma at_mono_dn v i : at_ (fun s : double * double => (dmul (fst s) d0p1, dmul (snd s) d10)) i (v, d1) = at_ dn i (v, d1).
Proof. reflexivity. Qed.
Lemma rnd_tenth T : 9 <= T <= 1000000000000000 -> T / 10 - / 20 <= rnd (T * val d0p1).
Proof.
  intros H. assert (B : bpow radix2 (-1022) <= / 16384) by (change (/ 16384) with (bpow radix2 (-14)); apply bpow_le; lia).
  assert (R := rnd_rel (T * val d0p1)). rewrite d0p1_val in *. rewrite Rabs_pos_eq in R by lra.
  specialize (R ltac:(lra)). change (bpow radix2 (-53)) with (/ 9007199254740992) in R. apply Rabs_le_inv in R. lra.
Qed.
Lemma rnd_ten T : 9 <= T <= 1000000000000000 -> rnd (T * 10) <= T * 10 * (1 + / 9007199254740992).
Proof.
  intros H. assert (B : bpow radix2 (-1022) <= / 16384) by (change (/ 16384) with (bpow radix2 (-14)); apply bpow_le; lia).
  assert (R := rnd_rel (T * 10)). rewrite Rabs_pos_eq in R by lra.
  specialize (R ltac:(lra)). change (bpow radix2 (-53)) with (/ 9007199254740992) in R. apply Rabs_le_inv in R. lra.
Qed.
(* what the scaling hands to the rounding *)
Definition scaled (v T : R) (r c : double) (j : Z) : Prop :=
  fin r /\ fin c /\ near 700 (val r) (v * powerRZ 10 (- j)) /\ near 700 (val c) (powerRZ 10 j) /\
  T / 10 - / 20 <= val r <= T + / 2.
Lemma inv_pow k : powerRZ 10 (- Z.of_nat k) = / 10 ^ k.
Proof. rewrite powerRZ_neg', <- pow_powerRZ. reflexivity. Qed.
Lemma scale_ok fuel v T : (310 < fuel)%nat -> fin v -> val T * bpow radix2 (-1018) <= val v <= bpow radix2 1023 ->
  fin T -> 9 <= val T <= 1000000000000000 ->
  exists r c j, rts_scale fuel v T = Some (r, c) /\ scaled (val v) (val T) r c j.
Proof.
  intros Hf Fv (Lo & Hi) FT HT. unfold rts_scale. destruct (dgt v T) eqn:G; [|destruct (dlt v T) eqn:L].
  - apply dgt_true in G; [|assumption|assumption].
    assert (I := fun k => down_inv v (val T) k Fv Hi (conj (proj1 HT) (Rlt_le _ _ G))).
    destruct (first_false (fun i => dgt (fst (at_ dn i (v, d1))) T) 309) as [(k & Hk & C & A)|A].
    + assert (A' : forall i, (i < k)%nat -> val T < val (fst (at_ dn i (v, d1)))).
      { intros i. induction i as [i IHi] using lt_wf_ind. intros Hik. destruct (I i ltac:(lia)) as (Fi & _).
        - intros j Hj. apply IHi; lia.
        - apply dgt_true; [exact Fi|exact FT|apply A; exact Hik]. }
      destruct (I k Hk A') as (F1 & F2 & N1 & N2 & U & B).
      assert (K0 : (0 < k)%nat).
      { destruct k; [|lia]. exfalso. unfold at_ in C. cbn [Nat.iter nat_rect fst] in C. apply dgt_false in C; [lra|assumption|assumption]. }
      exists (fst (at_ dn k (v, d1))), (snd (at_ dn k (v, d1))), (Z.of_nat k). split.
      * rewrite <- surjective_pairing. apply (while_stop (fun s : double * double => dgt (fst s) T) dn fuel (v, d1) k); [lia|exact C|exact A].
      * split; [exact F1|]. split; [exact F2|].
        split; [rewrite inv_pow; apply near_mono with (2 * k)%nat; [lia|exact N1]|].
        split; [rewrite <- pow_powerRZ; apply near_mono with k; [lia|exact N2]|].
        specialize (B K0). assert (Q := rnd_tenth (val T) HT). apply dgt_false in C; [|exact F1|exact FT]. lra.
    + exfalso. assert (A' : forall i, (i <= 309)%nat -> val T < val (fst (at_ dn i (v, d1)))).
      { intros i. induction i as [i IHi] using lt_wf_ind. intros Hik. destruct (I i ltac:(lia)) as (Fi & _).
        - intros j Hj. apply IHi; lia.
        - apply dgt_true; [exact Fi|exact FT|apply A; exact Hik]. }
      destruct (I 309%nat ltac:(lia)) as (_ & _ & N1 & _); [intros i Hlt; apply A'; lia|].
      assert (W := near_ge _ _ _ (ltac:(lia) : (2 * 309 <= 1000)%nat) N1). assert (Z1 := A' 309%nat ltac:(lia)).
      assert (E : val v / 10 ^ 309 <= 1).
      { assert (P := p10_pos 309). apply Rmult_le_reg_r with (10 ^ 309); [exact P|]. unfold Rdiv. rewrite Rmult_assoc, Rinv_l, Rmult_1_r, Rmult_1_l by lra.
        apply Rle_trans with (1 := Hi). change (bpow radix2 1023) with (IZR (2 ^ 1023)). rewrite pow_IZR. apply IZR_le. vm_compute. discriminate. }
      lra.
  - apply dlt_true in L; [|assumption|assumption].
    assert (I := fun k => up_inv v (val T) k Fv Lo HT).
    destruct (first_false (fun i => dlt (fst (at_ up i (v, d1))) T) 308) as [(k & Hk & C & A)|A].
    + assert (A' : forall i, (i < k)%nat -> val (fst (at_ up i (v, d1))) < val T).
      { intros i. induction i as [i IHi] using lt_wf_ind. intros Hik. destruct (I i ltac:(lia)) as (Fi & _).
        - intros j Hj. apply IHi; lia.
        - apply dlt_true; [exact Fi|exact FT|apply A; exact Hik]. }
      destruct k as [|k]; [exfalso; unfold at_ in C; cbn [Nat.iter nat_rect fst] in C; apply dlt_false in C; [lra|assumption|assumption]|].
      destruct (I (S k) ltac:(lia) A') as (F1 & F2 & N1 & N2 & U).
      assert (E : while fuel (fun s : double * double => dlt (fst s) T) up (v, d1) = Some (at_ up (S k) (v, d1))).
      { apply while_stop; [lia|exact C|exact A]. }
      assert (Prev := A' k ltac:(lia)). destruct (I k ltac:(lia)) as (_ & _ & M1 & _ & _); [intros i Hlt; apply A'; lia|].
      assert (Wp := near_ge k _ _ (ltac:(lia) : (k <= 1000)%nat) M1).
      apply dlt_false in C; [|exact F1|exact FT].
      set (s := at_ up (S k) (v, d1)) in *. specialize (U ltac:(lia)).
      assert (R10 := rnd_ten (val T) HT). assert (Pk := p10_pos k). assert (PS := p10_pos (S k)).
      assert (Top : bpow radix2 60 <= bpow radix2 1022) by (apply bpow_le; lia). change (bpow radix2 60) with 1152921504606846976 in Top.
      assert (Bot : bpow radix2 (-1022) <= / 1024) by (change (/ 1024) with (bpow radix2 (-10)); apply bpow_le; lia).
      destruct (mul_near (fst s) d0p1 _ _ _ _ F1 d0p1_fin N1 tenth_near) as (A1 & A2 & A3); [rewrite d0p1_val; split; lra|].
      assert (Ten : near 0 (val d10) 10) by (rewrite d10_val; apply near_refl; lra).
      assert (X := near_ge _ _ _ (ltac:(lia) : (2 * S k <= 1000)%nat) N2). assert (Y := near_ge _ _ _ (ltac:(lia) : (S k <= 1000)%nat) N1).
      assert (Iv : 0 < / 10 ^ S k <= 1).
      { split; [apply Rinv_0_lt_compat; exact PS|]. rewrite <- Rinv_1. apply Rinv_le; [lra|]. apply pow_R1_Rle. lra. }
      assert (Sm : bpow radix2 (-1018) = 16 * bpow radix2 (-1022)) by (change 16 with (bpow radix2 4); rewrite <- bpow_plus; reflexivity).
      assert (CL : bpow radix2 (-1022) * (3 / 2) <= / 10 ^ S k).
      { assert (V2 : val v * 10 ^ k <= val T * (16 / 15)) by lra.
        assert (B : val T * (16 * bpow radix2 (-1022)) * 10 ^ k <= val T * (16 / 15)) by (apply Rle_trans with (2 := V2); apply Rmult_le_compat_r; [lra|rewrite <- Sm; exact Lo]).
        apply Rmult_le_reg_r with (10 ^ S k); [exact PS|]. rewrite Rinv_l by lra. cbn [pow].
        apply Rmult_le_reg_l with (val T * (16 / 15)); [lra|]. replace (val T * (16 / 15) * (bpow radix2 (-1022) * (3 / 2) * (10 * 10 ^ k))) with (val T * (16 * bpow radix2 (-1022)) * 10 ^ k) by field. lra. }
      assert (P22 := bpow_gt_0 radix2 (-1022)).
      destruct (mul_near (snd s) d10 _ _ _ _ F2 d10_fin N2 Ten) as (C1 & C2 & _); [rewrite d10_val; split; lra|].
      exists (dmul (fst s) d0p1), (dmul (snd s) d10), (- Z.of_nat k)%Z. split; [transitivity (option_map dn (while fuel (fun s0 : double * double => dlt (fst s0) T) up (v, d1))); [reflexivity|rewrite E; reflexivity]|].
      split; [exact A1|]. split; [exact C1|].
      assert (E1 : val v * 10 ^ S k * / 10 = val v * powerRZ 10 (- - Z.of_nat k)) by (rewrite Z.opp_involutive, <- pow_powerRZ; cbn [pow]; field).
      rewrite E1 in A2.
      split; [apply near_mono with (1 + (S k + 1))%nat; [lia|exact A2]|].
      split; [rewrite inv_pow; apply near_mono with (1 + (2 * S k + 0))%nat; [lia|]; replace (/ 10 ^ k) with (/ 10 ^ S k * 10) by (cbn [pow]; field; lra); exact C2|].
      split.
      * apply Rle_trans with (1 := rnd_tenth (val T) HT). rewrite A3. apply rnd_le. apply Rmult_le_compat_r; [rewrite d0p1_val; lra|exact C].
      * rewrite A3. assert (B2 := rnd_rel (val (fst s) * val d0p1)). rewrite d0p1_val in *. rewrite Rabs_pos_eq in B2 by lra.
        specialize (B2 ltac:(lra)). change (bpow radix2 (-53)) with (/ 9007199254740992) in B2. apply Rabs_le_inv in B2. lra.
    + exfalso. assert (A' : forall i, (i <= 308)%nat -> val (fst (at_ up i (v, d1))) < val T).
      { intros i. induction i as [i IHi] using lt_wf_ind. intros Hik. destruct (I i ltac:(lia)) as (Fi & _).
        - intros j Hj. apply IHi; lia.
        - apply dlt_true; [exact Fi|exact FT|apply A; exact Hik]. }
      destruct (I 308%nat ltac:(lia)) as (_ & _ & N1 & _); [intros i Hlt; apply A'; lia|].
      assert (W := near_ge _ _ _ (ltac:(lia) : (308 <= 1000)%nat) N1). assert (Z1 := A' 308%nat ltac:(lia)).
      assert (E : val T * 2 <= val v * 10 ^ 308).
      { apply Rle_trans with (val T * bpow radix2 (-1018) * 10 ^ 308); [|apply Rmult_le_compat_r; [left; apply p10_pos|exact Lo]].
        rewrite Rmult_assoc. apply Rmult_le_compat_l; [lra|]. 
        apply Rmult_le_reg_l with (bpow radix2 1018); [apply bpow_gt_0|]. rewrite <- Rmult_assoc, <- bpow_plus. change (bpow radix2 (1018 + -1018)) with 1. rewrite Rmult_1_l.
        change (bpow radix2 1018) with (IZR (2 ^ 1018)). rewrite pow_IZR, <- mult_IZR. apply IZR_le. vm_compute. discriminate. }
      lra.
  - apply dgt_false in G; [|assumption|assumption]. apply dlt_false in L; [|assumption|assumption].
    exists v, d1, 0%Z. split; [reflexivity|]. split; [exact Fv|]. split; [exact d1_fin|]. rewrite d1_val. cbn [Z.opp powerRZ]. rewrite Rmult_1_r.
    split; [apply near_mono with O; [lia|apply near_refl; lra]|]. split; [apply near_mono with O; [lia|apply near_refl; lra]|]. lra.
Qed.

Lemma val_fmt (x : double) : fmt64 (val x).
Proof. apply (generic_format_B2R 53 1024 x). Qed.
Lemma round_ok r : fin r -> / 2 <= val r <= 1000000000000001 ->
  exists n : Z, fin (rts_round r) /\ val (rts_round r) = IZR n /\
    ((n = Zfloor (val r) /\ val r - IZR (Zfloor (val r)) < / 2) \/
     (n = (Zfloor (val r) + 1)%Z /\ / 2 <= val r - IZR (Zfloor (val r)))).
Proof.
  intros F (L & U). assert (Fl := Zfloor_lb (val r)). assert (Fu := Zfloor_ub (val r)).
  assert (Tp : 1152921504606846976 < top) by (change 1152921504606846976 with (bpow radix2 60); apply bpow_lt; lia).
  destruct (dfloor_ok r F) as (F1 & V1).
  assert (Fr : rnd (val r - IZR (Zfloor (val r))) = val r - IZR (Zfloor (val r))) by (apply rnd_fmt, frac_fmt; [apply val_fmt|lra]).
  destruct (dsub_ok r (dfloor r) F F1) as (F2 & V2); [rewrite V1, Fr, Rabs_pos_eq; lra|]. rewrite V1, Fr in V2.
  assert (N : (0 <= Zfloor (val r))%Z) by (apply Zfloor_lub; lra).
  assert (M : (Zfloor (val r) <= 1000000000000001)%Z) by (apply le_IZR; lra).
  unfold rts_round. destruct (dge (dsub r (dfloor r)) d0p5) eqn:G.
  - apply dge_true in G; [|exact F2|reflexivity]. rewrite V2, d0p5_val in G.
    assert (R1 : IZR (Zfloor (val r) + 1) <= rnd (val r + / 2)).
    { apply rnd_ge_fmt; [apply fmt_IZR; lia|]. rewrite plus_IZR. lra. }
    assert (R2 : rnd (val r + / 2) <= IZR (Zfloor (val r)) + 3 / 2).
    { apply rnd_le_fmt; [|lra]. replace (IZR (Zfloor (val r)) + 3 / 2) with (IZR (2 * Zfloor (val r) + 3) * bpow radix2 (-1)).
      - apply fmt_F2R; lia.
      - rewrite plus_IZR, mult_IZR. change (bpow radix2 (-1)) with (/ 2). field. }
    rewrite plus_IZR in R1.
    destruct (dadd_ok r d0p5 F eq_refl) as (F3 & V3); [rewrite d0p5_val, Rabs_pos_eq; lra|]. rewrite d0p5_val in V3.
    destruct (dtrunc_ok _ F3) as (F4 & V4). exists (Zfloor (val r) + 1)%Z. split; [exact F4|]. split; [|right; split; [reflexivity|exact G]].
    rewrite V4. f_equal. rewrite Ztrunc_floor by lra. apply Zfloor_imp. rewrite !plus_IZR. lra.
  - apply dge_false in G; [|exact F2|reflexivity]. rewrite V2, d0p5_val in G.
    destruct (dtrunc_ok _ F) as (F4 & V4). exists (Zfloor (val r)). split; [exact F4|]. split; [|left; split; [reflexivity|exact G]].
    rewrite V4, Ztrunc_floor by lra. reflexivity.
Qed.

(* the digits: an integer of sd digits next to the scaled value *)
Lemma round_digits r sd : fin r -> (1 <= sd <= 15)%Z -> tval sd / 10 - / 20 <= val r <= tval sd + / 2 ->
  exists n : Z, fin (rts_round r) /\ val (rts_round r) = IZR n /\ (10 ^ (sd - 1) <= n <= 10 ^ sd)%Z /\
    Rabs (IZR n - val r) <= / 2 * (val r / IZR (10 ^ (sd - 1))) /\ IZR n <= 4 / 3 * val r.
Proof.
  intros F H (L & U). assert (P := pow10_range (sd - 1) ltac:(lia)). assert (P' := pow10_range sd ltac:(lia)).
  assert (E : (10 ^ sd = 10 * 10 ^ (sd - 1))%Z) by (rewrite <- Z.pow_succ_r by lia; f_equal; lia).
  unfold tval in *. set (p := (10 ^ (sd - 1))%Z) in *. rewrite E in *.
  assert (P1 : 1 <= IZR p) by (apply IZR_le; lia). assert (P2 : IZR p <= 100000000000000) by (apply IZR_le; lia).
  rewrite mult_IZR in L, U.
  destruct (round_ok r F) as (n & F2 & V & C); [lra|]. exists n. split; [exact F2|]. split; [exact V|].
  assert (Fl := Zfloor_lb (val r)). assert (Fu := Zfloor_ub (val r)). set (f := Zfloor (val r)) in *.
  assert (LB : IZR p - / 10 <= val r) by lra. assert (UB : val r <= 10 * IZR p) by lra.
  assert (B1 : (p - 1 <= f)%Z) by (apply Z.lt_succ_r; apply lt_IZR; unfold Z.succ; rewrite plus_IZR, minus_IZR; lra).
  assert (B2 : (f <= 10 * p)%Z) by (apply le_IZR; rewrite mult_IZR; lra).
  assert (Q : 9 / 10 <= val r / IZR p).
  { apply Rmult_le_reg_r with (IZR p); [lra|]. unfold Rdiv at 2. rewrite Rmult_assoc, Rinv_l by lra. lra. }
  assert (Q1 : IZR p <= val r -> 1 <= val r / IZR p).
  { intros K. apply Rmult_le_reg_r with (IZR p); [lra|]. unfold Rdiv. rewrite Rmult_assoc, Rinv_l by lra. lra. }
  destruct C as [(-> & D)|(-> & D)].
  - assert (f <> p - 1)%Z by (intros K; rewrite K, minus_IZR in D; lra).
    split; [lia|]. assert (IZR p <= IZR f) by (apply IZR_le; lia). specialize (Q1 ltac:(lra)). split; [rewrite Rabs_left1; lra|lra].
  - assert (f <> 10 * p)%Z by (intros K; rewrite K, mult_IZR in D; lra).
    split; [lia|]. rewrite plus_IZR. split.
    2:{ assert (K : (f = 0 \/ 1 <= f)%Z) by lia. destruct K as [K|K]; [rewrite K; lra|]. assert (1 <= IZR f) by (apply IZR_le; lia). lra. }
    rewrite Rabs_pos_eq by lra. destruct (Rle_lt_dec (IZR p) (val r)) as [K|K]; [specialize (Q1 K); lra|].
    assert (f + 1 <= p)%Z; [|assert (IZR (f + 1) <= IZR p) by (apply IZR_le; lia); rewrite plus_IZR in *; lra].
    assert (f < p)%Z by (apply lt_IZR; lra). lia.
Qed.

Theorem rts_ok fuel v sd : (400 <= fuel)%nat -> fin v -> (1 <= sd <= 15)%Z -> IZR (10 ^ sd) * bpow radix2 (-1018) <= val v <= bpow radix2 1023 ->
  exists r n j, roundToSigDigs fuel v sd = Some r /\ fin r /\ (10 ^ (sd - 1) <= n <= 10 ^ sd)%Z /\
    Rabs (val r - IZR n * powerRZ 10 j) <= / 1000000000000 * val v /\
    Rabs (IZR n * powerRZ 10 j - val v) <= (5 / IZR (10 ^ sd) + / 1000000000000) * val v.
Proof.
  intros Hf Fv H (Lo & Hi). destruct (threshold_ok sd ltac:(lia)) as (FT & VT).
  assert (P := pow10_range (sd - 1) ltac:(lia)).
  assert (E : (10 ^ sd = 10 * 10 ^ (sd - 1))%Z) by (rewrite <- Z.pow_succ_r by lia; f_equal; lia).
  assert (BT : 9 <= val (threshold sd) <= 1000000000000000).
  { rewrite VT. unfold tval. rewrite E, mult_IZR. assert (1 <= IZR (10 ^ (sd - 1))) by (apply IZR_le; lia). 
    assert (P' := pow10_range sd ltac:(lia)). assert (IZR (10 ^ sd) <= 1000000000000000) by (apply IZR_le; lia). rewrite E, mult_IZR in *. lra. }
  assert (B23 : bpow radix2 1023 = 2 * bpow radix2 1022) by (change 2 with (bpow radix2 1); rewrite <- bpow_plus; reflexivity).
  assert (Pb := bpow_gt_0 radix2 1022).
  assert (Q18 := bpow_gt_0 radix2 (-1018)).
  assert (LoT : val (threshold sd) * bpow radix2 (-1018) <= val v).
  { apply Rle_trans with (2 := Lo). apply Rmult_le_compat_r; [lra|]. rewrite VT. unfold tval. lra. }
  assert (Lo9 : 9 * bpow radix2 (-1018) <= val v) by (apply Rle_trans with (2 := LoT); apply Rmult_le_compat_r; lra).
  destruct (scale_ok fuel v (threshold sd) ltac:(lia) Fv (conj LoT Hi) FT BT) as (r & c & j & Es & Fr & Fc & Nr & Nc & Br).
  rewrite VT in Br. destruct (round_digits r sd Fr H Br) as (n & Fn & Vn & Bn & An & A43).
  assert (Kr := near_ge 700 _ _ ltac:(lia) Nr). assert (Kc := near_ge 700 _ _ ltac:(lia) Nc).
  assert (Pj : 0 < powerRZ 10 j) by (apply powerRZ_lt; lra).
  assert (Ej : powerRZ 10 (- j) = / powerRZ 10 j) by apply powerRZ_neg'. rewrite Ej in *.
  set (q := powerRZ 10 j) in *. set (p := (10 ^ (sd - 1))%Z) in *.
  assert (P1 : 1 <= IZR p) by (apply IZR_le; lia).
  assert (N0 : 1 <= IZR n) by (apply IZR_le; lia).
  assert (Pv : 0 < val v) by lra.
  set (w := val v * / q) in *. assert (Ew : val v = w * q) by (unfold w; field; lra).
  assert (Pw : 0 < w) by (unfold w; apply Rmult_lt_0_compat; [exact Pv|apply Rinv_0_lt_compat; exact Pj]).
  set (e := / 2 * / IZR p) in *. assert (He : 0 < e <= / 2).
  { unfold e. assert (0 < / IZR p) by (apply Rinv_0_lt_compat; lra). assert (/ IZR p <= 1) by (rewrite <- Rinv_1; apply Rinv_le; lra). lra. }
  assert (An2 : Rabs (IZR n - val r) <= e * val r) by (replace (e * val r) with (/ 2 * (val r / IZR p)) by (unfold e; field; lra); exact An).
  assert (Dn : Rabs (IZR n - w) <= (e + / 1000000000000) * w).
  { apply Rabs_le_inv in An2. apply Rabs_le. assert (e * val r <= e * (w * (1 + 3 / 10000000000000))) by (apply Rmult_le_compat_l; lra).
    assert (e * w <= / 2 * w) by (apply Rmult_le_compat_r; lra). lra. }
  assert (Un : / 4 * w <= IZR n <= 27 / 20 * w).
  { assert (e * w <= / 2 * w) by (apply Rmult_le_compat_r; lra). apply Rabs_le_inv in Dn. lra. }
  assert (Nq : / 4 * val v <= IZR n * q <= 27 / 20 * val v).
  { rewrite Ew. split; [replace (/ 4 * (w * q)) with (/ 4 * w * q) by ring|replace (27 / 20 * (w * q)) with (27 / 20 * w * q) by ring]; apply Rmult_le_compat_r; lra. }
  assert (Mc : IZR n * q * (1 - 3 / 10000000000000) <= IZR n * val c <= IZR n * q * (1 + 3 / 10000000000000)).
  { split; rewrite Rmult_assoc; apply Rmult_le_compat_l; lra. }
  assert (Bt : bpow radix2 (-1022) * 8 <= val v).
  { assert (Sm : bpow radix2 (-1018) = 16 * bpow radix2 (-1022)) by (change 16 with (bpow radix2 4); rewrite <- bpow_plus; reflexivity). assert (P2 := bpow_gt_0 radix2 (-1022)). lra. }
  assert (Nn : near 0 (val (rts_round r)) (IZR n)) by (rewrite Vn; apply near_refl; lra).
  assert (P22 := bpow_gt_0 radix2 (-1022)).
  destruct (mul_near (rts_round r) c (IZR n) q 0 700 Fn Fc Nn Nc) as (F3 & N3 & _); [rewrite Vn; split; lra|].
  assert (K3 := near_ge _ _ _ (ltac:(lia) : (1 + (0 + 700) <= 1000)%nat) N3).
  exists (dmul (rts_round r) c), n, j. split; [unfold roundToSigDigs; rewrite Es; reflexivity|]. split; [exact F3|]. split; [exact Bn|]. fold q.
  split; [apply Rabs_le; split; lra|].
  replace (5 / IZR (10 ^ sd)) with e by (unfold e; rewrite E, mult_IZR; field; lra).
  rewrite Ew. replace (IZR n * q - w * q) with ((IZR n - w) * q) by ring. rewrite Rabs_mult, (Rabs_pos_eq q) by lra. rewrite <- Rmult_assoc.
  apply Rmult_le_compat_r; lra.
Qed.

(* zero, negative values and infinities: the scaling never ends *)
Definition stuck (x : double) : Prop := (fin x /\ val x <= 0) \/ x = B754_infinity true.
Lemma stuck_lt x sd : (0 <= sd <= 15)%Z -> stuck x -> dlt x (threshold sd) = true.
Proof.
  intros H S. destruct (threshold_ok sd H) as (FT & VT). assert (P := pow10_range sd H).
  destruct S as [(F & V)|E].
  - rewrite dlt_ok by assumption. apply Rlt_bool_true. rewrite VT. unfold tval. assert (1 <= IZR (10 ^ sd)) by (apply IZR_le; lia). lra.
  - subst x. destruct (threshold sd) as [s|s| |s m e b] eqn:Et; try discriminate FT; reflexivity.
Qed.
Lemma stuck_step x : stuck x -> stuck (dmul x d10).
Proof.
  intros [(F & V)|E]; [|subst x; right; reflexivity].
  assert (P : rnd (val x * val d10) <= 0) by (apply rnd_le_fmt; [apply fmt_0|rewrite d10_val; lra]).
  destruct (Rlt_or_le (Rabs (rnd (val x * val d10))) top) as [L|G].
  - destruct (dmul_ok x d10 F d10_fin L) as (F2 & V2). left. rewrite V2. auto.
  - right. generalize (@Bmult_correct 53 1024 prec64 emax64 mode_NE x d10).
    change (round radix2 (SpecFloat.fexp 53 1024) (round_mode mode_NE)) with rnd.
    rewrite Rlt_bool_false by exact G. intros C.
    assert (N : Bsign x = true).
    { destruct (Rle_lt_or_eq_dec _ _ V) as [W|W].
      - destruct x as [s|s| |s m e b]; try discriminate F; [cbn in W; lra|]. destruct s; [reflexivity|].
        exfalso. assert (0 < val (B754_finite false m e b)) by (apply F2R_gt_0; reflexivity). lra.
      - exfalso. rewrite W, Rmult_0_l, round_0, Rabs_R0 in G by apply valid_rnd_N. assert (Q := bpow_gt_0 radix2 1024). lra. }
    rewrite N in C. unfold dmul. set (y := Bmult mode_NE x d10) in *. clearbody y. change (B2SF y = SpecFloat.S754_infinity true) in C.
    destruct y as [s|s| |s m e b]; try discriminate C. destruct s; [reflexivity|discriminate C].
Qed.
Lemma stuck_forever fuel v sd : (0 <= sd <= 15)%Z -> stuck v -> roundToSigDigs fuel v sd = None.
Proof.
  intros H S. unfold roundToSigDigs, rts_scale. 
  assert (G : dgt v (threshold sd) = false).
  { destruct (threshold_ok sd H) as (FT & VT). assert (P := pow10_range sd H). destruct S as [(F & V)| ->].
    - rewrite dgt_ok by assumption. apply Rlt_bool_false. rewrite VT. unfold tval. assert (1 <= IZR (10 ^ sd)) by (apply IZR_le; lia). lra.
    - destruct (threshold sd) as [s|s| |s m e b]; try discriminate FT; reflexivity. }
  rewrite G, (stuck_lt v sd H S).
  rewrite while_never; [reflexivity|]. intros k.
  assert (I : stuck (fst (at_ up k (v, d1)))).
  { induction k as [|k IH]; [exact S|]. rewrite at_succ. apply stuck_step. exact IH. }
  apply stuck_lt; assumption.
Qed.
Lemma inf_forever fuel sd : (0 <= sd <= 15)%Z -> roundToSigDigs fuel (B754_infinity false) sd = None.
Proof.
  intros H. destruct (threshold_ok sd H) as (FT & _). unfold roundToSigDigs, rts_scale.
  assert (G : dgt (B754_infinity false) (threshold sd) = true) by (destruct (threshold sd); try discriminate FT; reflexivity).
  rewrite G, while_never; [reflexivity|]. intros k.
  assert (I : fst (at_ dn k (B754_infinity false, d1)) = B754_infinity false).
  { induction k as [|k IH]; [reflexivity|]. rewrite at_succ. unfold dn at 1. cbn [fst]. rewrite IH. reflexivity. }
  cbn beta. transitivity (dgt (fst (at_ dn k (B754_infinity false, d1))) (threshold sd)); [reflexivity|]. rewrite I. exact G.
Qed.
