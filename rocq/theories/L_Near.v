(* L_Near.v -- products of rounding errors. *)
From Coq Require Import Reals Lra Psatz.
From Flocq Require Import Core.Core IEEE754.BinarySingleNaN.
From Verif Require Import Base M_Float L_Float.
Local Open Scope R_scope.

Definition beta : R := 1 + bpow radix2 (-52).
Lemma beta_gt : 1 < beta. Proof. unfold beta. assert (H := bpow_gt_0 radix2 (-52)). lra. Qed.
Lemma pow_beta n : 1 <= beta ^ n. Proof. apply pow_R1_Rle. assert (H := beta_gt). lra. Qed.
Lemma pow_beta_mono n m : (n <= m)%nat -> beta ^ n <= beta ^ m.
Proof. intros H. apply Rle_pow; [assert (B := beta_gt); lra|exact H]. Qed.

(* x and y differ by at most n rounding errors *)
Definition near (n : nat) (x y : R) : Prop := 0 < x /\ 0 < y /\ x <= y * beta ^ n /\ y <= x * beta ^ n.
Lemma near_refl x : 0 < x -> near 0 x x.
Proof. intros H. unfold near. cbn. lra. Qed.
Lemma near_sym n x y : near n x y -> near n y x.
Proof. intros (A & B & C & D). split; auto. Qed.
Lemma near_trans n m x y z : near n x y -> near m y z -> near (n + m) x z.
Proof.
  intros (A & B & C & D) (_ & A2 & C2 & D2). assert (P := pow_beta n). assert (Q := pow_beta m).
  split; [exact A|]. split; [exact A2|]. rewrite pow_add. split.
  - eapply Rle_trans; [exact C|]. nra.
  - eapply Rle_trans; [exact D2|]. nra.
Qed.
Lemma near_mono n m x y : (n <= m)%nat -> near n x y -> near m x y.
Proof.
  intros H (A & B & C & D). assert (P := pow_beta_mono n m H). split; [exact A|]. split; [exact B|]. nra.
Qed.
Lemma near_mul n m x y a b : near n x y -> near m a b -> near (n + m) (x * a) (y * b).
Proof.
  intros (A & B & C & D) (A2 & B2 & C2 & D2). assert (P := pow_beta n). assert (Q := pow_beta m).
  split; [nra|]. split; [nra|]. rewrite pow_add. split.
  - replace (y * b * (beta ^ n * beta ^ m)) with ((y * beta ^ n) * (b * beta ^ m)) by ring. apply Rmult_le_compat; lra.
  - replace (x * a * (beta ^ n * beta ^ m)) with ((x * beta ^ n) * (a * beta ^ m)) by ring. apply Rmult_le_compat; lra.
Qed.
Lemma near_scale n x y a : near n x y -> 0 < a -> near n (x * a) (y * a).
Proof. intros H Ha. rewrite <- (Nat.add_0_r n). apply near_mul; [exact H|apply near_refl; exact Ha]. Qed.
Lemma near_add n x y a b : near n x y -> near n a b -> near n (x + a) (y + b).
Proof. intros (A & B & C & D) (A2 & B2 & C2 & D2). unfold near. split; [lra|]. split; [lra|]. split; nra. Qed.

Lemma near_rnd x : bpow radix2 (-1022) <= x -> near 1 (rnd x) x.
Proof.
  intros H. assert (P := bpow_gt_0 radix2 (-1022)). assert (X : 0 < x) by lra.
  assert (R := rnd_rel x). rewrite (Rabs_pos_eq x) in R by lra. specialize (R H).
  apply Rabs_le_inv in R. unfold near. rewrite pow_1. unfold beta.
  replace (bpow radix2 (-52)) with (2 * bpow radix2 (-53)) by (change (-52)%Z with (1 + -53)%Z; rewrite bpow_plus; reflexivity).
  assert (E0 := bpow_gt_0 radix2 (-53)).
  assert (E1 : bpow radix2 (-53) < / 4) by (change (/ 4) with (bpow radix2 (-2)); apply bpow_lt; lia).
  set (eps := bpow radix2 (-53)) in *. split; [nra|]. split; [exact X|]. split; [nra|].
  assert (x * (1 - eps) <= rnd x) by lra.
  assert (x * (1 - eps) * (1 + 2 * eps) <= rnd x * (1 + 2 * eps)) by (apply Rmult_le_compat_r; lra).
  assert (0 <= x * eps * (1 - 2 * eps)) by (apply Rmult_le_pos; nra). nra.
Qed.

(* an absolute bound *)
Lemma beta_bound n : (n <= 1000)%nat -> beta ^ n <= 1 + INR n * (bpow radix2 (-52) + bpow radix2 (-90)).
Proof.
  intros H. unfold beta. set (a := bpow radix2 (-52)).
  assert (A0 : 0 < a) by apply bpow_gt_0.
  (* (1+a)^n <= 1 / (1 - n a) *)
  assert (K : INR n <= 1000) by (replace 1000 with (INR 1000) by (rewrite INR_IZR_INZ; reflexivity); apply le_INR; exact H).
  assert (A1 : a <= / 1000000000000000).
  { unfold a. change (bpow radix2 (-52)) with (/ 4503599627370496). lra. }
  assert (G : forall m, (m <= n)%nat -> (1 + a) ^ m * (1 - INR m * a) <= 1).
  { induction m as [|m IH]; intros Hm; [cbn; lra|]. specialize (IH ltac:(lia)). rewrite S_INR.
    cbn [pow]. assert (M : 0 <= INR m) by apply pos_INR. assert (P : 0 <= (1 + a) ^ m) by (apply pow_le; lra).
    replace ((1 + a) * (1 + a) ^ m * (1 - (INR m + 1) * a)) with ((1 + a) ^ m * ((1 - INR m * a) - (INR m + 1) * a * a)) by ring.
    assert (0 <= (1 + a) ^ m * ((INR m + 1) * a * a)) by (apply Rmult_le_pos; [exact P|]; apply Rmult_le_pos; [apply Rmult_le_pos; lra|lra]).
    lra. }
  specialize (G n ltac:(lia)). set (x := (1 + a) ^ n) in *. set (N := INR n) in *. assert (N0 : 0 <= N) by apply pos_INR.
  assert (B : a * a * 1001 <= bpow radix2 (-90)).
  { replace (bpow radix2 (-90)) with (a * bpow radix2 (-38)) by (unfold a; rewrite <- bpow_plus; reflexivity).
    change (bpow radix2 (-38)) with (/ 274877906944). replace (a * a * 1001) with (a * (a * 1001)) by ring.
    apply Rmult_le_compat_l; lra. }
  assert (Na : N * a <= / 1000000000).
  { apply Rle_trans with (1000 * a); [apply Rmult_le_compat_r; lra|lra]. }
  apply Rmult_le_reg_r with (1 - N * a); [lra|].
  eapply Rle_trans; [exact G|].
  set (c := bpow radix2 (-90)) in *. assert (C0 : 0 < c) by apply bpow_gt_0.
  assert (AA : 0 <= a * a) by (apply Rmult_le_pos; lra).
  assert (H1 : 0 <= N * (a * a) * (1000 - N)) by (apply Rmult_le_pos; [apply Rmult_le_pos|]; lra).
  assert (H2 : 0 <= N * (c - a * a * 1001)) by (apply Rmult_le_pos; lra).
  assert (H3 : 0 <= (/ 1000000000 - N * a) * (N * c)) by (apply Rmult_le_pos; [lra|apply Rmult_le_pos; lra]).
  assert (H4 : 0 <= N * (a * a)) by (apply Rmult_le_pos; lra).
  replace ((1 + N * (a + c)) * (1 - N * a)) with (1 + N * (a * a) * (1000 - N) + (/ 1000000000 - N * a) * (N * c)
    + (1 - / 1000000000) * (N * (c - a * a * 1001)) + ((1 - / 1000000000) * 1001 - 1000) * (N * (a * a))) by ring.
  lra.
Qed.
Lemma near_abs n x y : (n <= 1000)%nat -> near n x y -> Rabs (x - y) <= y * (INR n * (bpow radix2 (-52) + bpow radix2 (-90))).
Proof.
  intros H (A & B & C & D). assert (Q := beta_bound n H). assert (P := pow_beta n). set (d := INR n * _) in *.
  apply Rabs_le. split.
  - (* x >= y / beta^n >= y (1 - d) *)
    assert (y <= x * (1 + d)) by nra. assert (0 <= d) by lra. assert (x * (1 + d) * (1 - d) <= x) by nra.
    destruct (Rle_or_lt d 1) as [L|G]; nra.
  - nra.
Qed.
