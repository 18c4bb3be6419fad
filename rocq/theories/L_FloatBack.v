(* L_FloatBack.v -- a printed double is read back. *)
From Coq Require Import ZArith Lia Reals Lra.
From Flocq Require Import Core.Core IEEE754.BinarySingleNaN.
From Flocq Require Import Relative.
From Verif Require Import Base S_Num S_Options S_Field M_StreamIn M_Float M_StreamFloat S_FormatF S_FloatIn L_Dec L_FormatI L_FloatIn L_FloatR.
Local Open Scope R_scope.

Section Fmt.
Context (prec emax : Z) (Hp : Prec_gt_0 prec) (Hm : Prec_lt_emax prec emax).
Notation fx := (FLT_exp (3 - emax - prec) prec).

Lemma gaps u : 0 < u -> generic_format radix2 fx u ->
  bpow radix2 (- prec) * u <= succ radix2 fx u - u /\ bpow radix2 (- prec) * u <= u - pred radix2 fx u.
Proof.
  intros P F. assert (M := bpow_mag_gt radix2 u). rewrite Rabs_pos_eq in M by lra.
  assert (U : bpow radix2 (- prec) * u <= ulp radix2 fx u).
  { rewrite ulp_neq_0 by lra. unfold cexp. apply Rle_trans with (bpow radix2 (- prec) * bpow radix2 (mag radix2 u)).
    - apply Rmult_le_compat_l; [apply bpow_ge_0|lra].
    - rewrite <- bpow_plus. apply bpow_le. unfold FLT_exp. lia. }
  split.
  - rewrite succ_eq_pos by lra. lra.
  - rewrite pred_eq_pos by lra. unfold pred_pos. destruct (Req_bool_spec u (bpow radix2 (mag radix2 u - 1))) as [E|E]; [|lra].
    enough (bpow radix2 (- prec) * u <= bpow radix2 (fx (mag radix2 u - 1))) by lra.
    rewrite E at 1. rewrite <- bpow_plus. apply bpow_le. unfold FLT_exp. lia.
Qed.
Lemma near_round_pos u x : 0 < u -> generic_format radix2 fx u -> Rabs (x - u) < bpow radix2 (- prec) * u / 2 ->
  nearest_even prec emax x = u.
Proof.
  intros P F D. destruct (gaps u P F) as (G1 & G2). apply Rabs_def2 in D as (D1 & D2). unfold nearest_even. apply Rle_antisym.
  - apply round_N_le_midp; [apply FLT_exp_valid; exact Hp|exact F|lra].
  - apply round_N_ge_midp; [apply FLT_exp_valid; exact Hp|exact F|lra].
Qed.
Lemma near_round u x : u <> 0 -> generic_format radix2 fx u -> Rabs (x - u) < bpow radix2 (- prec) * Rabs u / 2 ->
  nearest_even prec emax x = u.
Proof.
  intros N F D. destruct (Rlt_or_le 0 u) as [P|P].
  - rewrite (Rabs_pos_eq u) in D by lra. apply near_round_pos; assumption.
  - assert (Q : nearest_even prec emax (- x) = - u).
    { apply near_round_pos; [lra|apply generic_format_opp; exact F|]. rewrite (Rabs_left u) in D by lra.
      replace (- x - - u) with (- (x - u)) by ring. rewrite Rabs_Ropp. exact D. }
    unfold nearest_even in *. rewrite round_NE_opp in Q. lra.
Qed.
Lemma read_back (v : binary_float prec emax) x : is_finite v = true ->
  B2R v = 0 /\ x = 0 \/ B2R v <> 0 /\ Rabs (x - B2R v) < bpow radix2 (- prec) * Rabs (B2R v) / 2 ->
  is_nearest (Bsign v) x v.
Proof.
  intros F C. assert (N : nearest_even prec emax x = B2R v).
  { destruct C as [(Z & ->)|(N & D)].
    - rewrite Z. apply round_0. apply valid_rnd_N.
    - apply near_round; [exact N| |exact D]. apply (generic_format_B2R prec emax v). }
  unfold is_nearest. rewrite N. repeat (split; [auto; fail|]). apply abs_B2R_lt_emax.
Qed.
(* the nearest number is nearest *)
Lemma nearest_best x (v w : binary_float prec emax) neg : is_nearest neg x v -> Rabs (B2R v - x) <= Rabs (B2R w - x).
Proof.
  intros (_ & _ & E & _). rewrite E. unfold nearest_even.
  apply (round_N_pt radix2 fx (fun z => negb (Z.even z)) x). apply (generic_format_B2R prec emax w).
Qed.
Lemma nearest_err x : Rabs (nearest_even prec emax x - x) <= bpow radix2 (- prec) * Rabs x \/
  Rabs (nearest_even prec emax x - x) <= bpow radix2 (2 - emax - prec).
Proof.
  unfold nearest_even.
  destruct (Rle_or_lt (bpow radix2 (3 - emax - prec + prec - 1)) (Rabs x)) as [L|L].
  - left. assert (H := relative_error_N_FLT radix2 (3 - emax - prec) prec Hp (fun z => negb (Z.even z)) x L).
    replace (/ 2 * bpow radix2 (- prec + 1)) with (bpow radix2 (- prec)) in H; [exact H|].
    rewrite bpow_plus. change (bpow radix2 1) with 2. field.
  - right. destruct (Req_dec x 0) as [->|N].
    + rewrite round_0 by apply valid_rnd_N. rewrite Rminus_0_r, Rabs_R0. apply bpow_ge_0.
    + assert (H := error_le_half_ulp radix2 fx (fun z => negb (Z.even z)) x). apply Rle_trans with (1 := H).
      rewrite ulp_neq_0 by exact N. unfold cexp, FLT_exp.
      assert (M : (mag radix2 x <= 3 - emax - prec + prec - 1)%Z) by (apply mag_le_bpow; assumption).
      replace (Z.max (mag radix2 x - prec) (3 - emax - prec)) with (2 - emax - prec + 1)%Z by (unfold Prec_gt_0 in Hp; lia).
      rewrite bpow_plus. change (bpow radix2 1) with 2. lra.
Qed.
End Fmt.
