(* L_OptionsTestProg.v -- when the test's comparison of a float complains *)
From Coq Require Import Reals Lra.
From Flocq Require Import Core.Core IEEE754.BinarySingleNaN Sterbenz.
From Verif Require Import Base M_Float M_StreamFloat M_Options M_OptionsTestProg L_Float L_FormatF L_FormatJ C_FloatIn.
Local Open Scope R_scope.

Definition r1p1 : R := 4953959590107546 / 2 ^ 52.
Definition r1em6 : R := 4722366482869645 / 2 ^ 72.
Lemma d1p1_ok : fin d1p1 /\ val d1p1 = r1p1.
Proof.
  split; [reflexivity|]. unfold r1p1. cbn [B2R d1p1]. unfold F2R. cbn [Fnum Fexp SpecFloat.cond_Zopp].
  change (-52)%Z with (- (52))%Z. rewrite bpow_opp. change (bpow radix2 52) with 4503599627370496. lra.
Qed.
Lemma d1em6_ok : fin d1em6 /\ val d1em6 = r1em6.
Proof.
  split; [reflexivity|]. unfold r1em6. cbn [B2R d1em6]. unfold F2R. cbn [Fnum Fexp SpecFloat.cond_Zopp].
  change (-72)%Z with (- (72))%Z. rewrite bpow_opp. change (bpow radix2 72) with 4722366482869645213696. lra.
Qed.
Lemma r_range : 1 < r1p1 < 5 / 4 /\ 0 < r1em6 < / 4.
Proof. unfold r1p1, r1em6. lra. Qed.
(* rounding does not matter to the comparison *)
Lemma rnd_near u : fmt64 u -> (Rabs (rnd (u - r1p1)) <= r1em6 <-> Rabs (u - r1p1) <= r1em6).
Proof.
  intros F. destruct d1p1_ok as [_ E1], d1em6_ok as [_ E2]. destruct r_range as [R1 R2].
  pose proof (val_fmt d1p1) as F1. rewrite E1 in F1.
  destruct (Rle_dec (r1p1 / 2) u) as [A|A]; [destruct (Rle_dec u (2 * r1p1)) as [B|B]|].
  - assert (M : Monotone_exp fexp64) by apply (FLT_exp_monotone (-1074) 53).
    rewrite (rnd_fmt (u - r1p1)); [reflexivity|]. apply sterbenz; auto with typeclass_instances.
  - assert (H : / 4 <= rnd (u - r1p1)).
    { replace (/ 4) with (bpow radix2 (-2)) by (change (-2)%Z with (- (2))%Z; rewrite bpow_opp; change (bpow radix2 2) with 4; lra).
      apply rnd_ge_fmt; [apply fmt_bpow; lia|]. change (-2)%Z with (- (2))%Z; rewrite bpow_opp; change (bpow radix2 2) with 4. lra. }
    rewrite !Rabs_pos_eq by lra. lra.
  - assert (H : rnd (u - r1p1) <= - / 4).
    { replace (/ 4) with (bpow radix2 (-2)) by (change (-2)%Z with (- (2))%Z; rewrite bpow_opp; change (bpow radix2 2) with 4; lra).
      apply rnd_le_fmt; [apply generic_format_opp, fmt_bpow; lia|]. change (-2)%Z with (- (2))%Z; rewrite bpow_opp; change (bpow radix2 2) with 4. lra. }
    rewrite !Rabs_left by lra. lra.
Qed.
Lemma rnd_small u : Rabs u < bpow radix2 128 -> Rabs (rnd (u - r1p1)) < top.
Proof.
  intros H. apply Rle_lt_trans with (bpow radix2 129); [|apply bpow_lt; lia].
  assert (F : fmt64 (bpow radix2 129)) by (apply fmt_bpow; lia).
  assert (B : Rabs (u - r1p1) <= bpow radix2 129).
  { destruct r_range as [R1 _]. change (bpow radix2 129) with (IZR (2 ^ 129)). change (bpow radix2 128) with (IZR (2 ^ 128)) in H.
    revert H. unfold Rabs. destruct (Rcase_abs u), (Rcase_abs (u - r1p1)); lra. }
  apply Rabs_le_inv in B. apply Rabs_le. split.
  - apply rnd_ge_fmt; [apply generic_format_opp, F|lra].
  - apply rnd_le_fmt; [exact F|lra].
Qed.
Lemma float_bad_sub (x : single) : is_finite x = true ->
  (ot_float_bad dsub (VFloat x) = false <-> Rabs (B2R x - r1p1) <= r1em6).
Proof.
  intros Fx. destruct (widen_ok x Fx) as (Fw & Vw & _). destruct d1p1_ok as [F1 E1], d1em6_ok as [F2 E2].
  assert (B : Rabs (rnd (val (float_to_double x) - val d1p1)) < top).
  { rewrite Vw, E1. apply rnd_small, (abs_B2R_lt_emax 24 128). }
  destruct (dsub_ok _ _ Fw F1 B) as [FS ES]. destruct (dabs_ok _ FS) as [FA EA].
  cbn [ot_float_bad]. rewrite dgt_ok, EA, ES, E2, Vw, E1 by assumption.
  rewrite <- rnd_near by (rewrite <- Vw; apply val_fmt).
  destruct (Rlt_bool_spec r1em6 (Rabs (rnd (B2R x - r1p1)))) as [H|H]; split; intros; try discriminate; auto; lra.
Qed.
Lemma float_bad_add (x : single) : is_finite x = true ->
  (ot_float_bad dadd (VFloat x) = false <-> Rabs (B2R x + r1p1) <= r1em6).
Proof.
  intros Fx. destruct (widen_ok x Fx) as (Fw & Vw & _). destruct d1p1_ok as [F1 E1], d1em6_ok as [F2 E2].
  assert (O : forall u, rnd (u + r1p1) = - rnd (- u - r1p1)).
  { intros u. rewrite <- round_NE_opp. f_equal. lra. }
  assert (B : Rabs (rnd (val (float_to_double x) + val d1p1)) < top).
  { rewrite Vw, E1, O, Rabs_Ropp. apply rnd_small. rewrite Rabs_Ropp. apply (abs_B2R_lt_emax 24 128). }
  destruct (dadd_ok _ _ Fw F1 B) as [FS ES]. destruct (dabs_ok _ FS) as [FA EA].
  cbn [ot_float_bad]. rewrite dgt_ok, EA, ES, E2, Vw, E1, O, Rabs_Ropp by assumption.
  replace (Rabs (B2R x + r1p1)) with (Rabs (- B2R x - r1p1)) by (rewrite <- Rabs_Ropp; f_equal; lra).
  rewrite <- rnd_near by (apply generic_format_opp; rewrite <- Vw; apply val_fmt).
  destruct (Rlt_bool_spec r1em6 (Rabs (rnd (- B2R x - r1p1)))) as [H|H]; split; intros; try discriminate; auto; lra.
Qed.
Lemma float_bad_inf op s : op = dadd \/ op = dsub -> ot_float_bad op (VFloat (B754_infinity s)) = true.
Proof. intros [->| ->]; destruct s; reflexivity. Qed.
Lemma float_bad_nan op : op = dadd \/ op = dsub -> ot_float_bad op (VFloat B754_nan) = false.
Proof. intros [->| ->]; reflexivity. Qed.
