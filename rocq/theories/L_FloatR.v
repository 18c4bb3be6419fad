(* L_FloatR.v -- reading floating-point numerals: the number. *)
From Coq Require Import ZArith Lia Reals Lra SpecFloat.
From Flocq Require Import Core.Core Calc.Div Calc.Bracket IEEE754.BinarySingleNaN.
From Verif Require Import Base S_Num S_Options M_StreamIn M_Float M_StreamFloat S_FormatF S_FloatIn L_Dec L_FormatI L_FloatIn.
From Verif Require L_StreamIn.
Local Open Scope R_scope.

Section Fmt.
Context (prec emax : Z) (Hp : Prec_gt_0 prec) (Hm : Prec_lt_emax prec emax).
Lemma sf_to_float_ok z : valid_binary prec emax z = true -> B2SF (sf_to_float prec emax z) = z.
Proof. intros H. unfold sf_to_float. destruct (Bool.bool_dec _ _) as [E|E]; [apply B2SF_SF2B|contradiction]. Qed.

Lemma ratio n k : IZR (n * 10 ^ Z.max 0 k) / IZR (10 ^ Z.max 0 (- k)) = IZR n * powerRZ 10 k.
Proof.
  change 10%R with (IZR radix10). rewrite <- bpow_powerRZ. rewrite mult_IZR.
  change (10 ^ Z.max 0 k)%Z with (radix10 ^ Z.max 0 k)%Z. change (10 ^ Z.max 0 (- k))%Z with (radix10 ^ Z.max 0 (- k))%Z.
  rewrite !IZR_Zpower by lia. unfold Rdiv. rewrite <- bpow_opp, Rmult_assoc, <- bpow_plus. do 2 f_equal. clear. lia.
Qed.

Lemma dec_to_float_ok (neg : bool) n k (x : R) : x = (if neg then -1 else 1) * IZR (Z.of_N n) * powerRZ 10 k ->
  if Rlt_bool (Rabs (nearest_even prec emax x)) (bpow radix2 emax)
  then is_nearest neg x (dec_to_float prec emax neg n k)
  else dec_to_float prec emax neg n k = B754_infinity neg.
Proof.
  intros X. destruct n as [|p].
  - assert (X0 : x = 0) by (rewrite X; cbn [Z.of_N]; ring). unfold is_nearest, nearest_even.
    assert (R0 : round radix2 (FLT_exp (3 - emax - prec) prec) ZnearestE x = 0).
    { rewrite X0. apply round_0. apply valid_rnd_N. }
    rewrite R0, Rabs_R0. rewrite Rlt_bool_true by apply bpow_gt_0. cbn. repeat split. apply bpow_gt_0.
  - set (A := IZR (Z.of_N (Npos p)) * powerRZ 10 k) in *.
    assert (PA : 0 < A).
    { unfold A. apply Rmult_lt_0_compat; [apply IZR_lt; reflexivity|]. apply powerRZ_lt. lra. }
    assert (Xs : Rlt_bool x 0 = neg /\ x <> 0 /\ Rabs x = A).
    { rewrite Rmult_assoc in X. fold A in X. destruct neg.
      - rewrite Rlt_bool_true by lra. repeat split; [lra|]. rewrite Rabs_left; lra.
      - rewrite Rlt_bool_false by lra. repeat split; [lra|]. rewrite Rabs_pos_eq; lra. }
    destruct Xs as (Xs & Xn & Xa).
    unfold dec_to_float.
    assert (FC := @Fdiv_correct radix2 (SpecFloat.fexp prec emax)
             (Float radix2 (Z.of_N (Npos p) * 10 ^ Z.max 0 k) 0) (Float radix2 (10 ^ Z.max 0 (- k)) 0)).
    assert (P1 : (0 < 10 ^ Z.max 0 k)%Z) by (apply Z.pow_pos_nonneg; lia).
    assert (P2 : (0 < 10 ^ Z.max 0 (- k))%Z) by (apply Z.pow_pos_nonneg; lia).
    destruct (@Fdiv radix2 _ _) as [[m e] l].
    assert (F1 : F2R (Float radix2 (Z.of_N (Npos p) * 10 ^ Z.max 0 k) 0) / F2R (Float radix2 (10 ^ Z.max 0 (- k)) 0) = A).
    { unfold F2R. cbn [Fnum Fexp bpow]. rewrite !Rmult_1_r. apply ratio. }
    destruct FC as (Ce & In).
    { apply F2R_gt_0. cbn [Fnum]. nia. }
    { apply F2R_gt_0. exact P2. }
    rewrite F1 in Ce, In.
    assert (BR := binary_round_aux_correct' prec emax Hp Hm mode_NE x m e l Xn).
    rewrite Xa in BR. specialize (BR In).
    assert (Cx : cexp radix2 (SpecFloat.fexp prec emax) x = cexp radix2 (SpecFloat.fexp prec emax) A) by (rewrite <- Xa; symmetry; apply cexp_abs).
    rewrite Cx in BR. specialize (BR Ce). cbv zeta in BR. rewrite Xs in BR. destruct BR as (V & BR).
    unfold is_nearest, nearest_even.
    change (FLT_exp (3 - emax - prec) prec) with (SpecFloat.fexp prec emax).
    change (round_mode mode_NE) with ZnearestE in BR.
    assert (SB := sf_to_float_ok _ V).
    destruct (Rlt_bool_spec (Rabs (round radix2 (SpecFloat.fexp prec emax) ZnearestE x)) (bpow radix2 emax)) as [L|L].
    + destruct BR as (B1 & B2 & B3).
      rewrite <- SB in B1, B2, B3. rewrite SF2R_B2SF in B1. rewrite is_finite_SF_B2SF in B2. assert (SS : forall v : binary_float prec emax, sign_SF (B2SF v) = Bsign v) by (intros [| | |]; reflexivity). rewrite SS in B3. auto.
    + apply B2SF_inj. rewrite SB, BR. destruct neg; reflexivity.
Qed.

Lemma is_nearest_inj neg x (v v' : binary_float prec emax) : is_nearest neg x v -> is_nearest neg x v' -> v = v'.
Proof.
  intros (F & S1 & E & _) (F' & S1' & E' & _). apply B2R_Bsign_inj; [exact F|exact F'|congruence|congruence].
Qed.
Lemma denotes_value neg ip fp ex x : forallb digit_byte ip = true -> forallb digit_byte fp = true -> ip ++ fp <> [] ->
  denotes neg ip fp ex x <-> x = (if neg then -1 else 1) * IZR (Z.of_N (digits_N (ip ++ fp))) * powerRZ 10 (ex - Z.of_nat (length fp)).
Proof.
  intros Hi Hf Ne. assert (V : value false 10 (ip ++ fp) = Some (digits_N (ip ++ fp))).
  { unfold value. destruct (ip ++ fp) eqn:Q; [contradiction|]. rewrite <- Q. apply digits_N_value. rewrite forallb_app, Hi, Hf. reflexivity. }
  split.
  - intros (n & V' & ->). congruence.
  - intros ->. eexists. split; [exact V|reflexivity].
Qed.
Lemma numeral_head t neg ip pt fp xp ex rest : float_numeral t neg ip pt fp xp ex ->
  exists c r, t ++ rest = c :: r /\ space_byte c = false.
Proof.
  intros (sg & -> & Hs & Hi & Hf & Ne & Hpt & _). destruct (sign_chars _ _ Hs) as [(-> & _)|(c & -> & Hc & _)].
  - destruct ip as [|c ip]; cbn [app].
    + destruct Hpt as [->|[-> ->]]; [|contradiction Ne; reflexivity]. eexists _, _. split; reflexivity.
    + eexists _, _. split; [reflexivity|]. cbn in Hi. apply andb_prop in Hi as [Hi _]. revert Hi. clear.
      unfold digit_byte, space_byte. intros H. apply andb_prop in H as [A B]. apply N.leb_le in A, B.
      apply not_true_is_false. intros Q. rewrite ?orb_true_iff, ?andb_true_iff, ?N.leb_le, ?N.eqb_eq in Q. lia.
  - eexists _, _. split; [reflexivity|]. unfold is_sign in Hc. apply orb_prop in Hc as [Hc|Hc]; apply Ascii.eqb_eq in Hc; subst c; reflexivity.
Qed.

Lemma read_fp_spec text v : read_fp prec emax Hp Hm text = RdOk v <->
  exists neg ip fp ex x, leading_float text neg ip fp ex /\ denotes neg ip fp ex x /\ is_nearest neg x v.
Proof.
  unfold read_fp. rewrite L_StreamIn.read_with_spec. split.
  - intros (Ne & E). destruct (L_StreamIn.skip_ws_spec text) as (w & B & Et & _). set (s := skip_ws text) in *. clearbody s. subst text.
    unfold convert_to_v in E. destruct (strtod_parse (collect_float s)) as [[[[neg n] k] [|c r]]|] eqn:P; try discriminate.
    apply parse_sound in P as (t & ip & pt & fp & xp & ex & rest & -> & Nm & Fo & -> & ->).
    assert (Nm' := Nm). destruct Nm' as (sg & _ & _ & Hi & Hf & Nd & _).
    set (x := (if neg then -1 else 1) * IZR (Z.of_N (digits_N (ip ++ fp))) * powerRZ 10 (ex - Z.of_nat (length fp))).
    exists neg, ip, fp, ex, x. split; [exists w, t, pt, xp, rest; repeat (split; [auto; fail|]); exact Fo|].
    split; [apply denotes_value; [exact Hi|exact Hf|exact Nd|reflexivity]|].
    assert (D := dec_to_float_ok neg (digits_N (ip ++ fp)) (ex - Z.of_nat (length fp)) x eq_refl).
    destruct (Rlt_bool _ _) eqn:L.
    + assert (Q : dec_to_float prec emax neg (digits_N (ip ++ fp)) (ex - Z.of_nat (length fp)) = v).
      { destruct D as (F & _). destruct (dec_to_float _ _ _ _ _) as [s0|s0| |s0 m0 e0 b0]; try discriminate F; cbn in E; congruence. }
      rewrite <- Q. exact D.
    + rewrite D in E. destruct neg; discriminate.
  - intros (neg & ip & fp & ex & x & (w & t & pt & xp & rest & -> & B & Nm & Fo) & D & N).
    destruct (numeral_head _ _ _ _ _ _ _ rest Nm) as (c & r & Q & Sp).
    assert (SW : skip_ws (w ++ t ++ rest) = t ++ rest).
    { apply L_StreamIn.skip_ws_app; [exact B|]. rewrite Q. exact Sp. }
    rewrite SW. split; [rewrite Q; discriminate|].
    unfold convert_to_v. rewrite (parse_complete _ _ _ _ _ _ _ _ Nm Fo).
    destruct Nm as (sg & _ & _ & Hi & Hf & Nd & _). apply (denotes_value neg ip fp ex x Hi Hf Nd) in D.
    assert (O := dec_to_float_ok neg (digits_N (ip ++ fp)) (ex - Z.of_nat (length fp)) x D).
    assert (L := N). destruct L as (_ & _ & _ & L). apply Rlt_bool_true in L. rewrite L in O.
    rewrite <- (is_nearest_inj _ _ _ _ O N). destruct O as (F & _).
    destruct (dec_to_float _ _ _ _ _) as [s0|s0| |s0 m0 e0 b0]; try discriminate F; reflexivity.
Qed.
(* nothing else is stored: 0 for a text without a numeral, the largest number
   for a numeral too large *)
Lemma read_fp_fail text o : read_fp prec emax Hp Hm text = RdFail o ->
  o = None \/ o = Some (B754_zero false) \/
  exists neg ip fp ex x, leading_float text neg ip fp ex /\ denotes neg ip fp ex x /\
    bpow radix2 emax <= Rabs (nearest_even prec emax x) /\
    o = Some (if neg then Bopp (@Bmax_float prec emax Hp Hm) else @Bmax_float prec emax Hp Hm).
Proof.
  unfold read_fp, read_with. destruct (L_StreamIn.skip_ws_spec text) as (w & B & Et & _). set (s := skip_ws text) in *. clearbody s. subst text.
  destruct s as [|c0 s0]; [intros H; left; congruence|]. set (s := c0 :: s0). unfold convert_to_v.
  destruct (strtod_parse (collect_float s)) as [[[[neg n] k] [|c r]]|] eqn:P; try (intros H; right; left; congruence).
  apply parse_sound in P as (t & ip & pt & fp & xp & ex & rest & Es & Nm & Fo & -> & ->).
  assert (Nm' := Nm). destruct Nm' as (sg & _ & _ & Hi & Hf & Nd & _).
  set (x := (if neg then -1 else 1) * IZR (Z.of_N (digits_N (ip ++ fp))) * powerRZ 10 (ex - Z.of_nat (length fp))).
  assert (D := dec_to_float_ok neg (digits_N (ip ++ fp)) (ex - Z.of_nat (length fp)) x eq_refl).
  destruct (Rlt_bool_spec (Rabs (nearest_even prec emax x)) (bpow radix2 emax)) as [L|L].
  - destruct D as (F & _). destruct (dec_to_float _ _ _ _ _) as [q|q| |q m0 e0 b0]; try discriminate F; discriminate.
  - rewrite D. intros H. right. right. exists neg, ip, fp, ex, x.
    split; [exists w, t, pt, xp, rest; rewrite <- Es; repeat (split; [auto; fail|]); exact Fo|].
    split; [apply denotes_value; [exact Hi|exact Hf|exact Nd|reflexivity]|]. split; [exact L|]. destruct neg; congruence.
Qed.
End Fmt.
