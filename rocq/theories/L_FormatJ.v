(* L_FormatJ.v -- the text of the 'e' format. *)
From Coq Require Import Reals Lra.
From Flocq Require Import Core.Core IEEE754.BinarySingleNaN.
From Verif Require Import Base M_Stream M_Float M_Format M_FormatF S_Num S_Field S_FormatF
  L_Num L_Field L_Dec L_Float L_FormatF L_FormatG L_FormatH L_FormatI.
Local Open Scope R_scope.

Lemma dabs_ok v : fin v -> fin (dabs v) /\ val (dabs v) = Rabs (val v).
Proof. intros H. unfold dabs. rewrite is_finite_Babs, B2R_Babs. auto. Qed.
Lemma deq_zero v : fin v -> deq v dzero = true <-> val v = 0.
Proof.
  intros H. unfold deq, dzero. rewrite Beqb_correct; [|exact H|reflexivity].
  change (val (B754_zero false)) with 0. destruct (Req_bool_spec (val v) 0); split; congruence || auto.
Qed.
Lemma dlt_zero v : fin v -> dlt v dzero = true <-> val v < 0.
Proof.
  intros H. unfold dlt, dzero. rewrite Bltb_correct; [|exact H|reflexivity].
  change (val (B754_zero false)) with 0. destruct (Rlt_bool_spec (val v) 0); split; auto; try discriminate. lra.
Qed.

(* more fuel gives the same result *)
Lemma log1k_mono f g v sd r : (f <= g)%nat -> log1k f v sd = Some r -> log1k g v sd = Some r.
Proof.
  intros H. unfold log1k, scale_down, scale_up, thousands.
  destruct (while f _ _ (v, d1)) as [s1|] eqn:E1; [|discriminate]. rewrite (while_mono _ _ _ _ _ _ H E1).
  destruct (while f _ _ s1) as [[m k]|] eqn:E2; [|discriminate]. rewrite (while_mono _ _ _ _ _ _ H E2).
  destruct (dlt _ d1); intros E3; exact (while_mono _ _ _ _ _ _ H E3).
Qed.
Lemma fractionate_mono f g v sd r : (f <= g)%nat -> fractionate f v sd = Some r -> fractionate g v sd = Some r.
Proof.
  intros H. unfold fractionate, getIntPartWidth.
  destruct (while f _ _ _) as [s1|] eqn:E1; [|discriminate]. rewrite (while_mono _ _ _ _ _ _ H E1). auto.
Qed.

Lemma log1k_ok fuel v sd e y : fin v -> 0 < val v -> log1k fuel v sd = Some (e, y) ->
  fin y /\ 1 <= val y <= 1000 /\ (3 | e)%Z /\
  exists m r s, scale_down (fuel + 500) (v, d1) = Some s /\ scale_up (fuel + 500) s = Some (m, r) /\
    fin (restored m r sd) /\ 0 < val (restored m r sd) /\ thousands (fuel + 500) (restored m r sd) = Some (e, y).
Proof.
  intros Fv Pv H. apply (log1k_mono fuel (fuel + 500)) in H; [|lia].
  destruct (norm_ok (fuel + 500) v ltac:(lia) Fv Pv) as (m & r & s & E1 & E2 & Fm & Bm & Fr & C).
  assert (Pr : 0 <= val r).
  { destruct C as [(_ & k & _ & _ & -> & _)|(_ & k & Hk & _ & -> & _)]; [apply downs10_d1|].
    destruct (ups10_fin k Hk). lra. }
  rewrite (log1k_eq _ _ _ _ _ _ E1 E2) in H.
  destruct (restored_ok m r sd Fm Bm Fr Pr) as [I|(Fz & Vz & Gz)].
  { rewrite I, thousands_inf in H. discriminate. }
  assert (Pz : 0 < val (restored m r sd)).
  { assert (G0 : 0 <= val (restored m r sd)) by lra. destruct (Rle_lt_or_eq_dec _ _ G0) as [L|Z]; [exact L|]. exfalso.
    destruct (restored m r sd) as [sg| | |sg mm ee bb]; try discriminate.
    - rewrite thousands_zero in H. discriminate.
    - symmetry in Z. apply eq_0_F2R in Z. destruct sg; discriminate. }
  destruct (thousands_ok (fuel + 500) _ ltac:(lia) Fz Pz) as (k & Hk & [(_ & T & F & B & _)|(_ & T & F & B & _)]).
  - assert (e = (- 3 * Z.of_nat k)%Z /\ y = ups 1000 k (restored m r sd)) as (-> & ->) by (split; congruence). split; [exact F|]. split; [exact B|]. split; [exists (- Z.of_nat k)%Z; lia|]. exists m, r, s. auto 6.
  - assert (e = (3 * Z.of_nat k)%Z /\ y = downs 1000 k (restored m r sd)) as (-> & ->) by (split; congruence).
    split; [exact F|]. split; [exact B|]. split; [exists (Z.of_nat k); lia|]. exists m, r, s. auto 6.
Qed.

Lemma fin_text v : fin v -> d_isnan v = false /\ d_isnan (dopp v) = false /\ d_isinf v = false.
Proof. destruct v; try discriminate; auto. Qed.

Lemma eng_inv fuel sep v width sd t : fin v -> val v <> 0 -> (0 <= sd < two32)%Z ->
  addF_text fuel sep v "e" width sd = Some (Ok t) ->
  exists e y p, log1k fuel (dabs v) (to_i32 sd) = Some (e, y) /\ fin y /\ 1 <= val y <= 1000 /\ (3 | e)%Z /\
    fractionate (fuel + 500) y sd = Some (Ok p) /\ shape (val y) sd p /\ t = eng_text v (requested width sd) e p.
Proof.
  intros Fv Nv Hs. unfold addF_text. fold (requested width sd).
  destruct (fin_text v Fv) as (-> & -> & ->). cbn [orb].
  change (Ascii.eqb "e" "f") with false. change (Ascii.eqb "e" "s") with false. change (Ascii.eqb "e" "g") with false.
  change (Ascii.eqb "e" "e") with true. cbv iota.
  assert (D : deq v dzero = false).
  { destruct (deq v dzero) eqn:E; [|reflexivity]. apply deq_zero in E; [contradiction|exact Fv]. }
  rewrite D. destruct (dabs_ok v Fv) as (Fa & Va).
  destruct (log1k fuel (dabs v) (to_i32 sd)) as [[e y]|] eqn:EL; [|discriminate].
  destruct (log1k_ok _ _ _ _ _ Fa ltac:(rewrite Va; apply Rabs_pos_lt; exact Nv) EL) as (Fy & By & Te & _).
  destruct (fractionate fuel y sd) as [[p| |]|] eqn:EF; try discriminate. cbn [obind]. intros [= <-].
  apply (fractionate_mono fuel (fuel + 500)) in EF; [|lia].
  exists e, y, p. repeat (split; [assumption || reflexivity|]). split; [|reflexivity].
  eapply fractionate_ok; [|exact Fy|exact By|exact Hs|exact EF]. lia.
Qed.

(* the fraction text *)
Definition frac_digits (p : parts) : str := if (0 <? p_fwid p)%Z then pad_l "0"%char (p_fwid p) (zdec (p_frac p)) else [].
Lemma put_int_pos n : (0 <= n)%Z -> put_int n = zdec n.
Proof. intros H. unfold put_int. destruct (Z.ltb_spec n 0); [lia|reflexivity]. Qed.
Lemma frac_digits_ok y sd p : shape y sd p -> (0 <= p_fwid p)%Z ->
  Z.of_nat (length (frac_digits p)) = p_fwid p /\ forallb digit_byte (frac_digits p) = true /\
  value_from false 10 0 (frac_digits p) = Some (Z.to_N (p_frac p)).
Proof.
  intros H Hw. unfold frac_digits. assert (F := proj1 (sh_frac _ _ _ H)). destruct (Z.ltb_spec 0 (p_fwid p)) as [G|L].
  - apply pad_dec; lia.
  - assert (Z0 : p_fwid p = 0%Z) by lia. rewrite Z0 in *. change (10 ^ 0)%Z with 1%Z in F.
    assert (p_frac p = 0%Z) as -> by lia. auto.
Qed.
Lemma shape_fwid0 y sd p : shape y sd p -> (0 <= p_fwid p)%Z.
Proof. intros H. rewrite (sh_fwid _ _ _ H). lia. Qed.
Lemma shape_int_pos y sd p : shape y sd p -> 1 <= y -> (0 <= p_int p)%Z.
Proof.
  intros H Hy. rewrite (sh_int _ _ _ H).
  assert (1 <= Zfloor y)%Z by (apply Zfloor_lub; exact Hy).
  assert (M := Z.mod_le (Zfloor y) (10 ^ Z.max 0 (p_iwid p - sd)) ltac:(lia) ltac:(apply pow10_pos; lia)). lia.
Qed.
(* the integer digits fill the counted width *)
Lemma int_len y sd p : shape y sd p -> (1 <= sd)%Z ->
  (p_int p < 10 ^ p_iwid p)%Z /\ Z.of_nat (length (zdec (p_int p))) = p_iwid p \/
  p_int p = (10 ^ p_iwid p)%Z /\ p_frac p = 0%Z /\ Z.of_nat (length (zdec (p_int p))) = (p_iwid p + 1)%Z.
Proof.
  intros H Hs. assert (W := sh_wid _ _ _ H). destruct (shape_int _ _ _ H Hs) as [(A & E)|(A & L & U)].
  - right. assert (E' : p_int p = (10 ^ p_iwid p)%Z) by (rewrite A, E; reflexivity).
    split; [exact E'|]. split; [exact (shape_top _ _ _ H Hs E')|]. rewrite E, A. reflexivity.
  - destruct (Z.eq_dec (p_int p) (10 ^ p_iwid p)) as [E|N].
    + right. split; [exact E|]. split; [exact (shape_top _ _ _ H Hs E)|].
      rewrite (zdec_len _ (Z.to_nat (p_iwid p))); [lia|]. rewrite Z2Nat.id by lia. rewrite E.
      split; [lia|]. apply Z.pow_lt_mono_r; lia.
    + left. split; [lia|]. rewrite (zdec_len _ (Z.to_nat (p_iwid p - 1))); [lia|].
      rewrite Z2Nat.id by lia. rewrite Z.sub_add. lia.
Qed.
Lemma pad_r_full c w s : (w <= Z.of_nat (length s))%Z -> pad_r c w s = s.
Proof. intros H. unfold pad_r, fill_count. replace (Z.to_nat _) with 0%nat by lia. apply app_nil_r. Qed.

Lemma eng_form v width sd e y p : fin v -> shape y sd p -> 1 <= y -> (1 <= sd)%Z ->
  engineering (eng_text v width e p) (dlt v dzero) (zdec (p_int p)) (frac_digits p) e.
Proof.
  intros Fv H Hy Hs. assert (W := sh_wid _ _ _ H). assert (FW := shape_fwid0 _ _ _ H).
  destruct (frac_digits_ok _ _ _ H FW) as (Lf & Df & Vf).
  assert (IP := shape_int_pos _ _ _ H Hy).
  unfold eng_text. rewrite (put_int_pos (p_int p)) by exact IP.
  rewrite pad_r_full by (destruct (int_len _ _ _ H Hs) as [(_ & ->)|(_ & _ & ->)]; lia).
  assert (FT : (if (0 <? p_fwid p)%Z then lit "." ++ pad_l "0"%char (p_fwid p) (put_int (p_frac p)) else []) = fraction (frac_digits p)).
  { rewrite put_int_pos by apply (sh_frac _ _ _ H). unfold frac_digits in *. destruct (Z.ltb_spec 0 (p_fwid p)) as [G|L]; [|reflexivity].
    unfold fraction. destruct (pad_l _ _ _); [cbn in Lf; lia|reflexivity]. }
  rewrite FT.
  exists (zdec (Z.abs e)), (repeat " "%char (fill_count 2 (zdec (Z.abs e))) ++ repeat " "%char (Z.to_nat (to_i32 (width - (p_iwid p + p_fwid p + 4))))).
  split; [|split; [|split; [|split; [|split]]]].
  - destruct (Z.ltb_spec e 0) as [L|G].
    + rewrite put_int_pos by lia. replace (Z.abs e) with (- e)%Z by lia. unfold pad_r. destruct (dlt v dzero); rewrite <- !app_assoc; reflexivity.
    + rewrite put_int_pos by lia. replace (Z.abs e) with e by lia. unfold pad_r. destruct (dlt v dzero); rewrite <- !app_assoc; reflexivity.
  - apply put_dec_nonempty.
  - apply zdec_digits.
  - exact Df.
  - apply put_dec_spec.
  - intros c Hc. apply in_app_or in Hc. destruct Hc as [Hc|Hc]; apply repeat_spec in Hc; exact Hc.
Qed.

(* the digits as one number *)
Lemma eng_value y sd p : shape y sd p -> 1 <= y ->
  value false 10 (zdec (p_int p) ++ frac_digits p) = Some (Z.to_N (p_int p * 10 ^ p_fwid p + p_frac p)).
Proof.
  intros H Hy. assert (FW := shape_fwid0 _ _ _ H). destruct (frac_digits_ok _ _ _ H FW) as (Lf & Df & Vf).
  apply parts_value; auto; [eapply shape_int_pos; eassumption|apply (sh_frac _ _ _ H)].
Qed.
Lemma eng_denotes y sd p neg e : shape y sd p -> 1 <= y ->
  denotes neg (zdec (p_int p)) (frac_digits p) e ((if neg then -1 else 1) * (printed p * bpow radix10 e)).
Proof.
  intros H Hy. assert (FW := shape_fwid0 _ _ _ H). destruct (frac_digits_ok _ _ _ H FW) as (Lf & Df & Vf).
  exists (Z.to_N (p_int p * 10 ^ p_fwid p + p_frac p)). split; [eapply eng_value; eassumption|].
  assert (I := shape_int_pos _ _ _ H Hy). assert (F := sh_frac _ _ _ H). assert (P := pow10_pos _ FW).
  rewrite Z2N.id by nia. rewrite Lf. change 10%R with (IZR radix10). rewrite <- bpow_powerRZ.
  unfold Z.sub. rewrite bpow_plus, bpow_opp. rewrite plus_IZR, mult_IZR. unfold printed.
  replace (bpow radix10 (p_fwid p)) with (IZR (10 ^ p_fwid p)) by (rewrite <- IZR_Zpower by exact FW; reflexivity).
  assert (0 < IZR (10 ^ p_fwid p)) by (apply IZR_lt; exact P).
  destruct neg; field; lra.
Qed.
(* the digits after the sd-th are zeros *)
Lemma value_zero s : value_from false 10 0 s = Some 0%N -> s = repeat "0"%char (length s).
Proof.
  induction s as [|c s IH]; [reflexivity|]. cbn [value_from length repeat].
  destruct (digit_of false c) as [d|] eqn:D; [|discriminate]. destruct (d <? 10)%N; [|discriminate].
  intros V. assert (B := value_bound _ _ _ V). assert (d = 0)%N as ->.
  { assert (0 < 10 ^ Z.of_nat (length s))%Z by lia. nia. }
  apply digit_of_inv in D. destruct D as (-> & _). rewrite <- IH by exact V. reflexivity.
Qed.
Lemma trailing_zeros s n k : value_from false 10 0 s = Some n -> (k <= length s)%nat -> (10 ^ Z.of_nat k | Z.of_N n)%Z ->
  s = firstn (length s - k) s ++ repeat "0"%char k.
Proof.
  intros V Hk Dv. set (a := firstn (length s - k) s). set (b := skipn (length s - k) s).
  assert (E : s = a ++ b) by (symmetry; apply firstn_skipn).
  assert (Lb : length b = k) by (unfold b; rewrite skipn_length; lia).
  rewrite E in V at 1. rewrite value_from_app in V. destruct (value_from false 10 0 a) as [x|] eqn:Va; [|discriminate].
  assert (exists y, value_from false 10 0 b = Some y) as (y & Vb).
  { clear - V. revert V. generalize x 0%N. clear. induction b as [|c b IH]; intros x z; cbn [value_from]; [eauto|].
    destruct (digit_of false c) as [d|]; [|discriminate]. destruct (d <? 10)%N; [|discriminate]. apply IH. }
  rewrite (value_from_shift _ _ _ Vb), Lb in V. injection V as <-.
  assert (B := value_bound _ _ _ Vb). rewrite Lb in B.
  assert (y = 0)%N as ->.
  { destruct Dv as (q & Q). rewrite N2Z.inj_add, N2Z.inj_mul, N2Z.inj_pow, nat_N_Z in Q.
    change (Z.of_N 10) with 10%Z in *. assert (P : (0 < 10 ^ Z.of_nat k)%Z) by (apply pow10_pos; lia).
    change (Z.of_N 0) with 0%Z in B. set (T := (10 ^ Z.of_nat k)%Z) in *.
    assert (q = Z.of_N x) by nia. lia. }
  rewrite E at 1. f_equal. rewrite <- Lb. apply value_zero. exact Vb.
Qed.
Lemma eng_digits y sd p : shape y sd p -> 1 <= y -> (1 <= sd < two31)%Z ->
  exists a k, zdec (p_int p) ++ frac_digits p = a ++ repeat "0"%char k /\ Z.of_nat (length a) = sd /\ (k <= 3)%nat.
Proof.
  intros H Hy Hs. assert (FW := shape_fwid0 _ _ _ H). destruct (frac_digits_ok _ _ _ H FW) as (Lf & Df & Vf).
  assert (EF := shape_fwid _ _ _ H Hs). assert (W := sh_wid _ _ _ H).
  set (s := zdec (p_int p) ++ frac_digits p).
  assert (V : value_from false 10 0 s = Some (Z.to_N (p_int p * 10 ^ p_fwid p + p_frac p))).
  { assert (V := eng_value _ _ _ H Hy). fold s in V. destruct s; [discriminate V|exact V]. }
  assert (P := pow10_pos _ FW). assert (I := shape_int_pos _ _ _ H Hy). assert (F := proj1 (sh_frac _ _ _ H)).
  assert (L : exists k, Z.of_nat (length s) = (sd + Z.of_nat k)%Z /\ (k <= 3)%nat /\ (10 ^ Z.of_nat k | p_int p * 10 ^ p_fwid p + p_frac p)%Z).
  { unfold s. rewrite app_length, Nat2Z.inj_add, Lf, EF. destruct (int_len _ _ _ H ltac:(lia)) as [(Lt & ->)|(E & F0 & ->)].
    - exists (Z.to_nat (Z.max 0 (p_iwid p - sd))). split; [lia|]. split; [lia|]. rewrite Z2Nat.id by lia.
      destruct (Z.le_gt_cases (p_iwid p) sd).
      + rewrite (Z.max_l 0 (p_iwid p - sd)) by lia. apply Z.divide_1_l.
      + rewrite (Z.max_l 0 (sd - p_iwid p)) by lia. rewrite EF, Z.max_l in F by lia. change (10 ^ 0)%Z with 1%Z in *.
        replace (p_int p * 1 + p_frac p)%Z with (p_int p) by lia. rewrite (sh_int _ _ _ H).
        set (q := (10 ^ Z.max 0 (p_iwid p - sd))%Z). exists (Zfloor y / q)%Z.
        assert (0 < q)%Z by (apply pow10_pos; lia). assert (N := Z.div_mod (Zfloor y) q ltac:(lia)). lia.
    - exists (Z.to_nat (Z.max 0 (p_iwid p - sd) + 1)). split; [lia|]. split.
      { lia. }
      rewrite Z2Nat.id by lia. rewrite F0, Z.add_0_r, E, <- Z.pow_add_r by lia.
      exists (10 ^ (p_iwid p + Z.max 0 (sd - p_iwid p) - (Z.max 0 (p_iwid p - sd) + 1)))%Z. rewrite <- Z.pow_add_r by lia. f_equal. lia. }
  destruct L as (k & Lk & K3 & Dv). exists (firstn (length s - k) s), k. split; [|split; [|exact K3]].
  - eapply trailing_zeros; [exact V|lia|]. rewrite Z2N.id by nia. exact Dv.
  - rewrite firstn_length. lia.
Qed.
