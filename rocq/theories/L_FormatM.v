(* L_FormatM.v -- correctness of the printf conversions of M_Float. *)
From Coq Require Import Reals Lra Psatz.
From Flocq Require Import Core.Core IEEE754.BinarySingleNaN.
From Verif Require Import Base M_Stream M_Float S_Num S_FormatF L_Num L_Field L_Dec L_Float L_FormatI L_FormatJ.
Local Open Scope R_scope.

Lemma bpow10_Z k : (0 <= k)%Z -> bpow radix10 k = IZR (10 ^ k).
Proof. intros H. rewrite <- IZR_Zpower by exact H. reflexivity. Qed.

Lemma dec_parts_ok x : fin x -> let '(m, e) := dec_parts x in
  (0 <= m)%Z /\ Rabs (val x) = IZR m * bpow radix10 e /\ (m = 0%Z <-> val x = 0).
Proof.
  intros F. assert (G : forall m e, (0 <= m)%Z -> Rabs (val x) = IZR m * bpow radix10 e ->
    (0 <= m)%Z /\ Rabs (val x) = IZR m * bpow radix10 e /\ (m = 0%Z <-> val x = 0)).
  { intros m e Hm E. split; [exact Hm|]. split; [exact E|]. assert (P := bpow_gt_0 radix10 e). split; intros H.
    - rewrite H, Rmult_0_l in E. apply Rabs_eq_0 in E || (destruct (Req_dec (val x) 0) as [Z|N]; [exact Z|apply Rabs_no_R0 in N; contradiction]).
    - rewrite H, Rabs_R0 in E. symmetry in E. apply Rmult_integral in E. destruct E as [E|E]; [apply eq_IZR; exact E|lra]. }
  destruct x as [s| | |s m e Hb]; try discriminate; cbn [dec_parts].
  - apply G; [lia|]. cbn. rewrite Rabs_R0. lra.
  - assert (A : Rabs (val (B754_finite s m e Hb)) = IZR (Z.pos m) * bpow radix2 e).
    { cbn [B2R]. rewrite <- F2R_Zabs, abs_cond_Zopp. reflexivity. }
    destruct (Z.leb_spec 0 e) as [L|N].
    + apply G; [apply Z.mul_nonneg_nonneg; [lia|apply Z.pow_nonneg; lia]|]. rewrite A. cbn [bpow]. rewrite Rmult_1_r, mult_IZR. f_equal. rewrite <- IZR_Zpower by exact L. reflexivity.
    + apply G; [apply Z.mul_nonneg_nonneg; [lia|apply Z.pow_nonneg; lia]|]. rewrite A, mult_IZR, Rmult_assoc. f_equal.
      assert (Hf : e = (- (- e))%Z) by lia. set (f := (- e)%Z) in *. clearbody f. subst e.
      rewrite (bpow_opp radix2 f), (bpow_opp radix10 f).
      rewrite <- !IZR_Zpower by lia. change (radix_val radix10) with (2 * 5)%Z. change (radix_val radix2) with 2%Z.
      rewrite Z.pow_mul_l, mult_IZR. assert (0 < IZR (5 ^ f)) by (apply IZR_lt, Z.pow_pos_nonneg; lia).
      assert (0 < IZR (2 ^ f)) by (apply IZR_lt, Z.pow_pos_nonneg; lia). field. lra.
Qed.

Lemma round_div_ok a b : (0 <= a)%Z -> (0 < b)%Z -> (0 <= round_div a b)%Z /\ Rabs (IZR (round_div a b) - IZR a / IZR b) <= / 2.
Proof.
  intros Ha Hb. assert (E := Z.div_mod a b ltac:(lia)). assert (B := Z.mod_pos_bound a b Hb). assert (Q := Z.div_pos a b Ha Hb).
  set (q := (a / b)%Z) in *. set (r := (a mod b)%Z) in *.
  assert (B0 : 0 < IZR b) by (apply IZR_lt; exact Hb).
  assert (E' : IZR a / IZR b = IZR q + IZR r / IZR b) by (rewrite E, plus_IZR, mult_IZR; field; lra).
  assert (R0 : 0 <= IZR r / IZR b) by (apply Rmult_le_pos; [apply IZR_le; lia|left; apply Rinv_0_lt_compat; exact B0]).
  assert (R1 : IZR r / IZR b <= 1).
  { apply Rmult_le_reg_r with (IZR b); [exact B0|]. unfold Rdiv. rewrite Rmult_assoc, Rinv_l, Rmult_1_r, Rmult_1_l by lra. apply IZR_le. lia. }
  assert (Lo : (2 * r <= b)%Z -> IZR r / IZR b <= / 2).
  { intros H. apply Rmult_le_reg_r with (IZR b); [exact B0|]. unfold Rdiv. rewrite Rmult_assoc, Rinv_l, Rmult_1_r by lra.
    apply IZR_le in H. rewrite mult_IZR in H. lra. }
  assert (Hi : (b <= 2 * r)%Z -> / 2 <= IZR r / IZR b).
  { intros H. apply Rmult_le_reg_r with (IZR b); [exact B0|]. unfold Rdiv. rewrite (Rmult_assoc (IZR r)), Rinv_l, Rmult_1_r by lra.
    apply IZR_le in H. rewrite mult_IZR in H. lra. }
  assert (D : (2 * r <= b)%Z -> (0 <= q)%Z /\ Rabs (IZR q - IZR a / IZR b) <= / 2).
  { intros H. split; [exact Q|]. rewrite E'. specialize (Lo H). apply Rabs_le. lra. }
  assert (U : (b <= 2 * r)%Z -> (0 <= q + 1)%Z /\ Rabs (IZR (q + 1) - IZR a / IZR b) <= / 2).
  { intros H. split; [lia|]. rewrite E', plus_IZR. specialize (Hi H). apply Rabs_le. lra. }
  unfold round_div. fold q. fold r. destruct (Z.compare_spec (2 * r) b) as [C|C|C].
  - destruct (Z.even q); [apply D; lia|apply U; lia].
  - apply D. lia.
  - apply U. lia.
Qed.
Lemma scale10_ok m k : (0 <= m)%Z -> (0 <= scale10 m k)%Z /\ Rabs (IZR (scale10 m k) - IZR m * bpow radix10 k) <= / 2.
Proof.
  intros Hm. unfold scale10. destruct (Z.leb_spec 0 k) as [L|N].
  - assert (P := pow10_pos k L). split; [nia|]. rewrite mult_IZR, bpow10_Z by exact L. replace (_ - _) with 0 by ring. rewrite Rabs_R0. lra.
  - assert (P := pow10_pos (- k) ltac:(lia)). destruct (round_div_ok m (10 ^ - k) Hm P) as (A & B). split; [exact A|].
    replace k with (- - k)%Z at 2 by lia. rewrite bpow_opp, bpow10_Z by lia. exact B.
Qed.

Lemma point_fraction f : point f = fraction f.
Proof. destruct f; reflexivity. Qed.
Lemma sign_minus x : sign_text x = minus (Bsign x).
Proof. unfold sign_text. destruct (Bsign x); reflexivity. Qed.
Lemma sign_abs x : fin x -> val x = (if Bsign x then -1 else 1) * Rabs (val x).
Proof.
  intros F. destruct x as [s| | |s m e H]; try discriminate.
  - cbn. rewrite Rabs_R0. destruct s; lra.
  - cbn [Bsign B2R]. rewrite <- F2R_Zabs, abs_cond_Zopp. destruct s; cbn [cond_Zopp].
    + change (- Z.pos m)%Z with (Z.opp (Z.pos m)). rewrite F2R_Zopp. cbn [Z.abs]. lra.
    + cbn [Z.abs]. lra.
Qed.
Lemma sign_err neg a b c : Rabs (a - b) <= c -> Rabs ((if neg : bool then -1 else 1) * a - (if neg then -1 else 1) * b) <= c.
Proof.
  intros H. destruct neg.
  - replace (-1 * a - -1 * b) with (- (a - b)) by ring. rewrite Rabs_Ropp. exact H.
  - rewrite !Rmult_1_l. exact H.
Qed.

(* n with p of its digits after the point *)
Lemma split_digits n p neg ex : (0 <= n)%Z -> (0 <= p)%Z ->
  let ip := zdec (n / 10 ^ p) in let fp := zdec_pad p (n mod 10 ^ p) in
  Z.of_nat (length fp) = p /\ all_digits ip /\ all_digits fp /\ ip <> [] /\
  value_from false 10 0 fp = Some (Z.to_N (n mod 10 ^ p)) /\
  value false 10 (ip ++ fp) = Some (Z.to_N n) /\
  denotes neg ip fp ex ((if neg then -1 else 1) * (IZR n * bpow radix10 (ex - p))).
Proof.
  intros Hn Hp. cbv zeta. assert (P := pow10_pos p Hp). assert (M := Z.mod_pos_bound n _ P). assert (D := Z.div_pos n _ Hn P).
  destruct (zdec_pad_ok p (n mod 10 ^ p) Hp M) as (L & A & V).
  split; [exact L|]. split; [apply zdec_digits|]. split; [exact A|]. split; [apply put_dec_nonempty|]. split; [exact V|].
  assert (VV : value false 10 (zdec (n / 10 ^ p) ++ zdec_pad p (n mod 10 ^ p)) = Some (Z.to_N n)).
  { rewrite (parts_value (n / 10 ^ p) p (n mod 10 ^ p)); auto; [|lia]. f_equal. f_equal.
    assert (E := Z.div_mod n (10 ^ p) ltac:(lia)). lia. }
  split; [exact VV|]. exists (Z.to_N n). split; [exact VV|]. rewrite Z2N.id by exact Hn. rewrite L.
  change 10%R with (IZR radix10). rewrite <- bpow_powerRZ. destruct neg; ring.
Qed.

(* %.pf *)
Lemma fixed_ok p x : fin x -> (0 <= p)%Z -> exists ip fp y,
  fixed_parts p x = (ip, fp) /\ Z.of_nat (length fp) = p /\ all_digits fp /\ all_digits ip /\
  (ip = lit "0" \/ hd_error ip <> Some "0"%char) /\ ip <> [] /\
  denotes (Bsign x) ip fp 0 y /\ Rabs (y - val x) <= / 2 * bpow radix10 (- p).
Proof.
  intros F Hp. unfold fixed_parts. assert (D := dec_parts_ok x F). destruct (dec_parts x) as [m e]. destruct D as (Hm & A & _).
  destruct (scale10_ok m (e + p) Hm) as (N0 & NE). set (n := scale10 m (e + p)) in *.
  destruct (split_digits n p (Bsign x) 0 N0 Hp) as (L & Ai & Af & NI & _ & _ & Dn).
  eexists _, _, _. split; [reflexivity|]. split; [exact L|]. split; [exact Af|]. split; [exact Ai|].
  split; [apply put_dec_spec|]. split; [exact NI|]. split; [exact Dn|].
  rewrite (sign_abs x F) at 1. apply sign_err. rewrite A. rewrite Z.sub_0_l.
  replace (IZR m * bpow radix10 e) with (IZR m * bpow radix10 (e + p) * bpow radix10 (- p)).
  2:{ rewrite Rmult_assoc, <- bpow_plus. f_equal. f_equal. lia. }
  rewrite <- Rmult_minus_distr_r, Rabs_mult, (Rabs_pos_eq (bpow _ _)) by apply bpow_ge_0.
  apply Rmult_le_compat_r; [apply bpow_ge_0|exact NE].
Qed.

(* %.pe: the digits and the exponent *)
Lemma zdec_bounds m : (0 < m)%Z -> exists l, length (zdec m) = S l /\ (10 ^ Z.of_nat l <= m < 10 ^ (Z.of_nat l + 1))%Z.
Proof.
  intros H. assert (V := zdec_value m ltac:(lia)). assert (B := value_bound _ _ _ V). rewrite Z2N.id in B by lia. change (Z.of_N 0) with 0%Z in B.
  assert (G : exists k, (10 ^ Z.of_nat k <= m < 10 ^ (Z.of_nat k + 1))%Z).
  { assert (U : (m < 10 ^ Z.of_nat (length (zdec m)))%Z) by lia. revert U. generalize (length (zdec m)). clear V B.
    induction n as [|n IH]; intros U; [change (10 ^ Z.of_nat 0)%Z with 1%Z in U; lia|].
    destruct (Z_lt_le_dec m (10 ^ Z.of_nat n)) as [L|L]; [apply IH; exact L|]. exists n. split; [exact L|].
    replace (Z.of_nat n + 1)%Z with (Z.of_nat (S n)) by lia. exact U. }
  destruct G as (k & K). exists k. split; [apply zdec_len; exact K|exact K].
Qed.
Lemma half_ge n z c : Rabs (IZR n - z) <= / 2 -> IZR c - / 4 <= z -> (c <= n)%Z.
Proof.
  intros A B. apply Rabs_le_inv in A. assert (C : IZR (c - 1) < IZR n) by (rewrite minus_IZR; lra). apply lt_IZR in C. lia.
Qed.
Lemma half_le n z c : Rabs (IZR n - z) <= / 2 -> z <= IZR c -> (n <= c)%Z.
Proof.
  intros A B. apply Rabs_le_inv in A. assert (C : IZR n < IZR (c + 1)) by (rewrite plus_IZR; lra). apply lt_IZR in C. lia.
Qed.

Lemma sci_ok p x : fin x -> val x <> 0 -> (0 <= p)%Z -> let '(n, ex) := sci_parts p x in
  (10 ^ p <= n < 10 ^ (p + 1))%Z /\
  Rabs (IZR n * bpow radix10 (ex - p) - Rabs (val x)) <= / 2 * bpow radix10 (ex - p) /\
  bpow radix10 ex - / 20 * bpow radix10 (ex - p) <= Rabs (val x) < bpow radix10 (ex + 1).
Proof.
  intros F Nz Hp. unfold sci_parts. assert (D := dec_parts_ok x F). destruct (dec_parts x) as [m e]. destruct D as (Hm & A & Z).
  destruct (Z.eqb_spec m 0) as [E|N]; [apply Z in E; contradiction|].
  destruct (zdec_bounds m ltac:(lia)) as (l & -> & Lm).
  replace (p + 1 - Z.of_nat (S l))%Z with (p - Z.of_nat l)%Z by lia.
  destruct (scale10_ok m (p - Z.of_nat l) Hm) as (N0 & NE). set (n := scale10 m (p - Z.of_nat l)) in *.
  assert (P := bpow_gt_0 radix10 (p - Z.of_nat l)).
  assert (M1 : bpow radix10 (Z.of_nat l) <= IZR m < bpow radix10 (Z.of_nat l + 1)).
  { rewrite !bpow10_Z by lia. split; [apply IZR_le|apply IZR_lt]; lia. }
  assert (B1 : bpow radix10 p <= IZR m * bpow radix10 (p - Z.of_nat l)).
  { replace p with (Z.of_nat l + (p - Z.of_nat l))%Z at 1 by lia. rewrite bpow_plus. apply Rmult_le_compat_r; lra. }
  assert (B2 : IZR m * bpow radix10 (p - Z.of_nat l) <= bpow radix10 (p + 1)).
  { replace (p + 1)%Z with (Z.of_nat l + 1 + (p - Z.of_nat l))%Z by lia. rewrite (bpow_plus _ (Z.of_nat l + 1)). apply Rmult_le_compat_r; lra. }
  assert (Nlo : (10 ^ p <= n)%Z) by (eapply half_ge; [exact NE|rewrite bpow10_Z in B1 by lia; lra]).
  assert (Nhi : (n <= 10 ^ (p + 1))%Z) by (eapply half_le; [exact NE|rewrite <- bpow10_Z by lia; exact B2]).
  assert (Ev : Rabs (val x) = IZR m * bpow radix10 (p - Z.of_nat l) * bpow radix10 (e + Z.of_nat l - p)).
  { rewrite A, Rmult_assoc, <- bpow_plus. f_equal. f_equal. lia. }
  assert (Err : Rabs (IZR n * bpow radix10 (e + Z.of_nat l - p) - Rabs (val x)) <= / 2 * bpow radix10 (e + Z.of_nat l - p)).
  { rewrite Ev, <- Rmult_minus_distr_r, Rabs_mult, (Rabs_pos_eq (bpow _ (e + Z.of_nat l - p))) by apply bpow_ge_0.
    apply Rmult_le_compat_r; [apply bpow_ge_0|exact NE]. }
  assert (Up : Rabs (val x) < bpow radix10 (e + Z.of_nat l + 1)).
  { rewrite A. replace (e + Z.of_nat l + 1)%Z with (Z.of_nat l + 1 + e)%Z by lia. rewrite bpow_plus. apply Rmult_lt_compat_r; [apply bpow_gt_0|lra]. }
  destruct (Z.eqb_spec n (10 ^ (p + 1))) as [E|E].
  - replace (e + Z.of_nat (S l) - p)%Z with (1 + (e + Z.of_nat l - p))%Z by lia.
    replace (e + Z.of_nat (S l))%Z with (e + Z.of_nat l + 1)%Z by lia.
    set (u := bpow radix10 (e + Z.of_nat l - p)) in *. assert (U0 : 0 < u) by apply bpow_gt_0.
    rewrite bpow_plus. fold u. change (bpow radix10 1) with 10.
    assert (En : IZR n = 10 * IZR (10 ^ p)) by (rewrite E, Z.pow_add_r, mult_IZR by lia; change (IZR (10 ^ 1)) with 10; ring).
    split; [split; [lia|apply Z.pow_lt_mono_r; lia]|]. rewrite En in Err. split.
    + replace (IZR (10 ^ p) * (10 * u)) with (10 * IZR (10 ^ p) * u) by ring. lra.
    + assert (Eb : bpow radix10 (e + Z.of_nat l + 1) = 10 * IZR (10 ^ p) * u).
      { replace (e + Z.of_nat l + 1)%Z with (1 + p + (e + Z.of_nat l - p))%Z by lia. rewrite (bpow_plus radix10 (1 + p)), (bpow_plus radix10 1). fold u.
        rewrite (bpow10_Z p) by exact Hp. reflexivity. }
      split.
      * rewrite Eb. apply Rabs_le_inv in Err. lra.
      * eapply Rlt_le_trans; [exact Up|]. apply bpow_le. lia.
  - replace (e + Z.of_nat (S l) - 1 - p)%Z with (e + Z.of_nat l - p)%Z by lia.
    replace (e + Z.of_nat (S l) - 1)%Z with (e + Z.of_nat l)%Z by lia.
    split; [lia|]. split; [exact Err|]. split; [|exact Up].
    assert (0 < bpow radix10 (e + Z.of_nat l - p)) by apply bpow_gt_0.
    assert (bpow radix10 (e + Z.of_nat l) <= Rabs (val x)); [|lra].
    rewrite A. replace (e + Z.of_nat l)%Z with (Z.of_nat l + e)%Z by lia. rewrite bpow_plus. apply Rmult_le_compat_r; [apply bpow_ge_0|lra].
Qed.

(* a leading digit *)
Lemma one_digit n p : (0 <= p)%Z -> (10 ^ p <= n < 10 ^ (p + 1))%Z -> exists c, zdec (n / 10 ^ p) = [c] /\ c <> "0"%char /\ digit_byte c = true.
Proof.
  intros Hp H. assert (P := pow10_pos p Hp). rewrite Z.pow_add_r in H by lia. change (10 ^ 1)%Z with 10%Z in H.
  assert (B : (1 <= n / 10 ^ p < 10)%Z) by (split; [apply Z.div_le_lower_bound; lia|apply Z.div_lt_upper_bound; lia]).
  assert (L : length (zdec (n / 10 ^ p)) = 1%nat) by (apply (zdec_len _ 0); change (10 ^ Z.of_nat 0)%Z with 1%Z; change (10 ^ (Z.of_nat 0 + 1))%Z with 10%Z; lia).
  assert (V := zdec_value (n / 10 ^ p) ltac:(lia)). assert (D := zdec_digits (n / 10 ^ p)).
  destruct (zdec (n / 10 ^ p)) as [|c [|c' t]]; try discriminate. exists c. split; [reflexivity|].
  cbn in D. rewrite andb_true_r in D. split; [|exact D]. intros ->. cbn in V. injection V as V. lia.
Qed.
Lemma exp_text_ok ex : exists ed, exp_text ex = lit "e" ++ (if (ex <? 0)%Z then lit "-" else lit "+") ++ ed /\
  all_digits ed /\ (2 <= length ed)%nat /\ value false 10 ed = Some (Z.to_N (Z.abs ex)).
Proof.
  exists (pad_l "0"%char 2 (zdec (Z.abs ex))). split; [unfold exp_text; destruct (ex <? 0)%Z; reflexivity|].
  unfold pad_l, fill_count. split; [unfold all_digits; rewrite forallb_app, zeros_digits, zdec_digits; reflexivity|].
  split; [rewrite app_length, repeat_length; lia|]. apply value_some.
  - intros E. apply app_eq_nil in E. destruct E as (_ & E). revert E. apply put_dec_nonempty.
  - rewrite zeros_value. apply zdec_value. lia.
Qed.

(* trailing zeros *)
Lemma drop_zeros_ok s : exists k, s = drop_zeros s ++ repeat "0"%char k /\ last (drop_zeros s) "1"%char <> "0"%char.
Proof.
  induction s as [|c s IH]; [exists 0%nat; split; [reflexivity|discriminate]|]. destruct IH as (k & E & L). cbn [drop_zeros].
  destruct (drop_zeros s) as [|d t] eqn:D.
  - cbn [app] in E. destruct (Ascii.eqb_spec c "0").
    + exists (S k). subst c. rewrite E at 1. split; [reflexivity|discriminate].
    + exists k. rewrite E at 1. split; [reflexivity|]. cbn. exact n.
  - exists k. rewrite E at 1. split; [reflexivity|]. exact L.
Qed.
Lemma denotes_drop neg ip fp ex x : ip <> [] -> denotes neg ip fp ex x -> denotes neg ip (drop_zeros fp) ex x.
Proof.
  intros NI (n & V & E). destruct (drop_zeros_ok fp) as (k & D & _). set (f := drop_zeros fp) in *.
  rewrite D, app_assoc in V. assert (NV : value_from false 10 0 ((ip ++ f) ++ repeat "0"%char k) = Some n).
  { destruct ((ip ++ f) ++ repeat "0"%char k); [discriminate V|exact V]. }
  rewrite value_from_app in NV. destruct (value_from false 10 0 (ip ++ f)) as [a|] eqn:Va; [|discriminate].
  rewrite <- (app_nil_r (repeat "0"%char k)), zeros_value in NV. cbn [value_from] in NV. injection NV as NV.
  exists a. split. { apply value_some; [|exact Va]. intros Z. apply app_eq_nil in Z. tauto. }
  rewrite E, <- NV. rewrite D, app_length, repeat_length, Nat2Z.inj_add, N2Z.inj_mul, N2Z.inj_pow, nat_N_Z, mult_IZR.
  change (Z.of_N 10) with 10%Z. change 10%R with (IZR radix10). rewrite <- !bpow_powerRZ, <- bpow10_Z by lia.
  replace (ex - Z.of_nat (length f))%Z with (Z.of_nat k + (ex - (Z.of_nat (length f) + Z.of_nat k)))%Z by lia.
  rewrite (bpow_plus radix10 (Z.of_nat k)). destruct neg; ring.
Qed.
