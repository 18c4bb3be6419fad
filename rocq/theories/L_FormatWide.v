(* L_FormatWide.v -- the 'e' format with very many digits. *)
From Coq Require Import ZArith Lia Reals Lra Psatz.
From Flocq Require Import Core.Core IEEE754.BinarySingleNaN.
From Verif Require Import Base M_Stream M_Float M_Format M_FormatF S_Num S_Field S_FormatF
  L_Num L_Field L_Dec L_Float L_FormatF L_FormatG L_FormatH L_FormatI L_FormatJ L_FormatK L_FormatL L_FormatX L_FormatM C_FormatF.
Local Open Scope R_scope.

(* doubles from 1 on are multiples of 2^-52 *)
Lemma grid x : fmt64 x -> 1 <= x -> exists n, x = IZR n * bpow radix2 (-52).
Proof.
  intros G H. unfold generic_format, F2R in G. cbn [Fnum Fexp] in G. set (c := cexp radix2 fexp64 x) in *.
  assert (Hc : (-52 <= c)%Z).
  { assert (M : (0 < mag radix2 x)%Z) by (apply mag_gt_bpow; change (bpow radix2 0) with 1; rewrite Rabs_pos_eq by lra; exact H).
    unfold c, cexp, FLT_exp. lia. }
  exists (Ztrunc (scaled_mantissa radix2 fexp64 x) * 2 ^ (c + 52))%Z. rewrite mult_IZR.
  change 2%Z with (radix_val radix2). rewrite IZR_Zpower by lia. rewrite Rmult_assoc, <- bpow_plus. rewrite G at 1. f_equal. f_equal. lia.
Qed.
Lemma grid_frac x : fmt64 x -> 1 <= x -> x <> IZR (Zfloor x) -> bpow radix2 (-52) <= x - IZR (Zfloor x).
Proof.
  intros G H N. destruct (grid x G H) as (n & E). assert (P := bpow_gt_0 radix2 (-52)).
  assert (E1 : IZR (Zfloor x) = IZR (Zfloor x * 2 ^ 52) * bpow radix2 (-52)).
  { rewrite mult_IZR, Rmult_assoc. replace (IZR (2 ^ 52) * bpow radix2 (-52)) with 1; [ring|].
    change (2 ^ 52)%Z with 4503599627370496%Z. change (bpow radix2 (-52)) with (/ 4503599627370496). field. }
  assert (L := Zfloor_lb x). rewrite E1. rewrite E at 1. rewrite <- Rmult_minus_distr_r, <- minus_IZR.
  rewrite <- (Rmult_1_l (bpow radix2 (-52))) at 1. apply Rmult_le_compat_r; [lra|]. apply (IZR_le 1).
  assert (Q : (0 < n - Zfloor x * 2 ^ 52)%Z); [|lia]. apply lt_IZR. rewrite minus_IZR. apply Rmult_lt_reg_r with (bpow radix2 (-52)); [exact P|].
  rewrite Rmult_0_l, Rmult_minus_distr_r, <- E, <- E1. lra.
Qed.
(* with 29 digits a fraction that is not zero does not fit an int *)
Lemma wide_shape y sd p : fmt64 y -> 1 <= y -> (29 <= sd < two31)%Z -> shape y sd p -> p_frac p = 0%Z /\ y = IZR (Zfloor y).
Proof.
  intros G Hy Hs H. assert (S1 : (1 <= sd < two31)%Z) by lia. assert (FW := shape_fwid _ _ _ H S1). assert (W := sh_wid _ _ _ H).
  assert (D : y = IZR (Zfloor y) \/ y <> IZR (Zfloor y)) by (destruct (Req_dec y (IZR (Zfloor y))); auto).
  destruct D as [E|N]; [split; [exact (sh_exact _ _ _ H E)|exact E]|exfalso].
  assert (B := grid_frac y G Hy N). destruct (sh_near _ _ _ H) as (r & Hr & Er). destruct (sh_frac _ _ _ H) as (_ & F31).
  apply Rabs_le_inv in Er. set (T := IZR (10 ^ p_fwid p)) in *. rewrite minus_IZR in Er. fold T in Er.
  assert (HT : 100000000000000000000000000 <= T).
  { unfold T. apply (IZR_le 100000000000000000000000000). change 100000000000000000000000000%Z with (10 ^ 26)%Z. apply Z.pow_le_mono_r; lia. }
  assert (Fr : IZR (p_frac p) < 2147483648) by (apply IZR_lt; exact F31).
  change (bpow radix2 (-52)) with (/ 4503599627370496) in B. change (bpow radix2 (-50)) with (/ 1125899906842624) in Er.
  assert (A : / 4503599627370496 * T <= (y - IZR (Zfloor y)) * T) by (apply Rmult_le_compat_r; lra). lra.
Qed.

(* the text is there or the behaviour is undefined: no exception *)
Lemma frac_loop_no_throw n : forall d t e, frac_loop n d t <> Throw e.
Proof.
  induction n as [|n IH]; intros d t e; [discriminate|]. cbn [frac_loop].
  destruct ((- two31 <=? 10 * t) && (10 * t <? two31))%Z; [|discriminate].
  unfold d_to_int. repeat match goal with |- context [match ?x with _ => _ end] => destruct x end; cbn [obind]; try discriminate; apply IH.
Qed.
Lemma eng_no_throw fuel sep v w sd e : fin v -> addF_text fuel sep v "e" w sd <> Some (Throw e).
Proof.
  intros F. rewrite text_fin by exact F. cbv zeta.
  change (Ascii.eqb "e" "f") with false. change (Ascii.eqb "e" "s") with false. change (Ascii.eqb "e" "g") with false. change (Ascii.eqb "e" "e") with true. cbv iota.
  destruct (deq v dzero); [discriminate|]. destruct (log1k fuel (dabs v) (to_i32 sd)) as [[ex y]|]; [|discriminate].
  unfold fractionate. destruct (getIntPartWidth fuel y) as [iw|]; [|discriminate]. destruct (dmodf y) as [df di]. destruct (trim_loop (Z.to_nat iw) sd 1 iw) as [mv iw'].
  assert (D : forall x, d_to_int x <> Throw e) by (intros x; unfold d_to_int; repeat match goal with |- context [match ?x with _ => _ end] => destruct x end; discriminate).
  specialize (D di). destruct (d_to_int di) as [ip|e'|]; cbn [obind]; [|congruence|discriminate].
  assert (T := frac_loop_no_throw (Z.to_nat (to_i32 (sd - iw'))) df 0 e). destruct (frac_loop _ df 0) as [fr|e'|]; cbn [obind]; [discriminate|congruence|discriminate].
Qed.
Lemma eng_wide fuel sep v w sd : (500 < fuel)%nat -> fin v -> val v <> 0 -> in_range v sd -> (29 <= sd < two31)%Z ->
  addF_text fuel sep v "e" w sd = Some UB \/
  exists t neg ip fp ex, addF_text fuel sep v "e" w sd = Some (Ok t) /\ engineering t neg ip fp ex /\ (forall c, In c fp -> c = "0"%char).
Proof.
  intros Hf F N R Hs. assert (H32 : (0 <= sd < two32)%Z) by (unfold two31, two32 in *; lia).
  destruct (ends fuel sep v "e" w sd Hf H32 F R) as ([t|e|] & E); [right|exfalso; exact (eng_no_throw _ _ _ _ _ _ F E)|left; exact E].
  destruct (eng_inv _ _ _ _ _ _ F N H32 E) as (e & y & p & EL & Fy & By & T & EF & HS & Et).
  assert (S1 : (1 <= sd)%Z) by lia. exists t, (dlt v dzero), (zdec (p_int p)), (frac_digits p), e. split; [exact E|]. rewrite Et.
  split; [apply (eng_form v _ sd e (val y) p F HS (proj1 By) S1)|]. intros c Hc.
  destruct (wide_shape _ _ _ (val_fmt y) (proj1 By) Hs HS) as (F0 & _).
  destruct (frac_digits_ok _ _ _ HS (shape_fwid0 _ _ _ HS)) as (_ & _ & V). rewrite F0 in V. apply value_zero in V.
  rewrite V in Hc. apply repeat_spec in Hc. exact Hc.
Qed.

(* a number below 10^10 written with more than ten digits begins with zeros *)
Lemma lead_zeros s n k c : value_from false 10 0 s = Some n -> (n < 10000000000)%N -> nth_error s k = Some c -> (k + 10 < length s)%nat -> c = "0"%char.
Proof.
  intros V Hn Hk L. set (j := (length s - 10)%nat). rewrite <- (firstn_skipn j s) in V. rewrite value_from_app in V.
  destruct (value_from false 10 0 (firstn j s)) as [a|] eqn:E; [|discriminate].
  assert (B := value_bound _ _ _ V). rewrite skipn_length in B. replace (length s - j)%nat with 10%nat in B by lia.
  change (10 ^ Z.of_nat 10)%Z with 10000000000%Z in B. assert (a = 0)%N as -> by lia. apply value_zero in E.
  rewrite <- (firstn_skipn j s), nth_error_app1 in Hk by (rewrite firstn_length; lia).
  apply nth_error_In in Hk. rewrite E in Hk. apply repeat_spec in Hk. exact Hk.
Qed.
Lemma eng_lead fuel sep v w sd : (500 < fuel)%nat -> fin v -> val v <> 0 -> in_range v sd -> (1 <= sd < two31)%Z ->
  addF_text fuel sep v "e" w sd = Some UB \/
  exists t neg ip fp ex, addF_text fuel sep v "e" w sd = Some (Ok t) /\ engineering t neg ip fp ex /\
    (sd - 3 <= Z.of_nat (length fp) <= sd)%Z /\
    (forall k c, nth_error fp k = Some c -> (k + 10 < length fp)%nat -> c = "0"%char).
Proof.
  intros Hf F N R Hs. assert (H32 : (0 <= sd < two32)%Z) by (unfold two31, two32 in *; lia).
  destruct (ends fuel sep v "e" w sd Hf H32 F R) as ([t|e|] & E); [right|exfalso; exact (eng_no_throw _ _ _ _ _ _ F E)|left; exact E].
  destruct (eng_inv _ _ _ _ _ _ F N H32 E) as (e & y & p & EL & Fy & By & T & EF & HS & Et).
  assert (S1 : (1 <= sd)%Z) by lia. exists t, (dlt v dzero), (zdec (p_int p)), (frac_digits p), e. split; [exact E|]. rewrite Et.
  split; [apply (eng_form v _ sd e (val y) p F HS (proj1 By) S1)|].
  destruct (frac_digits_ok _ _ _ HS (shape_fwid0 _ _ _ HS)) as (L & _ & V). split.
  - rewrite L, (shape_fwid _ _ _ HS Hs). assert (W := sh_wid _ _ _ HS). lia.
  - intros k c. apply (lead_zeros _ _ k c V). destruct (sh_frac _ _ _ HS) as (F0 & F31). unfold two31 in F31. lia.
Qed.

(* ---- numbers from 1 to 10 ---- *)
Lemma tiny_incr sd : (29 <= sd)%Z -> fin (round_incr (Z.to_nat sd)) /\ 0 <= val (round_incr (Z.to_nat sd)) <= bpow radix2 (-60).
Proof.
  intros H. destruct (round_incr_ok (Z.to_nat sd)) as (F & B). split; [exact F|]. split; [apply B|].
  apply Rle_trans with (val (round_incr 29)); [apply ri_dec; lia|]. destruct (round_incr_ok 29) as (F29 & _).
  set (c := @B754_finite 53 1024 false 4503599627370496 (-112) eq_refl : double).
  assert (Vc : val c = bpow radix2 (-60)) by (change (-60)%Z with (52 + -112)%Z; rewrite bpow_plus; reflexivity).
  assert (D : dge c (round_incr 29) = true) by (vm_compute; reflexivity). rewrite dge_ok in D by (exact F29 || reflexivity).
  rewrite Vc in D. destruct (Rle_bool_spec (val (round_incr 29)) (bpow radix2 (-60))); [assumption|discriminate].
Qed.
Lemma rnd_stays x i : fmt64 x -> 1 <= x -> 0 <= i <= bpow radix2 (-60) -> rnd (x + i) = x.
Proof.
  intros G H Hi. assert (R1 : 1 <= rnd (x + i)) by (apply Rle_trans with x; [exact H|apply rnd_ge_fmt; [exact G|lra]]).
  assert (Gr : fmt64 (rnd (x + i))) by (apply generic_format_round; [apply vexp64|apply valid_rnd_N]).
  destruct (grid x G H) as (n & En). destruct (grid _ Gr R1) as (m & Em).
  assert (N : Rabs (rnd (x + i) - (x + i)) <= Rabs (x - (x + i))) by (apply (round_N_pt radix2 fexp64 (fun z => negb (Z.even z)) (x + i)); exact G).
  replace (x - (x + i)) with (- i) in N by ring. rewrite Rabs_Ropp, (Rabs_pos_eq i) in N by lra. apply Rabs_le_inv in N.
  change (bpow radix2 (-60)) with (/ 1152921504606846976) in Hi.
  assert (D : Rabs (IZR (m - n)) < 1).
  { rewrite minus_IZR. apply Rabs_lt. assert (P := bpow_gt_0 radix2 (-52)).
    assert (E : IZR m * bpow radix2 (-52) - IZR n * bpow radix2 (-52) = rnd (x + i) - x) by (rewrite <- Em, <- En; reflexivity).
    change (bpow radix2 (-52)) with (/ 4503599627370496) in E. lra. }
  rewrite <- abs_IZR in D. apply lt_IZR in D. replace m with n in Em by lia. rewrite Em, <- En. reflexivity.
Qed.
Lemma while_no {S} fuel (c : S -> bool) b s : (0 < fuel)%nat -> c s = false -> while fuel c b s = Some s.
Proof. intros H E. destruct fuel; [lia|]. cbn. rewrite E. reflexivity. Qed.
Lemma log1k_small fuel v sd : (0 < fuel)%nat -> fin v -> 1 <= val v < 10 -> (29 <= sd)%Z -> exists y, log1k fuel v sd = Some (0%Z, y) /\ val y = val v.
Proof.
  intros Hf F B Hs. destruct (dlit_ok 1 eq_refl) as (F1 & V1). destruct (dlit_ok 10 eq_refl) as (F10 & V10). destruct (dlit_ok 1000 eq_refl) as (F3 & V3).
  fold d1 in F1, V1. fold d10 in F10, V10. fold d1000 in F3, V3.
  unfold log1k, scale_down. rewrite (while_no fuel _ _ (v, d1) Hf) by (cbn [fst]; rewrite dge_ok by assumption; rewrite V10; apply Rle_bool_false; lra).
  unfold scale_up. rewrite (while_no fuel _ _ (v, d1) Hf) by (cbn [fst]; rewrite dlt_ok by assumption; rewrite V1; apply Rlt_bool_false; lra).
  destruct (tiny_incr sd Hs) as (Fi & Bi).
  assert (Ra := rnd_stays (val v) _ (val_fmt v) (proj1 B) Bi).
  assert (T : 16 < top) by (change 16 with (bpow radix2 4); apply bpow_lt; lia).
  destruct (dadd_ok v _ F Fi) as (Fa & Va); [rewrite Ra, Rabs_pos_eq by lra; lra|]. rewrite Ra in Va.
  set (a := dadd v (round_incr (Z.to_nat sd))) in *.
  assert (Rm : rnd (val a * val d1) = val v) by (rewrite V1, Rmult_1_r, Va; apply rnd_fmt, val_fmt).
  destruct (dmul_ok a d1 Fa F1) as (Fm & Vm); [rewrite Rm, Rabs_pos_eq by lra; lra|]. rewrite Rm in Vm.
  exists (dmul a d1). split; [|exact Vm]. unfold thousands.
  rewrite dlt_ok by assumption. rewrite Vm, V1, Rlt_bool_false by lra.
  apply while_no; [exact Hf|]. cbn [snd]. rewrite dgt_ok by assumption. rewrite Vm, V3. apply Rlt_bool_false. lra.
Qed.
Lemma small_range v sd : (0 <= sd < two32)%Z -> 1 <= Rabs (val v) < 10 -> in_range v sd.
Proof.
  intros Hs B. right. assert (P2 : forall z, powerRZ 2 z = bpow radix2 z) by (intros z; change 2%R with (IZR radix2); symmetry; apply bpow_powerRZ). split.
  - apply Rle_trans with 1; [|apply B]. rewrite P2. apply Rle_trans with (4 * bpow radix2 (-1074)); [assert (X := bpow_ge_0 radix2 (-1074)); lra|].
    change 4 with (bpow radix2 2). rewrite <- bpow_plus. change 1 with (bpow radix2 0). apply bpow_le. lia.
  - apply Rle_trans with (bpow radix2 1023); [|apply under_limit; exact Hs]. apply Rle_trans with 16; [lra|]. change 16 with (bpow radix2 4). apply bpow_le. lia.
Qed.
Lemma eng_wide_small fuel sep v w sd : (500 < fuel)%nat -> fin v -> 1 <= Rabs (val v) < 10 -> (29 <= sd < two31)%Z ->
  (addF_text fuel sep v "e" w sd = Some UB <-> forall z, val v <> IZR z).
Proof.
  intros Hf F B Hs. assert (H32 : (0 <= sd < two32)%Z) by (unfold two31, two32 in *; lia).
  destruct (dabs_ok v F) as (Fa & Va).
  destruct (log1k_small fuel (dabs v) sd ltac:(lia) Fa ltac:(rewrite Va; exact B) ltac:(lia)) as (y & EL & Vy).
  assert (I32 : to_i32 sd = sd) by (apply to_i32_small; unfold two31 in *; lia).
  assert (N : val v <> 0) by (intros Q; rewrite Q, Rabs_R0 in B; lra).
  assert (IZ : (exists z, val v = IZR z) <-> val y = IZR (Zfloor (val y))).
  { rewrite Vy, Va. split.
    - intros (z & ->). rewrite <- abs_IZR, Zfloor_IZR. reflexivity.
    - intros E. destruct (Rcase_abs (val v)) as [L|G].
      + exists (- Zfloor (Rabs (val v)))%Z. rewrite opp_IZR, <- E, Rabs_left by exact L. ring.
      + exists (Zfloor (Rabs (val v))). rewrite <- E, Rabs_pos_eq by lra. reflexivity. }
  split.
  - intros U z Ez. assert (Iy : val y = IZR (Zfloor (val y))) by (apply IZ; eauto).
    assert (Fy : fin y).
    { destruct (log1k_ok _ _ _ _ _ Fa ltac:(rewrite Va; lra) EL) as (X & _). exact X. }
    assert (By : 1 <= val y <= 1000) by (rewrite Vy, Va; lra).
    rewrite text_fin in U by exact F. cbv zeta in U.
    change (Ascii.eqb "e" "f") with false in U. change (Ascii.eqb "e" "s") with false in U. change (Ascii.eqb "e" "g") with false in U. change (Ascii.eqb "e" "e") with true in U. cbv iota in U.
    assert (D : deq v dzero = false) by (destruct (deq v dzero) eqn:D; [apply deq_zero in D; [contradiction|exact F]|reflexivity]).
    rewrite D, I32, EL in U. destruct (fractionate_eq fuel y sd ltac:(lia) Fy By H32) as (k & _ & _ & Fd & Vd & EF). rewrite EF in U.
    rewrite frac_loop_0 in U by (exact Fd || (rewrite Vd, <- Iy; ring)). discriminate.
  - intros NZ. destruct (ends fuel sep v "e" w sd Hf H32 F (small_range v sd H32 B)) as ([t|e|] & E); [exfalso|exfalso; exact (eng_no_throw _ _ _ _ _ _ F E)|exact E].
    destruct (eng_inv _ _ _ _ _ _ F N H32 E) as (e & y' & p & EL' & Fy & By & T & EF & HS & Et). rewrite I32, EL in EL'. injection EL' as <- <-.
    destruct (wide_shape _ _ _ (val_fmt y) (proj1 By) Hs HS) as (_ & Q). apply IZ in Q. destruct Q as (z & Q). exact (NZ z Q).
Qed.
