(* L_RoundB.v -- for which arguments Format::roundToSigDigs returns. *)
From Coq Require Import Reals Lra.
From Flocq Require Import Core.Core IEEE754.BinarySingleNaN.
From Verif Require Import Base M_Float M_FormatF M_Round L_Float L_FormatF L_FormatH L_Near L_Round.
Local Open Scope R_scope.

Lemma dn_step x : fin x -> / 2 <= val x -> fin (dmul x d0p1) /\ val (dmul x d0p1) <= val x / 8 /\ 0 < val (dmul x d0p1).
Proof.
  intros F H. assert (B : bpow radix2 (-1022) <= / 1024) by (change (/ 1024) with (bpow radix2 (-10)); apply bpow_le; lia).
  assert (R := rnd_rel (val x * val d0p1)). assert (P : / 1024 <= val x * val d0p1) by (rewrite d0p1_val; lra).
  rewrite Rabs_pos_eq in R by lra. specialize (R ltac:(lra)). change (bpow radix2 (-53)) with (/ 9007199254740992) in R. apply Rabs_le_inv in R.
  assert (U : rnd (val x * val d0p1) <= val x / 8) by (rewrite d0p1_val in *; lra).
  assert (L : 0 < rnd (val x * val d0p1)) by (rewrite d0p1_val in *; lra).
  destruct (dmul_ok x d0p1 F d0p1_fin) as (F2 & V2).
  - rewrite Rabs_pos_eq by lra. assert (Q := abs_B2R_lt_emax 53 1024 x). change (bpow radix2 1024) with top in Q. rewrite Rabs_pos_eq in Q by lra. lra.
  - rewrite V2. auto.
Qed.
Lemma fmt_8 (x : double) : fmt64 (val x * 8).
Proof.
  destruct (@FLT_format_generic radix2 (-1074) 53 prec64 (val x) (val_fmt x)) as [[m e] E A B]. cbn in A, B.
  rewrite E. unfold F2R. cbn [Fnum Fexp]. rewrite Rmult_assoc. change 8 with (bpow radix2 3). rewrite <- bpow_plus. apply fmt_F2R; [exact A|lia].
Qed.
Lemma up_step x : fin x -> 0 < val x -> val x <= 1000000000000000 -> fin (dmul x d10) /\ val x * 8 <= val (dmul x d10).
Proof.
  intros F H U. assert (L : val x * 8 <= rnd (val x * val d10)) by (apply rnd_ge_fmt; [apply fmt_8|rewrite d10_val; lra]).
  destruct (dmul_ok x d10 F d10_fin) as (F2 & V2).
  - rewrite Rabs_pos_eq by lra. apply Rle_lt_trans with (bpow radix2 60); [|apply bpow_lt; lia].
    apply rnd_le_fmt; [apply fmt_bpow; lia|]. rewrite d10_val. change (bpow radix2 60) with 1152921504606846976. lra.
  - rewrite V2. auto.
Qed.
Lemma tval_range sd : (0 <= sd <= 15)%Z -> / 2 <= tval sd <= 1000000000000000.
Proof.
  intros H. destruct (pow10_range sd H) as (A & B). apply IZR_le in A, B. change (IZR (10 ^ 15)) with 1000000000000000 in B. unfold tval. lra.
Qed.
Lemma dn_run v (T : double) k : fin v -> fin T -> / 2 <= val T ->
  (forall i, (i < k)%nat -> dgt (fst (at_ dn i (v, d1))) T = true) ->
  fin (fst (at_ dn k (v, d1))) /\ val (fst (at_ dn k (v, d1))) <= val v / 8 ^ k.
Proof.
  intros Fv FT HT. induction k as [|k IH]; intros H.
  - unfold at_. cbn [Nat.iter nat_rect fst pow]. split; [exact Fv|lra].
  - destruct IH as (F & V); [intros i Hi; apply H; lia|]. assert (G := H k ltac:(lia)). apply dgt_true in G; [|exact F|exact FT].
    rewrite at_succ. unfold dn at 1 3. cbn [fst]. destruct (dn_step _ F ltac:(lra)) as (F2 & V2 & _). split; [exact F2|].
    apply Rle_trans with (1 := V2). cbn [pow]. assert (P : 0 < 8 ^ k) by (apply pow_lt; lra).
    replace (val v / (8 * 8 ^ k)) with (val v / 8 ^ k / 8) by (field; lra). lra.
Qed.
Lemma up_run v (T : double) k : fin v -> 0 < val v -> fin T -> val T <= 1000000000000000 ->
  (forall i, (i < k)%nat -> dlt (fst (at_ up i (v, d1))) T = true) ->
  fin (fst (at_ up k (v, d1))) /\ val v * 8 ^ k <= val (fst (at_ up k (v, d1))).
Proof.
  intros Fv Pv FT HT. induction k as [|k IH]; intros H.
  - unfold at_. cbn [Nat.iter nat_rect fst pow]. split; [exact Fv|lra].
  - destruct IH as (F & V); [intros i Hi; apply H; lia|]. assert (G := H k ltac:(lia)). apply dlt_true in G; [|exact F|exact FT].
    rewrite at_succ. unfold up at 1 3. cbn [fst]. assert (P : 0 < 8 ^ k) by (apply pow_lt; lra).
    assert (PV := Rmult_lt_0_compat _ _ Pv P).
    destruct (up_step _ F ltac:(lra) ltac:(lra)) as (F2 & V2). split; [exact F2|]. cbn [pow]. lra.
Qed.

Lemma rts_returns fuel v sd : (400 <= fuel)%nat -> (0 <= sd <= 15)%Z -> fin v -> 0 < val v -> exists r, roundToSigDigs fuel v sd = Some r.
Proof.
  intros Hf H Fv Pv. destruct (threshold_ok sd H) as (FT & VT). assert (RT := tval_range sd H). rewrite <- VT in RT.
  unfold roundToSigDigs, rts_scale. set (T := threshold sd) in *. clearbody T. destruct (dgt v T) eqn:G; [|destruct (dlt v T) eqn:L; [|eexists; reflexivity]].
  - destruct (first_false (fun i => dgt (fst (at_ dn i (v, d1))) T) 345) as [(k & Hk & C & A)|A].
    + assert (E : while fuel (fun s : double * double => dgt (fst s) T) dn (v, d1) = Some (at_ dn k (v, d1))) by (apply while_stop; [lia|exact C|exact A]).
      match goal with |- exists _, option_map _ ?w = _ => change w with (while fuel (fun s : double * double => dgt (fst s) T) dn (v, d1)) end.
      rewrite E. eexists. reflexivity.
    + exfalso. destruct (dn_run v T 345 Fv FT (proj1 RT)) as (F & V); [intros i Hi; apply A; lia|].
      assert (G2 := A 345%nat ltac:(lia)). apply dgt_true in G2; [|exact F|exact FT].
      assert (Q := abs_B2R_lt_emax 53 1024 v). rewrite Rabs_pos_eq in Q by lra.
      assert (P8 : 8 ^ 345 = bpow radix2 1035).
      { change (bpow radix2 1035) with (IZR (2 ^ 1035)). rewrite pow_IZR. apply f_equal. vm_compute. reflexivity. }
      rewrite P8 in V. assert (W : val v / bpow radix2 1035 <= bpow radix2 (-11)).
      { unfold Rdiv. rewrite <- bpow_opp. apply Rle_trans with (bpow radix2 1024 * bpow radix2 (- (1035))).
        - apply Rmult_le_compat_r; [apply bpow_ge_0|lra].
        - rewrite <- bpow_plus. apply bpow_le. lia. }
      change (bpow radix2 (-11)) with (/ 2048) in W. lra.
  - destruct (first_false (fun i => dlt (fst (at_ up i (v, d1))) T) 375) as [(k & Hk & C & A)|A].
    + assert (E : while fuel (fun s : double * double => dlt (fst s) T) up (v, d1) = Some (at_ up k (v, d1))) by (apply while_stop; [lia|exact C|exact A]).
      match goal with |- exists _, option_map _ (option_map _ ?w) = _ => change w with (while fuel (fun s : double * double => dlt (fst s) T) up (v, d1)) end.
      rewrite E. eexists. reflexivity.
    + exfalso. destruct (up_run v T 375 Fv Pv FT (proj2 RT)) as (F & V); [intros i Hi; apply A; lia|].
      assert (G2 := A 375%nat ltac:(lia)). apply dlt_true in G2; [|exact F|exact FT].
      assert (Q : bpow radix2 (-1074) <= val v).
      { destruct v as [s|s| |s m e b]; try discriminate Fv; [cbn in Pv; lra|]. 
        assert (X := abs_B2R_ge_emin 53 1024). specialize (X (B754_finite s m e b) eq_refl). rewrite Rabs_pos_eq in X by lra. exact X. }
      assert (P8 : 8 ^ 375 = bpow radix2 1125).
      { change (bpow radix2 1125) with (IZR (2 ^ 1125)). rewrite pow_IZR. apply f_equal. vm_compute. reflexivity. }
      rewrite P8 in V. assert (W : bpow radix2 51 <= val v * bpow radix2 1125).
      { apply Rle_trans with (bpow radix2 (-1074) * bpow radix2 1125); [rewrite <- bpow_plus; apply bpow_le; lia|]. apply Rmult_le_compat_r; [apply bpow_ge_0|exact Q]. }
      change (bpow radix2 51) with 2251799813685248 in W. lra.
Qed.

Lemma rts_nan fuel sd : roundToSigDigs fuel B754_nan sd = Some B754_nan.
Proof.
  unfold roundToSigDigs, rts_scale. generalize (threshold sd). intros T.
  assert (A : dgt B754_nan T = false) by (destruct T as [[]|[]| |[]]; reflexivity).
  assert (B : dlt B754_nan T = false) by (destruct T as [[]|[]| |[]]; reflexivity).
  rewrite A, B. reflexivity.
Qed.
Lemma rts_returns_iff v sd : (0 <= sd <= 15)%Z ->
  ((exists fuel r, roundToSigDigs fuel v sd = Some r) <-> v = B754_nan \/ (fin v /\ 0 < val v)).
Proof.
  intros H. split.
  - intros (fuel & r & E). destruct (Rlt_or_le 0 (val v)) as [L|L].
    + destruct v as [s|s| |s m e b]; try (cbn in L; lra). right. split; [reflexivity|exact L].
    + destruct v as [s|[]| |s m e b]; [| | |left; reflexivity|].
      * rewrite stuck_forever in E; [discriminate|exact H|left; split; [reflexivity|exact L]].
      * rewrite stuck_forever in E; [discriminate|exact H|right; reflexivity].
      * rewrite inf_forever in E; [discriminate|exact H].
      * rewrite stuck_forever in E; [discriminate|exact H|left; split; [reflexivity|exact L]].
  - intros [->|(F & P)]; [exists O, B754_nan; apply rts_nan|]. exists 400%nat. apply rts_returns; auto.
Qed.

(* negative digit counts *)
Lemma neg_threshold sd : (sd < 0)%Z -> fin (threshold sd) /\ - / 2 <= val (threshold sd) <= - (3 / 8).
Proof.
  intros H. unfold threshold, dpow10. destruct (Z.ltb_spec sd 0); [|lia]. set (n := (- sd)%Z). assert (Hn : (1 <= n)%Z) by lia. clearbody n. clear H H0 sd.
  assert (P : (10 <= 10 ^ n)%Z) by (apply (Z.pow_le_mono_r 10 1 n); lia).
  assert (X : fin (ddiv d1 (dlit (10 ^ n))) /\ 0 <= val (ddiv d1 (dlit (10 ^ n))) <= / 8).
  { generalize (@binary_normalize_correct 53 1024 prec64 emax64 mode_NE (10 ^ n) 0 false). cbv zeta.
    change (round radix2 (SpecFloat.fexp 53 1024) (round_mode mode_NE)) with rnd.
    replace (F2R {| Fnum := 10 ^ n; Fexp := 0 |}) with (IZR (10 ^ n)) by (unfold F2R; cbn; lra).
    fold (dlit (10 ^ n)). assert (G : 10 <= rnd (IZR (10 ^ n))) by (apply rnd_ge_fmt; [apply (fmt_IZR 10); reflexivity|apply IZR_le; exact P]).
    set (y := dlit (10 ^ n)). clearbody y. destruct (Rlt_bool_spec (Rabs (rnd (IZR (10 ^ n)))) (bpow radix2 1024)) as [Lt|Ge].
    - intros (V & F & _). destruct (ddiv_ok d1 y d1_fin) as (F2 & V2).
      + rewrite V. lra.
      + rewrite V, d1_val. assert (Q : 0 <= 1 / rnd (IZR (10 ^ n)) <= 1).
        { split; [apply Rmult_le_pos; [lra|left; apply Rinv_0_lt_compat; lra]|]. unfold Rdiv. rewrite Rmult_1_l, <- Rinv_1. apply Rinv_le; lra. }
        rewrite Rabs_pos_eq by (apply rnd_pos; lra). apply Rle_lt_trans with 1; [apply rnd_le_fmt; [apply (fmt_IZR 1); reflexivity|lra]|].
        change 1 with (bpow radix2 0). apply bpow_lt. lia.
      + split; [exact F2|]. rewrite V2, V, d1_val. assert (Q : 0 <= 1 / rnd (IZR (10 ^ n)) <= / 8).
        { split; [apply Rmult_le_pos; [lra|left; apply Rinv_0_lt_compat; lra]|]. unfold Rdiv. rewrite Rmult_1_l. apply Rinv_le; lra. }
        split; [apply rnd_pos; lra|]. apply rnd_le_fmt; [change (/ 8) with (bpow radix2 (-3)); apply fmt_bpow; lia|lra].
    - intros E.
      assert (Y : y = B754_infinity false).
      { rewrite Rlt_bool_false in E by (apply IZR_le; lia).
        destruct y as [s|s| |s m e b]; try discriminate E. cbn in E. congruence. }
      subst y. split; [reflexivity|]. cbn. lra. }
  destruct X as (F & V). set (x := ddiv d1 (dlit (10 ^ n))) in *. clearbody x.
  assert (Y : - / 2 <= rnd (val x - val d0p5) <= - (3 / 8)).
  { rewrite d0p5_val. split.
    - apply rnd_ge_fmt; [replace (- / 2) with (IZR (-1) * bpow radix2 (-1)) by (change (bpow radix2 (-1)) with (/ 2); lra); apply fmt_F2R; lia|lra].
    - apply rnd_le_fmt; [replace (- (3 / 8)) with (IZR (-3) * bpow radix2 (-3)) by (change (bpow radix2 (-3)) with (/ 8); lra); apply fmt_F2R; lia|lra]. }
  destruct (dsub_ok x d0p5 F eq_refl) as (F2 & V2).
  - rewrite Rabs_left by lra. apply Rle_lt_trans with 1; [lra|]. change 1 with (bpow radix2 0). apply bpow_lt. lia.
  - rewrite V2. auto.
Qed.
Definition floats (x : double) : Prop := (fin x /\ - (3 / 8) < val x) \/ x = B754_infinity false.
Definition sinks (x : double) : Prop := (fin x /\ val x < - / 2) \/ x = B754_infinity true.
Lemma floats_step x : floats x -> floats (dmul x d0p1).
Proof.
  intros [(F & V)|E]; [|subst x; right; reflexivity]. left.
  destruct (Rlt_or_le (val x) (/ 2)) as [L|L].
  - assert (B : - / 16 <= rnd (val x * val d0p1) <= / 16).
    { split.
      - apply rnd_ge_fmt; [replace (- / 16) with (IZR (-1) * bpow radix2 (-4)) by (change (bpow radix2 (-4)) with (/ 16); lra); apply fmt_F2R; lia|rewrite d0p1_val; lra].
      - apply rnd_le_fmt; [change (/ 16) with (bpow radix2 (-4)); apply fmt_bpow; lia|rewrite d0p1_val; lra]. }
    destruct (dmul_ok x d0p1 F d0p1_fin) as (F2 & V2).
    + apply Rle_lt_trans with 1; [apply Rabs_le; lra|]. change 1 with (bpow radix2 0). apply bpow_lt. lia.
    + rewrite V2. split; [exact F2|lra].
  - destruct (dn_step x F L) as (F2 & _ & P). split; [exact F2|lra].
Qed.
Lemma sinks_step x : sinks x -> sinks (dmul x d10).
Proof.
  intros [(F & V)|E]; [|subst x; right; reflexivity].
  destruct (stuck_step x) as [(F2 & V2)|E]; [left; split; [exact F|lra]| |right; exact E].
  left. split; [exact F2|]. destruct (dmul_ok x d10 F d10_fin) as (_ & V3).
  - destruct (Rlt_or_le (Rabs (rnd (val x * val d10))) top) as [L|G]; [exact L|exfalso].
    generalize (@Bmult_correct 53 1024 prec64 emax64 mode_NE x d10).
    change (round radix2 (SpecFloat.fexp 53 1024) (round_mode mode_NE)) with rnd.
    rewrite Rlt_bool_false by exact G. intros C. unfold dmul in F2. set (y := Bmult mode_NE x d10) in *. clearbody y.
    destruct y as [s|s| |s m e b]; try discriminate F2; destruct (xorb (Bsign x) (Bsign d10)); discriminate C.
  - rewrite V3. apply Rle_lt_trans with (-1); [|lra]. apply rnd_le_fmt; [apply (fmt_IZR (-1)); reflexivity|rewrite d10_val; lra].
Qed.
Lemma floats_gt x sd : (sd < 0)%Z -> floats x -> dgt x (threshold sd) = true.
Proof.
  intros H S. destruct (neg_threshold sd H) as (FT & VT). destruct S as [(F & V)|E].
  - rewrite dgt_ok by assumption. apply Rlt_bool_true. lra.
  - subst x. destruct (threshold sd) as [s|s| |s m e b]; try discriminate FT; reflexivity.
Qed.
Lemma sinks_lt x sd : (sd < 0)%Z -> sinks x -> dlt x (threshold sd) = true /\ dgt x (threshold sd) = false.
Proof.
  intros H S. destruct (neg_threshold sd H) as (FT & VT). destruct S as [(F & V)|E].
  - rewrite dlt_ok, dgt_ok by assumption. split; [apply Rlt_bool_true|apply Rlt_bool_false]; lra.
  - subst x. destruct (threshold sd) as [s|s| |s m e b]; try discriminate FT; split; reflexivity.
Qed.
Lemma neg_forever fuel v sd : (sd < 0)%Z -> floats v \/ sinks v -> roundToSigDigs fuel v sd = None.
Proof.
  intros H [S|S]; unfold roundToSigDigs, rts_scale.
  - rewrite (floats_gt v sd H S), while_never; [reflexivity|]. intros k.
    assert (I : floats (fst (at_ dn k (v, d1)))) by (induction k as [|k IH]; [exact S|rewrite at_succ; apply floats_step; exact IH]).
    apply floats_gt; assumption.
  - destruct (sinks_lt v sd H S) as (A & B). rewrite A, B, while_never; [reflexivity|]. intros k.
    assert (I : sinks (fst (at_ up k (v, d1)))) by (induction k as [|k IH]; [exact S|rewrite at_succ; apply sinks_step; exact IH]).
    apply (sinks_lt _ sd H I).
Qed.

Lemma rts_mono f g v sd r : (f <= g)%nat -> roundToSigDigs f v sd = Some r -> roundToSigDigs g v sd = Some r.
Proof.
  intros H. unfold roundToSigDigs, rts_scale. destruct (dgt v (threshold sd)); [|destruct (dlt v (threshold sd)); [|auto]];
  (destruct (while f _ _ _) as [s|] eqn:E; [|discriminate]; rewrite (while_mono _ _ _ _ _ _ H E); auto).
Qed.
