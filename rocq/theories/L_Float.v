(* L_Float.v -- real semantics of the operations of M_Float. *)
From Coq Require Import Reals Lra Psatz.
From Flocq Require Import Core.Core IEEE754.BinarySingleNaN Relative.
From Verif Require Import Base M_Stream M_Float.
Local Open Scope R_scope.

Notation fexp64 := (FLT_exp (-1074) 53).
Notation rnd := (round radix2 fexp64 ZnearestE).
Notation fmt64 := (generic_format radix2 fexp64).
Notation top := (bpow radix2 1024).
Notation val := (@B2R 53 1024).
Notation fin x := (@is_finite 53 1024 x = true).

Global Instance vexp64 : Valid_exp fexp64 := FLT_exp_valid (-1074) 53 (prec_gt_0_ := prec64).

Lemma val_fmt x : fmt64 (val x).
Proof. apply (@generic_format_B2R 53 1024). Qed.
Lemma val_top x : Rabs (val x) < top.
Proof. apply (@abs_B2R_lt_emax 53 1024). Qed.
Lemma rnd_fmt x : fmt64 x -> rnd x = x.
Proof. intros H. apply round_generic; [apply valid_rnd_N|exact H]. Qed.
Lemma rnd_le x y : x <= y -> rnd x <= rnd y.
Proof. intros H. apply round_le; [apply vexp64|apply valid_rnd_N|exact H]. Qed.
Lemma rnd_le_fmt x c : fmt64 c -> x <= c -> rnd x <= c.
Proof. intros Hc H. rewrite <- (rnd_fmt c Hc). now apply rnd_le. Qed.
Lemma rnd_ge_fmt x c : fmt64 c -> c <= x -> c <= rnd x.
Proof. intros Hc H. rewrite <- (rnd_fmt c Hc). now apply rnd_le. Qed.
Lemma fmt_0 : fmt64 0.
Proof. apply generic_format_0. Qed.
Lemma rnd_pos x : 0 <= x -> 0 <= rnd x.
Proof. apply rnd_ge_fmt, fmt_0. Qed.
Lemma fmt_IZR n : (Z.abs n < 2 ^ 53)%Z -> fmt64 (IZR n).
Proof.
  intros H. apply generic_format_FLT. exists (Float radix2 n 0); [unfold F2R; cbn; lra|exact H|cbn; lia].
Qed.
(* n * 2 ^ e *)
Lemma fmt_F2R n e : (Z.abs n < 2 ^ 53)%Z -> (-1074 <= e)%Z -> fmt64 (IZR n * bpow radix2 e).
Proof.
  intros H He. apply generic_format_FLT. exists (Float radix2 n e); [reflexivity|exact H|exact He].
Qed.
Lemma fmt_bpow e : (-1074 <= e)%Z -> fmt64 (bpow radix2 e).
Proof. intros H. rewrite <- (Rmult_1_l (bpow _ _)). apply (fmt_F2R 1 e); [reflexivity|exact H]. Qed.

Lemma dmul_ok x y : fin x -> fin y -> Rabs (rnd (val x * val y)) < top ->
  fin (dmul x y) /\ val (dmul x y) = rnd (val x * val y).
Proof.
  intros Hx Hy H. generalize (@Bmult_correct 53 1024 prec64 emax64 mode_NE x y).
  change (round radix2 (SpecFloat.fexp 53 1024) (round_mode mode_NE)) with rnd.
  rewrite Rlt_bool_true by exact H. intros (E & F & _). unfold dmul. rewrite F, Hx, Hy. auto.
Qed.
Lemma ddiv_ok x y : fin x -> val y <> 0 -> Rabs (rnd (val x / val y)) < top ->
  fin (ddiv x y) /\ val (ddiv x y) = rnd (val x / val y).
Proof.
  intros Hx Hy H. generalize (@Bdiv_correct 53 1024 prec64 emax64 mode_NE x y Hy).
  change (round radix2 (SpecFloat.fexp 53 1024) (round_mode mode_NE)) with rnd.
  rewrite Rlt_bool_true by exact H. intros (E & F & _). unfold ddiv. rewrite F, Hx. auto.
Qed.
Lemma dadd_ok x y : fin x -> fin y -> Rabs (rnd (val x + val y)) < top ->
  fin (dadd x y) /\ val (dadd x y) = rnd (val x + val y).
Proof.
  intros Hx Hy H. generalize (@Bplus_correct 53 1024 prec64 emax64 mode_NE x y Hx Hy).
  change (round radix2 (SpecFloat.fexp 53 1024) (round_mode mode_NE)) with rnd.
  rewrite Rlt_bool_true by exact H. intros (E & F & _). auto.
Qed.
Lemma dsub_ok x y : fin x -> fin y -> Rabs (rnd (val x - val y)) < top ->
  fin (dsub x y) /\ val (dsub x y) = rnd (val x - val y).
Proof.
  intros Hx Hy H. generalize (@Bminus_correct 53 1024 prec64 emax64 mode_NE x y Hx Hy).
  change (round radix2 (SpecFloat.fexp 53 1024) (round_mode mode_NE)) with rnd.
  rewrite Rlt_bool_true by exact H. intros (E & F & _). auto.
Qed.
Lemma dlit_ok n : (Z.abs n < 2 ^ 53)%Z -> fin (dlit n) /\ val (dlit n) = IZR n.
Proof.
  intros H. generalize (@binary_normalize_correct 53 1024 prec64 emax64 mode_NE n 0 false). cbv zeta.
  change (round radix2 (SpecFloat.fexp 53 1024) (round_mode mode_NE)) with rnd.
  replace (F2R {| Fnum := n; Fexp := 0 |}) with (IZR n) by (unfold F2R; cbn; lra).
  rewrite (rnd_fmt (IZR n)) by now apply fmt_IZR.
  rewrite Rlt_bool_true; [intros (E & F & _); split; [exact F|exact E]|].
  rewrite <- abs_IZR. apply Rlt_trans with (bpow radix2 53); [|apply bpow_lt; lia].
  change (bpow radix2 53) with (IZR (2 ^ 53)). apply IZR_lt. exact H.
Qed.

Lemma dlt_ok x y : fin x -> fin y -> dlt x y = Rlt_bool (val x) (val y).
Proof. apply Bltb_correct. Qed.
Lemma dgt_ok x y : fin x -> fin y -> dgt x y = Rlt_bool (val y) (val x).
Proof. intros Hx Hy. apply Bltb_correct; assumption. Qed.
Lemma dge_ok x y : fin x -> fin y -> dge x y = Rle_bool (val y) (val x).
Proof. intros Hx Hy. apply Bleb_correct; assumption. Qed.

(* one rounding in the normal range *)
Lemma rnd_rel x : bpow radix2 (-1022) <= Rabs x -> Rabs (rnd x - x) <= bpow radix2 (-53) * Rabs x.
Proof.
  intros H. replace (bpow radix2 (-53)) with (/ 2 * bpow radix2 (- 53 + 1)).
  - apply (relative_error_N_FLT radix2 (-1074) 53 prec64). exact H.
  - change (-53 + 1)%Z with (- (52))%Z. change (-53)%Z with (- (53))%Z. rewrite !bpow_opp.
    change (bpow radix2 52) with 4503599627370496. change (bpow radix2 53) with 9007199254740992. lra.
Qed.
