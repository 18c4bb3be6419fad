(* L_FormatTestProg.v -- how near the texts of 'e', 's' and 'g' with up to four
   digits are to the number, and the arithmetic of FormatTest's check. *)
From Coq Require Import ZArith Lia Reals Lra Psatz.
From Flocq Require Import Core.Core IEEE754.BinarySingleNaN.
From Verif Require Import Base M_Stream M_StreamIn M_Float M_StreamFloat M_Format M_FormatF M_Round M_FormatTestProg
  S_Num S_Field S_Format S_FormatF S_FloatIn
  L_Num L_Field L_Dec L_Float L_Near L_FormatF L_FormatG L_FormatH L_FormatI L_FormatJ L_FormatK L_FormatL L_FormatX L_FormatM
  C_Format C_FormatF L_FloatIn L_FloatR L_FloatBack C_FloatIn.
Local Open Scope R_scope.

(* a text that begins with a number off by at most d of v *)
Definition near_text (t : str) (v : double) (d : R) : Prop :=
  exists neg ip fp ex x, leading_float t neg ip fp ex /\ denotes neg ip fp ex x /\ Rabs (x - val v) <= d * Rabs (val v).

Lemma two_bpow z : powerRZ 2 z = bpow radix2 z.
Proof. change 2%R with (IZR radix2). symmetry. apply bpow_powerRZ. Qed.

Lemma near_text_back t (v : double) d : fin v -> bpow radix2 (-1015) <= Rabs (val v) <= bpow radix2 1000 -> 0 <= d <= 5 -> near_text t v d ->
  exists v', read_double t = RdOk v' /\ fin v' /\ Rabs (val v' - val v) <= (d + bpow radix2 (-50)) * Rabs (val v).
Proof.
  intros F (Lo & Hi) Hd (neg & ip & fp & ex & x & L & D & Ac).
  set (V := Rabs (val v)) in *. assert (PL := bpow_gt_0 radix2 (-1015)). assert (PV : 0 < V) by lra.
  assert (Xb : Rabs x <= 6 * V).
  { replace x with (val v + (x - val v)) by ring. apply Rle_trans with (1 := Rabs_triang _ _). fold V.
    assert (d * V <= 5 * V) by (apply Rmult_le_compat_r; lra). lra. }
  assert (Er : Rabs (nearest_even 53 1024 x - x) <= bpow radix2 (-50) * V).
  { destruct (nearest_err 53 1024 prec64 x) as [A|A]; apply Rle_trans with (1 := A).
    - apply Rle_trans with (bpow radix2 (- (53)) * (6 * V)); [apply Rmult_le_compat_l; [apply bpow_ge_0|exact Xb]|].
      change (bpow radix2 (- (53))) with (/ 9007199254740992). change (bpow radix2 (-50)) with (/ 1125899906842624). lra.
    - apply Rle_trans with (bpow radix2 (-50) * bpow radix2 (-1015)); [rewrite <- bpow_plus; apply bpow_le; lia|].
      apply Rmult_le_compat_l; [apply bpow_ge_0|exact Lo]. }
  assert (Fits : Rabs (nearest_even 53 1024 x) < bpow radix2 1024).
  { replace (nearest_even 53 1024 x) with ((nearest_even 53 1024 x - x) + x) by ring. apply Rle_lt_trans with (1 := Rabs_triang _ _).
    replace (bpow radix2 1024) with (bpow radix2 1000 * 16777216) by (change 16777216 with (bpow radix2 24); rewrite <- bpow_plus; reflexivity).
    change (bpow radix2 (-50)) with (/ 1125899906842624) in Er. lra. }
  assert (Dn := D). destruct D as (n & Vn & Xv).
  assert (O := dec_to_float_ok 53 1024 prec64 emax64 neg n (ex - Z.of_nat (length fp)) x Xv).
  rewrite Rlt_bool_true in O by exact Fits. set (v' := dec_to_float 53 1024 neg n (ex - Z.of_nat (length fp))) in *.
  exists v'. split; [apply (read_double_ok t v' neg ip fp ex x); [exact L|exact Dn|exact O]|].
  destruct O as (Fi & _ & Q & _). split; [exact Fi|]. rewrite Q.
  replace (nearest_even 53 1024 x - val v) with ((nearest_even 53 1024 x - x) + (x - val v)) by ring.
  apply Rle_trans with (1 := Rabs_triang _ _). lra.
Qed.

(* ---- 's' ---- *)
Definition margin (p : Z) : R := 5 * bpow radix10 (- p) - / 100000000.
Lemma pow_p p : (0 <= p <= 4)%Z -> / 10000 <= bpow radix10 (- p) <= 1.
Proof. intros H. split; [change (/ 10000) with (bpow radix10 (-4))|change 1 with (bpow radix10 0)]; apply bpow_le; lia. Qed.
Lemma sci_margin fuel sep (v : double) w p : fin v -> val v <> 0 -> (0 <= p <= 4)%Z -> (0 <= requested w p < two31)%Z ->
  exists t, addF_text fuel sep v "s" w p = Some (Ok t) /\ near_text t v (margin p).
Proof.
  intros F N Hp Hw. destruct (sci_near fuel sep v w p F ltac:(unfold two31; lia) Hw) as (t & E & (ip & fp & ex & x & L & D & C)).
  exists t. split; [exact E|]. exists (Bsign v), ip, fp, ex, x. split; [exact L|]. split; [exact D|].
  destruct C as [(Z0 & _)|(_ & q & Q & Er)]; [contradiction|].
  rewrite r10 in Q. rewrite r10 in Er. replace (q - p)%Z with (q + - p)%Z in Er by lia. rewrite bpow_plus in Er.
  assert (H := pow_p p Hp). unfold margin. set (h := bpow radix10 (- p)) in *. set (V := Rabs (val v)).
  assert (PV : 0 < V) by (apply Rabs_pos_lt; exact N).
  assert (A1 : bpow radix10 q * h <= Rabs x * h) by (apply Rmult_le_compat_r; lra).
  assert (T : Rabs x <= V + Rabs (x - val v)).
  { replace x with (val v + (x - val v)) at 1 by ring. apply Rabs_triang. }
  assert (Px := Rabs_pos x).
  assert (A2 : Rabs x * h <= Rabs x * 1) by (apply Rmult_le_compat_l; lra).
  assert (X2 : Rabs x <= 2 * V) by lra.
  assert (A3 : Rabs x * h <= 2 * V * h) by (apply Rmult_le_compat_r; lra).
  assert (A4 : / 10000 * V <= h * V) by (apply Rmult_le_compat_r; lra). lra.
Qed.

(* ---- 'g' ---- *)
Lemma g_real c k z : 1 <= IZR c -> (c <= k)%Z -> IZR c - / 4 <= z -> Rabs (IZR k - z) <= / 2 -> Rabs (IZR k - z) * (2 * IZR c + 1) <= z.
Proof.
  intros C K Z1 E. destruct (Z.eq_dec k c) as [->|Nk].
  - apply Rabs_le_inv in E. destruct (Rle_or_lt (IZR c) z) as [G|L].
    + rewrite Rabs_left1 by lra. assert (z * (2 * IZR c) <= (IZR c + / 2) * (2 * IZR c)) by (apply Rmult_le_compat_r; lra). lra.
    + rewrite Rabs_pos_eq by lra. assert ((IZR c - z) * (2 * IZR c + 1) <= / 4 * (2 * IZR c + 1)) by (apply Rmult_le_compat_r; lra). lra.
  - assert (K1 : IZR (c + 1) <= IZR k) by (apply IZR_le; lia). rewrite plus_IZR in K1.
    assert (Rabs (IZR k - z) * (2 * IZR c + 1) <= / 2 * (2 * IZR c + 1)) by (apply Rmult_le_compat_r; lra).
    apply Rabs_le_inv in E. lra.
Qed.
Lemma gen_parts fuel sep v w sd : fin v -> val v <> 0 -> (0 <= sd < two31)%Z -> (0 <= requested w sd < two31)%Z ->
  exists t ip fp ex x, addF_text fuel sep v "g" w sd = Some (Ok t) /\ leading_float t (Bsign v) ip fp ex /\ denotes (Bsign v) ip fp ex x /\
    Rabs (x - val v) * (2 * IZR (10 ^ (Z.max 1 sd - 1)) + 1) <= Rabs (val v).
Proof.
  intros F N Hs Hw. rewrite text_fin by exact F. cbv zeta.
  change (Ascii.eqb "g" "f") with false. change (Ascii.eqb "g" "s") with false. change (Ascii.eqb "g" "g") with true. cbv iota.
  rewrite stream_prec_ok by exact Hs.
  assert (G : exists ip fp ex x,
    (ex = 0%Z /\ put_gen sd v = decimal (Bsign v) ip fp \/ scientific (put_gen sd v) (Bsign v) ip fp ex) /\
    ip <> [] /\ all_digits ip /\ all_digits fp /\ denotes (Bsign v) ip fp ex x /\
    Rabs (x - val v) * (2 * IZR (10 ^ (Z.max 1 sd - 1)) + 1) <= Rabs (val v)).
  2:{ destruct G as (ip & fp & ex & x & B & Ne & Di & Df & D & A). eexists _, ip, fp, ex, x. split; [reflexivity|].
      split; [|split; [exact D|exact A]]. destruct (field_just (requested w sd) (put_gen sd v) Hw) as (k & -> & _).
      assert (Nm : exists pt xp, float_numeral (put_gen sd v) (Bsign v) ip pt fp xp ex).
      { destruct B as [(-> & ->)|SC].
        - destruct (dec_numeral (Bsign v) ip fp Ne Di Df) as (pt & Nm). eauto.
        - destruct (sci_numeral _ _ _ _ _ Ne Di Df SC) as (pt & xp & Nm & _). eauto. }
      destruct Nm as (pt & xp & Nm). apply (leading_just [] k _ _ _ _ _ _ _ ltac:(constructor) Nm). }
  unfold put_gen. assert (EP : (if (sd =? 0)%Z then 1%Z else sd) = Z.max 1 sd) by (destruct (Z.eqb_spec sd 0); lia). rewrite EP.
  set (P := Z.max 1 sd). assert (P1 : (0 <= P - 1)%Z) by lia.
  assert (D := sci_ok (P - 1) v F N P1). destruct (sci_parts (P - 1) v) as [n q]. destruct D as (B & A & R).
  assert (SD : forall s, all_digits s -> all_digits (drop_zeros s)).
  { intros s Hd. destruct (drop_zeros_ok s) as (k & E & _). unfold all_digits in *. rewrite E, forallb_app in Hd. apply andb_true_iff in Hd. tauto. }
  assert (C1 : 1 <= IZR (10 ^ (P - 1))) by (apply (IZR_le 1); assert (X := pow10_pos (P - 1) P1); lia).
  assert (Sg : forall a b, Rabs ((if Bsign v then -1 else 1) * a - (if Bsign v then -1 else 1) * b) = Rabs (a - b)).
  { intros a b. destruct (Bsign v); [rewrite <- (Rabs_Ropp (a - b))|]; f_equal; ring. }
  assert (Fin : forall k u z, 0 < u -> Rabs (val v) = z * u -> Rabs (IZR k - z) * (2 * IZR (10 ^ (P - 1)) + 1) <= z ->
    Rabs ((if Bsign v then -1 else 1) * (IZR k * u) - val v) * (2 * IZR (10 ^ (P - 1)) + 1) <= Rabs (val v)).
  { intros k u z U Ev H. rewrite (sign_abs v F) at 1. rewrite Sg, Ev, <- Rmult_minus_distr_r, Rabs_mult, (Rabs_pos_eq u) by lra.
    rewrite (Rmult_comm (Rabs _) u), Rmult_assoc, (Rmult_comm u). apply Rmult_le_compat_r; [lra|exact H]. }
  destruct ((-4 <=? q) && (q <? P))%Z%bool eqn:C.
  - apply andb_true_iff in C. destruct C as (C2 & C3). apply Z.leb_le in C2. apply Z.ltb_lt in C3.
    unfold fixed_parts. assert (D := dec_parts_ok v F). destruct (dec_parts v) as [m e]. destruct D as (Hm & Av & _).
    destruct (scale10_ok m (e + (P - 1 - q)) Hm) as (N0 & NE). set (k := scale10 m (e + (P - 1 - q))) in *.
    destruct (split_digits k (P - 1 - q) (Bsign v) 0 N0 ltac:(lia)) as (L & Ai & Af & NI & _ & _ & Dn).
    set (ip := zdec (k / 10 ^ (P - 1 - q))) in *. set (fp := zdec_pad (P - 1 - q) (k mod 10 ^ (P - 1 - q))) in *.
    exists ip, (drop_zeros fp), 0%Z. eexists.
    split; [left; split; [reflexivity|]; rewrite point_fraction, sign_minus; reflexivity|].
    split; [exact NI|]. split; [exact Ai|]. split; [apply SD; exact Af|]. split; [apply denotes_drop; [exact NI|exact Dn]|].
    set (u := bpow radix10 (0 - (P - 1 - q))). assert (U0 : 0 < u) by apply bpow_gt_0.
    assert (Eu2 : bpow radix10 (q - (P - 1)) = u) by (unfold u; f_equal; lia).
    assert (Vu : Rabs (val v) = IZR m * bpow radix10 (e + (P - 1 - q)) * u).
    { rewrite Av, Rmult_assoc. unfold u. rewrite <- bpow_plus. f_equal. f_equal. lia. }
    assert (Q1 : bpow radix10 q = IZR (10 ^ (P - 1)) * u).
    { rewrite <- bpow10_Z by exact P1. unfold u. rewrite <- bpow_plus. f_equal. lia. }
    rewrite Eu2, Q1, Vu in R. set (z := IZR m * bpow radix10 (e + (P - 1 - q))) in *.
    assert (Z1 : IZR (10 ^ (P - 1)) - / 4 <= z) by (apply Rmult_le_reg_r with u; [exact U0|]; lra).
    apply (Fin k u z U0 Vu). apply g_real; [exact C1| |exact Z1|exact NE]. apply half_ge with z; [exact NE|exact Z1].
  - destruct (one_digit n (P - 1) P1 B) as (c & Ec & Nc & Dc).
    assert (Pp := pow10_pos (P - 1) P1).
    destruct (split_digits n (P - 1) (Bsign v) q ltac:(lia) P1) as (L & Ai & Af & NI & _ & _ & Dn). rewrite Ec in *.
    set (fp := zdec_pad (P - 1) (n mod 10 ^ (P - 1))) in *.
    destruct (exp_text_ok q) as (ed & Ee & Ae & Le & Ve).
    exists [c], (drop_zeros fp), q. eexists.
    split. { right. exists ed. split; [|auto]. rewrite Ee, point_fraction, sign_minus. unfold decimal. rewrite <- !app_assoc. reflexivity. }
    split; [exact NI|]. split; [exact Ai|]. split; [apply SD; exact Af|]. split; [apply denotes_drop; [exact NI|exact Dn]|].
    set (u := bpow radix10 (q - (P - 1))) in *. assert (U0 : 0 < u) by apply bpow_gt_0.
    assert (Q1 : bpow radix10 q = IZR (10 ^ (P - 1)) * u).
    { rewrite <- bpow10_Z by exact P1. unfold u. rewrite <- bpow_plus. f_equal. lia. }
    set (z := Rabs (val v) / u). assert (Vu : Rabs (val v) = z * u) by (unfold z; field; lra).
    rewrite Q1, Vu in R. rewrite Vu, <- Rmult_minus_distr_r, Rabs_mult, (Rabs_pos_eq u) in A by lra.
    assert (NE : Rabs (IZR n - z) <= / 2) by (apply Rmult_le_reg_r with u; [exact U0|exact A]).
    assert (Z1 : IZR (10 ^ (P - 1)) - / 4 <= z) by (apply Rmult_le_reg_r with u; [exact U0|]; lra).
    apply (Fin n u z U0 Vu). apply g_real; [exact C1|lia|exact Z1|exact NE].
Qed.
Lemma gen_margin fuel sep (v : double) w p : fin v -> val v <> 0 -> (0 <= p <= 4)%Z -> (0 <= requested w p < two31)%Z ->
  exists t, addF_text fuel sep v "g" w p = Some (Ok t) /\ near_text t v (margin p).
Proof.
  intros F N Hp Hw. destruct (gen_parts fuel sep v w p F N ltac:(unfold two31; lia) Hw) as (t & ip & fp & ex & x & E & L & D & A).
  exists t. split; [exact E|]. exists (Bsign v), ip, fp, ex, x. split; [exact L|]. split; [exact D|]. unfold margin.
  set (a := Rabs (x - val v)) in *. set (V := Rabs (val v)) in *. assert (Pa : 0 <= a) by apply Rabs_pos.
  assert (C : (p = 0 \/ p = 1 \/ p = 2 \/ p = 3 \/ p = 4)%Z) by lia.
  destruct C as [-> |[-> |[-> |[-> | ->]]]].
  - change (10 ^ (Z.max 1 0 - 1))%Z with 1%Z in A. change (bpow radix10 (- (0))) with (1). lra.
  - change (10 ^ (Z.max 1 1 - 1))%Z with 1%Z in A. change (bpow radix10 (- (1))) with (/ 10). lra.
  - change (10 ^ (Z.max 1 2 - 1))%Z with 10%Z in A. change (bpow radix10 (- (2))) with (/ 100). lra.
  - change (10 ^ (Z.max 1 3 - 1))%Z with 100%Z in A. change (bpow radix10 (- (3))) with (/ 1000). lra.
  - change (10 ^ (Z.max 1 4 - 1))%Z with 1000%Z in A. change (bpow radix10 (- (4))) with (/ 10000). lra.
Qed.

(* ---- 'e' ---- *)
Lemma margin_scaled x m Y P f err h d c N :
  1 <= m <= 10 -> near 308 m x -> near 740 Y (x + 5 * h) -> / 10000 <= h <= / 10 ->
  0 <= f < 1 -> Rabs err <= Y * (/ 1000000000000000) ->
  bpow radix10 (d - 1) < Y <= bpow radix10 d ->
  P + f * (bpow radix10 d * h) = Y + err -> P = IZR N * (bpow radix10 d * h) -> bpow radix10 (d - 1) <= P ->
  IZR c * (10 * h) = 1 ->
  Rabs (P - x) <= (5 * h - / 100000000) * x.
Proof.
  intros Hm Nm NY Hh Hf He HY EP EN LP Ec.
  apply near_308, Rabs_le_inv in Nm. assert (PY : 0 < Y) by apply NY. apply near_740, Rabs_le_inv in NY. apply Rabs_le_inv in He.
  assert (X : 9999 / 10000 <= x <= 10001 / 1000) by lra.
  assert (Y1 : 1 < Y < 11) by lra.
  assert (D : (d = 1 \/ d = 2)%Z).
  { assert (L : (0 < d)%Z) by (apply (lt_bpow radix10); change (bpow radix10 0) with 1; lra).
    assert (U : (d - 1 < 2)%Z) by (apply (lt_bpow radix10); change (bpow radix10 2) with 100; lra). lia. }
  destruct D as [-> | ->].
  - change (bpow radix10 1) with 10 in *. change (bpow radix10 (1 - 1)) with 1 in *.
    assert (F10 : 0 <= f * (10 * h) <= 10 * h) by (split; nra).
    assert (A : Rabs (P - x) <= 5 * h + (x + 5 * h) * (165 / 1000000000000000) + Y * / 1000000000000000).
    { apply Rabs_le. split; lra. }
    destruct (Rle_or_lt (1 + 45 / 10 * h) x) as [G|L].
    + eapply Rle_trans; [exact A|]. assert (0 <= (h - / 10000) * (x - 1)) by (apply Rmult_le_pos; lra). lra.
    + assert (E1 : P = 1).
      { rewrite EN, <- Ec. apply multiple_eq; [lra|rewrite Ec; lra|]. rewrite Rmult_plus_distr_r, Ec. lra. }
      rewrite E1. apply Rabs_le. assert (h * (9999 / 10000) <= h * x) by (apply Rmult_le_compat_l; lra). split; lra.
  - change (bpow radix10 2) with 100 in *. change (bpow radix10 (2 - 1)) with 10 in *.
    assert (E1 : P = 10).
    { replace 10 with (IZR c * (100 * h)) by lra. rewrite EN. apply multiple_eq; [lra| |].
      - replace (IZR c * (100 * h)) with (IZR c * (10 * h) * 10) by ring. rewrite Ec. lra.
      - replace ((IZR c + 1) * (100 * h)) with (IZR c * (10 * h) * 10 + 100 * h) by ring. rewrite Ec.
        assert (0 <= f * (100 * h)) by (apply Rmult_le_pos; lra). lra. }
    assert (X9 : 9 <= x) by lra. assert (h * 9 <= h * x) by (apply Rmult_le_compat_l; lra).
    rewrite E1. apply Rabs_le; split; lra.
Qed.
Lemma eng_accuracy fuel v sd e y p : fin v -> bpow radix2 (-1015) <= val v -> (1 <= sd <= 4)%Z ->
  log1k fuel v sd = Some (e, y) -> shape (val y) sd p ->
  Rabs (printed p * bpow radix10 e - val v) <= margin sd * val v.
Proof.
  intros Fv Hv Hs EL HS. destruct (log1k_near fuel v sd e y Fv Hv ltac:(lia) EL) as (Fy & By & K & m & Hm & Nm & NY).
  assert (S31 : (1 <= sd < two31)%Z) by (unfold two31; lia).
  destruct (printed_multiple _ _ _ HS ltac:(lra) S31) as ((N & EN) & LP).
  destruct (shape_near _ _ _ HS S31) as (f & Hf & ER).
  unfold margin. set (h := bpow radix10 (- sd)). set (w := p_iwid p) in *.
  set (s := bpow radix10 (- K)). assert (S0 : 0 < s) by apply bpow_gt_0.
  set (g := bpow radix10 (e - K)). assert (G0 : 0 < g) by apply bpow_gt_0.
  assert (Eg : bpow radix10 e * s = g) by (unfold s, g, Z.sub; symmetry; apply bpow_plus).
  assert (Hh : / 10000 <= h <= / 10).
  { unfold h. split; [change (/ 10000) with (bpow radix10 (-4))|change (/ 10) with (bpow radix10 (-1))]; apply bpow_le; lia. }
  assert (K5 : (val v + 5 * bpow radix10 (K - sd)) * s = val v * s + 5 * h).
  { rewrite Rmult_plus_distr_r, Rmult_assoc. unfold s, h. rewrite <- bpow_plus. replace (K - sd + - K)%Z with (- sd)%Z by lia. reflexivity. }
  apply (near_scale _ _ _ s) in NY; [|exact S0]. rewrite K5, Rmult_assoc, Eg in NY.
  assert (BQ : bpow radix10 (w + (e - K)) * h = bpow radix10 (w - sd) * g).
  { unfold h, g. rewrite <- !bpow_plus. f_equal. lia. }
  assert (A : Rabs (printed p * g - val v * s) <= (5 * h - / 100000000) * (val v * s)).
  { apply (margin_scaled (val v * s) m (val y * g) (printed p * g) f ((printed p + f * bpow radix10 (w - sd) - val y) * g) h
      (w + (e - K)) (10 ^ (sd - 1)) N Hm Nm NY Hh Hf).
    - rewrite Rabs_mult, (Rabs_pos_eq g) by lra. rewrite (Rmult_comm (val y)), (Rmult_comm _ g), Rmult_assoc.
      apply Rmult_le_compat_l; [lra|]. eapply Rle_trans; [exact ER|].
      change (bpow radix2 (-50)) with (/ 1125899906842624). lra.
    - replace (w + (e - K) - 1)%Z with ((w - 1) + (e - K))%Z by lia. rewrite !bpow_plus. fold g.
      assert (L : bpow radix10 (w - 1) < val y <= bpow radix10 w).
      { destruct (sh_lo _ _ _ HS) as [(W0 & ->)|(W1 & L & U)].
        - fold w in W0. rewrite W0. change (bpow radix10 (0 - 1)) with (/ 10). change (bpow radix10 0) with 1. lra.
        - fold w in W1, L, U. rewrite <- !IZR_Zpower by lia. split; [exact L|exact U]. }
      split; [apply Rmult_lt_compat_r; lra|apply Rmult_le_compat_r; lra].
    - rewrite BQ. ring.
    - rewrite BQ, EN. ring.
    - replace (w + (e - K) - 1)%Z with ((w - 1) + (e - K))%Z by lia. rewrite bpow_plus. fold g. apply Rmult_le_compat_r; lra.
    - assert (Q : IZR (10 ^ (sd - 1)) = bpow radix10 (sd - 1)) by (rewrite <- IZR_Zpower by lia; reflexivity).
      rewrite Q. change 10 with (bpow radix10 1). unfold h. rewrite <- !bpow_plus. replace (sd - 1 + (1 + - sd))%Z with 0%Z by lia. reflexivity. }
  assert (Re : printed p * g - val v * s = (printed p * bpow radix10 e - val v) * s) by (rewrite <- Eg; ring).
  rewrite Re, Rabs_mult, (Rabs_pos_eq s), <- Rmult_assoc in A by lra.
  apply Rmult_le_reg_r with s; [exact S0|exact A].
Qed.
(* no digits: 0, or the power of ten reached by the rounding *)
Lemma shape_none y p : shape y 0 p -> 1 <= y ->
  p_fwid p = 0%Z /\ p_frac p = 0%Z /\ (p_int p = 0%Z \/ p_int p = (10 ^ p_iwid p)%Z /\ y = IZR (10 ^ p_iwid p)).
Proof.
  intros H Hy. assert (W := sh_wid _ _ _ H). assert (FW := sh_fwid _ _ _ H). rewrite Z.min_r, Z.sub_diag in FW by lia. change (Z.max 0 (to_i32 0)) with 0%Z in FW.
  split; [exact FW|]. assert (FR := sh_frac _ _ _ H). rewrite FW in FR. change (10 ^ 0)%Z with 1%Z in FR. split; [lia|].
  rewrite (sh_int _ _ _ H). rewrite Z.sub_0_r, Z.max_r by lia. assert (P := pow10_pos (p_iwid p) ltac:(lia)).
  assert (B : (Zfloor y < 10 ^ p_iwid p)%Z \/ y = IZR (10 ^ p_iwid p)).
  { destruct (sh_lo _ _ _ H) as [(E & ->)|(_ & _ & U)]; [right; rewrite E; reflexivity|].
    destruct U as [U|U]; [left|right; exact U]. apply lt_IZR. apply Rle_lt_trans with (2 := U). apply Zfloor_lb. }
  assert (F1 : (1 <= Zfloor y)%Z) by (apply Zfloor_lub; exact Hy).
  destruct B as [L|E]; [left; rewrite Z.mod_small by lia; lia|right; split; [|exact E]].
  rewrite E, Zfloor_IZR, Z.mod_same by lia. lia.
Qed.
Lemma eng_accuracy0 fuel v e y p : fin v -> bpow radix2 (-1015) <= val v ->
  log1k fuel v 0 = Some (e, y) -> shape (val y) 0 p ->
  Rabs (printed p * bpow radix10 e - val v) <= margin 0 * val v.
Proof.
  intros Fv Hv EL HS. destruct (log1k_near fuel v 0 e y Fv Hv ltac:(lia) EL) as (Fy & By & K & m & Hm & Nm & NY).
  assert (PV := bpow_gt_0 radix2 (-1015)).
  unfold margin. change (bpow radix10 (- (0))) with 1. destruct (shape_none _ _ HS ltac:(lra)) as (FW & FR & C). unfold printed. rewrite FW, FR.
  change (10 ^ 0)%Z with 1%Z.
  destruct C as [-> |(EI & Ey)]; [rewrite Rabs_left1; lra|].
  set (s := bpow radix10 (- K)). assert (S0 : 0 < s) by apply bpow_gt_0.
  assert (K5 : (val v + 5 * bpow radix10 (K - 0)) * s = val v * s + 5).
  { rewrite Rmult_plus_distr_r, (Rmult_assoc 5). unfold s. rewrite <- bpow_plus. replace (K - 0 + - K)%Z with 0%Z by lia. change (bpow radix10 0) with 1. ring. }
  apply (near_scale _ _ _ s) in NY; [|exact S0]. rewrite K5 in NY. fold s in Nm.
  apply near_308, Rabs_le_inv in Nm. apply near_740, Rabs_le_inv in NY.
  assert (W := sh_wid _ _ _ HS).
  set (d := (p_iwid p + e - K)%Z).
  assert (Ed : val y * bpow radix10 e * s = bpow radix10 d).
  { rewrite Ey, <- bpow10_Z by lia. unfold s, d. rewrite <- !bpow_plus. reflexivity. }
  rewrite Ed in NY. set (x := val v * s) in *.
  assert (D : d = 1%Z).
  { assert (L : (0 < d)%Z) by (apply (lt_bpow radix10); change (bpow radix10 0) with 1; lra).
    assert (U : (d < 2)%Z) by (apply (lt_bpow radix10); change (bpow radix10 2) with 100; lra). lia. }
  rewrite D in NY, Ed. change (bpow radix10 1) with 10 in NY, Ed.
  apply Rmult_le_reg_r with s; [exact S0|]. rewrite <- (Rabs_pos_eq s) at 1 by lra. rewrite <- Rabs_mult.
  replace (((IZR (p_int p) + 0 / 1) * bpow radix10 e - val v) * s) with (10 - x) by (unfold x; rewrite EI, <- Ey, <- Ed; field).
  rewrite Rmult_assoc. fold x. apply Rabs_le. split; lra.
Qed.

Lemma eng_form_full v width sd e y p : fin v -> shape y sd p -> 1 <= y -> (p_iwid p <= Z.of_nat (length (zdec (p_int p))))%Z ->
  engineering (eng_text v width e p) (dlt v dzero) (zdec (p_int p)) (frac_digits p) e.
Proof.
  intros Fv H Hy Hl. assert (W := sh_wid _ _ _ H). assert (FW := shape_fwid0 _ _ _ H).
  destruct (frac_digits_ok _ _ _ H FW) as (Lf & Df & Vf).
  assert (IP := shape_int_pos _ _ _ H Hy).
  unfold eng_text. rewrite (put_int_pos (p_int p)) by exact IP. rewrite pad_r_full by exact Hl.
  assert (FT : (if (0 <? p_fwid p)%Z then lit "." ++ pad_l "0"%char (p_fwid p) (put_int (p_frac p)) else []) = fraction (frac_digits p)).
  { rewrite put_int_pos by apply (sh_frac _ _ _ H). unfold frac_digits in *. destruct (Z.ltb_spec 0 (p_fwid p)) as [G|L]; [|reflexivity].
    unfold fraction. destruct (pad_l _ _ _); [cbn in Lf; lia|reflexivity]. }
  rewrite FT.
  exists (zdec (Z.abs e)), (repeat " "%char (fill_count 2 (zdec (Z.abs e))) ++ repeat " "%char (Z.to_nat (to_i32 (width - (p_iwid p + p_fwid p + 4))))).
  split; [|split; [|split; [|split; [|split]]]].
  - destruct (Z.ltb_spec e 0) as [L|G].
    + rewrite put_int_pos by lia. replace (Z.abs e) with (- e)%Z by lia. unfold pad_r. destruct (dlt v dzero); rewrite <- !app_assoc; reflexivity.
    + rewrite put_int_pos by lia. replace (Z.abs e) with e by lia. unfold pad_r. destruct (dlt v dzero); rewrite <- !app_assoc; reflexivity.
  - apply put_dec_nonempty.
  - apply zdec_digits.
  - exact Df.
  - apply put_dec_spec.
  - intros c Hc. apply in_app_or in Hc. destruct Hc as [Hc|Hc]; apply repeat_spec in Hc; exact Hc.
Qed.
(* the text begins with the printed number, also when the digits of the integer
   part are filled up with spaces: then the number is 0 *)
Lemma eng_reads v width sd e y p : fin v -> shape y sd p -> 1 <= y -> (0 <= sd)%Z ->
  exists neg ip fp ex, (neg = true <-> val v < 0) /\ leading_float (eng_text v width e p) neg ip fp ex /\
    denotes neg ip fp ex ((if neg then -1 else 1) * (printed p * bpow radix10 e)).
Proof.
  intros Fv H Hy Hs.
  assert (C : (p_iwid p <= Z.of_nat (length (zdec (p_int p))))%Z \/ sd = 0%Z /\ p_int p = 0%Z /\ (2 <= p_iwid p)%Z).
  { destruct (Z.eq_dec sd 0) as [-> |N].
    - destruct (shape_none _ _ H Hy) as (_ & _ & [E|(E & _)]).
      + rewrite E. replace (length (zdec 0)) with 1%nat by reflexivity. destruct (Z_le_dec (p_iwid p) 1); [left; lia|right; lia].
      + left. assert (W := sh_wid _ _ _ H). assert (X : (p_iwid p = 0 \/ p_iwid p = 1 \/ p_iwid p = 2 \/ p_iwid p = 3)%Z) by lia.
        rewrite E. destruct X as [-> |[-> |[-> | ->]]]; vm_compute; congruence.
    - left. assert (S1 : (1 <= sd)%Z) by lia. destruct (int_len _ _ _ H S1) as [(_ & ->)|(_ & _ & ->)]; lia. }
  destruct C as [Hl|(-> & I0 & W2)].
  - exists (dlt v dzero), (zdec (p_int p)), (frac_digits p), e. split; [apply dlt_zero; exact Fv|].
    split; [apply eng_leading; eapply eng_form_full; eassumption|eapply eng_denotes; eassumption].
  - destruct (shape_none _ _ H Hy) as (FW & FR & _).
    exists (dlt v dzero), (lit "0"), [], 0%Z. split; [apply dlt_zero; exact Fv|]. split.
    + unfold eng_text. rewrite I0, FW. change (put_int 0) with (lit "0"). change (0 <? 0)%Z with false. cbv iota. unfold pad_r.
      assert (FC : exists k, fill_count (p_iwid p) (lit "0") = S k) by (exists (Z.to_nat (p_iwid p - 2)); unfold fill_count; replace (length (lit "0")) with 1%nat by reflexivity; lia).
      destruct FC as (k & ->). cbn [repeat].
      set (rest := lit "e" ++ _).
      exists (if dlt v dzero then [] else lit " "), (minus (dlt v dzero) ++ lit "0"), [], [], (" "%char :: repeat " "%char k ++ rest).
      split; [destruct (dlt v dzero); reflexivity|]. split; [destruct (dlt v dzero); repeat constructor|]. split.
      * exists (minus (dlt v dzero)). split; [reflexivity|]. split; [apply minus_sign|]. split; [reflexivity|]. split; [reflexivity|]. split; [discriminate|]. split; [right; auto|left; auto].
      * split; [reflexivity|]. split; [split; discriminate|discriminate].
    + exists 0%N. split; [reflexivity|]. unfold printed. rewrite I0, FR, FW. cbn [Z.of_N]. change (10 ^ 0)%Z with 1%Z. field.
Qed.
Lemma eng_margin fuel sep (v : double) w p : (500 < fuel)%nat -> fin v -> bpow radix2 (-1015) <= Rabs (val v) <= bpow radix2 1000 -> (0 <= p <= 4)%Z ->
  exists t, addF_text fuel sep v "e" w p = Some (Ok t) /\ near_text t v (margin p).
Proof.
  intros Hfu F (Lo & Hi) Hp. assert (PL := bpow_gt_0 radix2 (-1015)).
  assert (N : val v <> 0) by (intros Q; rewrite Q, Rabs_R0 in Lo; lra).
  destruct (defined fuel sep v "e" w p) as (t & E); [exact Hfu|lia|exact F| |].
  { right. split.
    - rewrite two_bpow. apply Rle_trans with (2 := Lo). replace (-1015)%Z with (2 + 57 + -1074)%Z by lia. rewrite 2!bpow_plus. change (bpow radix2 2) with 4.
      assert (A := bpow_ge_0 radix2 (-1074)). assert (B : 1 <= bpow radix2 57) by (change 1 with (bpow radix2 0); apply bpow_le; lia). nra.
    - eapply Rle_trans; [exact Hi|]. apply Rle_trans with (bpow radix2 1023); [apply bpow_le; lia|]. apply under_limit. unfold two32; lia. }
  exists t. split; [exact E|].
  assert (H32 : (0 <= p < two32)%Z) by (unfold two32; lia). destruct (eng_inv _ _ _ _ _ _ F N H32 E) as (e & y & q & EL & Fy & By & T & EF & HS & ->).
  destruct (eng_reads v (requested w p) p e (val y) q F HS (proj1 By) (proj1 Hp)) as (neg & ip & fp & ex & Sg & L & D).
  exists neg, ip, fp, ex, ((if neg then -1 else 1) * (printed q * bpow radix10 e)). split; [exact L|]. split; [exact D|].
  destruct (dabs_ok v F) as (Fa & Va). rewrite to_i32_small in EL by (unfold two31 in *; lia). rewrite <- Va in Lo |- *.
  assert (A : Rabs (printed q * bpow radix10 e - val (dabs v)) <= margin p * val (dabs v)).
  { destruct (Z.eq_dec p 0) as [-> |N0]; [exact (eng_accuracy0 fuel (dabs v) e y q Fa Lo EL HS)|].
    apply (eng_accuracy fuel (dabs v) p e y q Fa Lo ltac:(lia) EL HS). }
  apply Rle_trans with (2 := A). right. rewrite Va. destruct neg.
  - rewrite (Rabs_left (val v)) by (apply Sg; reflexivity).
    replace (-1 * (printed q * bpow radix10 e) - val v) with (- (printed q * bpow radix10 e - - val v)) by ring. apply Rabs_Ropp.
  - rewrite (Rabs_pos_eq (val v)). { f_equal. ring. } apply Rnot_lt_le. intros H. apply Sg in H. discriminate.
Qed.

(* ---- the check ---- *)
Lemma dec_val (x : double) s m e : B2SF x = SpecFloat.S754_finite s m e -> fin x /\ val x = IZR (SpecFloat.cond_Zopp s (Z.pos m)) * bpow radix2 e.
Proof. destruct x; try discriminate. intros [= -> -> ->]. split; reflexivity. Qed.
Lemma norm0 : fin (dmul (dlit 5) (dpow10 (- (0)))) /\ Rabs (val (dmul (dlit 5) (dpow10 (- (0)))) - 5 * bpow radix10 (- (0))) <= / 1000000000000.
Proof.
  destruct (dec_val (dmul (dlit 5) (dpow10 (- (0)))) false 5629499534213120 (-50) ltac:(vm_compute; reflexivity)) as (F & ->). split; [exact F|].
  change (bpow radix2 (-50)) with (/ 1125899906842624). change (bpow radix10 (- (0))) with (1). cbn [SpecFloat.cond_Zopp]. apply Rabs_le. split; lra.
Qed.
Lemma norm1 : fin (dmul (dlit 5) (dpow10 (- (1)))) /\ Rabs (val (dmul (dlit 5) (dpow10 (- (1)))) - 5 * bpow radix10 (- (1))) <= / 1000000000000.
Proof.
  destruct (dec_val (dmul (dlit 5) (dpow10 (- (1)))) false 4503599627370496 (-53) ltac:(vm_compute; reflexivity)) as (F & ->). split; [exact F|].
  change (bpow radix2 (-53)) with (/ 9007199254740992). change (bpow radix10 (- (1))) with (/ 10). cbn [SpecFloat.cond_Zopp]. apply Rabs_le. split; lra.
Qed.
Lemma norm2 : fin (dmul (dlit 5) (dpow10 (- (2)))) /\ Rabs (val (dmul (dlit 5) (dpow10 (- (2)))) - 5 * bpow radix10 (- (2))) <= / 1000000000000.
Proof.
  destruct (dec_val (dmul (dlit 5) (dpow10 (- (2)))) false 7205759403792794 (-57) ltac:(vm_compute; reflexivity)) as (F & ->). split; [exact F|].
  change (bpow radix2 (-57)) with (/ 144115188075855872). change (bpow radix10 (- (2))) with (/ 100). cbn [SpecFloat.cond_Zopp]. apply Rabs_le. split; lra.
Qed.
Lemma norm3 : fin (dmul (dlit 5) (dpow10 (- (3)))) /\ Rabs (val (dmul (dlit 5) (dpow10 (- (3)))) - 5 * bpow radix10 (- (3))) <= / 1000000000000.
Proof.
  destruct (dec_val (dmul (dlit 5) (dpow10 (- (3)))) false 5764607523034235 (-60) ltac:(vm_compute; reflexivity)) as (F & ->). split; [exact F|].
  change (bpow radix2 (-60)) with (/ 1152921504606846976). change (bpow radix10 (- (3))) with (/ 1000). cbn [SpecFloat.cond_Zopp]. apply Rabs_le. split; lra.
Qed.
Lemma norm4 : fin (dmul (dlit 5) (dpow10 (- (4)))) /\ Rabs (val (dmul (dlit 5) (dpow10 (- (4)))) - 5 * bpow radix10 (- (4))) <= / 1000000000000.
Proof.
  destruct (dec_val (dmul (dlit 5) (dpow10 (- (4)))) false 4611686018427388 (-63) ltac:(vm_compute; reflexivity)) as (F & ->). split; [exact F|].
  change (bpow radix2 (-63)) with (/ 9223372036854775808). change (bpow radix10 (- (4))) with (/ 10000). cbn [SpecFloat.cond_Zopp]. apply Rabs_le. split; lra.
Qed.
Lemma norm_ok p : (0 <= p <= 4)%Z ->
  fin (dmul (dlit 5) (dpow10 (- p))) /\ Rabs (val (dmul (dlit 5) (dpow10 (- p))) - 5 * bpow radix10 (- p)) <= / 1000000000000.
Proof.
  intros H. assert (C : (p = 0 \/ p = 1 \/ p = 2 \/ p = 3 \/ p = 4)%Z) by lia.
  destruct C as [-> |[-> |[-> |[-> | ->]]]]; [exact norm0|exact norm1|exact norm2|exact norm3|exact norm4].
Qed.
Lemma rnd_err x : Rabs (rnd x - x) <= bpow radix2 (-53) * Rabs x + bpow radix2 (-1075).
Proof.
  assert (B := bpow_ge_0 radix2 (-1075)). assert (C : 0 <= bpow radix2 (-53) * Rabs x) by (apply Rmult_le_pos; [apply bpow_ge_0|apply Rabs_pos]).
  destruct (nearest_err 53 1024 prec64 x) as [A|A]; change (nearest_even 53 1024 x) with (rnd x) in A.
  - change (- (53))%Z with (-53)%Z in A. lra.
  - change (2 - 1024 - 53)%Z with (-1075)%Z in A. lra.
Qed.
Lemma tiny_le z : (z <= -90)%Z -> 0 <= bpow radix2 z <= / 1000000000000000000.
Proof.
  intros H. split; [apply bpow_ge_0|]. apply Rle_trans with (bpow radix2 (-60)); [apply bpow_le; lia|].
  change (bpow radix2 (-60)) with (/ 1152921504606846976). lra.
Qed.
Lemma dopp_val x : val (dopp x) = - val x.
Proof. apply B2R_Bopp. Qed.
Lemma dopp_fin x : fin x -> fin (dopp x).
Proof. intros F. unfold dopp. rewrite is_finite_Bopp. exact F. Qed.

(* the absolute difference the program computes *)
Definition pabs (d : double) : double := if dgt d dzero then d else dopp d.
Lemma pabs_ok d : fin d -> fin (pabs d) /\ val (pabs d) = Rabs (val d).
Proof.
  intros F. unfold pabs. rewrite dgt_ok by (exact F || reflexivity). change (val dzero) with 0.
  destruct (Rlt_bool_spec 0 (val d)) as [G|L].
  - split; [exact F|]. rewrite Rabs_pos_eq by lra. reflexivity.
  - split; [apply dopp_fin; exact F|]. rewrite dopp_val, Rabs_left1 by exact L. reflexivity.
Qed.
Lemma diff_ok (v x : double) : fin v -> fin x -> bpow radix2 (-1015) <= val v <= bpow radix2 1000 -> Rabs (val x) <= bpow radix2 1023 ->
  fin (pabs (dsub v x)) /\ 0 <= val (pabs (dsub v x)) /\
  Rabs (val (pabs (dsub v x)) / val v - Rabs (val v - val x) / val v) <= bpow radix2 (-53) * (Rabs (val v - val x) / val v) + bpow radix2 (-60).
Proof.
  intros Fv Fx (Lo & Hi) Hx. assert (PL := bpow_gt_0 radix2 (-1015)). assert (PV : 0 < val v) by lra.
  set (a := Rabs (val v - val x)). assert (Pa : 0 <= a) by apply Rabs_pos.
  assert (E := rnd_err (val v - val x)). fold a in E.
  assert (Ba : a <= bpow radix2 1000 + bpow radix2 1023).
  { unfold a, Rminus. apply Rle_trans with (1 := Rabs_triang _ _). rewrite Rabs_Ropp, (Rabs_pos_eq (val v)) by lra. lra. }
  assert (T := tiny_le (-1075) ltac:(lia)).
  assert (R1 : Rabs (rnd (val v - val x)) <= a * (1 + bpow radix2 (-53)) + bpow radix2 (-1075)).
  { replace (rnd (val v - val x)) with ((rnd (val v - val x) - (val v - val x)) + (val v - val x)) by ring.
    apply Rle_trans with (1 := Rabs_triang _ _). fold a. lra. }
  assert (Fits : Rabs (rnd (val v - val x)) < top).
  { apply Rle_lt_trans with (1 := R1). change (bpow radix2 (-53)) with (/ 9007199254740992).
    replace top with (bpow radix2 1000 * 16777216) by (change 16777216 with (bpow radix2 24); rewrite <- bpow_plus; reflexivity).
    replace (bpow radix2 1023) with (bpow radix2 1000 * 8388608) in Ba by (change 8388608 with (bpow radix2 23); rewrite <- bpow_plus; reflexivity).
    assert (1 <= bpow radix2 1000) by (change 1 with (bpow radix2 0); apply bpow_le; lia). lra. }
  destruct (dsub_ok v x Fv Fx Fits) as (Fd & Vd). destruct (pabs_ok _ Fd) as (Fp & Vp). split; [exact Fp|]. rewrite Vp.
  split; [apply Rabs_pos|]. rewrite Vd. unfold Rdiv. rewrite <- Rmult_minus_distr_r, Rabs_mult.
  assert (PI : 0 < / val v) by (apply Rinv_0_lt_compat; exact PV). rewrite (Rabs_pos_eq (/ val v)) by lra.
  assert (TI : Rabs (Rabs (rnd (val v - val x)) - a) <= bpow radix2 (-53) * a + bpow radix2 (-1075)).
  { apply Rle_trans with (2 := E). apply Rabs_triang_inv2. }
  apply Rle_trans with ((bpow radix2 (-53) * a + bpow radix2 (-1075)) * / val v); [apply Rmult_le_compat_r; lra|].
  rewrite Rmult_plus_distr_r, Rmult_assoc. apply Rplus_le_compat_l.
  apply Rmult_le_reg_r with (val v); [exact PV|]. rewrite Rmult_assoc, Rinv_l, Rmult_1_r by lra.
  replace (-1075)%Z with (-60 + -1015)%Z by lia. rewrite bpow_plus. apply Rmult_le_compat_l; [apply bpow_ge_0|exact Lo].
Qed.
Lemma ddiv_over (x y : double) : fin x -> fin y -> 0 <= val x -> 0 < val y -> ~ Rabs (rnd (val x / val y)) < top -> ddiv x y = B754_infinity false.
Proof.
  intros Fx Fy Px Py H. assert (Ny : val y <> 0) by lra.
  assert (C := @Bdiv_correct 53 1024 prec64 emax64 mode_NE x y Ny).
  change (round radix2 (SpecFloat.fexp 53 1024) (round_mode mode_NE)) with rnd in C.
  rewrite Rlt_bool_false in C by lra. fold (ddiv x y) in C.
  assert (Sx : Bsign x = false).
  { destruct x as [s| | |s m e B]; try discriminate.
    - exfalso. apply H. cbn [B2R]. unfold Rdiv. rewrite Rmult_0_l, round_0 by apply valid_rnd_N. rewrite Rabs_R0. apply bpow_gt_0.
    - destruct s; [|reflexivity]. exfalso. assert (F2R (Float radix2 (SpecFloat.cond_Zopp true (Z.pos m)) e) < 0) by (apply F2R_lt_0; reflexivity). cbn [B2R] in Px. lra. }
  assert (Sy : Bsign y = false).
  { destruct y as [s| | |s m e B]; try discriminate; [exfalso; apply Ny; reflexivity|].
    destruct s; [|reflexivity]. exfalso. assert (F2R (Float radix2 (SpecFloat.cond_Zopp true (Z.pos m)) e) < 0) by (apply F2R_lt_0; reflexivity). cbn [B2R] in Py. lra. }
  rewrite Sx, Sy in C. cbn in C. destruct (ddiv x y); try discriminate. injection C as ->. reflexivity.
Qed.
Lemma dgt_inf x : fin x -> dgt (B754_infinity false) x = true.
Proof. destruct x; try discriminate; reflexivity. Qed.

Lemma check_margin (v x : double) p : fin v -> fin x -> bpow radix2 (-1015) <= val v <= bpow radix2 1000 -> Rabs (val x) <= bpow radix2 1023 -> (0 <= p <= 4)%Z ->
  (Rabs (val x - val v) <= (5 * bpow radix10 (- p) - / 1000000000) * val v -> bad_diff v x p = false) /\
  ((5 * bpow radix10 (- p) + / 1000000000) * val v <= Rabs (val x - val v) -> bad_diff v x p = true).
Proof.
  intros Fv Fx Hv Hx Hp. destruct (norm_ok p Hp) as (Fn & En). unfold bad_diff. cbv zeta. fold (pabs (dsub v x)).
  destruct (diff_ok v x Fv Fx Hv Hx) as (Fd & Pd & Ed). set (D := pabs (dsub v x)) in *. set (N := dmul (dlit 5) (dpow10 (- p))) in *.
  rewrite Rabs_minus_sym. set (a := Rabs (val v - val x)) in *. assert (H := pow_p p Hp). set (h := bpow radix10 (- p)) in *.
  assert (PL := bpow_gt_0 radix2 (-1015)). assert (PV : 0 < val v) by lra.
  apply Rabs_le_inv in En, Ed. set (r := val D / val v) in *. set (q := a / val v) in *.
  assert (Pq : 0 <= q) by (unfold q, Rdiv; apply Rmult_le_pos; [apply Rabs_pos|apply Rlt_le, Rinv_0_lt_compat; exact PV]).
  assert (Pr : 0 <= r) by (unfold r, Rdiv; apply Rmult_le_pos; [exact Pd|apply Rlt_le, Rinv_0_lt_compat; exact PV]).
  assert (Er := rnd_err r). rewrite (Rabs_pos_eq r) in Er by exact Pr.
  assert (T := tiny_le (-1075) ltac:(lia)). change (bpow radix2 (-60)) with (/ 1152921504606846976) in Ed. change (bpow radix2 (-53)) with (/ 9007199254740992) in *.
  assert (Qa : a = q * val v) by (unfold q; field; lra).
  apply Rabs_le_inv in Er. split; intros A.
  - assert (A' : q <= 5 * h - / 1000000000) by (apply Rmult_le_reg_r with (val v); [exact PV|]; lra).
    assert (Fits : Rabs (rnd r) < top).
    { rewrite Rabs_pos_eq by (apply rnd_pos; exact Pr). apply Rle_lt_trans with 8; [lra|]. change 8 with (bpow radix2 3). apply bpow_lt. lia. }
    destruct (ddiv_ok D v Fd ltac:(lra) Fits) as (Fe & Ve). rewrite dgt_ok by assumption. rewrite Ve. fold r. apply Rlt_bool_false. lra.
  - assert (A' : 5 * h + / 1000000000 <= q) by (apply Rmult_le_reg_r with (val v); [exact PV|]; lra).
    destruct (Rlt_dec (Rabs (rnd r)) top) as [Fits|Over].
    + destruct (ddiv_ok D v Fd ltac:(lra) Fits) as (Fe & Ve). rewrite dgt_ok by assumption. rewrite Ve. fold r. apply Rlt_bool_true. lra.
    + rewrite (ddiv_over D v Fd Fv Pd PV Over). apply dgt_inf. exact Fn.
Qed.

(* ---- negative numbers ---- *)
Lemma check_negative (v x : double) p : fin v -> val v < 0 -> (0 <= p <= 4)%Z -> bad_diff v x p = false.
Proof.
  intros Fv Nv Hp. destruct (norm_ok p Hp) as (Fn & En). unfold bad_diff. cbv zeta. fold (pabs (dsub v x)). set (N := dmul (dlit 5) (dpow10 (- p))) in *.
  assert (PN : 0 <= val N) by (assert (H := pow_p p Hp); apply Rabs_le_inv in En; lra). clear En.
  destruct v as [s| | |s m e B] eqn:EV; try discriminate; [cbn in Nv; lra|].
  assert (s = true) as ->.
  { destruct s; [reflexivity|]. exfalso. cbn [B2R] in Nv. assert (0 < F2R (Float radix2 (SpecFloat.cond_Zopp false (Z.pos m)) e)) by (apply F2R_gt_0; reflexivity). lra. }
  destruct (is_finite (dsub (B754_finite true m e B) x)) eqn:Fs.
  - rewrite <- EV in *. destruct (pabs_ok _ Fs) as (Fp & Vp). set (D := pabs (dsub v x)) in *. assert (Pd : 0 <= val D) by (rewrite Vp; apply Rabs_pos).
    assert (R0 : val D / val v <= 0).
    { unfold Rdiv. assert (/ val v < 0) by (apply Rinv_lt_0_compat; exact Nv). nra. }
    destruct (Rlt_dec (Rabs (rnd (val D / val v))) top) as [Fits|Over].
    + destruct (ddiv_ok D v Fp ltac:(lra) Fits) as (Fe & Ve). rewrite dgt_ok by assumption. rewrite Ve. apply Rlt_bool_false.
      apply Rle_trans with 0; [apply rnd_le_fmt; [apply fmt_0|exact R0]|exact PN].
    + assert (Nv0 : val v <> 0) by lra. assert (C := @Bdiv_correct 53 1024 prec64 emax64 mode_NE D v Nv0).
      change (round radix2 (SpecFloat.fexp 53 1024) (round_mode mode_NE)) with rnd in C.
      rewrite Rlt_bool_false in C by lra. fold (ddiv D v) in C.
      assert (Sx : Bsign D = false).
      { clearbody D. destruct D as [s| | |s m' e' B']; try discriminate.
        - exfalso. apply Over. cbn [B2R]. unfold Rdiv. rewrite Rmult_0_l, round_0 by apply valid_rnd_N. rewrite Rabs_R0. apply bpow_gt_0.
        - destruct s; [|reflexivity]. exfalso. assert (F2R (Float radix2 (SpecFloat.cond_Zopp true (Z.pos m')) e') < 0) by (apply F2R_lt_0; reflexivity). cbn [B2R] in Pd. lra. }
      assert (Sy : Bsign v = true) by (rewrite EV; reflexivity). rewrite Sx, Sy in C. cbn in C. destruct (ddiv D v); try discriminate. injection C as ->.
      destruct N; try discriminate; reflexivity.
  - destruct (dsub (B754_finite true m e B) x) as [| [|] | |]; try discriminate; destruct N; try discriminate; reflexivity.
Qed.
