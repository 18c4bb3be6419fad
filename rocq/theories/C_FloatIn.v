(* C_FloatIn.v -- corollaries on reading doubles. *)
From Coq Require Import ZArith Lia Reals Lra.
From Flocq Require Import Core.Core IEEE754.BinarySingleNaN.
From Verif Require Import Base S_Num S_Options S_Field S_Format M_StreamIn M_Float M_StreamFloat M_Format M_FormatF S_FormatF S_FloatIn
  L_Float L_Dec L_Field L_FormatI L_FormatJ C_Format C_FormatF L_FloatIn L_FloatR L_FloatBack.
Local Open Scope R_scope.

(* ---- printed texts are numerals ---- *)
Lemma point_ok fp : exists pt, fraction fp = pt ++ fp /\ (pt = lit "." \/ pt = [] /\ fp = []).
Proof. destruct fp as [|c fp]; [exists []; auto|exists (lit "."); auto]. Qed.
Lemma minus_sign neg : sign_of neg (minus neg).
Proof. destruct neg; [reflexivity|left; reflexivity]. Qed.
Lemma dec_numeral neg ip fp : ip <> [] -> all_digits ip -> all_digits fp ->
  exists pt, float_numeral (decimal neg ip fp) neg ip pt fp [] 0.
Proof.
  intros Ne Hi Hf. destruct (point_ok fp) as (pt & E & Hpt). exists pt. exists (minus neg). unfold decimal. rewrite E, !app_nil_r.
  repeat (split; [auto; fail|]). split; [apply minus_sign|]. repeat (split; [auto; fail|]). split; [intros Q; apply app_eq_nil in Q; tauto|]. auto.
Qed.
Lemma exp_sign ex : sign_of (ex <? 0)%Z (if (ex <? 0)%Z then lit "-" else lit "+").
Proof. destruct (ex <? 0)%Z; [reflexivity|right; reflexivity]. Qed.
Lemma exp_value ex : ex = signed_value (ex <? 0)%Z (Z.to_N (Z.abs ex)).
Proof. unfold signed_value. destruct (Z.ltb_spec ex 0); lia. Qed.
Lemma sci_numeral body neg ip fp ex : ip <> [] -> all_digits ip -> all_digits fp -> scientific body neg ip fp ex ->
  exists pt xp, float_numeral body neg ip pt fp xp ex /\ xp <> [].
Proof.
  intros Ne Hi Hf (ed & -> & Hd & _ & V). destruct (point_ok fp) as (pt & E & Hpt). set (sg := if (ex <? 0)%Z then lit "-" else lit "+").
  exists pt, (lit "e" ++ sg ++ ed). split; [|discriminate]. exists (minus neg). unfold decimal. rewrite E, <- !app_assoc.
  repeat (split; [auto; fail|]). split; [apply minus_sign|]. repeat (split; [auto; fail|]). split; [intros Q; apply app_eq_nil in Q; tauto|]. split; [auto|].
  right. exists "e"%char, sg, ed, (ex <? 0)%Z, (Z.to_N (Z.abs ex)). repeat (split; [auto; fail|]). split; [apply exp_sign|].
  split; [exact V|]. split; [exact Hd|]. apply exp_value.
Qed.
Lemma leading_just w k body neg ip pt fp xp ex : blank w -> float_numeral body neg ip pt fp xp ex ->
  leading_float (w ++ body ++ repeat " "%char k) neg ip fp ex.
Proof.
  intros B N. exists w, body, pt, xp, (repeat " "%char k). repeat (split; [auto; fail|]).
  destruct k; [exact I|]. cbn [repeat]. split; [reflexivity|]. split; [split; discriminate|discriminate].
Qed.
Lemma digits_of_numeral up n s : numeral_of up 10 n s -> forallb digit_byte s = true.
Proof.
  intros (V & _). destruct s as [|c s]; [discriminate|]. unfold value in V. revert V. generalize 0%N. generalize (c :: s). clear.
  induction l as [|c l IH]; intros a V; [reflexivity|]. cbn [value_from] in V. cbn [forallb].
  unfold digit_of in V. destruct ((48 <=? N_of_ascii c) && (N_of_ascii c <=? 57))%N eqn:Q.
  - destruct (_ <? _)%N; [|discriminate]. apply IH in V. assert (Qc : digit_byte c = true) by exact Q. rewrite V, Qc. reflexivity.
  - exfalso. destruct up.
    + destruct ((65 <=? N_of_ascii c) && (N_of_ascii c <=? 70))%N eqn:R; [|discriminate]. apply andb_prop in R as [R _]. apply N.leb_le in R.
      destruct (N.ltb_spec (N_of_ascii c - 55) 10); [lia|discriminate].
    + destruct ((97 <=? N_of_ascii c) && (N_of_ascii c <=? 102))%N eqn:R; [|discriminate]. apply andb_prop in R as [R _]. apply N.leb_le in R.
      destruct (N.ltb_spec (N_of_ascii c - 87) 10); [lia|discriminate].
Qed.
Lemma spaces_repeat s : (forall c, In c s -> c = " "%char) -> s = repeat " "%char (length s).
Proof. induction s as [|c s IH]; intros H; [reflexivity|]. cbn. rewrite (H c) by (left; reflexivity). f_equal. apply IH. intros d D. apply H. right. exact D. Qed.
Lemma eng_leading t neg ip fp ex : engineering t neg ip fp ex -> leading_float t neg ip fp ex.
Proof.
  intros (ed & bl & -> & Ne & Hi & Hf & Ed & Hb). rewrite (spaces_repeat bl Hb). set (k := length bl). destruct (point_ok fp) as (pt & E & Hpt).
  set (sg := if (ex <? 0)%Z then lit "-" else lit "+").
  assert (N : float_numeral (minus neg ++ ip ++ pt ++ fp ++ lit "e" ++ sg ++ ed) neg ip pt fp (lit "e" ++ sg ++ ed) ex).
  { exists (minus neg). split; [reflexivity|]. split; [apply minus_sign|]. repeat (split; [auto; fail|]). split; [intros Q; apply app_eq_nil in Q; tauto|]. split; [auto|].
    right. exists "e"%char, sg, ed, (ex <? 0)%Z, (Z.to_N (Z.abs ex)). repeat (split; [auto; fail|]). split; [apply exp_sign|].
    split; [apply Ed|]. split; [apply (digits_of_numeral _ _ _ Ed)|]. apply exp_value. }
  assert (L := leading_just (if neg then [] else lit " ") k _ _ _ _ _ _ _ (ltac:(destruct neg; repeat constructor)) N).
  rewrite E. destruct neg; cbn [minus app] in *; rewrite <- !app_assoc in L; rewrite <- !app_assoc; exact L.
Qed.

(* ---- reading back ---- *)
Lemma read_double_ok text (v : double) neg ip fp ex x : leading_float text neg ip fp ex -> denotes neg ip fp ex x -> is_nearest neg x v ->
  read_double text = RdOk v.
Proof. intros L D N. apply (read_fp_spec 53 1024 prec64 emax64). exists neg, ip, fp, ex, x. auto. Qed.
Lemma back17 (v : double) x q : fin v -> val v <> 0 -> powerRZ 10 q <= Rabs x -> Rabs (x - val v) <= / 2 * powerRZ 10 (q - 16) ->
  is_nearest (Bsign v) x v.
Proof.
  intros F N Q D. apply read_back; [exact prec64|exact F|]. right. split; [exact N|].
  assert (P : powerRZ 10 (q - 16) = powerRZ 10 q * / 10000000000000000).
  { rewrite !r10. replace (q - 16)%Z with (q + - (16))%Z by lia. rewrite bpow_plus. reflexivity. }
  assert (A : Rabs (x - val v) <= / 2 * / 10000000000000000 * Rabs x) by (rewrite P in D; lra).
  assert (T : Rabs x <= Rabs (val v) + Rabs (x - val v)).
  { replace x with (val v + (x - val v)) at 1 by ring. apply Rabs_triang. }
  assert (PV : 0 < Rabs (val v)) by (apply Rabs_pos_lt; exact N).
  change (bpow radix2 (- (53))) with (/ 9007199254740992). lra.
Qed.
Lemma first_digit (neg : bool) c fp ex x : c <> "0"%char -> denotes neg [c] fp ex x -> powerRZ 10 ex <= Rabs x.
Proof.
  intros Nc (n & V & ->). assert (B : (10 ^ Z.of_nat (length fp) <= Z.of_N n)%Z).
  { unfold value in V. cbn [app value_from] in V. destruct (digit_of false c) as [d|] eqn:Dg; [|discriminate].
    destruct (N.ltb_spec d 10); [|discriminate]. apply value_bound in V.
    assert (Z1 : (1 <= Z.of_N (0 * 10 + d))%Z).
    { destruct d; [|lia]. exfalso. unfold digit_of in Dg.
      destruct ((48 <=? N_of_ascii c) && (N_of_ascii c <=? 57))%N eqn:R1.
      - apply andb_prop in R1 as [R1 _]. apply N.leb_le in R1. injection Dg as Dg.
        apply Nc. rewrite <- (ascii_N_embedding c). replace (N_of_ascii c) with 48%N by lia. reflexivity.
      - destruct ((97 <=? N_of_ascii c) && (N_of_ascii c <=? 102))%N eqn:R2; [|discriminate].
        apply andb_prop in R2 as [R2 _]. apply N.leb_le in R2. injection Dg as Dg. lia. }
    nia. }
  apply IZR_le in B. rewrite (r10 (ex - _)), (r10 ex). rewrite !Rabs_mult. rewrite (Rabs_pos_eq (bpow _ _)) by apply bpow_ge_0.
  rewrite (Rabs_pos_eq (IZR _)) by (apply IZR_le; lia).
  replace (Rabs (if neg then -1 else 1)) with 1 by (destruct neg; [rewrite Rabs_left|rewrite Rabs_pos_eq]; lra). rewrite Rmult_1_l.
  replace ex with (Z.of_nat (length fp) + (ex - Z.of_nat (length fp)))%Z at 1 by lia. rewrite bpow_plus.
  apply Rmult_le_compat_r; [apply bpow_ge_0|]. change 10%Z with (radix_val radix10) in B. rewrite IZR_Zpower in B by lia. exact B.
Qed.
Lemma pow_mono a b : (a <= b)%Z -> powerRZ 10 a <= powerRZ 10 b.
Proof. intros H. rewrite !r10. apply bpow_le. exact H. Qed.
(* the numeral printed by 's' and 'g', and how near its value is *)
Definition printed_near (t : str) (v : double) (d : Z) : Prop :=
  exists ip fp ex x, leading_float t (Bsign v) ip fp ex /\ denotes (Bsign v) ip fp ex x /\
    (val v = 0 /\ x = 0 \/ val v <> 0 /\ exists q, powerRZ 10 q <= Rabs x /\ Rabs (x - val v) <= / 2 * powerRZ 10 (q - d)).
Lemma sci_near fuel sep (v : double) w sd : fin v -> (0 <= sd < two31)%Z -> (0 <= requested w sd < two31)%Z ->
  exists t, addF_text fuel sep v "s" w sd = Some (Ok t) /\ printed_near t v sd.
Proof.
  intros F Hs' Hw. destruct (Req_dec (val v) 0) as [Z0|N].
  - destruct (c30_zero fuel sep v w sd F Z0 Hs' Hw) as (t & E & (k & -> & _)). eexists. split; [exact E|].
    set (fp := repeat "0"%char (Z.to_nat sd)).
    assert (Df : all_digits fp) by apply zeros_digits.
    assert (SC : scientific (decimal (Bsign v) (lit "0") fp ++ lit "e+00") (Bsign v) (lit "0") fp 0).
    { exists (lit "00"). split; [reflexivity|]. split; [reflexivity|]. split; [cbn; lia|reflexivity]. }
    assert (N0 : lit "0" <> []) by discriminate. assert (D0 : all_digits (lit "0")) by reflexivity.
    destruct (sci_numeral _ _ _ _ _ N0 D0 Df SC) as (pt & xp & Nm & _).
    assert (D : denotes (Bsign v) (lit "0") fp 0 0).
    { apply denotes_value; [reflexivity|exact Df|discriminate|]. 
      assert (Q : digits_N (lit "0" ++ fp) = 0%N).
      { assert (V := digits_N_value (lit "0" ++ fp) ltac:(rewrite forallb_app; rewrite Df; reflexivity)). unfold fp in V.
        change (lit "0" ++ repeat "0"%char (Z.to_nat sd)) with (repeat "0"%char (S (Z.to_nat sd))) in V. rewrite <- (app_nil_r (repeat _ _)) in V. rewrite zeros_value in V.
        cbn [value_from] in V. rewrite N.mul_0_l, app_nil_r in V. injection V as V. symmetry. exact V. }
      rewrite Q. cbn [Z.of_N]. ring. }
    exists (lit "0"), fp, 0%Z, 0. split; [|split; [exact D|left; auto]].
    apply (leading_just [] k _ _ _ _ _ _ _ ltac:(constructor) Nm).
  - destruct (c30 fuel sep v w sd F N Hs' Hw) as (c & fp & ex & x & body & t & E & (k & -> & _) & SC & Nc & Dc & Df & L & D & Er).
    eexists. split; [exact E|]. assert (N0 : [c] <> []) by discriminate. destruct (sci_numeral _ _ _ _ _ N0 Dc Df SC) as (pt & xp & Nm & _).
    exists [c], fp, ex, x. split; [apply (leading_just [] k _ _ _ _ _ _ _ ltac:(constructor) Nm)|]. split; [exact D|].
    right. split; [exact N|]. exists ex. split; [apply (first_digit _ _ _ _ _ Nc D)|exact Er].
Qed.
Lemma gen_near fuel sep (v : double) w sd : fin v -> val v <> 0 -> (1 <= sd < two31)%Z -> (0 <= requested w sd < two31)%Z ->
  exists t, addF_text fuel sep v "g" w sd = Some (Ok t) /\ printed_near t v (sd - 1).
Proof.
  intros F N Hs Hw. assert (Hs' : (0 <= sd < two31)%Z) by lia.
  destruct (c89 fuel sep v w sd F N Hs' Hw) as (ip & fp & ex & body & t & x & q & E & (k & -> & _) & B & Ne & Di & Df & _ & _ & D & Q & Er).
  eexists. split; [exact E|].
  assert (Nm : exists pt xp, float_numeral body (Bsign v) ip pt fp xp ex).
  { destruct B as [(-> & ->)|(SC & _)].
    - destruct (dec_numeral (Bsign v) ip fp Ne Di Df) as (pt & Nm). eauto.
    - destruct (sci_numeral _ _ _ _ _ Ne Di Df SC) as (pt & xp & Nm & _). eauto. }
  destruct Nm as (pt & xp & Nm). exists ip, fp, ex, x.
  split; [apply (leading_just [] k _ _ _ _ _ _ _ ltac:(constructor) Nm)|]. split; [exact D|].
  right. split; [exact N|]. exists q. split; [apply Q|]. apply Rle_trans with (1 := Er). apply Rmult_le_compat_l; [lra|]. apply pow_mono. lia.
Qed.
Lemma near_back t (v : double) d : fin v -> (16 <= d)%Z -> printed_near t v d -> read_double t = RdOk v.
Proof.
  intros F Hd (ip & fp & ex & x & L & D & C). apply (read_double_ok t v _ ip fp ex x L D). destruct C as [(Z0 & X)|(N & q & Q & Er)].
  - apply read_back; [exact prec64|exact F|]. left. auto.
  - apply (back17 v x q F N Q). apply Rle_trans with (1 := Er). apply Rmult_le_compat_l; [lra|]. apply pow_mono. lia.
Qed.
Lemma sci_back fuel sep (v : double) w sd : fin v -> (16 <= sd < two31)%Z -> (0 <= requested w sd < two31)%Z ->
  exists t, addF_text fuel sep v "s" w sd = Some (Ok t) /\ read_double t = RdOk v.
Proof.
  intros F Hs Hw. destruct (sci_near fuel sep v w sd F ltac:(lia) Hw) as (t & E & P). exists t. split; [exact E|].
  apply (near_back t v sd F); [lia|exact P].
Qed.
Lemma gen_back fuel sep (v : double) w sd : fin v -> val v <> 0 -> (17 <= sd < two31)%Z -> (0 <= requested w sd < two31)%Z ->
  exists t, addF_text fuel sep v "g" w sd = Some (Ok t) /\ read_double t = RdOk v.
Proof.
  intros F N Hs Hw. destruct (gen_near fuel sep v w sd F N ltac:(lia) Hw) as (t & E & P). exists t. split; [exact E|].
  apply (near_back t v (sd - 1) F); [lia|exact P].
Qed.
(* the same for float *)
Lemma widen_ok (x : single) : is_finite x = true ->
  fin (float_to_double x) /\ val (float_to_double x) = B2R x /\ Bsign (float_to_double x) = Bsign x.
Proof.
  destruct x as [s|s| |s m e B]; try discriminate; intros _; [repeat split|].
  cbn [float_to_double Bsign]. set (x := B754_finite s m e B : single).
  assert (V : F2R (Float radix2 (SpecFloat.cond_Zopp s (Z.pos m)) e) = B2R x) by reflexivity.
  assert (G : generic_format radix2 (FLT_exp (3 - 1024 - 53) 53) (B2R x)).
  { assert (G24 : generic_format radix2 (FLT_exp (3 - 128 - 24) 24) (B2R x)) by apply (generic_format_B2R 24 128 x).
    apply generic_format_FLT. apply FLT_format_generic in G24; [|reflexivity]. destruct G24 as [f E1 E2 E3].
    exists f; [exact E1| |]; [apply Z.lt_le_trans with (1 := E2); cbn; lia|lia]. }
  assert (A : Rabs (B2R x) < bpow radix2 1024).
  { apply Rlt_trans with (1 := abs_B2R_lt_emax 24 128 x). apply bpow_lt. lia. }
  assert (C := binary_normalize_correct 53 1024 prec64 emax64 mode_NE (SpecFloat.cond_Zopp s (Z.pos m)) e s). cbv zeta in C. rewrite V in C.
  change (SpecFloat.fexp 53 1024) with (FLT_exp (3 - 1024 - 53) 53) in C.
  rewrite round_generic in C; [|apply valid_rnd_round_mode|exact G]. rewrite Rlt_bool_true in C by exact A.
  destruct C as (C1 & C2 & C3). split; [exact C2|]. split; [exact C1|]. rewrite C3.
  assert (Nz : B2R x <> 0) by (rewrite <- V; apply F2R_neq_0; destruct s; discriminate).
  destruct s.
  - rewrite Rcompare_Lt; [reflexivity|]. rewrite <- V. apply F2R_lt_0. cbn. lia.
  - rewrite Rcompare_Gt; [reflexivity|]. rewrite <- V. apply F2R_gt_0. cbn. lia.
Qed.
Lemma near_back_float t (v : single) d : is_finite v = true -> (8 <= d)%Z -> printed_near t (float_to_double v) d -> read_float t = RdOk v.
Proof.
  intros F Hd (ip & fp & ex & x & L & D & C). destruct (widen_ok v F) as (_ & V & Sg). rewrite Sg in L, D. rewrite V in C.
  apply (read_fp_spec 24 128 prec32 emax32). exists (Bsign v), ip, fp, ex, x. split; [exact L|]. split; [exact D|].
  apply read_back; [exact prec32|exact F|]. destruct C as [C|(N & q & Q & Er)]; [left; exact C|right]. split; [exact N|].
  assert (P : powerRZ 10 (q - d) <= powerRZ 10 q * / 100000000).
  { rewrite !r10. apply Rle_trans with (bpow radix10 (q + - (8))); [apply bpow_le; lia|]. rewrite bpow_plus. right. reflexivity. }
  assert (A : Rabs (x - B2R v) <= / 2 * / 100000000 * Rabs x) by lra.
  assert (T : Rabs x <= Rabs (B2R v) + Rabs (x - B2R v)).
  { replace x with (B2R v + (x - B2R v)) at 1 by ring. apply Rabs_triang. }
  assert (PV : 0 < Rabs (B2R v)) by (apply Rabs_pos_lt; exact N).
  change (bpow radix2 (- (24))) with (/ 16777216). lra.
Qed.
Lemma fixed_back fuel sep (v : double) w sd z : fin v -> val v = IZR z * powerRZ 10 (- sd) -> (0 <= sd < two31)%Z -> (0 <= requested w sd < two31)%Z ->
  exists t, addF_text fuel sep v "f" w sd = Some (Ok t) /\ read_double t = RdOk v.
Proof.
  intros F V Hs Hw. destruct (c29 fuel sep v w sd F Hs Hw) as (ip & fp & x & t & E & (k & -> & _) & Ne & Di & Df & _ & Lf & D & Er).
  eexists. split; [exact E|]. destruct (dec_numeral (Bsign v) ip fp Ne Di Df) as (pt & Nm).
  apply (read_double_ok _ v (Bsign v) ip fp 0 x); [|exact D|].
  - apply (leading_just [] k _ _ _ _ _ _ _ ltac:(constructor) Nm).
  - assert (X : x = val v).
    { destruct D as (n & _ & Dx). rewrite Lf in Dx. change (0 - sd)%Z with (- sd)%Z in Dx.
      set (y := (if Bsign v then -1 else 1)%Z). assert (Dx' : x = IZR (y * Z.of_N n) * powerRZ 10 (- sd)).
      { rewrite Dx, mult_IZR. unfold y. destruct (Bsign v); reflexivity. }
      rewrite Dx', V in Er. rewrite <- Rmult_minus_distr_r, <- minus_IZR, Rabs_mult in Er.
      assert (P : 0 < powerRZ 10 (- sd)) by (apply powerRZ_lt; lra). rewrite (Rabs_pos_eq (powerRZ _ _)) in Er by lra.
      apply Rmult_le_reg_r in Er; [|exact P]. rewrite <- abs_IZR in Er.
      assert (Q : (Z.abs (y * Z.of_N n - z) < 1)%Z) by (apply lt_IZR; lra).
      rewrite Dx', V. replace (y * Z.of_N n)%Z with z by lia. reflexivity. }
    apply read_back; [exact prec64|exact F|]. rewrite X. destruct (Req_dec (val v) 0) as [Z0|N]; [left; auto|right].
    split; [exact N|]. rewrite Rminus_diag_eq by reflexivity. rewrite Rabs_R0. assert (PV : 0 < Rabs (val v)) by (apply Rabs_pos_lt; exact N).
    change (bpow radix2 (- (53))) with (/ 9007199254740992). lra.
Qed.
Lemma one_field im f t text : newFormat im (lit "%0") = Ok f -> fmt_str (insertField f t) false = Ok text -> text = t.
Proof.
  intros NF FS.
  assert (X : fmt_str (fold_left insertField [t] f) false = Ok (t ++ [])).
  { apply (c06 im (lit "%0") f [t] [IField 0] (t ++ [])).
    - exact NF.
    - apply (T_field (lit "0") 0%N []); [reflexivity|reflexivity|apply T_nil].
    - intros n [[= <-]|[]]. reflexivity.
    - apply Sh_filled; [reflexivity|apply Sh_nil]. }
  rewrite app_nil_r in X. cbn [fold_left] in X. congruence.
Qed.
Lemma eng_back sep (v : double) w sd : fin v -> powerRZ 2 (-1015) <= Rabs (val v) <= powerRZ 2 1023 -> (1 <= sd <= 7)%Z ->
  exists t v', addF_text 501 sep v "e" w sd = Some (Ok t) /\ read_double t = RdOk v' /\
    Rabs (val v' - val v) <= (5 * powerRZ 10 (- sd) + powerRZ 2 (-52)) * Rabs (val v).
Proof.
  intros F (Lo & Hi) Hs.
  assert (P2 : forall z, powerRZ 2 z = bpow radix2 z) by (intros z; change 2%R with (IZR radix2); symmetry; apply bpow_powerRZ).
  rewrite P2 in Lo, Hi. assert (PL := bpow_gt_0 radix2 (-1015)).
  assert (N : val v <> 0) by (intros Q; rewrite Q, Rabs_R0 in Lo; lra).
  destruct (defined 501 sep v "e" w sd) as (t & E); [lia|lia|exact F| |].
  { right. split.
    - rewrite P2. apply Rle_trans with (2 := Lo). replace (-1015)%Z with (2 + 57 + -1074)%Z by lia. rewrite 2!bpow_plus. change (bpow radix2 2) with 4.
      assert (A := bpow_ge_0 radix2 (-1074)). assert (B : 1 <= bpow radix2 57) by (change 1 with (bpow radix2 0); apply bpow_le; lia). nra.
    - eapply Rle_trans; [exact Hi|]. apply under_limit. unfold two32; lia. }
  assert (Hs2 : (1 <= sd < two31)%Z) by (unfold two31; lia).
  destruct (eng_all 501 sep v w sd t F N Hs2 E) as (neg & ip & fp & ex & i & x & H1 & H2 & H3 & H4 & H5 & H6 & H7 & H8 & H9).
  destruct (H9 Lo ltac:(lia)) as (_ & Ac). specialize (Ac ltac:(lia)).
  set (d := 5 * powerRZ 10 (- sd)) in *. set (V := Rabs (val v)) in *.
  assert (Hd : d <= / 2).
  { unfold d. apply Rle_trans with (5 * powerRZ 10 (- (1))); [|replace (powerRZ 10 (- (1))) with (/ 10) by (simpl; field); lra]. apply Rmult_le_compat_l; [lra|]. apply pow_mono. lia. }
  assert (PV : 0 < V) by (apply Rabs_pos_lt; exact N).
  assert (Xb : Rabs x <= V + d * V).
  { replace x with (val v + (x - val v)) by ring. apply Rle_trans with (1 := Rabs_triang _ _). fold V. lra. }
  assert (dV : d * V <= V / 2) by (unfold Rdiv; rewrite (Rmult_comm V); apply Rmult_le_compat_r; lra).
  assert (Er : Rabs (nearest_even 53 1024 x - x) <= bpow radix2 (-52) * V).
  { destruct (nearest_err 53 1024 prec64 x) as [A|A]; apply Rle_trans with (1 := A).
    - apply Rle_trans with (bpow radix2 (- (53)) * (V + d * V)); [apply Rmult_le_compat_l; [apply bpow_ge_0|exact Xb]|].
      change (bpow radix2 (- (53))) with (/ 9007199254740992). change (bpow radix2 (-52)) with (/ 4503599627370496). lra.
    - apply Rle_trans with (bpow radix2 (-52) * bpow radix2 (-1015)); [rewrite <- bpow_plus; apply bpow_le; lia|].
      apply Rmult_le_compat_l; [apply bpow_ge_0|exact Lo]. }
  assert (Fits : Rabs (nearest_even 53 1024 x) < bpow radix2 1024).
  { replace (nearest_even 53 1024 x) with ((nearest_even 53 1024 x - x) + x) by ring. apply Rle_lt_trans with (1 := Rabs_triang _ _).
    replace (bpow radix2 1024) with (bpow radix2 1023 * 2) by (change 2 with (bpow radix2 1); rewrite <- bpow_plus; reflexivity). change (bpow radix2 (-52)) with (/ 4503599627370496) in Er.
    assert (B := bpow_gt_0 radix2 1023). lra. }
  assert (Dn := H8). destruct H8 as (n & Vn & Xv).
  assert (O := dec_to_float_ok 53 1024 prec64 emax64 neg n (ex - Z.of_nat (length fp)) x Xv).
  rewrite Rlt_bool_true in O by exact Fits. set (v' := dec_to_float 53 1024 neg n (ex - Z.of_nat (length fp))) in *.
  exists t, v'. split; [exact E|]. split; [apply (read_double_ok t v' neg ip fp ex x); [apply eng_leading; exact H1|exact Dn|exact O]|].
  destruct O as (_ & _ & Q & _). rewrite Q. rewrite P2.
  replace (nearest_even 53 1024 x - val v) with ((nearest_even 53 1024 x - x) + (x - val v)) by ring.
  apply Rle_trans with (1 := Rabs_triang _ _). lra.
Qed.
