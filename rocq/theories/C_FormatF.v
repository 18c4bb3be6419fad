(* C_FormatF.v -- addF: from the lemmas to the form of the properties. *)
From Coq Require Import Reals Lra Psatz.
From Flocq Require Import Core.Core IEEE754.BinarySingleNaN.
From Verif Require Import Base M_Stream M_Float M_Format M_FormatF S_Num S_Field S_FormatF
  L_Num L_Field L_Dec L_Float L_FormatF L_FormatG L_FormatH L_FormatI L_FormatJ L_FormatK L_FormatL L_FormatX L_FormatM.
Local Open Scope R_scope.

Lemma addF_inv fuel sep f v fm w sd f' : addF fuel sep f v fm w sd = Some (Ok f') ->
  exists t, addF_text fuel sep v fm w sd = Some (Ok t) /\ f' = insertField f t.
Proof.
  unfold addF. destruct (addF_text fuel sep v fm w sd) as [[t| |]|]; cbn; try discriminate.
  intros [= <-]. eauto.
Qed.
Lemma addF_text_ok fuel sep f v fm w sd t : addF_text fuel sep v fm w sd = Some (Ok t) ->
  addF fuel sep f v fm w sd = Some (Ok (insertField f t)).
Proof. unfold addF. intros ->. reflexivity. Qed.

Lemma text_nan fuel sep v fm w sd : is_nan v = true -> addF_text fuel sep v fm w sd = Some (Ok (pad (lit "nan") (requested w sd))).
Proof. intros H. unfold addF_text, d_isnan. rewrite H. reflexivity. Qed.
Lemma text_inf fuel sep s fm w sd : addF_text fuel sep (B754_infinity s) fm w sd = Some (Ok (pad (lit "inf") (requested w sd))).
Proof. reflexivity. Qed.

Lemma text_fin fuel sep v fm w sd : fin v -> addF_text fuel sep v fm w sd =
    let width := requested w sd in
    let prec := stream_prec (to_i32 sd) in
    let field (s : str) := if (width =? 0)%Z then s else pad_r " "%char (to_i32 width) s in
    if Ascii.eqb fm "f" then Some (Ok (field (put_fixed prec v)))
    else if Ascii.eqb fm "s" then Some (Ok (field (put_sci prec v)))
    else if Ascii.eqb fm "g" then Some (Ok (field (put_gen prec v)))
    else if Ascii.eqb fm "e" then
      if deq v dzero then
        Some (Ok (lit "0" ++ [sep] ++ pad_r "0"%char (to_i32 (sd - 1)) (put_int 0) ++ lit "e0"))
      else
        match log1k fuel (dabs v) (to_i32 sd) with
        | None => None
        | Some (exp_val, av_norm) =>
          match fractionate fuel av_norm sd with
          | None => None
          | Some o => Some (do p <- o; Ok (eng_text v width exp_val p))
          end
        end
    else Some (Ok []).
Proof. intros F. unfold addF_text. destruct (fin_text v F) as (-> & -> & ->). reflexivity. Qed.

Lemma pad_zero c w s : (w =? 0)%Z = true -> left_justified c w s s.
Proof. intros H. apply Z.eqb_eq in H. exists 0%nat. split; [symmetry; apply app_nil_r|]. lia. Qed.
Lemma field_just w s : (0 <= w < two31)%Z ->
  left_justified " "%char w s (if (w =? 0)%Z then s else pad_r " "%char (to_i32 w) s).
Proof.
  intros H. destruct (w =? 0)%Z eqn:E; [apply pad_zero; exact E|]. rewrite to_i32_small by (unfold two31 in *; lia). apply pad_r_spec.
Qed.
Lemma stream_prec_ok sd : (0 <= sd < two31)%Z -> stream_prec (to_i32 sd) = sd.
Proof.
  intros H. rewrite to_i32_small by (unfold two31 in *; lia). unfold stream_prec. destruct (Z.ltb_spec sd 0); [lia|reflexivity].
Qed.

(* 'f' *)
Lemma c29 fuel sep v w sd : fin v -> (0 <= sd < two31)%Z -> (0 <= requested w sd < two31)%Z ->
  exists ip fp x t, addF_text fuel sep v "f" w sd = Some (Ok t) /\
    left_justified " "%char (requested w sd) (decimal (Bsign v) ip fp) t /\
    ip <> [] /\ all_digits ip /\ all_digits fp /\ no_leading_zero ip /\ Z.of_nat (length fp) = sd /\
    denotes (Bsign v) ip fp 0 x /\ Rabs (x - val v) <= / 2 * powerRZ 10 (- sd).
Proof.
  intros F Hs Hw. rewrite text_fin by exact F. cbv zeta. change (Ascii.eqb "f" "f") with true. cbv iota.
  rewrite stream_prec_ok by exact Hs. destruct (fixed_ok sd v F) as (ip & fp & y & E & L & Df & Di & Nz & NI & D & A); [lia|].
  exists ip, fp, y. eexists. split; [reflexivity|]. split.
  { unfold put_fixed. rewrite E, point_fraction, sign_minus. apply field_just. exact Hw. }
  split; [exact NI|]. split; [exact Di|]. split; [exact Df|]. split; [exact Nz|]. split; [exact L|]. split; [exact D|].
  change 10%R with (IZR radix10). rewrite <- bpow_powerRZ. exact A.
Qed.

(* the digits of 's' *)
Lemma sci_text p x : fin x -> val x <> 0 -> (0 <= p)%Z -> exists c fp ex y,
  scientific (put_sci p x) (Bsign x) [c] fp ex /\ c <> "0"%char /\ all_digits [c] /\ all_digits fp /\ Z.of_nat (length fp) = p /\
  denotes (Bsign x) [c] fp ex y /\ Rabs (y - val x) <= / 2 * bpow radix10 (ex - p).
Proof.
  intros F N Hp. unfold put_sci. assert (D := sci_ok p x F N Hp). destruct (sci_parts p x) as [n ex]. destruct D as (B & A & _).
  destruct (one_digit n p Hp B) as (c & Ec & Nc & Dc). assert (P := pow10_pos p Hp).
  destruct (split_digits n p (Bsign x) ex ltac:(lia) Hp) as (L & Ai & Af & NI & _ & _ & Dn). rewrite Ec in *.
  destruct (exp_text_ok ex) as (ed & Ee & Ae & Le & Ve).
  exists c, (zdec_pad p (n mod 10 ^ p)), ex. eexists. split.
  { exists ed. split; [|auto]. rewrite Ee, point_fraction, sign_minus. unfold decimal. rewrite <- !app_assoc. reflexivity. }
  split; [exact Nc|]. split; [exact Ai|]. split; [exact Af|]. split; [exact L|]. split; [exact Dn|].
  rewrite (sign_abs x F) at 1. apply sign_err. exact A.
Qed.
Lemma c30 fuel sep v w sd : fin v -> val v <> 0 -> (0 <= sd < two31)%Z -> (0 <= requested w sd < two31)%Z ->
  exists c fp ex x body t, addF_text fuel sep v "s" w sd = Some (Ok t) /\
    left_justified " "%char (requested w sd) body t /\ scientific body (Bsign v) [c] fp ex /\
    c <> "0"%char /\ all_digits [c] /\ all_digits fp /\ Z.of_nat (length fp) = sd /\
    denotes (Bsign v) [c] fp ex x /\ Rabs (x - val v) <= / 2 * powerRZ 10 (ex - sd).
Proof.
  intros F N Hs Hw. rewrite text_fin by exact F. cbv zeta. change (Ascii.eqb "s" "f") with false. change (Ascii.eqb "s" "s") with true. cbv iota.
  rewrite stream_prec_ok by exact Hs. destruct (sci_text sd v F N) as (c & fp & ex & y & Sc & Nc & Ai & Af & L & D & A); [lia|].
  exists c, fp, ex, y, (put_sci sd v). eexists. split; [reflexivity|]. split; [apply field_just; exact Hw|].
  split; [exact Sc|]. split; [exact Nc|]. split; [exact Ai|]. split; [exact Af|]. split; [exact L|]. split; [exact D|].
  change 10%R with (IZR radix10). rewrite <- bpow_powerRZ. exact A.
Qed.
Lemma val_zero_parts x : fin x -> val x = 0 -> x = B754_zero (Bsign x).
Proof.
  intros F V. destruct x as [s| | |s m e H]; try discriminate; [reflexivity|]. exfalso.
  apply eq_0_F2R in V. destruct s; discriminate.
Qed.
Lemma zeros_text p : (0 <= p)%Z -> zdec_pad p 0 = repeat "0"%char (Z.to_nat p).
Proof.
  intros H. unfold zdec_pad. destruct (Z.leb_spec p 0) as [L|G]; [replace (Z.to_nat p) with 0%nat by lia; reflexivity|].
  unfold pad_l, fill_count. change (zdec 0) with (repeat "0"%char 1). rewrite repeat_length, <- repeat_app. f_equal. lia.
Qed.
Lemma c30_zero fuel sep v w sd : fin v -> val v = 0 -> (0 <= sd < two31)%Z -> (0 <= requested w sd < two31)%Z ->
  exists t, addF_text fuel sep v "s" w sd = Some (Ok t) /\
    left_justified " "%char (requested w sd)
      (decimal (Bsign v) (lit "0") (repeat "0"%char (Z.to_nat sd)) ++ lit "e+00") t.
Proof.
  intros F N Hs Hw. rewrite text_fin by exact F. cbv zeta. change (Ascii.eqb "s" "f") with false. change (Ascii.eqb "s" "s") with true. cbv iota.
  rewrite stream_prec_ok by exact Hs. eexists. split; [reflexivity|].
  assert (E : put_sci sd v = decimal (Bsign v) (lit "0") (repeat "0"%char (Z.to_nat sd)) ++ lit "e+00").
  { rewrite (val_zero_parts v F N). unfold put_sci. change (sci_parts sd (B754_zero (Bsign v))) with (0%Z, 0%Z). cbv iota beta.
    assert (P := pow10_pos sd ltac:(lia)). rewrite Z.div_0_l, Z.mod_0_l by lia. rewrite zeros_text by lia. rewrite point_fraction, sign_minus.
    change (exp_text 0) with (lit "e+00"). unfold decimal. rewrite <- !app_assoc. reflexivity. }
  rewrite E. apply field_just. exact Hw.
Qed.

(* 'g' *)
Lemma c89 fuel sep v w sd : fin v -> val v <> 0 -> (0 <= sd < two31)%Z -> (0 <= requested w sd < two31)%Z ->
  exists ip fp ex body t x q, addF_text fuel sep v "g" w sd = Some (Ok t) /\
    left_justified " "%char (requested w sd) body t /\
    (ex = 0%Z /\ body = decimal (Bsign v) ip fp \/ scientific body (Bsign v) ip fp ex /\ exists c, ip = [c] /\ c <> "0"%char) /\
    ip <> [] /\ all_digits ip /\ all_digits fp /\ no_leading_zero ip /\ last fp "1"%char <> "0"%char /\
    denotes (Bsign v) ip fp ex x /\
    powerRZ 10 q <= Rabs x <= powerRZ 10 (q + 1) /\ Rabs (x - val v) <= / 2 * powerRZ 10 (q + 1 - Z.max 1 sd).
Proof.
  intros F N Hs Hw. rewrite text_fin by exact F. cbv zeta.
  change (Ascii.eqb "g" "f") with false. change (Ascii.eqb "g" "s") with false. change (Ascii.eqb "g" "g") with true. cbv iota.
  rewrite stream_prec_ok by exact Hs. change 10%R with (IZR radix10).
  assert (G : exists ip fp ex x q,
    (ex = 0%Z /\ put_gen sd v = decimal (Bsign v) ip fp \/ scientific (put_gen sd v) (Bsign v) ip fp ex /\ exists c, ip = [c] /\ c <> "0"%char) /\
    ip <> [] /\ all_digits ip /\ all_digits fp /\ no_leading_zero ip /\ last fp "1"%char <> "0"%char /\
    denotes (Bsign v) ip fp ex x /\
    bpow radix10 q <= Rabs x <= bpow radix10 (q + 1) /\ Rabs (x - val v) <= / 2 * bpow radix10 (q + 1 - Z.max 1 sd)).
  2:{ destruct G as (ip & fp & ex & x & q & H). exists ip, fp, ex, (put_gen sd v). eexists _, x, q.
      split; [reflexivity|]. split; [apply field_just; exact Hw|]. rewrite <- !bpow_powerRZ. exact H. }
  unfold put_gen. assert (EP : (if (sd =? 0)%Z then 1%Z else sd) = Z.max 1 sd) by (destruct (Z.eqb_spec sd 0); lia). rewrite EP.
  set (P := Z.max 1 sd). assert (P1 : (0 <= P - 1)%Z) by lia.
  assert (D := sci_ok (P - 1) v F N P1). destruct (sci_parts (P - 1) v) as [n q]. destruct D as (B & A & R).
  assert (SD : forall s, all_digits s -> all_digits (drop_zeros s)).
  { intros s Hd. destruct (drop_zeros_ok s) as (k & E & _). unfold all_digits in *. rewrite E, forallb_app in Hd. apply andb_true_iff in Hd. tauto. }
  assert (AX : forall a, Rabs ((if Bsign v then -1 else 1) * a) = Rabs a).
  { intros a. rewrite Rabs_mult. destruct (Bsign v); [rewrite Rabs_left by lra|rewrite Rabs_pos_eq by lra]; ring. }
  destruct ((-4 <=? q) && (q <? P))%Z%bool eqn:C.
  - apply andb_true_iff in C. destruct C as (C1 & C2). apply Z.leb_le in C1. apply Z.ltb_lt in C2.
    unfold fixed_parts. assert (D := dec_parts_ok v F). destruct (dec_parts v) as [m e]. destruct D as (Hm & Av & _).
    destruct (scale10_ok m (e + (P - 1 - q)) Hm) as (N0 & NE). set (k := scale10 m (e + (P - 1 - q))) in *.
    destruct (split_digits k (P - 1 - q) (Bsign v) 0 N0 ltac:(lia)) as (L & Ai & Af & NI & _ & _ & Dn).
    set (ip := zdec (k / 10 ^ (P - 1 - q))) in *. set (fp := zdec_pad (P - 1 - q) (k mod 10 ^ (P - 1 - q))) in *.
    exists ip, (drop_zeros fp), 0%Z. eexists _, q.
    split; [left; split; [reflexivity|]; rewrite point_fraction, sign_minus; reflexivity|].
    split; [exact NI|]. split; [exact Ai|]. split; [apply SD; exact Af|]. split; [apply put_dec_spec|].
    split; [destruct (drop_zeros_ok fp) as (? & _ & H); exact H|]. split; [apply denotes_drop; [exact NI|exact Dn]|].
    set (u := bpow radix10 (0 - (P - 1 - q))). assert (U0 : 0 < u) by apply bpow_gt_0.
    assert (Eu : bpow radix10 (q + 1 - P) = u) by (unfold u; f_equal; lia).
    assert (Eu2 : bpow radix10 (q - (P - 1)) = u) by (unfold u; f_equal; lia).
    assert (Vu : Rabs (val v) = IZR m * bpow radix10 (e + (P - 1 - q)) * u).
    { rewrite Av, Rmult_assoc. unfold u. rewrite <- bpow_plus. f_equal. f_equal. lia. }
    assert (Q1 : bpow radix10 q = IZR (10 ^ (P - 1)) * u).
    { rewrite <- bpow10_Z by exact P1. unfold u. rewrite <- bpow_plus. f_equal. lia. }
    assert (Q2 : bpow radix10 (q + 1) = IZR (10 ^ P) * u).
    { rewrite <- bpow10_Z by lia. unfold u. rewrite <- bpow_plus. f_equal. lia. }
    rewrite Eu2, Q1, Q2, Vu in R. set (z := IZR m * bpow radix10 (e + (P - 1 - q))) in *.
    assert (Z1 : IZR (10 ^ (P - 1)) - / 4 <= z) by (apply Rmult_le_reg_r with u; [exact U0|]; lra).
    assert (Z2 : z <= IZR (10 ^ P)) by (apply Rmult_le_reg_r with u; [exact U0|]; lra).
    apply half_ge with (n := k) in Z1; [|exact NE]. apply half_le with (n := k) in Z2; [|exact NE].
    apply IZR_le in Z1, Z2. split.
    + rewrite AX. rewrite Rabs_pos_eq by (apply Rmult_le_pos; [apply IZR_le; exact N0|lra]).
      rewrite Q1, Q2. split; apply Rmult_le_compat_r; lra.
    + rewrite Eu. rewrite (sign_abs v F) at 1. apply sign_err. rewrite Vu, <- Rmult_minus_distr_r, Rabs_mult, (Rabs_pos_eq u) by lra.
      apply Rmult_le_compat_r; [lra|exact NE].
  - destruct (one_digit n (P - 1) P1 B) as (c & Ec & Nc & Dc).
    assert (Pp := pow10_pos (P - 1) P1).
    destruct (split_digits n (P - 1) (Bsign v) q ltac:(lia) P1) as (L & Ai & Af & NI & _ & _ & Dn). rewrite Ec in *.
    set (fp := zdec_pad (P - 1) (n mod 10 ^ (P - 1))) in *.
    destruct (exp_text_ok q) as (ed & Ee & Ae & Le & Ve).
    exists [c], (drop_zeros fp), q. eexists _, q.
    split. { right. split; [|eauto]. exists ed. split; [|auto]. rewrite Ee, point_fraction, sign_minus. unfold decimal. rewrite <- !app_assoc. reflexivity. }
    split; [exact NI|]. split; [exact Ai|]. split; [apply SD; exact Af|].
    split; [right; cbn; congruence|].
    split; [destruct (drop_zeros_ok fp) as (? & _ & H); exact H|]. split; [apply denotes_drop; [exact NI|exact Dn]|].
    set (u := bpow radix10 (q - (P - 1))) in *. assert (U0 : 0 < u) by apply bpow_gt_0.
    assert (Eu : bpow radix10 (q + 1 - P) = u) by (unfold u; f_equal; lia).
    assert (Q1 : bpow radix10 q = IZR (10 ^ (P - 1)) * u).
    { rewrite <- bpow10_Z by exact P1. unfold u. rewrite <- bpow_plus. f_equal. lia. }
    assert (Q2 : bpow radix10 (q + 1) = IZR (10 ^ (P - 1 + 1)) * u).
    { rewrite <- bpow10_Z by lia. unfold u. rewrite <- bpow_plus. f_equal. lia. }
    split.
    + rewrite AX. rewrite Rabs_pos_eq by (apply Rmult_le_pos; [apply IZR_le; lia|lra]).
      rewrite Q1, Q2. split; apply Rmult_le_compat_r; try lra; apply IZR_le; lia.
    + rewrite Eu. rewrite (sign_abs v F) at 1. apply sign_err. exact A.
Qed.

(* ---- 'e' ---- *)
Lemma r10 e : powerRZ 10 e = bpow radix10 e.
Proof. change 10%R with (IZR radix10). symmetry. apply bpow_powerRZ. Qed.

(* everything known of the text of a non-zero number *)
Lemma eng_all fuel sep v w sd t : fin v -> val v <> 0 -> (1 <= sd < two31)%Z ->
  addF_text fuel sep v "e" w sd = Some (Ok t) ->
  exists neg ip fp ex i x, engineering t neg ip fp ex /\ (neg = true <-> val v < 0) /\
    value false 10 ip = Some i /\ (1 <= i <= 1000)%N /\ (i = 1000%N -> forall c, In c fp -> c = "0"%char) /\ (3 | ex)%Z /\
    (exists a k, ip ++ fp = a ++ repeat "0"%char k /\ Z.of_nat (length a) = sd /\ (k <= 3)%nat) /\
    denotes neg ip fp ex x /\
    (bpow radix2 (-1015) <= Rabs (val v) -> (sd <= 10)%Z ->
      Rabs (x - val v) <= (5 * powerRZ 10 (- sd) + 4 / 10000000000000) * Rabs (val v) /\
      ((sd <= 7)%Z -> Rabs (x - val v) <= 5 * powerRZ 10 (- sd) * Rabs (val v))).
Proof.
  intros F N Hs E. assert (H32 : (0 <= sd < two32)%Z) by (unfold two31, two32 in *; lia).
  destruct (eng_inv _ _ _ _ _ _ F N H32 E) as (e & y & p & EL & Fy & By & T & EF & HS & ->).
  assert (Y1 : 1 <= val y) by lra.
  exists (dlt v dzero), (zdec (p_int p)), (frac_digits p), e, (Z.to_N (p_int p)).
  exists ((if dlt v dzero then -1 else 1) * (printed p * bpow radix10 e)).
  assert (IP := shape_int_pos _ _ _ HS Y1).
  split; [apply (eng_form v _ sd e (val y) p F HS Y1); lia|]. split; [apply dlt_zero; exact F|].
  split. { apply value_some; [apply put_dec_nonempty|]. apply zdec_value. exact IP. }
  assert (W := sh_wid _ _ _ HS).
  assert (I1000 : (1 <= p_int p <= 1000)%Z).
  { destruct (shape_int _ _ _ HS ltac:(lia)) as [(_ & ->)|(A & L & U)]; [lia|].
    assert (10 ^ p_iwid p <= 10 ^ 3)%Z by (apply Z.pow_le_mono_r; lia). assert (0 < 10 ^ (p_iwid p - 1))%Z by (apply pow10_pos; lia). lia. }
  split; [lia|]. split.
  { intros I c Hc. assert (E1000 : p_int p = 1000%Z) by lia.
    assert (F0 : p_frac p = 0%Z).
    { apply (shape_top _ _ _ HS); [lia|]. destruct (shape_int _ _ _ HS ltac:(lia)) as [(_ & X)|(A & L & U)]; [lia|].
      assert (p_iwid p = 3%Z) as ->; [|exact E1000]. destruct (Z_lt_le_dec (p_iwid p) 3) as [Lt|]; [|lia].
      assert (10 ^ p_iwid p <= 10 ^ 2)%Z by (apply Z.pow_le_mono_r; lia). lia. }
    destruct (frac_digits_ok _ _ _ HS (shape_fwid0 _ _ _ HS)) as (_ & _ & V). rewrite F0 in V. apply value_zero in V.
    rewrite V in Hc. apply repeat_spec in Hc. exact Hc. }
  split; [exact T|]. split; [eapply eng_digits; eassumption|]. split; [eapply eng_denotes; eassumption|].
  intros Hv H9. destruct (dabs_ok v F) as (Fa & Va). rewrite to_i32_small in EL by (unfold two31 in *; lia).
  rewrite <- Va in Hv. destruct (accuracy fuel (dabs v) sd e y p Fa Hv ltac:(lia) EL HS) as (A1 & A2).
  assert (Sg : Rabs ((if dlt v dzero then -1 else 1) * (printed p * bpow radix10 e) - val v) = Rabs (printed p * bpow radix10 e - val (dabs v))).
  { rewrite Va. destruct (dlt v dzero) eqn:L.
    - apply dlt_zero in L; [|exact F]. rewrite (Rabs_left (val v)) by exact L.
      replace (-1 * (printed p * bpow radix10 e) - val v) with (- (printed p * bpow radix10 e - - val v)) by ring. apply Rabs_Ropp.
    - assert (0 <= val v). { apply Rnot_lt_le. intros H. apply dlt_zero in H; [congruence|exact F]. }
      rewrite (Rabs_pos_eq (val v)) by assumption. f_equal. ring. }
  rewrite Sg, <- Va, r10. auto.
Qed.

(* the text of the 'e' format is at least as long as the field *)
Lemma pad_r_len c w s : (w <= Z.of_nat (length (pad_r c w s)) /\ Z.of_nat (length s) <= Z.of_nat (length (pad_r c w s)))%Z.
Proof. unfold pad_r, fill_count. rewrite app_length, repeat_length. lia. Qed.
Lemma eng_length v width e y sd p : shape y sd p -> (width < two31)%Z -> (0 <= width)%Z -> (width <= Z.of_nat (length (eng_text v width e p)))%Z.
Proof.
  intros H Hw H0. assert (W := sh_wid _ _ _ H). assert (FW := shape_fwid0 _ _ _ H). unfold eng_text. rewrite !app_length, !Nat2Z.inj_add.
  assert (L1 := proj1 (pad_r_len " "%char (p_iwid p) (put_int (p_int p)))).
  assert (L2 : (p_fwid p <= Z.of_nat (length (if (0 <? p_fwid p)%Z then lit "." ++ pad_l "0"%char (p_fwid p) (put_int (p_frac p)) else [])))%Z).
  { destruct (Z.ltb_spec 0 (p_fwid p)); [|cbn; lia]. rewrite app_length. unfold pad_l, fill_count. rewrite app_length, repeat_length. lia. }
  assert (L3 : forall a, (2 <= Z.of_nat (length (pad_r " "%char 2 a)))%Z) by (intros a; apply pad_r_len).
  assert (L4 : (3 <= Z.of_nat (length (if (e <? 0)%Z then lit "-" ++ pad_r " "%char 2 (put_int (- e)) else lit "+" ++ pad_r " "%char 2 (put_int e))))%Z).
  { destruct (e <? 0)%Z; rewrite app_length, Nat2Z.inj_add; [specialize (L3 (put_int (- e)))|specialize (L3 (put_int e))]; change (length (lit "+")) with 1%nat; change (length (lit "-")) with 1%nat; change (length (lit "e")) with 1%nat; lia. }
  assert (Fw31 : (p_fwid p < two31)%Z).
  { rewrite (sh_fwid _ _ _ H). unfold to_i32, two31, two32. assert (M := Z.mod_pos_bound (sd - Z.min (p_iwid p) sd) 4294967296 ltac:(lia)).
    destruct (Z.ltb_spec ((sd - Z.min (p_iwid p) sd) mod 4294967296) 2147483648); lia. }
  rewrite repeat_length.
  destruct (Z_lt_le_dec (width - (p_iwid p + p_fwid p + 4)) (- two31)) as [Big|Sm].
  - lia.
  - rewrite to_i32_small by (unfold two31 in *; lia). change (length (lit "e")) with 1%nat. lia.
Qed.

Lemma c28 fuel sep v fm w sd t : (0 <= sd < two32)%Z -> (0 <= requested w sd < two31)%Z ->
  is_finite v = false \/ In fm (lit "fsg") \/ fm = "e"%char /\ val v <> 0 ->
  addF_text fuel sep v fm w sd = Some (Ok t) -> (requested w sd <= Z.of_nat (length t))%Z.
Proof.
  intros Hs Hw C E.
  assert (J : forall s t', left_justified " "%char (requested w sd) s t' -> (requested w sd <= Z.of_nat (length t'))%Z).
  { intros s t' (k & -> & Hk). rewrite app_length, repeat_length. lia. }
  destruct (is_finite v) eqn:F.
  2:{ destruct v as [s|s| |]; try discriminate.
      - rewrite text_inf in E. injection E as <-. apply (J (lit "inf")). apply pad_r_spec.
      - rewrite text_nan in E by reflexivity. injection E as <-. apply (J (lit "nan")). apply pad_r_spec. }
  destruct C as [C|[C|(-> & N)]]; [discriminate| |].
  - rewrite text_fin in E by exact F. cbv zeta in E.
    destruct C as [<-|[<-|[<-|[]]]]; cbn [Ascii.eqb Bool.eqb] in E; injection E as <-; eapply J; apply field_just; exact Hw.
  - destruct (eng_inv _ _ _ _ _ _ F N Hs E) as (e & y & p & _ & _ & _ & _ & _ & HS & ->). eapply eng_length; [exact HS| |]; lia.
Qed.

(* termination *)
Lemma third_val : val third = 3 * powerRZ 2 (-1074).
Proof. unfold third, dtiny. cbn [B2R cond_Zopp]. unfold F2R. cbn [Fnum Fexp]. change 2%R with (IZR radix2). rewrite <- bpow_powerRZ. reflexivity. Qed.
Lemma r2 e : powerRZ 2 e = bpow radix2 e.
Proof. change 2%R with (IZR radix2). symmetry. apply bpow_powerRZ. Qed.
Lemma under_limit sd : (0 <= sd < two32)%Z -> bpow radix2 1023 <= IZR (limit sd) * powerRZ 2 971.
Proof.
  intros H. destruct (limit_facts sd H) as (_ & _ & _ & _ & L1 & _). rewrite r2. replace 1023%Z with (52 + 971)%Z by reflexivity.
  rewrite <- at_971 by lia. apply Rmult_le_compat_r; [apply bpow_ge_0|]. apply IZR_le. exact L1.
Qed.
Lemma counted_i32 sd : (0 <= sd < two32)%Z -> Z.max (to_i32 sd) 0 = counted sd.
Proof.
  intros H. unfold to_i32, counted. rewrite Z.mod_small by exact H. unfold two31, two32 in *. destruct (Z.ltb_spec sd 2147483648); lia.
Qed.
(* the range of 'e': below the lowest and above the highest numbers one of its
   loops does not end *)
Definition in_range (v : double) (sd : Z) : Prop :=
  val v = 0 \/ 3 * powerRZ 2 (-1074) <= Rabs (val v) <= IZR (limit sd) * powerRZ 2 971.
Lemma ends fuel sep v fm w sd : (500 < fuel)%nat -> (0 <= sd < two32)%Z -> fin v -> in_range v sd ->
  exists o, addF_text fuel sep v fm w sd = Some o.
Proof.
  intros Hf Hs F C. rewrite text_fin by exact F. cbv zeta.
  destruct (Ascii.eqb fm "f"); [eauto|]. destruct (Ascii.eqb fm "s"); [eauto|]. destruct (Ascii.eqb fm "g"); [eauto|]. destruct (Ascii.eqb fm "e"); [|eauto].
  destruct (deq v dzero) eqn:D; [eauto|]. destruct C as [C|(L & U)]; [apply deq_zero in C; [congruence|exact F]|].
  destruct (dabs_ok v F) as (Fa & Va). rewrite <- third_val, <- Va in L.
  rewrite r2, <- Va in U.
  destruct (limit_ends fuel (dabs v) sd Hf Fa Hs (conj L U)) as ((e & y) & E). rewrite E.
  assert (P3 : 0 < val third) by (change (val third) with (F2R (Float radix2 3 (-1074))); apply F2R_gt_0; reflexivity).
  destruct (log1k_ok _ _ _ _ _ Fa ltac:(lra) E) as (Fy & By & _).
  destruct (fractionate_eq fuel y sd ltac:(lia) Fy By Hs) as (w' & _ & _ & _ & _ & ->). eauto.
Qed.
Lemma defined fuel sep v fm w sd : (500 < fuel)%nat -> (0 <= sd <= 10)%Z -> fin v -> in_range v sd ->
  exists t, addF_text fuel sep v fm w sd = Some (Ok t).
Proof.
  intros Hf Hs F C. destruct (ends fuel sep v fm w sd Hf) as (o & E); [unfold two32; lia|exact F|exact C|].
  rewrite E. assert (E' := E). rewrite text_fin in E' by exact F. cbv zeta in E'.
  destruct (Ascii.eqb fm "f"); [injection E' as <-; eauto|]. destruct (Ascii.eqb fm "s"); [injection E' as <-; eauto|].
  destruct (Ascii.eqb fm "g"); [injection E' as <-; eauto|]. destruct (Ascii.eqb fm "e"); [|injection E' as <-; eauto].
  destruct (deq v dzero) eqn:D; [injection E' as <-; eauto|].
  destruct (log1k fuel (dabs v) (to_i32 sd)) as [[e y]|] eqn:EL; [|discriminate].
  destruct (dabs_ok v F) as (Fa & Va).
  assert (Nz : val v <> 0) by (intros H; apply deq_zero in H; [congruence|exact F]).
  destruct (log1k_ok _ _ _ _ _ Fa ltac:(rewrite Va; apply Rabs_pos_lt; exact Nz) EL) as (Fy & By & _).
  destruct (fractionate_eq fuel y sd ltac:(lia) Fy By ltac:(unfold two32; lia)) as (w' & Hw' & Cw' & Ff & Vf & EF). rewrite EF in E'.
  assert (V01 : 0 <= val (fst (dmodf y)) < 1).
  { rewrite Vf. assert (A := Zfloor_lb (val y)). assert (B := Zfloor_ub (val y)). lra. }
  destruct Cw' as [(W0 & Y1)|(W1 & _)].
  { rewrite frac_loop_0 in E' by (exact Ff || (rewrite Vf, Y1, Zfloor_IZR; lra)). cbn [obind] in E'. injection E' as <-. eauto. }
  destruct (frac_loop_def (Z.to_nat (to_i32 (sd - Z.min w' sd))) (fst (dmodf y)) 0 0 Ff V01) as (g & Eg).
  - change (10 ^ 0)%Z with 1%Z. lia.
  - lia.
  - rewrite to_i32_small by (unfold two31; lia). lia.
  - rewrite Eg in E'. cbn [obind] in E'. injection E' as <-. eauto.
Qed.
Lemma text_mono f g sep v fm w sd o : (f <= g)%nat -> addF_text f sep v fm w sd = Some o -> addF_text g sep v fm w sd = Some o.
Proof.
  intros H. destruct (is_finite v) eqn:F.
  2:{ destruct v; try discriminate; auto. }
  rewrite !text_fin by exact F. cbv zeta.
  destruct (Ascii.eqb fm "f"); [auto|]. destruct (Ascii.eqb fm "s"); [auto|]. destruct (Ascii.eqb fm "g"); [auto|]. destruct (Ascii.eqb fm "e"); [|auto].
  destruct (deq v dzero); [auto|]. destruct (log1k f _ _) as [[e y]|] eqn:EL; [|discriminate]. rewrite (log1k_mono _ _ _ _ _ H EL).
  destruct (fractionate f y sd) as [o'|] eqn:EF; [|discriminate]. rewrite (fractionate_mono _ _ _ _ _ H EF). auto.
Qed.

Fixpoint all_below (n : nat) (x : double) : bool :=
  match n with O => true | S k => dlt x d1 && all_below k (dmul x (dlit 10)) end.
Lemma all_below_ok n : forall x, all_below n x = true -> forall k, (k < n)%nat -> dlt (ups 10 k x) d1 = true.
Proof.
  induction n as [|n IH]; intros x H k Hk; [lia|]. cbn [all_below] in H. apply andb_true_iff in H. destruct H as (H1 & H2).
  destruct k as [|k]; [exact H1|]. replace (ups 10 (S k) x) with (ups 10 k (dmul x (dlit 10))); [apply IH; [exact H2|lia]|].
  clear. induction k as [|k IHk]; [reflexivity|]. change (ups 10 (S k) (dmul x (dlit 10))) with (dmul (ups 10 k (dmul x (dlit 10))) (dlit 10)).
  rewrite IHk. reflexivity.
Qed.
(* the smallest doubles: the loop of lines 309-313 multiplies zero forever *)
Lemma tiny_log n Hn sd fuel : n = 1%positive \/ n = 2%positive -> log1k fuel (dtiny n Hn) sd = None.
Proof.
  intros Hc. assert (F : fin (dtiny n Hn)) by reflexivity.
  assert (Vn : val (dtiny n Hn) = IZR (Z.pos n) * bpow radix2 (-1074)) by reflexivity.
  assert (Pn : 0 < val (dtiny n Hn)) by (rewrite Vn; apply Rmult_lt_0_compat; [apply IZR_lt; reflexivity|apply bpow_gt_0]).
  destruct (log1k fuel (dtiny n Hn) sd) as [[e y]|] eqn:EL; [|reflexivity]. exfalso.
  destruct (log1k_ok _ _ _ _ _ F Pn EL) as (_ & _ & _ & m & r & s & E1 & E2 & Fz & Pz & _).
  destruct (norm_ok (fuel + 500) _ ltac:(lia) F Pn) as (m' & r' & s' & E1' & E2' & Fm & Bm & Fr & C).
  assert (s' = s) as -> by congruence. assert (m' = m /\ r' = r) as (-> & ->) by (split; congruence).
  assert (T324 : forall k, (k <= 323)%nat -> dlt (ups 10 k (dtiny n Hn)) d1 = true).
  { assert (TT : all_below 324 (dtiny n Hn) = true) by (destruct Hc as [-> | ->]; vm_compute; reflexivity).
    intros k Hk. apply (all_below_ok 324); [exact TT|lia]. }
  destruct C as [(_ & k & Hk & -> & -> & _)|(G & _)].
  - assert (k = 324)%nat as ->.
    { destruct (Nat.le_gt_cases k 323) as [L|L]; [|lia]. exfalso. specialize (T324 k L). apply dlt_true in T324; [|exact Fm|apply d1_fin].
      rewrite d1_val in T324. lra. }
    unfold restored in Pz, Fz. rewrite (proj2 d1_323) in Pz, Fz. destruct (add_ri _ sd Fm Bm) as (Fa & _ & _).
    rewrite dmul_fin in Pz by (auto; reflexivity). change (val dzero) with 0 in Pz. rewrite Rmult_0_r, round_0 in Pz by apply valid_rnd_N. lra.
  - rewrite Vn in G. assert (bpow radix2 (-1074) < / 2) by (change (/ 2) with (bpow radix2 (-1)); apply bpow_lt; lia).
    destruct Hc as [-> | ->]; lra.
Qed.
Lemma eng_none fuel sep v w sd : fin v -> val v <> 0 -> log1k fuel (dabs v) (to_i32 sd) = None -> addF_text fuel sep v "e" w sd = None.
Proof.
  intros F N H. rewrite text_fin by exact F. cbv zeta. change (Ascii.eqb "e" "f") with false. change (Ascii.eqb "e" "s") with false.
  change (Ascii.eqb "e" "g") with false. change (Ascii.eqb "e" "e") with true. cbv iota.
  assert (D : deq v dzero = false) by (destruct (deq _ _) eqn:D; [apply deq_zero in D; [lra|exact F]|reflexivity]). rewrite D, H. reflexivity.
Qed.
(* the only doubles below 3 * 2^-1074 *)
Lemma tiny_cases v : fin v -> 0 < val v < 3 * bpow radix2 (-1074) -> exists n H, v = dtiny n H /\ (n = 1 \/ n = 2)%positive.
Proof.
  intros F (L & U). destruct v as [s| | |s m e Hb]; try discriminate; [cbn in L; lra|].
  destruct s; [exfalso; apply (Rlt_asym _ _ L); apply F2R_lt_0; reflexivity|].
  cbn [B2R cond_Zopp] in U. unfold F2R in U. cbn [Fnum Fexp] in U.
  assert (Hb' := Hb). unfold SpecFloat.bounded in Hb'. apply andb_true_iff in Hb'. destruct Hb' as (Hc & _). unfold SpecFloat.canonical_mantissa in Hc.
  apply Zeq_bool_eq in Hc. unfold SpecFloat.fexp, SpecFloat.emin in Hc.
  assert (E0 : (-1074 <= e)%Z) by lia.
  assert (M3 : (Z.pos m * 2 ^ (e + 1074) < 3)%Z).
  { apply lt_IZR. rewrite mult_IZR. apply Rmult_lt_reg_r with (bpow radix2 (-1074)); [apply bpow_gt_0|]. eapply Rle_lt_trans; [|exact U].
    rewrite Rmult_assoc. apply Rmult_le_compat_l; [apply IZR_le; lia|]. apply Req_le.
    replace (bpow radix2 e) with (bpow radix2 ((e + 1074) + -1074)) by (f_equal; lia). rewrite bpow_plus.
    f_equal. rewrite <- IZR_Zpower by lia. reflexivity. }
  assert (E1 : e = (-1074)%Z).
  { destruct (Z.eq_dec e (-1074)) as [|N]; [assumption|exfalso]. assert (P2 : (2 ^ 1 <= 2 ^ (e + 1074))%Z) by (apply Z.pow_le_mono_r; lia).
    change (2 ^ 1)%Z with 2%Z in P2. assert (m = 1%positive) as -> by nia.
    change (Z.pos (SpecFloat.digits2_pos 1)) with 1%Z in Hc. lia. }
  subst e. cbn in M3. exists m, Hb. split; [reflexivity|]. lia.
Qed.
Lemma never fuel sep v w sd : fin v -> (0 <= sd < two32)%Z ->
  0 < Rabs (val v) < 3 * powerRZ 2 (-1074) \/ IZR (limit sd) * powerRZ 2 971 < Rabs (val v) ->
  addF_text fuel sep v "e" w sd = None.
Proof.
  intros F Hs H. destruct (dabs_ok v F) as (Fa & Va). rewrite !r2, <- Va in H.
  assert (N : val v <> 0).
  { intros Z. rewrite Va, Z, Rabs_R0 in H. destruct H as [H|H]; [lra|]. destruct (limit_facts sd Hs) as (_ & _ & _ & _ & L1 & _).
    assert (X := one_below (limit sd) L1). lra. }
  apply eng_none; [exact F|exact N|]. destruct H as [H|H].
  - destruct (tiny_cases _ Fa H) as (n & Hn & -> & C). apply tiny_log. exact C.
  - apply limit_never; assumption.
Qed.
Lemma scale_down_mono f g s r : (f <= g)%nat -> scale_down f s = Some r -> scale_down g s = Some r.
Proof. apply while_mono. Qed.
Lemma scale_up_mono f g s r : (f <= g)%nat -> scale_up f s = Some r -> scale_up g s = Some r.
Proof. apply while_mono. Qed.
(* an infinite product is divided forever *)
Definition overflows (n : nat) (v : double) (sd : Z) : bool :=
  match scale_down n (v, d1) with
  | Some s => match scale_up n s with Some (m, r) => d_isinf (restored m r sd) | None => false end
  | None => false
  end.
Lemma inf_never n fuel (v : double) sd : fin v -> 0 < val v -> overflows n v sd = true -> log1k fuel v sd = None.
Proof.
  intros F P T. destruct (log1k fuel v sd) as [[e y]|] eqn:EL; [|reflexivity]. exfalso.
  destruct (log1k_ok _ _ _ _ _ F P EL) as (_ & _ & _ & m & r & s & E1 & E2 & Fz & _).
  revert E1 E2. generalize (fuel + 500)%nat. intros g E1 E2.
  unfold overflows in T. destruct (scale_down n (v, d1)) as [s'|] eqn:A1; [|discriminate].
  apply (scale_down_mono n (n + g)) in A1; [|lia]. apply (scale_down_mono g (n + g)) in E1; [|lia].
  assert (Q1 : Some s = Some s') by (etransitivity; [symmetry; exact E1|exact A1]). injection Q1 as <-.
  destruct (scale_up n s) as [[m' r']|] eqn:A2; [|discriminate].
  apply (scale_up_mono n (n + g)) in A2; [|lia]. apply (scale_up_mono g (n + g)) in E2; [|lia].
  assert (Q2 : Some (m, r) = Some (m', r')) by (etransitivity; [symmetry; exact E2|exact A2]). injection Q2 as <- <-.
  clear - T Fz.
  destruct (restored m r sd) as [a|a| |a b c d]; [discriminate T|discriminate Fz|discriminate T|discriminate T].
Qed.
