(* L_FormatX.v -- the largest numbers the 'e' format returns for. *)
From Coq Require Import Reals Lra Psatz.
From Flocq Require Import Core.Core IEEE754.BinarySingleNaN Relative.
From Verif Require Import Base M_Stream M_Float M_Format M_FormatF S_FormatF L_Float L_Near L_FormatF L_FormatG L_FormatI L_FormatJ L_FormatK L_FormatL.
Local Open Scope R_scope.

Lemma ups10_inc j k : (j <= k <= 308)%nat -> val (ups 10 j d1) <= val (ups 10 k d1).
Proof.
  induction k as [|k IH]; intros H; [assert (j = 0)%nat as -> by lia; lra|].
  destruct (Nat.eq_dec j (S k)) as [->|N]; [lra|]. eapply Rle_trans; [apply IH; lia|].
  destruct (ups10_fin k ltac:(lia)) as (Fk & Pk). destruct (ups10_fin (S k) ltac:(lia)) as (Fs & _).
  change (ups 10 (S k) d1) with (dmul (ups 10 k d1) (dlit 10)) in *. destruct (dlit_ok 10 eq_refl) as (F10 & V10).
  rewrite (dmul_fin _ _ Fk F10 Fs), V10. apply rnd_ge_fmt; [apply val_fmt|lra].
Qed.
Definition d307 : double := ups 10 307 d1.
Definition d308 : double := ups 10 308 d1.
Lemma d15_307 : is_finite (dmul (dlit 15) d307) = true.
Proof. vm_compute. reflexivity. Qed.

Lemma d307_ok : fin d307 /\ forall k, (k <= 307)%nat -> val (ups 10 k d1) <= val d307.
Proof. split; [apply ups10_fin; lia|intros k H; apply ups10_inc; lia]. Qed.
Lemma d308_ok : fin d308 /\ 1 <= val d308.
Proof. apply ups10_fin. lia. Qed.
Lemma dmax_K t : fin t -> 0 <= val t -> val (downs 10 308 t) <= 10.
Proof.
  intros Ft P. destruct dmax_308 as (D1 & D2). apply dlt_true in D1; [|exact D2|reflexivity].
  change d10 with (dlit 10) in D1. rewrite (proj2 (dlit_ok 10 eq_refl)) in D1.
  destruct (downs_mono 10 308 t dmax ltac:(lia) Ft eq_refl (conj P (le_dmax t))) as (_ & _ & (_ & X) & _).
  eapply Rle_trans; [exact X|]. left. exact D1.
Qed.
Local Opaque ups downs dmul dadd d307 d308 round_incr.

(* a smaller product of positive numbers is finite too *)
Lemma dmul_below a b c d : fin a -> fin b -> fin c -> fin d -> 0 <= val a <= val c -> 0 <= val b <= val d ->
  fin (dmul c d) -> fin (dmul a b).
Proof.
  intros Fa Fb Fc Fd Ha Hb F. apply dmul_ok; [exact Fa|exact Fb|].
  rewrite Rabs_pos_eq by (apply rnd_pos; nra).
  apply Rle_lt_trans with (rnd (val c * val d)); [apply rnd_le; nra|].
  rewrite <- (dmul_fin _ _ Fc Fd F). apply val_lt_top.
Qed.
Lemma dadd_mono a b c d : fin a -> fin b -> fin c -> fin d -> 0 <= val a <= val c -> 0 <= val b <= val d -> val c <= 10 -> val d <= 5 ->
  val (dadd a b) <= val (dadd c d) /\ fin (dadd c d) /\ 0 <= val (dadd a b) /\ fin (dadd a b).
Proof.
  intros Fa Fb Fc Fd Ha Hb Hc Hd.
  assert (K : forall x, 0 <= x <= 15 -> 0 <= rnd x /\ Rabs (rnd x) < top).
  { intros x Hx. assert (0 <= rnd x) by (apply rnd_pos; lra). split; [assumption|]. rewrite Rabs_pos_eq by assumption.
    apply Rle_lt_trans with 15; [apply rnd_le_fmt; [apply (fmt_IZR 15); reflexivity|lra]|]. apply Rlt_trans with (bpow radix2 4); [cbn; lra|apply bpow_lt; lia]. }
  destruct (K (val a + val b) ltac:(lra)) as (K1 & K2). destruct (K (val c + val d) ltac:(lra)) as (K3 & K4).
  destruct (dadd_ok a b Fa Fb K2) as (F1 & ->). destruct (dadd_ok c d Fc Fd K4) as (F2 & ->).
  repeat split; auto. apply rnd_le. lra.
Qed.

Lemma c10 : (1 <= 10 < 2 ^ 53)%Z.
Proof. lia. Qed.
Lemma thousands_goes fuel x : (500 < fuel)%nat -> fin x -> 1 <= val x -> exists r, thousands fuel x = Some r.
Proof.
  intros Hf Fz Pz. destruct (thousands_ok fuel x ltac:(lia) Fz ltac:(lra)) as (j & _ & [(_ & T & _)|(_ & T & _)]); rewrite T; eauto.
Qed.
Section Top.
(* names for 308 and 10^308, which must not be computed with *)
Variables (J K : nat) (D : double).
Hypotheses (HJ : J = 307%nat) (HK : K = 308%nat) (HD : D = ups 10 K d1) (FD : fin D) (GD : 1 <= val D)
  (HM : forall t, fin t -> 0 <= val t -> val (downs 10 K t) <= 10).

(* a number from 1 on whose scaled value times the power of ten is finite *)
Lemma log1k_goes fuel v sd : (500 < fuel)%nat -> fin v -> 1 <= val v ->
  (forall i, (i < K)%nat -> 10 <= val (downs 10 i v)) /\ 1 <= val (downs 10 K v) <= 10 /\
    log1k fuel v sd = thousands fuel (restored (downs 10 K v) D sd) \/
  exists r, log1k fuel v sd = Some r.
Proof.
  intros Hf Fv Hv. destruct (norm_ok fuel v ltac:(lia) Fv ltac:(lra)) as (m & r & s & E1 & E2 & Fm & Bm & Fr & C).
  rewrite (log1k_eq _ _ _ _ _ _ E1 E2). destruct C as [(L & _)|(_ & k & Hk & -> & -> & I)]; [lra|].
  destruct (Nat.eq_dec k K) as [->|N]; [left; rewrite HD; auto|right].
  destruct (add_ri (downs 10 k v) sd Fm Bm) as (Fa & _ & Ba). destruct (ups10_fin k Hk) as (_ & Gr).
  destruct (dlit_ok 15 eq_refl) as (F15 & V15). destruct d307_ok as (F7 & P7).
  assert (Fz : fin (restored (downs 10 k v) (ups 10 k d1) sd)).
  { unfold restored. apply (dmul_below _ _ (dlit 15) d307 Fa Fr F15 F7); [rewrite V15; lra| |exact d15_307].
    split; [lra|]. apply P7. lia. }
  assert (Pz : 1 <= val (restored (downs 10 k v) (ups 10 k d1) sd)).
  { unfold restored in *. rewrite (dmul_fin _ _ Fa Fr Fz). apply rnd_ge_fmt; [apply (fmt_IZR 1); reflexivity|]. nra. }
  exact (thousands_goes fuel _ Hf Fz Pz).
Qed.

(* up to t the product is finite *)
Definition safe (t : double) (n : nat) : bool :=
  let m := downs 10 K t in dlt m d1 || is_finite (dmul (dadd m (round_incr n)) D).
Lemma safe_ends fuel v t n sd : (500 < fuel)%nat -> fin v -> fin t -> 1 <= val v <= val t -> safe t n = true -> (n <= Z.to_nat sd)%nat ->
  exists r, log1k fuel v sd = Some r.
Proof.
  intros Hf Fv Ft Hv S Hn. destruct (log1k_goes fuel v sd Hf Fv (proj1 Hv)) as [(I & B & E)|E]; [|exact E]. rewrite E.
  destruct (downs_mono 10 K v t c10 Fv Ft (conj (Rle_trans _ _ _ Rle_0_1 (proj1 Hv)) (proj2 Hv))) as (F1 & F2 & M & _).
  pose proof FD as F8. pose proof GD as G8.
  assert (LT := HM t Ft (Rle_trans _ _ _ Rle_0_1 (Rle_trans _ _ _ (proj1 Hv) (proj2 Hv)))).
  unfold safe in S. cbv zeta in S. apply orb_true_iff in S. destruct S as [S|S].
  { apply dlt_true in S; [|exact F2|apply d1_fin]. rewrite d1_val in S. lra. }
  destruct (round_incr_ok n) as (Fn & Bn). destruct (round_incr_ok (Z.to_nat sd)) as (Fs & Bs). assert (R := ri_dec _ _ Hn).
  destruct (dadd_mono (downs 10 K v) (round_incr (Z.to_nat sd)) (downs 10 K t) (round_incr n)) as (A1 & A2 & A3 & A4); auto; try lra.
  assert (Fz : fin (restored (downs 10 K v) D sd)).
  { unfold restored. apply (dmul_below _ _ (dadd (downs 10 K t) (round_incr n)) D); auto; lra. }
  destruct (add_ri (downs 10 K v) sd F1 B) as (Fa & _ & Ba).
  assert (Pz : 1 <= val (restored (downs 10 K v) D sd)).
  { unfold restored in *. rewrite (dmul_fin _ _ Fa F8 Fz). apply rnd_ge_fmt; [apply (fmt_IZR 1); reflexivity|]. nra. }
  exact (thousands_goes fuel _ Hf Fz Pz).
Qed.

(* from t on it is infinite *)
Definition unsafe (t : double) (incr : double) : bool :=
  dge (downs 10 J t) d10 && d_isinf (dmul (dadd (downs 10 K t) incr) D).
Lemma unsafe_never fuel v t sd incr : fin v -> fin t -> 1 <= val t <= val v -> unsafe t incr = true ->
  fin incr -> 0 <= val incr <= val (round_incr (Z.to_nat sd)) -> log1k fuel v sd = None.
Proof.
  intros Fv Ft Hv S Fi Hi. assert (Gv : 1 <= val v) by (destruct Hv as (H1 & H2); exact (Rle_trans _ _ _ H1 H2)).
  assert (Pv : 0 < val v) by exact (Rlt_le_trans _ _ _ Rlt_0_1 Gv). assert (H5 : (400 < fuel + 500)%nat) by (clear; lia). destruct (log1k fuel v sd) as [[e y]|] eqn:EL; [exfalso|reflexivity].
  destruct (log1k_ok _ _ _ _ _ Fv Pv EL) as (_ & _ & _ & m & r & s & E1 & E2 & Fz & _).
  destruct (norm_ok (fuel + 500) v H5 Fv Pv) as (m' & r' & s' & E1' & E2' & Fm & Bm & Fr & C).
  assert (s' = s) as -> by congruence. assert (m' = m /\ r' = r) as (-> & ->) by (split; congruence).
  destruct C as [(L & _)|(_ & k & Hk & -> & -> & I)]; [lra|].
  unfold unsafe in S. rewrite !andb_true_iff in S. destruct S as (S1 & S3).
  destruct (downs_mono 10 J t v c10 Ft Fv (conj (Rle_trans _ _ _ Rle_0_1 (proj1 Hv)) (proj2 Hv))) as (F1 & F2 & M & _).
  apply dge_true in S1; [|exact F1|reflexivity]. change (val d10) with (val (dlit 10)) in S1. rewrite (proj2 (dlit_ok 10 eq_refl)) in S1.
  assert (k = K)%nat as ->.
  { destruct (Nat.eq_dec k K) as [|N]; [assumption|]. exfalso.
    destruct (scale_down_ok (fuel + 500) v ltac:(clear; lia) Fv Pv) as (j & Hj & Ej & Fj & Lj & Zj & Ij).
    assert (X := downs_dec 10 j (J - j) v c10 Fv (Rle_trans _ _ _ Rle_0_1 Gv)).
    destruct (Nat.eq_dec j K) as [->|Nj];
      [|replace (j + (J - j))%nat with J in X by (clear - Hj Nj HJ HK; lia); clear - X S1 M Lj; lra].
    rewrite Ej in E1. injection E1 as <-. unfold scale_up in E2. destruct (fuel + 500)%nat as [|f]; [discriminate|]. cbn [while fst snd] in E2.
    destruct (dlt (downs 10 K v) d1) eqn:D0.
    - apply dlt_true in D0; [|exact Fj|apply d1_fin]. rewrite d1_val in D0. destruct Zj as [Z|Z]; [rewrite HK in Z; discriminate|clear - D0 Z; lra].
    - injection E2 as E2 _. assert (Lk : (k < K)%nat) by (clear - Hk N HK; lia). specialize (Ij k Lk). rewrite E2 in Lj. clear - Ij Lj; lra. }
  destruct (downs_mono 10 K t v c10 Ft Fv (conj (Rle_trans _ _ _ Rle_0_1 (proj1 Hv)) (proj2 Hv))) as (F3 & F4 & M8 & _).
  destruct (round_incr_ok (Z.to_nat sd)) as (Fs & Bs).
  destruct (dadd_mono (downs 10 K t) incr (downs 10 K v) (round_incr (Z.to_nat sd))) as (A1 & A2 & A3 & A4); auto; try (clear - Bs Hi M8 Bm; lra).
  pose proof FD as F8. pose proof GD as G8.
  assert (Fin : fin (dmul (dadd (downs 10 K t) incr) D)).
  { unfold restored in Fz. rewrite <- HD in Fz. apply (dmul_below _ _ (dadd (downs 10 K v) (round_incr (Z.to_nat sd))) D); auto; clear - A1 A3 G8; lra. }
  clear - Fin S3. destruct (dmul _ _); discriminate.
Qed.

End Top.

Lemma d308_eq : d308 = ups 10 308 d1.
Proof. reflexivity. Qed.
Definition safe1 : double -> nat -> bool := safe 308 d308.
Definition unsafe1 : double -> double -> bool := unsafe 307 308 d308.
Lemma safe1_ends fuel v t n sd : (500 < fuel)%nat -> fin v -> fin t -> 1 <= val v <= val t -> safe1 t n = true -> (n <= Z.to_nat sd)%nat ->
  exists r, log1k fuel v sd = Some r.
Proof. exact (safe_ends 307 308 d308 eq_refl eq_refl d308_eq (proj1 d308_ok) (proj2 d308_ok) dmax_K fuel v t n sd). Qed.
Lemma unsafe1_never fuel v t sd incr : fin v -> fin t -> 1 <= val t <= val v -> unsafe1 t incr = true ->
  fin incr -> 0 <= val incr <= val (round_incr (Z.to_nat sd)) -> log1k fuel v sd = None.
Proof. exact (unsafe_never 307 308 d308 eq_refl eq_refl d308_eq (proj1 d308_ok) (proj2 d308_ok) fuel v t sd incr). Qed.
Opaque safe1 unsafe1.

(* ---- the limits ---- *)
Lemma at_971 n : (0 <= n)%Z -> IZR (2 ^ n) * bpow radix2 971 = bpow radix2 (n + 971).
Proof. intros H. rewrite bpow_plus. f_equal. apply (IZR_Zpower radix2 n H). Qed.
Definition mk (m : Z) : double := @binary_normalize 53 1024 prec64 emax64 mode_NE m 971 false.
Lemma mk_ok m : (Z.abs m < 2 ^ 53)%Z -> fin (mk m) /\ val (mk m) = IZR m * bpow radix2 971.
Proof.
  intros H. generalize (@binary_normalize_correct 53 1024 prec64 emax64 mode_NE m 971 false). cbv zeta. fold (mk m).
  assert (E : F2R (Float radix2 m 971) = IZR m * bpow radix2 971) by reflexivity. rewrite E.
  assert (G : generic_format radix2 (SpecFloat.fexp 53 1024) (IZR m * bpow radix2 971)) by (apply fmt_F2R; [exact H|lia]).
  rewrite (round_generic radix2 _ (round_mode mode_NE) _ G).
  rewrite Rlt_bool_true; [intros (A & B & _); auto|].
  rewrite Rabs_mult, (Rabs_pos_eq (bpow radix2 971)) by apply bpow_ge_0. rewrite <- abs_IZR.
  replace 1024%Z with (53 + 971)%Z by reflexivity. rewrite <- at_971 by lia.
  apply Rmult_lt_compat_r; [apply bpow_gt_0|]. apply IZR_lt. exact H.
Qed.
Definition incr_at (i : nat) : double := if Nat.eqb i 16 then dzero else round_incr i.
Lemma limits_table : forallb (fun i => let m := nth i limits 0%Z in
  (2 ^ 52 <=? m)%Z && (m + 1 <? 2 ^ 53)%Z && safe1 (mk m) i && unsafe1 (mk (m + 1)) (incr_at i) && is_finite (incr_at i)) (seq 0 17) = true.
Proof. vm_compute. reflexivity. Qed.
Lemma limit_facts sd : (0 <= sd < two32)%Z -> exists i, (i <= 16)%nat /\ (i <= Z.to_nat (to_i32 sd))%nat /\ ((i < 16)%nat -> i = Z.to_nat (to_i32 sd)) /\
  (2 ^ 52 <= limit sd)%Z /\ (limit sd + 1 < 2 ^ 53)%Z /\ safe1 (mk (limit sd)) i = true /\ unsafe1 (mk (limit sd + 1)) (incr_at i) = true.
Proof.
  intros H. exists (Z.to_nat (Z.min (counted sd) 16)).
  assert (C : Z.to_nat (to_i32 sd) = Z.to_nat (counted sd)).
  { unfold to_i32, counted. rewrite Z.mod_small by exact H. unfold two31, two32 in *. destruct (Z.ltb_spec sd 2147483648); lia. }
  assert (C0 : (0 <= counted sd)%Z) by (unfold counted; destruct (Z.ltb_spec sd two31); lia).
  assert (T := limits_table). rewrite forallb_forall in T. specialize (T (Z.to_nat (Z.min (counted sd) 16))). rewrite in_seq in T.
  specialize (T ltac:(lia)). cbv zeta in T. fold (limit sd) in T. rewrite !andb_true_iff in T. destruct T as ((((T1 & T2) & T3) & T4) & _).
  apply Z.leb_le in T1. apply Z.ltb_lt in T2. rewrite C. repeat (split; [lia|]). auto.
Qed.
Lemma mk_mono a b : (Z.abs a < 2 ^ 53)%Z -> (Z.abs b < 2 ^ 53)%Z -> (a <= b)%Z -> val (mk a) <= val (mk b).
Proof.
  intros A B L. rewrite (proj2 (mk_ok a A)), (proj2 (mk_ok b B)). apply Rmult_le_compat_r; [apply bpow_ge_0|apply IZR_le; exact L].
Qed.
Lemma one_below m : (2 ^ 52 <= m)%Z -> 1 <= IZR m * bpow radix2 971.
Proof.
  intros H. apply IZR_le in H. assert (B : 1 <= bpow radix2 971) by (change 1 with (bpow radix2 0); apply bpow_le; lia).
  assert (1 <= IZR m) by (eapply Rle_trans; [|exact H]; apply IZR_le; lia). nra.
Qed.
Lemma limit_ends fuel v sd : (500 < fuel)%nat -> fin v -> (0 <= sd < two32)%Z -> val third <= val v <= IZR (limit sd) * bpow radix2 971 ->
  exists r, log1k fuel v (to_i32 sd) = Some r.
Proof.
  intros Hf Fv Hs (L & U). destruct (limit_facts sd Hs) as (i & _ & Hi & _ & L1 & L2 & S & _).
  destruct (mk_ok (limit sd) ltac:(lia)) as (Fm & Vm).
  destruct (Rle_or_lt 1 (val v)) as [G|Lt].
  - apply (safe1_ends fuel v (mk (limit sd)) i); auto. rewrite Vm. lra.
  - apply log1k_ends; auto. left. destruct top_e308 as (_ & _ & T). unfold lower.
    apply Rle_trans with (9 / 10 * 10); [lra|]. apply Rmult_le_compat; try lra.
    change 10 with (bpow radix10 1). apply bpow_le. lia.
Qed.
(* doubles of the highest binade are multiples of 2^971 *)
Lemma top_multiple v : fin v -> bpow radix2 1023 <= val v -> exists m, val v = IZR m * bpow radix2 971.
Proof.
  intros Fv H. assert (G := val_fmt v). unfold fmt64, generic_format, F2R in G. cbn [Fnum Fexp] in G.
  assert (M : mag radix2 (val v) = 1024%Z :> Z).
  { apply mag_unique. rewrite Rabs_pos_eq by (assert (X := bpow_gt_0 radix2 1023); lra). split; [exact H|apply val_lt_top]. }
  assert (C : cexp radix2 fexp64 (val v) = 971%Z) by (unfold cexp; rewrite M; reflexivity).
  rewrite C in G. eauto.
Qed.
Lemma limit_never fuel v sd : fin v -> (0 <= sd < two32)%Z -> IZR (limit sd) * bpow radix2 971 < val v -> log1k fuel v (to_i32 sd) = None.
Proof.
  intros Fv Hs L. destruct (limit_facts sd Hs) as (i & Hi & _ & Ei & L1 & L2 & _ & S).
  destruct (mk_ok (limit sd + 1) ltac:(lia)) as (Fm & Vm).
  assert (B : bpow radix2 1023 <= IZR (limit sd) * bpow radix2 971).
  { replace 1023%Z with (52 + 971)%Z by reflexivity. rewrite <- at_971 by lia.
    apply Rmult_le_compat_r; [apply bpow_ge_0|apply IZR_le; exact L1]. }
  destruct (top_multiple v Fv ltac:(lra)) as (m & Em).
  assert (Lm : (limit sd < m)%Z) by (rewrite Em in L; apply lt_IZR, Rmult_lt_reg_r with (2 := L), bpow_gt_0).
  assert (Gv : val (mk (limit sd + 1)) <= val v).
  { rewrite Vm, Em. apply Rmult_le_compat_r; [apply bpow_ge_0|apply IZR_le; lia]. }
  apply (unsafe1_never fuel v (mk (limit sd + 1)) (to_i32 sd) (incr_at i) Fv Fm); [|exact S| |].
  - split; [|exact Gv]. rewrite Vm. apply one_below. lia.
  - unfold incr_at. destruct (Nat.eqb i 16); [reflexivity|apply round_incr_ok].
  - unfold incr_at. destruct (Nat.eqb_spec i 16) as [->|N].
    + change (val dzero) with 0. destruct (round_incr_ok (Z.to_nat (to_i32 sd))). lra.
    + rewrite <- (Ei ltac:(lia)). destruct (round_incr_ok i). lra.
Qed.
Lemma limits_near sd : (0 <= sd < two32)%Z ->
  if (counted sd =? 0)%Z then (Z.abs (10 ^ 308 - limit sd * 2 ^ 971) * 10 ^ 12 <= 10 ^ 308)%Z
  else (Z.abs (2 ^ 1024 - 5 * 10 ^ (308 - Z.min (counted sd) 308) - limit sd * 2 ^ 971) * 10 ^ 12 <= 2 ^ 1024)%Z.
Proof.
  intros H. assert (C0 : (0 <= counted sd)%Z) by (unfold counted; destruct (Z.ltb_spec sd two31); lia).
  unfold limit. revert C0. generalize (counted sd). intros c C0. destruct (Z_lt_le_dec c 16) as [L|G].
  - assert (T : forallb (fun i => let c := Z.of_nat i in if (c =? 0)%Z then (Z.abs (10 ^ 308 - nth i limits 0%Z * 2 ^ 971) * 10 ^ 12 <=? 10 ^ 308)%Z
       else (Z.abs (2 ^ 1024 - 5 * 10 ^ (308 - c) - nth i limits 0%Z * 2 ^ 971) * 10 ^ 12 <=? 2 ^ 1024)%Z) (seq 0 16) = true) by (vm_compute; reflexivity).
    rewrite forallb_forall in T. specialize (T (Z.to_nat c)). rewrite in_seq in T. specialize (T ltac:(lia)). cbv zeta in T. rewrite Z2Nat.id in T by lia.
    rewrite !Z.min_l by lia. destruct (c =? 0)%Z; apply Z.leb_le in T; exact T.
  - rewrite (Z.min_r c 16) by lia. destruct (Z.eqb_spec c 0); [lia|]. change (nth (Z.to_nat 16) limits 0%Z) with 9007199254740989%Z.
    assert (B : (1 <= 10 ^ (308 - Z.min c 308) <= 10 ^ 292)%Z).
    { split; [change 1%Z with (10 ^ 0)%Z|]; apply Z.pow_le_mono_r; lia. }
    assert (D : (2 ^ 1024 - 9007199254740989 * 2 ^ 971 = 3 * 2 ^ 971)%Z) by reflexivity.
    assert (E1 : (5 * 10 ^ 292 * 10 ^ 12 <= 2 ^ 1024)%Z) by (vm_compute; discriminate).
    assert (E2 : (3 * 2 ^ 971 * 10 ^ 12 <= 2 ^ 1024)%Z) by (vm_compute; discriminate).
    revert B D E1 E2. generalize (10 ^ (308 - Z.min c 308))%Z (10 ^ 292)%Z (2 ^ 1024)%Z (2 ^ 971)%Z. change (10 ^ 12)%Z with 1000000000000%Z. lia.
Qed.
