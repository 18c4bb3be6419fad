(* L_FormatG.v -- log1k as a whole. *)
From Coq Require Import Reals Lra Psatz.
From Flocq Require Import Core.Core IEEE754.BinarySingleNaN Relative.
From Verif Require Import Base M_Stream M_Float M_Format M_FormatF L_Float L_FormatF.
Local Open Scope R_scope.

Lemma ups10_table : forallb (fun k => is_finite (ups 10 k d1) && dge (ups 10 k d1) d1) (seq 0 309) = true.
Proof. vm_compute. reflexivity. Qed.
Lemma ups10_fin k : (k <= 308)%nat -> fin (ups 10 k d1) /\ 1 <= val (ups 10 k d1).
Proof.
  intros H. assert (T := ups10_table). rewrite forallb_forall in T. specialize (T k). rewrite in_seq in T.
  specialize (T ltac:(lia)). rewrite andb_true_iff in T. destruct T as (F & G). split; [exact F|].
  apply dge_true in G; [|exact F|apply d1_fin]. rewrite d1_val in G. exact G.
Qed.
Lemma downs_dec c j k x : (1 <= c < 2 ^ 53)%Z -> fin x -> 0 <= val x -> val (downs c (j + k) x) <= val (downs c j x).
Proof.
  intros Hc Fx P. induction k as [|k IH]; [rewrite Nat.add_0_r; lra|].
  rewrite Nat.add_succ_r. change (downs c (S (j + k)) x) with (ddiv (downs c (j + k) x) (dlit c)).
  destruct (downs_fin c (j + k) x Hc Fx P) as (F & B). destruct (div_ok c (downs c (j + k) x) Hc F) as (_ & _ & D); lra.
Qed.
Lemma d1_323 : dgt (downs 10 323 d1) dzero = true /\ downs 10 324 d1 = dzero.
Proof. split; vm_compute; reflexivity. Qed.
Lemma downs10_d1 k : fin (downs 10 k d1) /\ 0 <= val (downs 10 k d1) <= 1 /\ ((k <= 323)%nat -> 0 < val (downs 10 k d1)).
Proof.
  destruct (downs_fin 10 k d1) as (F & B); [lia|apply d1_fin|rewrite d1_val; lra|]. rewrite d1_val in B.
  split; [exact F|]. split; [exact B|]. intros H. destruct d1_323 as (G & _).
  apply dgt_true in G; [|apply downs_fin; [lia|apply d1_fin|rewrite d1_val; lra]|reflexivity]. change (val dzero) with 0 in G.
  apply Rlt_le_trans with (1 := G). replace 323%nat with (k + (323 - k))%nat by lia. apply downs_dec; [lia|apply d1_fin|rewrite d1_val; lra].
Qed.

Definition third : double := dtiny 3 eq_refl.

(* Format.cxx 287-294: the mantissa m and the power of ten r *)
Lemma norm_ok fuel v : (400 < fuel)%nat -> fin v -> 0 < val v ->
  exists m r s, scale_down fuel (v, d1) = Some s /\ scale_up fuel s = Some (m, r) /\
    fin m /\ 1 <= val m <= 10 /\ fin r /\
    ((val v < 1 /\ exists k, (1 <= k <= 324)%nat /\ m = ups 10 k v /\ r = downs 10 k d1 /\
        (forall i, (i < k)%nat -> fin (ups 10 i v) /\ val v <= val (ups 10 i v) < 1) /\
        (val third <= val v -> (k <= 323)%nat)) \/
     (1 <= val v /\ exists k, (k <= 308)%nat /\ m = downs 10 k v /\ r = ups 10 k d1 /\
        (forall i, (i < k)%nat -> 10 <= val (downs 10 i v)))).
Proof.
  intros Hf Fv P. destruct (scale_down_ok fuel v ltac:(lia) Fv P) as (k & Hk & E & Fm & L & Z & I).
  destruct (Rlt_or_le (val v) 1) as [Lv|Gv].
  - assert (k = 0)%nat as ->.
    { destruct k as [|k]; [reflexivity|]. specialize (I 0%nat ltac:(lia)). change (downs 10 0 v) with v in I. lra. }
    change (downs 10 0 v) with v in *. change (ups 10 0 d1) with d1 in *.
    destruct (Rle_or_lt (val third) (val v)) as [T|T].
    + destruct dtiny3_323 as (D1 & D2).
      destruct (scale_up_ok 323 third fuel v ltac:(lia) eq_refl) as (j & Hj & E2 & F2 & B2 & A2); auto.
      { unfold third, dtiny, B2R. apply F2R_gt_0. cbn. lia. }
      exists (ups 10 j v), (downs 10 j d1), (v, d1). repeat (split; [eassumption || apply downs10_d1|]).
      left. split; [exact Lv|]. exists j. repeat (split; [lia || reflexivity|]). split; [exact A2|lia].
    + destruct dmin_324 as (D1 & D2).
      destruct (scale_up_ok 324 dmin fuel v ltac:(lia) eq_refl dmin_pos D2 D1 Fv (ge_dmin v P) Lv) as (j & Hj & E2 & F2 & B2 & A2).
      exists (ups 10 j v), (downs 10 j d1), (v, d1). repeat (split; [eassumption || apply downs10_d1|]).
      left. split; [exact Lv|]. exists j. repeat (split; [lia || reflexivity|]). split; [exact A2|lra].
  - assert (G1 : 1 <= val (downs 10 k v)) by (destruct Z as [-> | Z]; [exact Gv|exact Z]).
    exists (downs 10 k v), (ups 10 k d1), (downs 10 k v, ups 10 k d1). split; [exact E|]. split.
    { unfold scale_up. destruct fuel as [|f]; [lia|]. cbn [while fst].
      rewrite not_dlt; [reflexivity|exact Fm|apply d1_fin|rewrite d1_val; exact G1]. }
    split; [exact Fm|]. split; [lra|]. split; [apply ups10_fin; exact Hk|]. right. split; [exact Gv|].
    exists k. auto.
Qed.

(* the rounding increment *)
Lemma round_incr_eq n : round_incr n = downs 10 n (dlit 5).
Proof. induction n as [|n IH]; [reflexivity|]. cbn. rewrite IH. reflexivity. Qed.
Lemma round_incr_ok n : fin (round_incr n) /\ 0 <= val (round_incr n) <= 5.
Proof.
  rewrite round_incr_eq. destruct (dlit_ok 5 eq_refl) as (F & V). destruct (downs_fin 10 n (dlit 5)) as (G & B); [lia|exact F|lra|]. rewrite V in B. auto.
Qed.

(* Format.cxx 302-306 *)
Definition restored (m r : double) (sd : Z) : double := dmul (dadd m (round_incr (Z.to_nat sd))) r.
Lemma add_ri m sd : fin m -> 1 <= val m <= 10 ->
  fin (dadd m (round_incr (Z.to_nat sd))) /\
  val (dadd m (round_incr (Z.to_nat sd))) = rnd (val m + val (round_incr (Z.to_nat sd))) /\
  val m <= val (dadd m (round_incr (Z.to_nat sd))) <= 15.
Proof.
  intros Fm B. destruct (round_incr_ok (Z.to_nat sd)) as (Fr & Br).
  assert (U : rnd (val m + val (round_incr (Z.to_nat sd))) <= 15) by (apply rnd_le_fmt; [apply nonneg_fmt; lia|lra]).
  assert (L : val m <= rnd (val m + val (round_incr (Z.to_nat sd)))) by (apply rnd_ge_fmt; [apply val_fmt|lra]).
  destruct (dadd_ok m (round_incr (Z.to_nat sd)) Fm Fr) as (F & V).
  { apply abs_pos_lt; [lra|]. apply Rle_lt_trans with (1 := U). apply small_top. lia. }
  rewrite V. auto.
Qed.
Lemma restored_ok m r sd : fin m -> 1 <= val m <= 10 -> fin r -> 0 <= val r ->
  restored m r sd = B754_infinity false \/
  (fin (restored m r sd) /\ val (restored m r sd) = rnd (val (dadd m (round_incr (Z.to_nat sd))) * val r) /\
   val r <= val (restored m r sd)).
Proof.
  intros Fm B Fr Pr. destruct (add_ri m sd Fm B) as (Fa & Va & Ba). unfold restored.
  set (a := dadd m (round_incr (Z.to_nat sd))) in *.
  destruct (Rlt_or_le (Rabs (rnd (val a * val r))) top) as [L|G].
  - right. destruct (dmul_ok a r Fa Fr L) as (F & V). split; [exact F|]. split; [exact V|].
    rewrite V. apply rnd_ge_fmt; [apply val_fmt|]. nra.
  - left. generalize (@Bmult_correct 53 1024 prec64 emax64 mode_NE a r).
    change (round radix2 (SpecFloat.fexp 53 1024) (round_mode mode_NE)) with rnd.
    rewrite Rlt_bool_false by exact G. intros E.
    assert (Sa : Bsign a = false) by (destruct a as [s|s| |[|] ma ea Ha]; cbn in *; try lra; try reflexivity; exfalso; assert (X := F2R_lt_0 radix2 (Float radix2 (Z.neg ma) ea) eq_refl); lra).
    assert (Sr : Bsign r = false).
    { destruct r as [s|s| |[|] mr er Hr]; try discriminate Fr; [| |reflexivity]; exfalso.
      - change (val (B754_zero s)) with 0 in G. rewrite Rmult_0_r, round_0, Rabs_R0 in G by apply valid_rnd_N.
        generalize (bpow_gt_0 radix2 1024). lra.
      - assert (X := F2R_lt_0 radix2 (Float radix2 (Z.neg mr) er) eq_refl). cbn in Pr. lra. }
    rewrite Sa, Sr in E. cbn in E. fold (dmul a r) in E. destruct (dmul a r); cbn in E; try discriminate. congruence.
Qed.

Lemma log1k_eq fuel v sd m r s : scale_down fuel (v, d1) = Some s -> scale_up fuel s = Some (m, r) ->
  log1k fuel v sd = thousands fuel (restored m r sd).
Proof. intros E1 E2. unfold log1k. rewrite E1, E2. reflexivity. Qed.
