(* L_FormatF.v -- the loops of addF 'e': which runs end, and in which range. *)
From Coq Require Import Reals Lra Psatz.
From Flocq Require Import Core.Core IEEE754.BinarySingleNaN Relative.
From Verif Require Import Base M_Stream M_Float M_Format M_FormatF L_Float.
Local Open Scope R_scope.

(* ---- while ---- *)
Section While.
Context {S : Type} (cond : S -> bool) (body : S -> S).
Definition at_ (k : nat) (s : S) : S := Nat.iter k body s.
Lemma at_S k s : at_ (Datatypes.S k) s = at_ k (body s).
Proof.
  induction k as [|k IH]; [reflexivity|]. change (body (at_ (Datatypes.S k) s) = body (at_ k (body s))). rewrite IH. reflexivity.
Qed.
Lemma at_succ k s : at_ (Datatypes.S k) s = body (at_ k s).
Proof. reflexivity. Qed.
Lemma while_some fuel s s' : while fuel cond body s = Some s' ->
  exists k, (k < fuel)%nat /\ s' = at_ k s /\ cond s' = false /\ forall i, (i < k)%nat -> cond (at_ i s) = true.
Proof.
  revert s. induction fuel as [|f IH]; intros s; cbn; [discriminate|].
  destruct (cond s) eqn:E.
  - intros H. destruct (IH _ H) as (k & Hk & -> & Hc & Hi). exists (Datatypes.S k).
    split; [lia|]. rewrite at_S. split; [reflexivity|]. split; [exact Hc|].
    intros [|i] Hlt; [exact E|]. rewrite at_S. apply Hi. lia.
  - intros [= <-]. exists 0%nat. split; [lia|]. split; [reflexivity|]. split; [exact E|]. intros i Hi. lia.
Qed.
Lemma while_stop fuel s k : (k < fuel)%nat -> cond (at_ k s) = false -> (forall i, (i < k)%nat -> cond (at_ i s) = true) ->
  while fuel cond body s = Some (at_ k s).
Proof.
  revert s k. induction fuel as [|f IH]; intros s k Hk Hc Hi; [lia|]. cbn.
  destruct k as [|k].
  - unfold at_ in *. cbn in *. rewrite Hc. reflexivity.
  - change s with (at_ 0 s) at 1. rewrite (Hi 0%nat) by lia. rewrite at_S. apply IH; [lia| |].
    + rewrite <- at_S. exact Hc.
    + intros i Hlt. rewrite <- at_S. apply Hi. lia.
Qed.
(* it ends if the condition fails at some point not beyond the fuel *)
Lemma while_ends fuel s k : (k < fuel)%nat -> cond (at_ k s) = false -> exists s', while fuel cond body s = Some s'.
Proof.
  revert s k. induction fuel as [|f IH]; intros s k Hk Hc; [lia|]. cbn.
  destruct (cond s) eqn:E; [|eauto].
  destruct k as [|k]; [unfold at_ in Hc; cbn in Hc; congruence|].
  apply (IH (body s) k); [lia|]. rewrite <- at_S. exact Hc.
Qed.
Lemma while_never fuel s : (forall k, cond (at_ k s) = true) -> while fuel cond body s = None.
Proof.
  revert s. induction fuel as [|f IH]; intros s H; [reflexivity|]. cbn.
  change s with (at_ 0 s) at 1. rewrite (H 0%nat). apply IH. intros k. rewrite <- at_S. apply H.
Qed.
Lemma while_none fuel s : while fuel cond body s = None -> forall i, (i < fuel)%nat -> cond (at_ i s) = true.
Proof.
  revert s. induction fuel as [|f IH]; intros s; cbn; [intros _ i Hi; lia|].
  destruct (cond s) eqn:E; [|discriminate]. intros H [|i] Hi; [exact E|]. rewrite at_S. apply IH; [exact H|lia].
Qed.
Lemma while_mono f g s r : (f <= g)%nat -> while f cond body s = Some r -> while g cond body s = Some r.
Proof.
  intros Hle H. destruct (while_some _ _ _ H) as (k & Hk & -> & Hc & Hi). apply while_stop; [lia|exact Hc|exact Hi].
Qed.
End While.

(* ---- constants ---- *)
Lemma d1_fin : fin d1. Proof. exact (proj1 (dlit_ok 1 eq_refl)). Qed.
Lemma d1_val : val d1 = 1. Proof. exact (proj2 (dlit_ok 1 eq_refl)). Qed.
Lemma d10_fin : fin d10. Proof. exact (proj1 (dlit_ok 10 eq_refl)). Qed.
Lemma d10_val : val d10 = 10. Proof. exact (proj2 (dlit_ok 10 eq_refl)). Qed.
Lemma d1000_fin : fin d1000. Proof. exact (proj1 (dlit_ok 1000 eq_refl)). Qed.
Lemma d1000_val : val d1000 = 1000. Proof. exact (proj2 (dlit_ok 1000 eq_refl)). Qed.
Global Hint Resolve d1_fin d10_fin d1000_fin : fl.

Lemma val_lt_top x : val x < top.
Proof. generalize (val_top x). intros H. apply Rle_lt_trans with (2 := H). apply Rle_abs. Qed.
Lemma abs_pos_lt x : 0 <= x -> x < top -> Rabs x < top.
Proof. intros H. rewrite Rabs_pos_eq by exact H. auto. Qed.

(* dividing a non-negative number by c >= 1 *)
Lemma div_ok c x : (1 <= c < 2 ^ 53)%Z -> fin x -> 0 <= val x ->
  fin (ddiv x (dlit c)) /\ val (ddiv x (dlit c)) = rnd (val x / IZR c) /\
  0 <= val (ddiv x (dlit c)) <= val x.
Proof.
  intros Hc Hx H0. destruct (dlit_ok c) as (Fc & Vc); [lia|].
  assert (C1 : 1 <= IZR c) by (apply IZR_le; lia).
  assert (P : 0 <= val x / IZR c) by (apply Rmult_le_pos; [exact H0|left; apply Rinv_0_lt_compat; lra]).
  assert (L : val x / IZR c <= val x).
  { apply Rmult_le_reg_r with (IZR c); [lra|]. unfold Rdiv. rewrite Rmult_assoc, Rinv_l by lra. nra. }
  assert (RL : rnd (val x / IZR c) <= val x) by (apply rnd_le_fmt; [apply val_fmt|exact L]).
  assert (RP := rnd_pos _ P).
  destruct (ddiv_ok x (dlit c)) as (F & V); rewrite ?Vc; [exact Hx|lra| |].
  - apply abs_pos_lt; [exact RP|]. apply Rle_lt_trans with (1 := RL). apply val_lt_top.
  - rewrite Vc in V. rewrite V. auto.
Qed.
(* multiplying by c without overflow *)
Lemma mul_ok c x b : (1 <= c < 2 ^ 53)%Z -> fin x -> 0 <= val x -> fmt64 b -> b < top -> val x * IZR c <= b ->
  fin (dmul x (dlit c)) /\ val (dmul x (dlit c)) = rnd (val x * IZR c) /\
  val x <= val (dmul x (dlit c)) <= b.
Proof.
  intros Hc Hx H0 Hb Hbt L. destruct (dlit_ok c) as (Fc & Vc); [lia|].
  assert (C1 : 1 <= IZR c) by (apply IZR_le; lia).
  assert (G : val x <= val x * IZR c) by nra.
  assert (RL : rnd (val x * IZR c) <= b) by (apply rnd_le_fmt; [exact Hb|exact L]).
  assert (RG : val x <= rnd (val x * IZR c)) by (apply rnd_ge_fmt; [apply val_fmt|exact G]).
  destruct (dmul_ok x (dlit c)) as (F & V); rewrite ?Vc; [exact Hx|exact Fc| |].
  - apply abs_pos_lt; [lra|]. lra.
  - rewrite Vc in V. rewrite V. auto.
Qed.

(* iterated division is monotone *)
Definition downs (c : Z) (k : nat) (x : double) : double := Nat.iter k (fun x => ddiv x (dlit c)) x.
Definition ups (c : Z) (k : nat) (x : double) : double := Nat.iter k (fun x => dmul x (dlit c)) x.
Lemma downs_mono c k x y : (1 <= c < 2 ^ 53)%Z -> fin x -> fin y -> 0 <= val x <= val y ->
  fin (downs c k x) /\ fin (downs c k y) /\ 0 <= val (downs c k x) <= val (downs c k y) /\ val (downs c k x) <= val x.
Proof.
  intros Hc Hx Hy H. induction k as [|k IH]; [split; [exact Hx|]; split; [exact Hy|]; change (downs c 0) with (fun x : double => x); cbv beta; lra|].
  destruct IH as (Fx & Fy & (P & L) & D).
  change (downs c (S k)) with (fun x => ddiv (downs c k x) (dlit c)). cbv beta.
  destruct (div_ok c (downs c k x) Hc Fx P) as (F1 & V1 & B1).
  destruct (div_ok c (downs c k y) Hc Fy) as (F2 & V2 & B2); [lra|].
  split; [exact F1|]. split; [exact F2|]. split; [|lra]. split; [lra|].
  rewrite V1, V2. apply rnd_le. apply Rmult_le_compat_r; [|exact L].
  left. apply Rinv_0_lt_compat. apply IZR_lt. lia.
Qed.
(* iterated multiplication is monotone as long as it stays below b *)
Lemma ups_mono c b k x y : (1 <= c < 2 ^ 53)%Z -> fmt64 (b * IZR c) -> b * IZR c < top ->
  fin x -> fin y -> 0 <= val x <= val y ->
  (forall i, (i < k)%nat -> val (ups c i y) <= b) ->
  fin (ups c k x) /\ fin (ups c k y) /\ 0 <= val (ups c k x) <= val (ups c k y) /\ val (ups c k y) <= Rmax (val y) (b * IZR c) /\
  val y <= val (ups c k y).
Proof.
  intros Hc Hb Ht Hx Hy H Hi.
  assert (C1 : 1 <= IZR c) by (apply IZR_le; lia).
  induction k as [|k IH].
  - change (ups c 0) with (fun x : double => x). cbv beta. split; [exact Hx|]. split; [exact Hy|]. split; [lra|]. split; [apply Rmax_l|lra].
  - destruct IH as (Fx & Fy & (P & L) & M & G); [intros i Hlt; apply Hi; lia|].
    assert (B := Hi k ltac:(lia)). change (ups c (S k)) with (fun x => dmul (ups c k x) (dlit c)). cbv beta.
    destruct (mul_ok c (ups c k x) (b * IZR c)) as (F1 & V1 & B1); auto; [nra|].
    destruct (mul_ok c (ups c k y) (b * IZR c)) as (F2 & V2 & B2); auto; [lra|nra|].
    split; [exact F1|]. split; [exact F2|]. split; [|split; [|lra]].
    + split; [lra|]. rewrite V1, V2. apply rnd_le. nra.
    + apply Rle_trans with (b * IZR c); [lra|apply Rmax_r].
Qed.

(* ---- extreme doubles ---- *)
Definition dmax : double := @B754_finite 53 1024 false 9007199254740991 971 eq_refl.
Definition dtiny (n : positive) (H : SpecFloat.bounded 53 1024 n (-1074) = true) : double := @B754_finite 53 1024 false n (-1074) H.
Definition dmin : double := dtiny 1 eq_refl.
Lemma val_dmax : val dmax = bpow radix2 1024 - bpow radix2 971.
Proof.
  unfold dmax, B2R, F2R. cbn [cond_Zopp Fnum Fexp].
  replace 1024%Z with (53 + 971)%Z by reflexivity. rewrite bpow_plus.
  change (bpow radix2 53) with 9007199254740992. lra.
Qed.
Lemma le_dmax x : val x <= val dmax.
Proof.
  rewrite val_dmax. apply Rle_trans with (Rabs (val x)); [apply Rle_abs|].
  apply (@abs_B2R_le_emax_minus_prec 53 1024). exact prec64.
Qed.
Lemma ge_dmin x : 0 < val x -> val dmin <= val x.
Proof.
  intros H. replace (val dmin) with (bpow radix2 (-1074)).
  - rewrite <- (Rabs_pos_eq (val x)) by lra. apply (@abs_B2R_ge_emin 53 1024).
    destruct x; cbn in *; try lra; reflexivity.
  - unfold dmin, dtiny, B2R, F2R. cbn [cond_Zopp Fnum Fexp]. lra.
Qed.
Lemma dlt_true x y : fin x -> fin y -> dlt x y = true -> val x < val y.
Proof. intros Hx Hy. rewrite dlt_ok by assumption. case Rlt_bool_spec; [auto|discriminate]. Qed.
Lemma dge_true x y : fin x -> fin y -> dge x y = true -> val y <= val x.
Proof. intros Hx Hy. rewrite dge_ok by assumption. case Rle_bool_spec; [auto|discriminate]. Qed.
Lemma dgt_true x y : fin x -> fin y -> dgt x y = true -> val y < val x.
Proof. intros Hx Hy. rewrite dgt_ok by assumption. case Rlt_bool_spec; [auto|discriminate]. Qed.
Lemma dlt_false x y : fin x -> fin y -> dlt x y = false -> val y <= val x.
Proof. intros Hx Hy. rewrite dlt_ok by assumption. case Rlt_bool_spec; [discriminate|auto]. Qed.
Lemma dge_false x y : fin x -> fin y -> dge x y = false -> val x < val y.
Proof. intros Hx Hy. rewrite dge_ok by assumption. case Rle_bool_spec; [discriminate|auto]. Qed.
Lemma dgt_false x y : fin x -> fin y -> dgt x y = false -> val x <= val y.
Proof. intros Hx Hy. rewrite dgt_ok by assumption. case Rlt_bool_spec; [discriminate|auto]. Qed.
Lemma is_dlt x y : fin x -> fin y -> val x < val y -> dlt x y = true.
Proof. intros Hx Hy H. rewrite dlt_ok by assumption. now apply Rlt_bool_true. Qed.
Lemma is_dge x y : fin x -> fin y -> val y <= val x -> dge x y = true.
Proof. intros Hx Hy H. rewrite dge_ok by assumption. now apply Rle_bool_true. Qed.
Lemma is_dgt x y : fin x -> fin y -> val y < val x -> dgt x y = true.
Proof. intros Hx Hy H. rewrite dgt_ok by assumption. now apply Rlt_bool_true. Qed.
Lemma not_dlt x y : fin x -> fin y -> val y <= val x -> dlt x y = false.
Proof. intros Hx Hy H. rewrite dlt_ok by assumption. now apply Rlt_bool_false. Qed.
Lemma not_dge x y : fin x -> fin y -> val x < val y -> dge x y = false.
Proof. intros Hx Hy H. rewrite dge_ok by assumption. now apply Rle_bool_false. Qed.
Lemma not_dgt x y : fin x -> fin y -> val x <= val y -> dgt x y = false.
Proof. intros Hx Hy H. rewrite dgt_ok by assumption. now apply Rlt_bool_false. Qed.

Lemma nonneg_fmt n : (0 <= n < 2 ^ 53)%Z -> fmt64 (IZR n).
Proof. intros H. apply fmt_IZR. lia. Qed.
Lemma small_top n : (0 <= n < 2 ^ 53)%Z -> IZR n < top.
Proof.
  intros H. apply Rlt_trans with (bpow radix2 53); [|apply bpow_lt; lia].
  change (bpow radix2 53) with (IZR (2 ^ 53)). apply IZR_lt. lia.
Qed.

(* ---- Format.cxx 287-290 ---- *)
Lemma at_pair k (v r : double) : at_ (fun s : double * double => (ddiv (fst s) d10, dmul (snd s) d10)) k (v, r) = (downs 10 k v, ups 10 k r).
Proof. induction k as [|k IH]; [reflexivity|]. rewrite at_succ, IH. reflexivity. Qed.
Lemma at_pair' k (v r : double) : at_ (fun s : double * double => (dmul (fst s) d10, ddiv (snd s) d10)) k (v, r) = (ups 10 k v, downs 10 k r).
Proof. induction k as [|k IH]; [reflexivity|]. rewrite at_succ, IH. reflexivity. Qed.

Lemma downs_fin c k x : (1 <= c < 2 ^ 53)%Z -> fin x -> 0 <= val x -> fin (downs c k x) /\ 0 <= val (downs c k x) <= val x.
Proof. intros Hc Hx H. destruct (downs_mono c k x x) as (F & _ & (P & _) & D); auto; lra. Qed.

Lemma dmax_308 : dlt (downs 10 308 dmax) d10 = true /\ is_finite (downs 10 308 dmax) = true.
Proof. vm_compute. split; reflexivity. Qed.

Lemma scale_down_ok fuel v : (308 < fuel)%nat -> fin v -> 0 < val v ->
  exists k, (k <= 308)%nat /\ scale_down fuel (v, d1) = Some (downs 10 k v, ups 10 k d1) /\
    fin (downs 10 k v) /\ val (downs 10 k v) < 10 /\
    ((k = 0)%nat \/ 1 <= val (downs 10 k v)) /\ (forall i, (i < k)%nat -> 10 <= val (downs 10 i v)).
Proof.
  intros Hf Hv H.
  change (scale_down fuel (v, d1)) with
    (while fuel (fun s : double * double => dge (fst s) d10) (fun s => (ddiv (fst s) d10, dmul (snd s) d10)) (v, d1)).
  assert (F : forall i, fin (downs 10 i v) /\ 0 <= val (downs 10 i v) <= val v) by (intros i; apply downs_fin; [lia|exact Hv|lra]).
  destruct (while_ends (fun s : double * double => dge (fst s) d10) (fun s => (ddiv (fst s) d10, dmul (snd s) d10)) 309 (v, d1) 308) as (s' & E).
  - lia.
  - rewrite at_pair. cbn [fst]. apply not_dge; [apply F|apply d10_fin|].
    destruct dmax_308 as (L & Fm). apply dlt_true in L; [|exact Fm|apply d10_fin].
    apply Rle_lt_trans with (2 := L). destruct (downs_mono 10 308 v dmax) as (_ & _ & (_ & M) & _); auto; [lia|].
    split; [lra|apply le_dmax].
  - destruct (while_some _ _ _ _ _ E) as (k & Hk & -> & Hc & Hi). rewrite at_pair in *. exists k.
    assert (I : forall i, (i < k)%nat -> 10 <= val (downs 10 i v)).
    { intros i Hlt. specialize (Hi i Hlt). rewrite at_pair in Hi. cbn [fst] in Hi.
      apply dge_true in Hi; [rewrite d10_val in Hi; exact Hi|apply F|apply d10_fin]. }
    split; [lia|]. split; [apply while_mono with 309%nat; [lia|exact E]|]. split; [apply F|].
    cbn [fst] in Hc. apply dge_false in Hc; [|apply F|apply d10_fin]. rewrite d10_val in Hc.
    split; [exact Hc|]. split; [|exact I].
    destruct k as [|k]; [left; reflexivity|right].
    change (downs 10 (S k) v) with (ddiv (downs 10 k v) (dlit 10)).
    destruct (div_ok 10 (downs 10 k v)) as (_ & V & _); [lia|apply F|apply F|].
    rewrite V. apply rnd_ge_fmt; [apply nonneg_fmt; lia|]. specialize (I k ltac:(lia)). lra.
Qed.

(* ---- Format.cxx 291-294 ---- *)
Lemma dmin_324 : dge (ups 10 324 dmin) d1 = true /\ is_finite (ups 10 324 dmin) = true.
Proof. vm_compute. split; reflexivity. Qed.
Lemma dtiny3_323 : dge (ups 10 323 (dtiny 3 eq_refl)) d1 = true /\ is_finite (ups 10 323 (dtiny 3 eq_refl)) = true.
Proof. vm_compute. split; reflexivity. Qed.

(* multiplying by c until 1 is reached *)
Lemma climb c K v0 v : (2 <= c < 2 ^ 53)%Z -> fin v0 -> 0 < val v0 ->
  is_finite (ups c K v0) = true -> dge (ups c K v0) d1 = true ->
  fin v -> val v0 <= val v -> val v < 1 ->
  exists k, (1 <= k <= K)%nat /\
    fin (ups c k v) /\ 1 <= val (ups c k v) <= IZR c /\
    (forall i, (i < k)%nat -> fin (ups c i v) /\ val v <= val (ups c i v) < 1).
Proof.
  intros Hc2 F0 P0 FK GK Fv Hv L.
  assert (C2 : 2 <= IZR c) by (apply IZR_le; lia).
  set (c0 := fun s : double => dlt s d1).
  set (b := fun s : double => dmul s (dlit c)).
  assert (AT : forall k x, at_ b k x = ups c k x) by reflexivity.
  assert (B10 : fmt64 (1 * IZR c)) by (rewrite Rmult_1_l; apply nonneg_fmt; lia).
  assert (T10 : 1 * IZR c < top) by (rewrite Rmult_1_l; apply small_top; lia).
  (* while the condition holds, everything is finite and monotone *)
  assert (I : forall k, (forall i, (i < k)%nat -> c0 (at_ b i v) = true) ->
            (forall i, (i < k)%nat -> fin (ups c i v) /\ val v <= val (ups c i v) < 1) /\
            fin (ups c k v) /\ val v <= val (ups c k v) /\ val (ups c k v) <= IZR c /\ fin (ups c k v0) /\ val (ups c k v0) <= val (ups c k v)).
  { induction k as [|k IH]; intros Hi.
    - split; [intros i Hlt; lia|]. change (ups c 0) with (fun x : double => x). cbv beta. repeat split; auto; lra.
    - destruct IH as (A & Fk & _); [intros i Hlt; apply Hi; lia|].
      assert (A' : forall i, (i < S k)%nat -> fin (ups c i v) /\ val v <= val (ups c i v) < 1).
      { intros i Hlt. destruct (Nat.eq_dec i k) as [->|Ne]; [|apply A; lia].
        specialize (Hi k ltac:(lia)). rewrite AT in Hi. unfold c0 in Hi.
        apply dlt_true in Hi; [|exact Fk|apply d1_fin]. rewrite d1_val in Hi. split; [exact Fk|].
        split; [|exact Hi]. destruct (ups_mono c 1 k v v) as (_ & _ & _ & _ & G); auto; try lia; try lra.
        intros j Hj. destruct (A j Hj) as (_ & Hb). lra. }
      split; [exact A'|].
      destruct (ups_mono c 1 (S k) v0 v) as (X1 & X2 & (X3 & X4) & X5 & X6); auto; try lia; try lra.
      { intros i Hlt. destruct (A' i Hlt) as (_ & Hb). lra. }
      rewrite Rmax_right in X5 by lra. rewrite Rmult_1_l in X5. auto 10. }
  destruct (while (S K) c0 b v) as [s'|] eqn:E.
  - destruct (while_some _ _ _ _ _ E) as (k & Hk & -> & Hc & Hi). exists k.
    destruct (I k Hi) as (A & Fk & G & U & _).
    rewrite AT in Hc. unfold c0 in Hc. apply dlt_false in Hc; [|exact Fk|apply d1_fin].
    rewrite d1_val in Hc. split.
    { destruct k as [|k]; [|lia]. change (ups c 0 v) with v in Hc. lra. }
    split; [exact Fk|split; [lra|exact A]].
  - exfalso. assert (N := while_none _ _ _ _ E). destruct (I K) as (A & Fk & _ & _ & FK' & M); [intros i Hi; apply N; lia|].
    specialize (N K ltac:(lia)). rewrite AT in N. unfold c0 in N.
    apply dlt_true in N; [|exact Fk|apply d1_fin]. rewrite d1_val in N.
    apply dge_true in GK; [|exact FK'|apply d1_fin]. rewrite d1_val in GK. lra.
Qed.
Lemma scale_up_ok K v0 fuel v : (K < fuel)%nat -> fin v0 -> 0 < val v0 ->
  is_finite (ups 10 K v0) = true -> dge (ups 10 K v0) d1 = true ->
  fin v -> val v0 <= val v -> val v < 1 ->
  exists k, (1 <= k <= K)%nat /\ scale_up fuel (v, d1) = Some (ups 10 k v, downs 10 k d1) /\
    fin (ups 10 k v) /\ 1 <= val (ups 10 k v) <= 10 /\
    (forall i, (i < k)%nat -> fin (ups 10 i v) /\ val v <= val (ups 10 i v) < 1).
Proof.
  intros Hf F0 P0 FK GK Fv Hv L. destruct (climb 10 K v0 v) as (k & Hk & Fk & B & A); auto; [lia|].
  exists k. split; [exact Hk|]. split; [|auto]. unfold scale_up.
  rewrite <- (at_pair' k v d1). apply while_stop; [lia| |].
  - rewrite at_pair'. cbn [fst]. apply not_dlt; [exact Fk|apply d1_fin|rewrite d1_val; lra].
  - intros i Hi. rewrite at_pair'. cbn [fst]. destruct (A i Hi) as (Fi & Bi).
    apply is_dlt; [exact Fi|apply d1_fin|rewrite d1_val; lra].
Qed.

(* ---- Format.cxx 309-320 ---- *)
Lemma dmin_108 : dge (ups 1000 108 dmin) d1 = true /\ is_finite (ups 1000 108 dmin) = true.
Proof. vm_compute. split; reflexivity. Qed.
Lemma dmax_103 : dlt (downs 1000 103 dmax) d1000 = true /\ is_finite (downs 1000 103 dmax) = true.
Proof. vm_compute. split; reflexivity. Qed.

Lemma at_up k (x : double) : at_ (fun s : Z * double => (fst s - 3, dmul (snd s) d1000)%Z) k (0%Z, x) = ((- 3 * Z.of_nat k)%Z, ups 1000 k x).
Proof.
  induction k as [|k IH]; [reflexivity|]. rewrite at_succ, IH. cbn [fst snd]. f_equal. lia.
Qed.
Lemma at_down k (x : double) : at_ (fun s : Z * double => (fst s + 3, ddiv (snd s) d1000)%Z) k (0%Z, x) = ((3 * Z.of_nat k)%Z, downs 1000 k x).
Proof.
  induction k as [|k IH]; [reflexivity|]. rewrite at_succ, IH. cbn [fst snd]. f_equal. lia.
Qed.

Lemma dmin_pos : 0 < val dmin.
Proof. unfold dmin, dtiny, B2R. apply F2R_gt_0. cbn. lia. Qed.
Lemma thousands_ok fuel x : (108 < fuel)%nat -> fin x -> 0 < val x ->
  exists k, (k <= 108)%nat /\
    ((val x < 1 /\ thousands fuel x = Some ((- 3 * Z.of_nat k)%Z, ups 1000 k x) /\ fin (ups 1000 k x) /\
      1 <= val (ups 1000 k x) <= 1000 /\ forall i, (i < k)%nat -> fin (ups 1000 i x) /\ val x <= val (ups 1000 i x) < 1) \/
     (1 <= val x /\ thousands fuel x = Some ((3 * Z.of_nat k)%Z, downs 1000 k x) /\ fin (downs 1000 k x) /\
      1 <= val (downs 1000 k x) <= 1000 /\ forall i, (i < k)%nat -> fin (downs 1000 i x) /\ 1000 < val (downs 1000 i x))).
Proof.
  intros Hf Fx Px. unfold thousands. destruct (Rlt_or_le (val x) 1) as [L|G].
  - destruct dmin_108 as (D1 & D2).
    destruct (climb 1000 108 dmin x ltac:(lia) eq_refl dmin_pos D2 D1 Fx (ge_dmin x Px) L) as (k & Hk & Fk & B & A).
    exists k. split; [lia|]. left. split; [exact L|]. split; [|auto].
    rewrite is_dlt; [|exact Fx|apply d1_fin|rewrite d1_val; exact L].
    rewrite <- at_up. apply while_stop; [lia| |].
    + rewrite at_up. cbn [snd]. apply not_dlt; [exact Fk|apply d1_fin|rewrite d1_val; lra].
    + intros i Hi. rewrite at_up. cbn [snd]. destruct (A i Hi) as (Fi & Bi). apply is_dlt; [exact Fi|apply d1_fin|rewrite d1_val; lra].
  - assert (F : forall i, fin (downs 1000 i x) /\ 0 <= val (downs 1000 i x) <= val x) by (intros i; apply downs_fin; [lia|exact Fx|lra]).
    rewrite not_dlt; [|exact Fx|apply d1_fin|rewrite d1_val; exact G].
    destruct (while_ends (fun s : Z * double => dgt (snd s) d1000) (fun s => (fst s + 3, ddiv (snd s) d1000)%Z) 104 (0%Z, x) 103) as (s' & E).
    + lia.
    + rewrite at_down. cbn [snd]. apply not_dgt; [apply F|apply d1000_fin|].
      destruct dmax_103 as (L & Fm). apply dlt_true in L; [|exact Fm|apply d1000_fin].
      apply Rlt_le, Rle_lt_trans with (2 := L). destruct (downs_mono 1000 103 x dmax) as (_ & _ & (_ & M) & _); auto; [lia|].
      split; [lra|apply le_dmax].
    + destruct (while_some _ _ _ _ _ E) as (k & Hk & -> & Hc & Hi). rewrite at_down in *. cbn [snd] in Hc. exists k.
      assert (I : forall i, (i < k)%nat -> fin (downs 1000 i x) /\ 1000 < val (downs 1000 i x)).
      { intros i Hlt. specialize (Hi i Hlt). rewrite at_down in Hi. cbn [snd] in Hi. split; [apply F|].
        apply dgt_true in Hi; [rewrite d1000_val in Hi; exact Hi|apply F|apply d1000_fin]. }
      split; [lia|]. right. split; [exact G|]. split; [apply while_mono with 104%nat; [lia|exact E]|]. split; [apply F|].
      apply dgt_false in Hc; [|apply F|apply d1000_fin]. rewrite d1000_val in Hc. split; [|exact I]. split; [|exact Hc].
      destruct k as [|k]; [exact G|].
      change (downs 1000 (S k) x) with (ddiv (downs 1000 k x) (dlit 1000)).
      destruct (div_ok 1000 (downs 1000 k x)) as (_ & V & _); [lia|apply F|apply F|].
      rewrite V. apply rnd_ge_fmt; [apply (nonneg_fmt 1); lia|]. destruct (I k ltac:(lia)). lra.
Qed.

(* the values on which log1k never ends *)
Lemma thousands_inf fuel : thousands fuel (B754_infinity false) = None.
Proof.
  unfold thousands. change (dlt (B754_infinity false) d1) with false. cbv iota.
  apply while_never. intros k. rewrite at_down. cbn [snd].
  replace (downs 1000 k (B754_infinity false)) with (B754_infinity false : double); [reflexivity|].
  induction k as [|k IH]; [reflexivity|]. change (downs 1000 (S k)) with (fun x => ddiv (downs 1000 k x) (dlit 1000)).
  cbv beta. rewrite <- IH. vm_compute. reflexivity.
Qed.
Lemma thousands_zero fuel s : thousands fuel (B754_zero s) = None.
Proof.
  unfold thousands. assert (E : dlt (B754_zero s) d1 = true) by (destruct s; vm_compute; reflexivity). rewrite E.
  apply while_never. intros k. rewrite at_up. cbn [snd].
  replace (ups 1000 k (B754_zero s)) with (B754_zero s : double); [exact E|].
  induction k as [|k IH]; [reflexivity|]. change (ups 1000 (S k)) with (fun x => dmul (ups 1000 k x) (dlit 1000)).
  cbv beta. rewrite <- IH. destruct s; vm_compute; reflexivity.
Qed.

(* ---- Format.cxx 324-331 ---- *)
Lemma at_wid k (x : double) : at_ (fun s : double * Z => (ddiv (fst s) d10, (snd s + 1)%Z)) k (x, 0%Z) = (downs 10 k x, Z.of_nat k).
Proof.
  induction k as [|k IH]; [reflexivity|]. rewrite at_succ, IH. cbn [fst snd]. f_equal. lia.
Qed.
Lemma next_le (x y : double) : fin x -> val x < val y -> is_finite (@Bsucc 53 1024 prec64 emax64 x) = true ->
  val (@Bsucc 53 1024 prec64 emax64 x) <= val y.
Proof.
  intros Fx H Fs. generalize (@Bsucc_correct 53 1024 prec64 emax64 x Fx).
  case Rlt_bool_spec.
  - intros _ (-> & _). apply succ_le_lt; [apply vexp64|apply val_fmt|apply val_fmt|exact H].
  - intros _ E. destruct (Bsucc _); cbn in *; discriminate.
Qed.
Lemma over_10 x n y : fin x -> fin n -> 0 <= val x -> val x < val y -> fin y ->
  is_finite (@Bsucc 53 1024 prec64 emax64 x) = true ->
  dgt (ddiv (@Bsucc 53 1024 prec64 emax64 x) d10) n = true ->
  val n < val (ddiv y d10).
Proof.
  intros Fx Fn P H Fy Fs G. assert (L := next_le x y Fx H Fs). set (z := Bsucc x) in *.
  assert (Z0 : 0 <= val z). 
  { assert (S := @Bsucc_correct 53 1024 prec64 emax64 x Fx). revert S. case Rlt_bool_spec.
    - intros _ (E & _). unfold z. rewrite E. apply Rle_trans with (1 := P). apply succ_ge_id.
    - intros _ E. fold z in E. destruct z; cbn in *; discriminate. }
  destruct (div_ok 10 z ltac:(lia) Fs Z0) as (F1 & V1 & _).
  destruct (div_ok 10 y ltac:(lia) Fy) as (F2 & V2 & _); [lra|].
  apply dgt_true in G; [|exact F1|exact Fn]. apply Rlt_le_trans with (1 := G).
  unfold d10. rewrite V1, V2. apply rnd_le. apply Rmult_le_compat_r; [|exact L]. lra.
Qed.
Definition d100 : double := dlit 100.
Lemma d100_fin : fin d100. Proof. exact (proj1 (dlit_ok 100 eq_refl)). Qed.
Lemma d100_val : val d100 = 100. Proof. exact (proj2 (dlit_ok 100 eq_refl)). Qed.

Lemma div10_case y : fin y -> 1 < val y ->
  fin (ddiv y d10) /\ 0 <= val (ddiv y d10) /\
  (val y <= 10 -> val (ddiv y d10) <= 1) /\ (10 < val y -> 1 < val (ddiv y d10)) /\
  (val y <= 100 -> val (ddiv y d10) <= 10) /\ (100 < val y -> 10 < val (ddiv y d10)) /\
  (val y <= 1000 -> val (ddiv y d10) <= 100).
Proof.
  intros Fy Hy. destruct (div_ok 10 y ltac:(lia) Fy) as (F & V & B); [lra|]. unfold d10 at 1 2.
  split; [exact F|]. split; [lra|].
  assert (U : forall n, (0 <= n < 2 ^ 53)%Z -> val y <= IZR (10 * n) -> val (ddiv y d10) <= IZR n).
  { intros n Hn L. unfold d10. rewrite V. apply rnd_le_fmt; [apply nonneg_fmt; exact Hn|]. rewrite mult_IZR in L. lra. }
  split; [apply (U 1%Z); lia|]. split.
  { intros H. rewrite <- d1_val. apply (over_10 d10 d1); auto with fl; rewrite ?d10_val; try lra; vm_compute; reflexivity. }
  split; [apply (U 10%Z); lia|]. split.
  { intros H. rewrite <- d10_val. apply (over_10 d100 d10); auto with fl; rewrite ?d100_val; try lra; try apply d100_fin; vm_compute; reflexivity. }
  apply (U 100%Z); lia.
Qed.

Lemma width_ok fuel y : (3 < fuel)%nat -> fin y -> 1 <= val y <= 1000 ->
  exists k, (k <= 3)%nat /\ getIntPartWidth fuel y = Some (Z.of_nat k) /\
    (k = 0%nat /\ val y = 1 \/ k = 1%nat /\ 1 < val y <= 10 \/ k = 2%nat /\ 10 < val y <= 100 \/ k = 3%nat /\ 100 < val y <= 1000).
Proof.
  intros Hf Fy (L & U). unfold getIntPartWidth.
  assert (E : forall k, (k <= 3)%nat -> (forall i, (i < k)%nat -> dgt (downs 10 i y) d1 = true) -> dgt (downs 10 k y) d1 = false ->
    option_map snd (while fuel (fun s => dgt (fst s) d1) (fun s => (ddiv (fst s) d10, (snd s + 1)%Z)) (y, 0%Z)) = Some (Z.of_nat k)).
  { intros k Hk Hi Hc. rewrite (while_stop _ _ fuel (y, 0%Z) k); [rewrite at_wid; reflexivity|lia|rewrite at_wid; exact Hc|].
    intros i Hlt. rewrite at_wid. apply Hi. exact Hlt. }
  destruct (Req_dec (val y) 1) as [Y1|N1].
  { exists 0%nat. split; [lia|]. split; [|auto]. apply E; [lia|intros i Hi; lia|].
    apply not_dgt; auto with fl. rewrite d1_val. change (downs 10 0 y) with y. lra. }
  assert (G0 : dgt (downs 10 0 y) d1 = true) by (apply is_dgt; auto with fl; rewrite d1_val; change (downs 10 0 y) with y; lra).
  destruct (div10_case y Fy) as (F1 & P1 & A1 & B1 & A2 & B2 & A3); [lra|].
  change (ddiv y d10) with (downs 10 1 y) in *.
  destruct (Rle_or_lt (val y) 10) as [L1|G1].
  { exists 1%nat. split; [lia|]. split; [|right; left; split; [reflexivity|lra]]. apply E; [lia| |].
    - intros i Hi. replace i with 0%nat by lia. exact G0.
    - apply not_dgt; auto with fl. rewrite d1_val. auto. }
  specialize (B1 G1).
  assert (G1' : dgt (downs 10 1 y) d1 = true) by (apply is_dgt; auto with fl; rewrite d1_val; lra).
  destruct (div10_case (downs 10 1 y) F1 B1) as (F2 & P2 & A1' & B1' & A2' & _).
  change (ddiv (downs 10 1 y) d10) with (downs 10 2 y) in *.
  destruct (Rle_or_lt (val y) 100) as [L2|G2].
  { exists 2%nat. split; [lia|]. split; [|right; right; left; split; [reflexivity|lra]]. apply E; [lia| |].
    - intros i Hi. assert (i = 0 \/ i = 1)%nat as [-> | ->] by lia; assumption.
    - apply not_dgt; auto with fl. rewrite d1_val. auto. }
  specialize (B2 G2). specialize (B1' B2).
  assert (G2' : dgt (downs 10 2 y) d1 = true) by (apply is_dgt; auto with fl; rewrite d1_val; lra).
  destruct (div10_case (downs 10 2 y) F2 B1') as (F3 & P3 & A1'' & _).
  change (ddiv (downs 10 2 y) d10) with (downs 10 3 y) in *.
  exists 3%nat. split; [lia|]. split; [|right; right; right; split; [reflexivity|lra]]. apply E; [lia| |].
  - intros i Hi. assert (i = 0 \/ i = 1 \/ i = 2)%nat as [-> | [-> | ->]] by lia; assumption.
  - apply not_dgt; auto with fl. rewrite d1_val. auto.
Qed.
