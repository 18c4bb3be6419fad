(* C_FormatTestProg.v -- the run of FormatTest. *)
From Coq Require Import ZArith Lia Reals Lra Psatz.
From Flocq Require Import Core.Core IEEE754.BinarySingleNaN.
From Verif Require Import Base M_Stream M_StreamIn M_Float M_StreamFloat M_Format M_FormatF M_Round M_FormatTestProg
  S_Num S_Field S_Format S_FormatF S_FloatIn
  L_Dec L_Float L_FormatF L_FormatG L_FormatH L_FormatI L_FormatJ L_FormatK L_FormatM C_Format C_FormatF L_FloatIn L_FloatR L_FloatBack C_FloatIn L_FormatTestProg.
Local Open Scope R_scope.

(* the numbers the test formats *)
Definition tested (v : double) : Prop := v = dzero \/ fin v /\ bpow radix2 (-1015) <= val v <= bpow radix2 1000.

Lemma one_text im f t : newFormat im (lit "%0") = Ok f -> fmt_str (insertField f t) false = Ok t.
Proof.
  intros NF.
  assert (X : fmt_str (fold_left insertField [t] f) false = Ok (t ++ [])).
  { apply (c06 im (lit "%0") f [t] [IField 0] (t ++ [])).
    - exact NF.
    - apply (T_field (lit "0") 0%N []); [reflexivity|reflexivity|apply T_nil].
    - intros n [[= <-]|[]]. reflexivity.
    - apply Sh_filled; [reflexivity|apply Sh_nil]. }
  rewrite app_nil_r in X. exact X.
Qed.
Lemma do_test_text fuel im sep v p w fm t : addF_text fuel sep v fm (to_u32 w) (to_u32 p) = Some (Ok t) ->
  do_test fuel im sep v p w fm = Some (check_val v t p).
Proof.
  intros E. unfold do_test. assert (NF : exists f, newFormat im (lit "%0") = Ok f) by (destruct im; eexists; reflexivity).
  destruct NF as (f & NF). rewrite NF. unfold addF. rewrite E. cbn [option_map obind]. rewrite (one_text im f t NF). reflexivity.
Qed.
Lemma small_u32 z : (0 <= z <= 1000)%Z -> to_u32 z = z.
Proof. intros H. unfold to_u32, two32. apply Z.mod_small. lia. Qed.

Definition esg (fm : ascii) : Prop := fm = "e"%char \/ fm = "s"%char \/ fm = "g"%char.
Lemma text_margin fuel sep v p w fm : (500 < fuel)%nat -> fin v -> bpow radix2 (-1015) <= val v <= bpow radix2 1000 -> (0 <= p <= 4)%Z -> (0 <= w <= 1000)%Z -> esg fm ->
  exists t, addF_text fuel sep v fm w p = Some (Ok t) /\ near_text t v (margin p).
Proof.
  intros Hfu F Hv Hp Hw C. assert (PL := bpow_gt_0 radix2 (-1015)). assert (N : val v <> 0) by lra.
  assert (Rq : (0 <= requested w p < two31)%Z).
  { unfold requested, two31, two32. destruct (w =? 0)%Z; [rewrite Z.mod_small by lia|]; lia. }
  destruct C as [-> |[-> | ->]].
  - apply eng_margin; [exact Hfu|exact F|rewrite Rabs_pos_eq by lra; exact Hv|exact Hp].
  - apply sci_margin; assumption.
  - apply gen_margin; assumption.
Qed.
Lemma own_text fuel im sep v p w fm : (500 < fuel)%nat -> fin v -> bpow radix2 (-1015) <= val v <= bpow radix2 1000 -> (0 <= p <= 4)%Z -> (0 <= w <= 1000)%Z -> esg fm ->
  do_test fuel im sep v p w fm = Some (Ok false).
Proof.
  intros Hfu F Hv Hp Hw C. destruct (text_margin fuel sep v p w fm Hfu F Hv Hp Hw C) as (t & E & Nt).
  assert (PL := bpow_gt_0 radix2 (-1015)). assert (PV : 0 < val v) by lra. assert (H := pow_p p Hp).
  assert (AV : Rabs (val v) = val v) by (apply Rabs_pos_eq; lra).
  rewrite (do_test_text fuel im sep v p w fm t) by (rewrite !small_u32 by lia; exact E). f_equal. unfold check_val.
  destruct (near_text_back t v (margin p) F) as (v' & RD & F' & Er); [rewrite AV; exact Hv|unfold margin; lra|exact Nt|].
  rewrite RD. f_equal. rewrite AV in Er. unfold margin in Er. change (bpow radix2 (-50)) with (/ 1125899906842624) in Er.
  set (h := bpow radix10 (- p)) in *.
  assert (hV : 0 <= h * val v <= val v) by (split; [apply Rmult_le_pos; lra|rewrite <- (Rmult_1_l (val v)) at 2; apply Rmult_le_compat_r; lra]).
  assert (Hx : Rabs (val v') <= bpow radix2 1023).
  { replace (val v') with (val v + (val v' - val v)) by ring. apply Rle_trans with (1 := Rabs_triang _ _). rewrite AV.
    replace (bpow radix2 1023) with (bpow radix2 1000 * 8388608) by (change 8388608 with (bpow radix2 23); rewrite <- bpow_plus; reflexivity). lra. }
  destruct (check_margin v v' p F F' Hv Hx Hp) as (A & _). apply A. fold h. apply Rle_trans with (1 := Er). lra.
Qed.
Lemma zero_text fuel im p w fm : (0 <= p <= 4)%Z -> (0 <= w <= 9)%Z -> esg fm -> do_test fuel im "." dzero p w fm = Some (Ok false).
Proof.
  intros Hp Hw C.
  assert (A : forallb (fun p => forallb (fun w => forallb (fun fm => 
    match addF_text 0 "." dzero fm (to_u32 w) (to_u32 p) with Some (Ok t) => match check_val dzero t p with Ok b => negb b | _ => false end | _ => false end)
    (lit "esg")) (counter 0 1 10)) (counter 0 1 5) = true) by (vm_compute; reflexivity).
  rewrite forallb_forall in A. 
  assert (Ip : forall z n, (0 <= z < Z.of_nat n)%Z -> In z (counter 0 1 n)).
  { intros z n Hz. unfold counter. apply in_map_iff. exists (Z.to_nat z). split; [lia|]. apply in_seq. lia. }
  specialize (A p (Ip p 5%nat ltac:(lia))). rewrite forallb_forall in A. specialize (A w (Ip w 10%nat ltac:(lia))). rewrite forallb_forall in A.
  specialize (A fm ltac:(destruct C as [-> |[-> | ->]]; cbn; auto)).
  assert (Z0 : addF_text fuel "." dzero fm (to_u32 w) (to_u32 p) = addF_text 0 "." dzero fm (to_u32 w) (to_u32 p)).
  { destruct C as [-> |[-> | ->]]; reflexivity. }
  destruct (addF_text 0 "." dzero fm (to_u32 w) (to_u32 p)) as [[t| |]|] eqn:E; try discriminate.
  rewrite (do_test_text fuel im "." dzero p w fm t Z0). destruct (check_val dzero t p) as [[|]| |]; try discriminate. reflexivity.
Qed.
Lemma tested_passes fuel im v p w fm : (500 < fuel)%nat -> tested v -> (0 <= p <= 4)%Z -> (0 <= w <= 9)%Z -> esg fm ->
  do_test fuel im "." v p w fm = Some (Ok false).
Proof. intros Hfu [-> |(F & Hv)] Hp Hw C; [apply zero_text; assumption|apply own_text; auto; lia]. Qed.

(* ---- the loops ---- *)
Lemma counter_in lo n z : In z (counter lo 1 n) -> (lo <= z < lo + Z.of_nat n)%Z.
Proof. unfold counter. intros H. apply in_map_iff in H. destruct H as (k & <- & Hk). apply in_seq in Hk. lia. Qed.
Lemma fold_same {A B} (f : A -> B -> A) a l : (forall b, In b l -> f a b = a) -> fold_left f l a = a.
Proof. induction l as [|b l IH]; intros H; [reflexivity|]. cbn [fold_left]. rewrite (H b) by (left; reflexivity). apply IH. intros c Hc. apply H. right. exact Hc. Qed.
Lemma widths_pass fuel im v iv p n : (500 < fuel)%nat -> tested v -> tested iv -> (0 <= p <= 4)%Z ->
  big_widths fuel im "." v iv (Some (Ok (Counting n))) p = Some (Ok (Counting n)).
Proof.
  intros Hfu Tv Ti Hp. unfold big_widths. apply fold_same. intros w Hw. apply counter_in in Hw. apply fold_same. intros fm Hfm.
  assert (C : esg fm) by (cbn in Hfm; unfold esg; destruct Hfm as [<-|[<-|[<-|[]]]]; auto).
  unfold big_body. rewrite !tested_passes; auto; lia.
Qed.
Lemma pow_range e : (-18 <= e < 18)%Z -> fin (dpow10 e) /\ bpow radix2 (-70) <= val (dpow10 e) <= bpow radix2 60.
Proof.
  intros H.
  set (lo := @B754_finite 53 1024 false 4503599627370496 (-122) eq_refl : double). set (hi := @B754_finite 53 1024 false 4503599627370496 8 eq_refl : double).
  assert (A : forallb (fun e => is_finite (dpow10 e) && (dge (dpow10 e) lo && dge hi (dpow10 e))) (counter (-18) 1 36) = true) by (vm_compute; reflexivity).
  rewrite forallb_forall in A. assert (I : In e (counter (-18) 1 36)).
  { unfold counter. apply in_map_iff. exists (Z.to_nat (e + 18)). split; [lia|]. apply in_seq. lia. }
  specialize (A e I). apply andb_true_iff in A. destruct A as (F & A). apply andb_true_iff in A. destruct A as (A & B).
  split; [exact F|]. rewrite dge_ok in A, B by (exact F || reflexivity).
  assert (Lo : val lo = bpow radix2 (-70)) by (change (-70)%Z with (52 + -122)%Z; rewrite bpow_plus; reflexivity).
  assert (Hi : val hi = bpow radix2 60) by (change 60%Z with (52 + 8)%Z; rewrite bpow_plus; reflexivity).
  rewrite Lo in A. rewrite Hi in B.
  split; [destruct (Rle_bool_spec (bpow radix2 (-70)) (val (dpow10 e))); [assumption|discriminate]
         |destruct (Rle_bool_spec (val (dpow10 e)) (bpow radix2 60)); [assumption|discriminate]].
Qed.
Lemma scaled_tested a e : a = dzero \/ fin a /\ bpow radix2 (-900) <= val a <= bpow radix2 100 -> (-18 <= e < 18)%Z -> tested (dmul a (dpow10 e)).
Proof.
  intros Ha He. destruct (pow_range e He) as (Fp & Lp & Hp). destruct Ha as [-> |(Fa & La & Hi)].
  - left. assert (P := bpow_gt_0 radix2 (-70)). clear Hp. set (d := dpow10 e) in *. clearbody d. destruct d as [s| | |s m x B]; try discriminate.
    + cbn in Lp. lra.
    + destruct s; [|reflexivity]. exfalso. cbn [B2R] in Lp. assert (F2R (Float radix2 (SpecFloat.cond_Zopp true (Z.pos m)) x) < 0) by (apply F2R_lt_0; reflexivity). lra.
  - right. assert (P1 := bpow_gt_0 radix2 (-900)). assert (P2 := bpow_gt_0 radix2 (-70)).
    assert (L : bpow radix2 (-970) <= val a * val (dpow10 e)).
    { replace (-970)%Z with (-900 + -70)%Z by lia. rewrite bpow_plus. apply Rmult_le_compat; lra. }
    assert (U : val a * val (dpow10 e) <= bpow radix2 160).
    { replace 160%Z with (100 + 60)%Z by lia. rewrite bpow_plus. apply Rmult_le_compat; lra. }
    assert (RL := rnd_ge_fmt _ _ (fmt_bpow (-970) ltac:(lia)) L). assert (RU := rnd_le_fmt _ _ (fmt_bpow 160 ltac:(lia)) U).
    assert (P3 := bpow_gt_0 radix2 (-970)).
    assert (Fits : Rabs (rnd (val a * val (dpow10 e))) < top).
    { rewrite Rabs_pos_eq by lra. apply Rle_lt_trans with (1 := RU). apply bpow_lt. lia. }
    destruct (dmul_ok a (dpow10 e) Fa Fp Fits) as (Fm & Vm). split; [exact Fm|]. rewrite Vm. split.
    + apply Rle_trans with (2 := RL). apply bpow_le. lia.
    + apply Rle_trans with (1 := RU). apply bpow_le. lia.
Qed.
Definition drawn (a : double) : Prop := a = dzero \/ fin a /\ bpow radix2 (-900) <= val a <= bpow radix2 100.
Lemma int_drawn n : (0 <= n <= 1000000)%Z -> drawn (dlit n).
Proof.
  intros H. destruct (Z.eq_dec n 0) as [-> |N]; [left; reflexivity|right]. destruct (dlit_ok n ltac:(lia)) as (F & V). split; [exact F|]. rewrite V. split.
  - apply Rle_trans with 1; [change 1 with (bpow radix2 0); apply bpow_le; lia|apply (IZR_le 1); lia].
  - apply Rle_trans with (IZR 1000000); [apply IZR_le; lia|]. apply Rle_trans with (bpow radix2 20); [change (bpow radix2 20) with 1048576; lra|apply bpow_le; lia].
Qed.
Lemma rounds_iff itcount k : (k < big_rounds itcount)%nat <-> (13 * Z.of_nat k < itcount)%Z.
Proof. unfold big_rounds. assert (D := Z.div_mod (itcount + 12) 13 ltac:(lia)). assert (M := Z.mod_pos_bound (itcount + 12) 13 ltac:(lia)). lia. Qed.
Lemma rounds_below itcount k : (0 <= k < 0 + big_rounds itcount)%nat -> (13 * Z.of_nat k < itcount)%Z.
Proof. intros H. apply rounds_iff. lia. Qed.
Lemma run_passes fuel im itcount random : (itcount <= 1000000)%Z -> (500 < fuel)%nat -> (forall k, drawn (random k)) ->
  run_big_test fuel im "." itcount random = Some (Ok (Counting 0)).
Proof.
  intros Hi Hfu Hr. unfold run_big_test. apply fold_same. intros k Hk. apply in_seq in Hk. apply rounds_below in Hk. unfold big_round. apply fold_same. intros e He. apply counter_in in He.
  unfold big_exps. cbv zeta. apply fold_same. intros p Hp. apply counter_in in Hp. apply widths_pass; [exact Hfu| | |lia].
  - apply scaled_tested; [|lia]. destruct k as [|k]; [apply (int_drawn 64); lia|apply Hr].
  - apply scaled_tested; [|lia]. apply int_drawn. lia.
Qed.
Lemma main_passes fuel im itcount random : (itcount <= 1000000)%Z -> (500 < fuel)%nat -> (forall k, drawn (random k)) ->
  format_test_main fuel im "." itcount random = Some (Ok 0%Z).
Proof.
  intros Hi Hfu Hr. unfold format_test_main.
  assert (B : bool_test im = Ok true) by (destruct im; vm_compute; reflexivity).
  assert (Fi : fill_test im = Ok true) by (destruct im; vm_compute; reflexivity).
  rewrite B, Fi, (run_passes fuel im itcount random Hi Hfu Hr). reflexivity.
Qed.

(* ---- what exit code 0 tells ---- *)
Definition zero_errors : option (outcome big_run) := Some (Ok (Counting 0)).
Definition counts (r : option (outcome big_run)) : Prop := match r with Some (Ok (Counting n)) => (0 <= n)%Z | _ => True end.
Definition honest {B} (f : option (outcome big_run) -> B -> option (outcome big_run)) : Prop :=
  forall r b, counts r -> counts (f r b) /\ (f r b = zero_errors -> r = zero_errors).
Lemma fold_honest {B} (f : option (outcome big_run) -> B -> option (outcome big_run)) l : honest f -> forall r, counts r ->
  counts (fold_left f l r) /\ (fold_left f l r = zero_errors -> r = zero_errors /\ forall b, In b l -> f zero_errors b = zero_errors).
Proof.
  intros H. induction l as [|b l IH]; intros r Cr; cbn [fold_left].
  - split; [exact Cr|]. intros E. split; [exact E|intros ? []].
  - destruct (H r b Cr) as (C1 & B1). destruct (IH _ C1) as (C2 & B2). split; [exact C2|]. intros E. destruct (B2 E) as (E1 & A).
    assert (Er := B1 E1). split; [exact Er|]. intros c [<- |Hc]; [rewrite <- Er at 1; exact E1|apply A; exact Hc].
Qed.
Lemma fold_is_honest {B C} (f : C -> option (outcome big_run) -> B -> option (outcome big_run)) (l : list B) :
  (forall c, honest (f c)) -> honest (fun r c => fold_left (f c) l r).
Proof. intros H r c Cr. destruct (fold_honest (f c) l (H c) r Cr) as (A & B'). split; [exact A|]. intros E. apply B'. exact E. Qed.
Lemma body_honest fuel im sep v iv p w : honest (big_body fuel im sep v iv p w).
Proof.
  intros r fm Cr. unfold big_body. destruct r as [[[n|]|e|]|]; try (split; [exact I|discriminate]). cbn [counts] in Cr.
  assert (O : counts (Some (Ok (one_more n))) /\ (Some (Ok (one_more n)) = zero_errors -> Some (Ok (Counting n)) = zero_errors)).
  { unfold one_more. destruct (10 <? n + 1)%Z; (split; [cbn; lia || exact I|]); [discriminate|]. unfold zero_errors. intros [= E]. lia. }
  destruct (do_test fuel im sep v p w fm) as [[[|]|e|]|]; try (split; [exact I|discriminate]); [exact O|].
  destruct (do_test fuel im sep iv p w fm) as [[[|]|e|]|]; try (split; [exact I|discriminate]); [exact O|]. auto.
Qed.
Lemma body_zero fuel im sep v iv p w fm : big_body fuel im sep v iv p w zero_errors fm = zero_errors ->
  do_test fuel im sep v p w fm = Some (Ok false) /\ do_test fuel im sep iv p w fm = Some (Ok false).
Proof.
  unfold big_body, zero_errors.
  destruct (do_test fuel im sep v p w fm) as [[[|]|e|]|]; try discriminate.
  destruct (do_test fuel im sep iv p w fm) as [[[|]|e|]|]; try discriminate. auto.
Qed.
Lemma widths_honest fuel im sep v iv : honest (big_widths fuel im sep v iv).
Proof.
  intros r p Cr. unfold big_widths.
  assert (H := fun p => fold_is_honest (fun w => big_body fuel im sep v iv p w) (lit "esg") (fun w => body_honest fuel im sep v iv p w)).
  destruct (fold_honest _ (counter 0 1 10) (H p) r Cr) as (A & B). split; [exact A|]. intros E. apply B. exact E.
Qed.
Lemma exps_honest fuel im sep tv ti : honest (big_exps fuel im sep tv ti).
Proof.
  intros r e Cr. unfold big_exps. cbv zeta.
  destruct (fold_honest _ (counter 0 1 5) (widths_honest fuel im sep (dmul tv (dpow10 e)) (dmul ti (dpow10 e))) r Cr) as (A & B).
  split; [exact A|]. intros E. apply B. exact E.
Qed.
Lemma in_counter lo n z : (lo <= z < lo + Z.of_nat n)%Z -> In z (counter lo 1 n).
Proof. intros H. unfold counter. apply in_map_iff. exists (Z.to_nat (z - lo)). split; [lia|]. apply in_seq. lia. Qed.
Lemma round_honest fuel im sep random : honest (big_round fuel im sep random).
Proof.
  intros r k Cr. unfold big_round.
  destruct (fold_honest _ (counter (-18) 1 36) (exps_honest fuel im sep (test_value random k) (dlit (13 * Z.of_nat k))) r Cr) as (A & B).
  split; [exact A|]. intros E. apply B. exact E.
Qed.
Lemma zero_counts : counts zero_errors. Proof. cbn. lia. Qed.
Lemma round_eq fuel im sep random r k : big_round fuel im sep random r k =
  fold_left (big_exps fuel im sep (test_value random k) (dlit (13 * Z.of_nat k))) (counter (-18) 1 36) r.
Proof. reflexivity. Qed.
Lemma exps_eq fuel im sep tv ti r e : big_exps fuel im sep tv ti r e =
  fold_left (big_widths fuel im sep (dmul tv (dpow10 e)) (dmul ti (dpow10 e))) (counter 0 1 5) r.
Proof. reflexivity. Qed.
Lemma widths_eq fuel im sep v iv r p : big_widths fuel im sep v iv r p =
  fold_left (fun r w => fold_left (big_body fuel im sep v iv p w) (lit "esg") r) (counter 0 1 10) r.
Proof. reflexivity. Qed.
Lemma fold_tells {B} (f : option (outcome big_run) -> B -> option (outcome big_run)) l z : honest f -> counts z -> z = zero_errors ->
  fold_left f l z = z -> forall b, In b l -> f z b = z.
Proof. intros H C -> E. apply (fold_honest f l H zero_errors C). exact E. Qed.
Lemma inner_tells fuel im sep random k e p w fm z : z = zero_errors -> big_round fuel im sep random z k = z ->
  In e (counter (-18) 1 36) -> In p (counter 0 1 5) -> In w (counter 0 1 10) -> In fm (lit "esg") ->
  big_body fuel im sep (dmul (test_value random k) (dpow10 e)) (dmul (dlit (13 * Z.of_nat k)) (dpow10 e)) p w z fm = z.
Proof.
  intros Z E He Hp Hw Hf. assert (C : counts z) by (rewrite Z; exact zero_counts).
  rewrite round_eq in E. apply (fold_tells _ _ z (exps_honest _ _ _ _ _) C Z) with (b := e) in E; [|exact He].
  rewrite exps_eq in E. apply (fold_tells _ _ z (widths_honest _ _ _ _ _) C Z) with (b := p) in E; [|exact Hp].
  rewrite widths_eq in E.
  apply (fold_tells _ _ z (fold_is_honest (fun w => big_body fuel im sep _ _ p w) (lit "esg") (fun w => body_honest fuel im sep _ _ p w)) C Z) with (b := w) in E; [|exact Hw].
  apply (fold_tells _ _ z (body_honest _ _ _ _ _ _ _) C Z) with (b := fm) in E; [|exact Hf]. exact E.
Qed.
Lemma rounds_tell fuel im sep random n z : z = zero_errors -> fold_left (big_round fuel im sep random) (seq 0 n) z = z ->
  forall k e p w fm, (k < n)%nat -> (-18 <= e <= 17)%Z -> (0 <= p <= 4)%Z -> (0 <= w <= 9)%Z -> esg fm ->
    do_test fuel im sep (dmul (test_value random k) (dpow10 e)) p w fm = Some (Ok false) /\
    do_test fuel im sep (dmul (dlit (13 * Z.of_nat k)) (dpow10 e)) p w fm = Some (Ok false).
Proof.
  intros Z E k e p w fm Hk He Hp Hw C. assert (Cz : counts z) by (rewrite Z; exact zero_counts).
  assert (E1 := fold_tells _ _ z (round_honest fuel im sep random) Cz Z E k ltac:(apply in_seq; lia)).
  assert (E2 := inner_tells fuel im sep random k e p w fm z Z E1 ltac:(apply in_counter; lia) ltac:(apply in_counter; lia) ltac:(apply in_counter; lia)
    ltac:(destruct C as [-> |[-> | ->]]; cbn; auto)).
  rewrite Z in E2. apply body_zero. exact E2.
Qed.
Lemma rounds_count fuel im sep random n z : counts z -> counts (fold_left (big_round fuel im sep random) (seq 0 n) z).
Proof. intros C. apply (fold_honest _ (seq 0 n) (round_honest fuel im sep random) z C). Qed.
Lemma run_counts fuel im sep itcount random : counts (run_big_test fuel im sep itcount random).
Proof. apply rounds_count. exact zero_counts. Qed.
Lemma run_tells fuel im sep itcount random : run_big_test fuel im sep itcount random = zero_errors ->
  forall k e p w fm, (0 <= 13 * Z.of_nat k < itcount)%Z -> (-18 <= e <= 17)%Z -> (0 <= p <= 4)%Z -> (0 <= w <= 9)%Z -> esg fm ->
    do_test fuel im sep (dmul (test_value random k) (dpow10 e)) p w fm = Some (Ok false) /\
    do_test fuel im sep (dmul (dlit (13 * Z.of_nat k)) (dpow10 e)) p w fm = Some (Ok false).
Proof.
  intros E k e p w fm Hk. apply (rounds_tell fuel im sep random (big_rounds itcount) zero_errors eq_refl E). apply rounds_iff. lia.
Qed.
Lemma main_tells fuel im sep itcount random : format_test_main fuel im sep itcount random = Some (Ok 0%Z) ->
  bool_test im = Ok true /\ fill_test im = Ok true /\ run_big_test fuel im sep itcount random = zero_errors.
Proof.
  unfold format_test_main. assert (C := run_counts fuel im sep itcount random).
  destruct (bool_test im) as [[|]|e|]; try discriminate. destruct (fill_test im) as [[|]|e|]; try discriminate.
  intros H. repeat split. destruct (run_big_test fuel im sep itcount random) as [[[n|]|e|]|]; try discriminate. cbn [counts] in C.
  cbn [option_map] in H. destruct (Z.ltb_spec 0 n); [discriminate|]. replace n with 0%Z by lia. reflexivity.
Qed.
