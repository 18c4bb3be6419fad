(* L_NaNTest.v -- the ways to read the line of test/FormatNaN.cxx. *)
From Verif Require Import Base M_Stream M_Format M_Float M_FormatF L_Map M_NaNTest S_NaNTest.
From Flocq Require Import IEEE754.BinarySingleNaN.

Lemma cut_ex (a b s : str) : a ++ b = s -> exists n, n <= length s /\ a = firstn n s /\ b = skipn n s.
Proof.
  intros <-. exists (length a). rewrite app_length. split; [lia|].
  rewrite firstn_app, firstn_all, Nat.sub_diag, skipn_app, skipn_all, Nat.sub_diag. cbn. rewrite app_nil_r. auto.
Qed.
Definition line_of (t0 t1 t2 : str) : str := lit "ok " ++ t0 ++ lit " inf " ++ t1 ++ lit " nan " ++ t2.
Lemma line_iff t0 t1 t2 : line_of t0 t1 t2 = lit "ok 1.000000 inf inf  nan nan " <-> In (t0, t1, t2) accepted.
Proof.
  unfold line_of. split.
  - intros H. change (lit "ok 1.000000 inf inf  nan nan ") with (lit "ok " ++ lit "1.000000 inf inf  nan nan ") in H.
    apply app_inv_head in H. apply cut_ex in H. destruct H as (n & L & -> & R). cbn in L.
    do 27 try (destruct n as [|n]; [try discriminate R|]); try (exfalso; lia).
    all: cbn in R; injection R as R; apply cut_ex in R; destruct R as (m & Lm & -> & R); cbn in Lm;
         do 27 try (destruct m as [|m]; [try discriminate R; try (exfalso; lia)|]); try (exfalso; lia);
         cbn in R; injection R as ->; vm_compute; auto 6.
  - cbn. intros [H|[H|[H|[H|[]]]]]; injection H; intros; subst; reflexivity.
Qed.
Lemma line_str t0 t1 t2 f0 : newFormat Glibc (lit "ok %0 inf %1 nan %2") = Ok f0 ->
  fmt_str (insertField (insertField (insertField f0 t0) t1) t2) true = Ok (line_of t0 t1 t2).
Proof.
  intros H. vm_compute in H. injection H as <-. unfold fmt_str. cbn. unfold line_of. rewrite app_nil_r. reflexivity.
Qed.
Lemma eqb_true a b : str_eqb a b = true -> a = b.
Proof. destruct (str_eqb_spec a b); congruence. Qed.
Lemma eqb_same a : str_eqb a a = true.
Proof. destruct (str_eqb_spec a a); congruence. Qed.
Lemma after_inv {A B} (x : option (outcome A)) (k : A -> option (outcome B)) b :
  after x k = Some (Ok b) -> exists a, x = Some (Ok a) /\ k a = Some (Ok b).
Proof. destruct x as [[a|e|]|]; cbn; intros H; [eauto|discriminate|discriminate|discriminate]. Qed.
Lemma call_inv r f v w g : add_call r f v w = Some (Ok g) -> exists t, r v "f"%char w 6%Z = Some (Ok t) /\ g = insertField f t.
Proof. unfold add_call. destruct (r v "f"%char w 6%Z) as [[t|e|]|]; cbn; intros H; try discriminate. injection H as <-. eauto. Qed.
Lemma call_ok r f v w t : r v "f"%char w 6%Z = Some (Ok t) -> add_call r f v w = Some (Ok (insertField f t)).
Proof. unfold add_call. intros ->. reflexivity. Qed.
Lemma verdict_0 (b : bool) : Some (Ok (if b then 0%Z else (-1)%Z)) = Some (Ok 0%Z) -> b = true.
Proof. destruct b; [reflexivity|discriminate]. Qed.
Lemma start_ok : exists f0, newFormat Glibc (lit "ok %0 inf %1 nan %2") = Ok f0.
Proof. vm_compute. eauto. Qed.
Lemma nan_run_iff (r : renderer) (one : double) :
  nan_run r one = Some (Ok 0%Z) <->
  exists t0 t1 t2, r one "f"%char 6%Z 6%Z = Some (Ok t0) /\ r (B754_infinity false) "f"%char 4%Z 6%Z = Some (Ok t1) /\
    r B754_nan "f"%char 4%Z 6%Z = Some (Ok t2) /\ In (t0, t1, t2) accepted.
Proof.
  unfold nan_run. split.
  - intros H. apply after_inv in H as (f0 & E0 & H). apply after_inv in H as (f1 & E1 & H). apply after_inv in H as (f2 & E2 & H).
    apply after_inv in H as (f3 & E3 & H). apply after_inv in H as (foo & E4 & H).
    apply call_inv in E1 as (t0 & R0 & ->). apply call_inv in E2 as (t1 & R1 & ->). apply call_inv in E3 as (t2 & R2 & ->).
    exists t0, t1, t2. split; [exact R0|]. split; [exact R1|]. split; [exact R2|]. apply line_iff.
    apply verdict_0 in H. assert (F0 : newFormat Glibc (lit "ok %0 inf %1 nan %2") = Ok f0) by congruence.
    rewrite (line_str t0 t1 t2 f0 F0) in E4. assert (Q : line_of t0 t1 t2 = foo) by congruence. rewrite Q.
    exact (eqb_true _ _ H).
  - intros (t0 & t1 & t2 & R0 & R1 & R2 & I). apply line_iff in I. destruct start_ok as (f0 & E0). rewrite E0. cbn [after].
    rewrite (call_ok r f0 one 6 t0 R0). cbn [after]. rewrite (call_ok r _ _ 4 t1 R1). cbn [after]. rewrite (call_ok r _ _ 4 t2 R2). cbn [after].
    rewrite (line_str t0 t1 t2 f0 E0). cbn [after]. rewrite I.
    rewrite eqb_same. reflexivity.
Qed.
Local Ltac ends := cbn; split;
  [intros H; first [discriminate H | (left; congruence) | (right; split; [eauto|]; first [(left; congruence) | (right; split; [eauto|congruence])])]
  |intros [H|((u & H) & [K|((w & K) & L)])]; congruence].
Lemma call_same r f v w x : r v "f"%char w 6%Z = x -> add_call r f v w = option_map (fun o => do t <- o; Ok (insertField f t)) x.
Proof. unfold add_call. intros ->. reflexivity. Qed.
Lemma nan_run_ends (r : renderer) (one : double) x0 x1 x2 :
  r one "f"%char 6%Z 6%Z = x0 -> r (B754_infinity false) "f"%char 4%Z 6%Z = x1 -> r B754_nan "f"%char 4%Z 6%Z = x2 ->
  (forall e, nan_run r one = Some (Throw e) <->
     x0 = Some (Throw e) \/ (exists t0, x0 = Some (Ok t0)) /\ (x1 = Some (Throw e) \/ (exists t1, x1 = Some (Ok t1)) /\ x2 = Some (Throw e))) /\
  (nan_run r one = None <->
     x0 = None \/ (exists t0, x0 = Some (Ok t0)) /\ (x1 = None \/ (exists t1, x1 = Some (Ok t1)) /\ x2 = None)) /\
  ((exists t0 t1 t2, x0 = Some (Ok t0) /\ x1 = Some (Ok t1) /\ x2 = Some (Ok t2)) ->
     exists z, nan_run r one = Some (Ok z)).
Proof.
  intros E0 E1 E2. destruct start_ok as (f0 & F0).
  assert (H : nan_run r one = after x0 (fun t0 => after x1 (fun t1 => after x2 (fun t2 =>
    Some (Ok (if str_eqb (line_of t0 t1 t2) (lit "ok 1.000000 inf inf  nan nan ") then 0%Z else (-1)%Z)))))).
  { unfold nan_run. rewrite F0. cbn [after]. rewrite (call_same r f0 _ _ _ E0). destruct x0 as [[t0|e|]|]; cbn [option_map obind after]; [|reflexivity..].
    rewrite (call_same r _ _ _ _ E1). destruct x1 as [[t1|e|]|]; cbn [option_map obind after]; [|reflexivity..].
    rewrite (call_same r _ _ _ _ E2). destruct x2 as [[t2|e|]|]; cbn [option_map obind after]; [|reflexivity..].
    rewrite (line_str t0 t1 t2 f0 F0). reflexivity. }
  rewrite H. clear H E0 E1 E2. generalize (lit "ok 1.000000 inf inf  nan nan "). intros line.
  split; [|split].
  - intros e. destruct x0 as [[t0|e0|]|]; [|ends..].
    destruct x1 as [[t1|e1|]|]; [|ends..]. destruct x2 as [[t2|e2|]|]; ends.
  - destruct x0 as [[t0|e0|]|]; [|ends..].
    destruct x1 as [[t1|e1|]|]; [|ends..]. destruct x2 as [[t2|e2|]|]; ends.
  - intros (t0 & t1 & t2 & -> & -> & ->). cbn [after]. eauto.
Qed.
