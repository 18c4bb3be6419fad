(* L_Dec.v -- decimal digit strings and their values. *)
From Verif Require Import Base M_Stream M_Float S_Num L_Num L_Field.
Local Open Scope Z_scope.

Lemma value_bound s : forall a n, value_from false 10 a s = Some n ->
  Z.of_N a * 10 ^ Z.of_nat (length s) <= Z.of_N n < (Z.of_N a + 1) * 10 ^ Z.of_nat (length s).
Proof.
  induction s as [|c s IH]; intros a n; cbn [value_from length].
  - intros [= <-]. change (10 ^ Z.of_nat 0) with 1. lia.
  - destruct (digit_of false c) as [d|]; [|discriminate]. destruct (N.ltb_spec d 10); [|discriminate].
    intros H1. apply IH in H1. rewrite Nat2Z.inj_succ, Z.pow_succ_r by lia.
    set (p := 10 ^ Z.of_nat (length s)) in *. assert (0 < p) by (unfold p; lia).
    replace (Z.of_N (a * 10 + d)) with (Z.of_N a * 10 + Z.of_N d) in H1 by lia. nia.
Qed.
Lemma value_some s n : s <> [] -> value_from false 10 0 s = Some n -> value false 10 s = Some n.
Proof. destruct s; [congruence|auto]. Qed.
Lemma value_from_shift s : forall a n, value_from false 10 0 s = Some n ->
  value_from false 10 a s = Some (a * 10 ^ N.of_nat (length s) + n)%N.
Proof.
  assert (G : forall a b n, value_from false 10 b s = Some n ->
    value_from false 10 (a + b) s = Some (a * 10 ^ N.of_nat (length s) + n)%N).
  { induction s as [|c s IH]; intros a b n; cbn [value_from length].
    - intros [= <-]. change (10 ^ N.of_nat 0)%N with 1%N. f_equal. lia.
    - destruct (digit_of false c) as [d|]; [|discriminate]. destruct (d <? 10)%N; [|discriminate].
      intros H. replace ((a + b) * 10 + d)%N with (a * 10 + (b * 10 + d))%N by lia.
      rewrite (IH (a * 10)%N _ _ H). f_equal. rewrite Nat2N.inj_succ, N.pow_succ_r'. lia. }
  intros a n H. rewrite <- (N.add_0_r a) at 1. apply G. exact H.
Qed.

Lemma put_dec_value n : value_from false 10 0 (put_dec n) = Some n.
Proof. destruct (put_dec_spec n) as (V & _). destruct (put_dec n); [discriminate V|exact V]. Qed.
Lemma zdec_value n : 0 <= n -> value_from false 10 0 (zdec n) = Some (Z.to_N n).
Proof. intros H. apply put_dec_value. Qed.
Lemma zdec_digits n : forallb digit_byte (zdec n) = true.
Proof. eapply numeral_digits, put_dec_spec. Qed.
Lemma put_dec_len n k : 10 ^ Z.of_nat k <= Z.of_N n < 10 ^ (Z.of_nat k + 1) -> length (put_dec n) = S k.
Proof.
  intros (L & U). destruct (put_dec_spec n) as (V & H).
  assert (V' := put_dec_value n). assert (B := value_bound _ _ _ V').
  assert (P : 0 < 10 ^ Z.of_nat k) by lia.
  assert (G : (Z.of_nat k < Z.of_nat (length (put_dec n)))).
  { apply (Z.pow_lt_mono_r_iff 10); lia. }
  destruct (put_dec n) as [|c t]; [cbn in G; lia|]. cbn [length] in *.
  destruct H as [H|H].
  { injection H as -> ->. cbn in V'. injection V' as <-. cbn in *. lia. }
  cbn [value_from] in V'. destruct (digit_of false c) as [d|] eqn:D; [|discriminate]. destruct (d <? 10)%N; [|discriminate].
  assert (D0 : (d <> 0)%N).
  { intros ->. apply digit_of_inv in D. destruct D as (-> & _). apply H. reflexivity. }
  apply value_bound in V'. assert (Q : 0 < 10 ^ Z.of_nat (length t)) by lia.
  assert (L2 : 10 ^ Z.of_nat (length t) <= Z.of_N n) by nia.
  assert (Z.of_nat (length t) < Z.of_nat k + 1) by (apply (Z.pow_lt_mono_r_iff 10); lia). lia.
Qed.
Lemma put_dec_0 : put_dec 0 = lit "0".
Proof. reflexivity. Qed.
Lemma zdec_len n k : 10 ^ Z.of_nat k <= n < 10 ^ (Z.of_nat k + 1) -> length (zdec n) = S k.
Proof. intros H. apply put_dec_len. rewrite Z2N.id; lia. Qed.
(* at most p digits below 10 ^ p *)
Lemma zdec_len_le n p : 0 <= n < 10 ^ p -> 0 < p -> Z.of_nat (length (zdec n)) <= p.
Proof.
  intros H Hp. destruct (Z.eq_dec n 0) as [-> | N0]; [cbn; lia|].
  assert (G : exists k, 10 ^ Z.of_nat k <= n < 10 ^ (Z.of_nat k + 1)).
  { clear Hp. assert (0 <= p) by (destruct (Z_lt_le_dec p 0); [rewrite (Z.pow_neg_r 10 p) in H by lia; lia|lia]).
    revert n H N0. replace p with (Z.of_nat (Z.to_nat p)) by lia. induction (Z.to_nat p) as [|q IH]; intros n H1 N0.
    - change (10 ^ Z.of_nat 0) with 1 in H1. lia.
    - destruct (Z_lt_le_dec n (10 ^ Z.of_nat q)) as [L|G]; [apply IH; lia|]. exists q.
      split; [exact G|]. replace (Z.of_nat q + 1) with (Z.of_nat (S q)) by lia. lia. }
  destruct G as (k & L & U). rewrite (zdec_len n k) by lia.
  assert (Z.of_nat k < p) by (apply (Z.pow_lt_mono_r_iff 10); lia). lia.
Qed.
Lemma zeros_value k a s : value_from false 10 a (repeat "0"%char k ++ s) = value_from false 10 (a * 10 ^ N.of_nat k) s.
Proof.
  revert a. induction k as [|k IH]; intros a; cbn [repeat app value_from].
  - change (10 ^ N.of_nat 0)%N with 1%N. f_equal. lia.
  - change (digit_of false "0"%char) with (Some 0%N). cbn [N.ltb N.compare]. rewrite IH. f_equal.
    rewrite Nat2N.inj_succ, N.pow_succ_r'. lia.
Qed.
Lemma zeros_digits k : forallb digit_byte (repeat "0"%char k) = true.
Proof. induction k; [reflexivity|cbn; exact IHk]. Qed.

(* the p digits of n *)
Lemma pad_dec p n : 0 < p -> 0 <= n < 10 ^ p ->
  Z.of_nat (length (pad_l "0"%char p (zdec n))) = p /\ forallb digit_byte (pad_l "0"%char p (zdec n)) = true /\
  value_from false 10 0 (pad_l "0"%char p (zdec n)) = Some (Z.to_N n).
Proof.
  intros Hp Hn. assert (L := zdec_len_le n p Hn Hp). unfold pad_l, fill_count.
  rewrite app_length, repeat_length. split; [lia|]. split.
  - rewrite forallb_app, zeros_digits, zdec_digits. reflexivity.
  - rewrite zeros_value. apply zdec_value. lia.
Qed.
Lemma zdec_pad_ok p n : 0 <= p -> 0 <= n < 10 ^ p ->
  Z.of_nat (length (zdec_pad p n)) = p /\ forallb digit_byte (zdec_pad p n) = true /\
  value_from false 10 0 (zdec_pad p n) = Some (Z.to_N n).
Proof.
  intros Hp Hn. unfold zdec_pad. destruct (Z.leb_spec p 0) as [L|G].
  - assert (p = 0) as -> by lia. change (10 ^ 0) with 1 in Hn. replace n with 0 by lia. auto.
  - apply pad_dec; lia.
Qed.
(* integer digits followed by fraction digits *)
Lemma parts_value i p n f : 0 <= i -> 0 <= p -> Z.of_nat (length f) = p -> value_from false 10 0 f = Some (Z.to_N n) -> 0 <= n ->
  value false 10 (zdec i ++ f) = Some (Z.to_N (i * 10 ^ p + n)).
Proof.
  intros Hi Hp Lf Vf Hn. apply value_some.
  { destruct (put_dec_spec (Z.to_N i)) as (V & _). unfold zdec. destruct (put_dec (Z.to_N i)); [discriminate V|discriminate]. }
  rewrite value_from_app, zdec_value by exact Hi. rewrite (value_from_shift _ _ _ Vf). f_equal.
  rewrite Z2N.inj_add, Z2N.inj_mul, Z2N.inj_pow by lia. f_equal. f_equal. f_equal. lia.
Qed.
