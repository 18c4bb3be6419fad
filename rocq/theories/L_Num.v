(* L_Num.v -- numerals: the model's digit loop produces the shortest numeral. *)
From Verif Require Import Base M_Stream S_Num.

Lemma white_eq c : white c = space_byte c.
Proof. destruct c as [[] [] [] [] [] [] [] []]; reflexivity. Qed.

Lemma digit_of_dig_char up d : (d < 16)%N -> digit_of up (dig_char up d) = Some d.
Proof.
  intros H.
  assert (E : existsb (N.eqb d) (map N.of_nat (seq 0 16)) = true).
  { apply existsb_exists. exists d. split; [|apply N.eqb_refl].
    apply in_map_iff. exists (N.to_nat d). split; [lia|]. apply in_seq. lia. }
  apply existsb_exists in E. destruct E as (x & Hin & E). apply N.eqb_eq in E. subst x.
  cbn in Hin. destruct up;
  repeat (destruct Hin as [<-|Hin]; [reflexivity|]); destruct Hin.
Qed.

Lemma digit_of_inv up c d : digit_of up c = Some d -> c = dig_char up d /\ (d < 16)%N.
Proof.
  destruct c as [[][][][][][][][]], up; vm_compute; intros H; try discriminate H;
    apply (f_equal (fun o => match o with Some x => x | None => 0%N end)) in H; subst d;
    split; reflexivity.
Qed.

Lemma value_from_app up b s t a :
  value_from up b a (s ++ t) =
  match value_from up b a s with Some v => value_from up b v t | None => None end.
Proof.
  revert a. induction s as [|c s IH]; intros a; [reflexivity|].
  cbn. destruct (digit_of up c) as [d|]; [|reflexivity].
  destruct (d <? b)%N; [apply IH|reflexivity].
Qed.

Lemma numeral_loop_spec up b fuel : (2 <= b <= 16)%N -> forall n acc,
  (n < 2 ^ N.of_nat fuel)%N -> fuel <> 0 ->
  exists ds, numeral_loop fuel up b n acc = ds ++ acc /\ ds <> [] /\
    value_from up b 0 ds = Some n /\
    (ds = lit "0" \/ hd_error ds <> Some "0"%char) /\
    (n <> 0%N -> hd_error ds <> Some "0"%char).
Proof.
  intros Hb. induction fuel as [|fuel IH]; intros n acc Hn Hf; [lia|].
  cbn [numeral_loop].
  assert (Hm : (n mod b < b)%N) by (apply N.mod_lt; lia).
  assert (Hd : n = (n / b * b + n mod b)%N) by (rewrite N.mul_comm; apply N.div_mod; lia).
  destruct (N.eqb_spec (n / b) 0) as [E|E].
  - exists [dig_char up (n mod b)]. split; [reflexivity|]. split; [discriminate|].
    rewrite E in Hd. cbn in Hd.
    assert (D : digit_of up (dig_char up (n mod b)) = Some (n mod b)%N)
      by (apply digit_of_dig_char; lia).
    split. { cbn. rewrite D. destruct (N.ltb_spec (n mod b) b); [|lia]. f_equal; lia. }
    assert (H0 : n <> 0%N -> hd_error [dig_char up (n mod b)] <> Some "0"%char).
    { intros Hz [= F]. rewrite F in D.
      assert (Some 0%N = Some (n mod b)%N) as [= G]; [rewrite <- D; destruct up; reflexivity|]. lia. }
    split; [|exact H0].
    destruct (N.eqb_spec n 0) as [Z|Z]; [|right; auto].
    left. rewrite Z, N.mod_0_l by lia. destruct up; reflexivity.
  - destruct (IH (n / b)%N (dig_char up (n mod b) :: acc)) as (ds & E1 & E2 & E3 & E4 & E5).
    { rewrite Nat2N.inj_succ, N.pow_succ_r' in Hn.
      apply N.div_lt_upper_bound; [lia|]. nia. }
    { intros ->. cbn in Hn. rewrite N.div_small in E; lia. }
    exists (ds ++ [dig_char up (n mod b)]). rewrite E1, <- app_assoc. split; [reflexivity|].
    split; [destruct ds; discriminate|].
    split.
    { rewrite value_from_app, E3. cbn. rewrite digit_of_dig_char by lia.
      destruct (N.ltb_spec (n mod b) b); [|lia]. f_equal. lia. }
    assert (hd_error (ds ++ [dig_char up (n mod b)]) <> Some "0"%char).
    { destruct ds as [|x ds]; [congruence|]. cbn. cbn in E5. auto. }
    auto.
Qed.

Lemma size_nat_bound n : (n < 2 ^ N.of_nat (S (N.size_nat n)))%N.
Proof.
  assert (E : N.of_nat (N.size_nat n) = N.size n).
  { destruct n as [|p]; [reflexivity|]. cbn [N.size_nat N.size].
    induction p; cbn [Pos.size_nat Pos.size]; rewrite ?Nat2N.inj_succ, ?IHp; try lia; reflexivity. }
  rewrite Nat2N.inj_succ, E, N.pow_succ_r'. pose proof (N.size_gt n). lia.
Qed.

Lemma numeral_spec up b n : (2 <= b <= 16)%N ->
  numeral up b n <> [] /\ numeral_of up b n (numeral up b n).
Proof.
  intros Hb.
  destruct (numeral_loop_spec up b (S (N.size_nat n)) Hb n [])
    as (ds & E1 & E2 & E3 & E4 & _); [apply size_nat_bound|lia|].
  unfold numeral. rewrite E1, app_nil_r. split; [exact E2|].
  split; [|exact E4]. destruct ds; [congruence|exact E3].
Qed.

Lemma put_dec_spec n : numeral_of false 10 n (put_dec n).
Proof. apply numeral_spec. lia. Qed.

(* uniqueness *)
Lemma value_from_zero up b s : (2 <= b)%N -> hd_error s <> Some "0"%char ->
  value_from up b 0 s = Some 0%N -> s = [].
Proof.
  intros Hb. induction s as [|c s IH] using rev_ind; [reflexivity|].
  intros H0 H. exfalso. rewrite value_from_app in H.
  destruct (value_from up b 0 s) as [v|] eqn:V; [|discriminate].
  cbn in H. destruct (digit_of up c) as [d|] eqn:D; [|discriminate].
  destruct (N.ltb_spec d b); [|discriminate]. injection H as H.
  assert (v = 0 /\ d = 0)%N as [-> ->] by nia.
  assert (s = []).
  { apply IH; [|reflexivity]. destruct s; [discriminate|exact H0]. }
  subst s. apply digit_of_inv in D. destruct D as [-> _]. destruct up; apply H0; reflexivity.
Qed.

Lemma value_from_unique up b s : (2 <= b)%N -> forall t n,
  hd_error s <> Some "0"%char -> hd_error t <> Some "0"%char ->
  value_from up b 0 s = Some n -> value_from up b 0 t = Some n -> s = t.
Proof.
  intros Hb. induction s as [|c s IH] using rev_ind; intros t n Hs Ht Vs Vt.
  - cbn in Vs. injection Vs as <-. symmetry. eapply value_from_zero; eauto.
  - destruct t as [|e t _] using rev_ind.
    { cbn in Vt. injection Vt as <-. eapply value_from_zero; eauto. }
    rewrite value_from_app in Vs, Vt.
    destruct (value_from up b 0 s) as [v|] eqn:V; [|discriminate].
    destruct (value_from up b 0 t) as [v'|] eqn:V'; [|discriminate].
    cbn in Vs, Vt.
    destruct (digit_of up c) as [d|] eqn:D; [|discriminate].
    destruct (digit_of up e) as [d'|] eqn:D'; [|discriminate].
    destruct (N.ltb_spec d b); [|discriminate]. destruct (N.ltb_spec d' b); [|discriminate].
    injection Vs as <-. injection Vt as Vt.
    assert (v' = v /\ d' = d)%N as [-> ->] by (apply (N.div_mod_unique b); lia).
    apply digit_of_inv in D, D'. destruct D as [-> _], D' as [-> _].
    f_equal. apply (IH t v); auto.
    + destruct s; [discriminate|exact Hs].
    + destruct t; [discriminate|exact Ht].
Qed.

Lemma numeral_of_unique up b n s t : (2 <= b)%N ->
  numeral_of up b n s -> numeral_of up b n t -> s = t.
Proof.
  intros Hb [V1 C1] [V2 C2].
  assert (N0 : forall u, value up b u = Some n -> u <> [] /\ value_from up b 0 u = Some n).
  { intros [|x u] H; [discriminate|]. split; [discriminate|exact H]. }
  destruct (N0 _ V1) as [n1 W1], (N0 _ V2) as [n2 W2].
  assert (Z : value_from up b 0 (lit "0") = Some 0%N).
  { cbn. replace (digit_of up "0"%char) with (Some 0%N) by (destruct up; reflexivity).
    destruct (N.ltb_spec 0 b); [reflexivity|lia]. }
  destruct C1 as [->|C1], C2 as [->|C2]; [reflexivity| | |].
  - rewrite Z in W1. injection W1 as <-. destruct n2. eapply value_from_zero; eauto.
  - rewrite Z in W2. injection W2 as <-. destruct n1. eapply value_from_zero; eauto.
  - eapply value_from_unique; eauto.
Qed.

Lemma put_int_spec v : int_numeral_of v (put_int v).
Proof.
  unfold put_int, int_numeral_of. destruct (Z.ltb_spec v 0).
  - right. split; [lia|]. exists (put_dec (Z.to_N (- v))). split; [reflexivity|apply put_dec_spec].
  - left. split; [lia|apply put_dec_spec].
Qed.

Lemma digit_byte_digit_of c : digit_byte c = true <-> exists d, digit_of false c = Some d /\ (d < 10)%N /\ d = digit_val c.
Proof.
  destruct c as [[][][][][][][][]]; vm_compute; split; intros H; try discriminate H;
    try (destruct H as (d & [= ?] & H & ?)); try (destruct H as (d & H & _); discriminate H);
    subst; try discriminate; eauto.
Qed.

(* all the characters of a decimal numeral are digits *)
Lemma value_digits ds : forall a n, value_from false 10 a ds = Some n -> forallb digit_byte ds = true.
Proof.
  induction ds as [|c ds IH]; intros a n H; [reflexivity|]. cbn in *.
  destruct (digit_of false c) as [d|] eqn:D; [|discriminate].
  destruct (N.ltb_spec d 10); [|discriminate].
  rewrite (IH _ _ H), andb_true_r.
  apply digit_of_inv in D. destruct D as [-> _]. unfold dig_char.
  destruct (N.ltb_spec d 10); [|lia].
  unfold digit_byte. rewrite N_ascii_embedding by lia. lia.
Qed.

Lemma digits_value ds a : forallb digit_byte ds = true -> exists n, value_from false 10 a ds = Some n.
Proof.
  revert a. induction ds as [|c ds IH]; intros a H; [eexists; reflexivity|].
  cbn in H. apply andb_prop in H. destruct H as [Hc H]. cbn.
  apply digit_byte_digit_of in Hc. destruct Hc as (d & -> & Hd & _).
  destruct (N.ltb_spec d 10); [|lia]. apply IH, H.
Qed.
