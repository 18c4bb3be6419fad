(* L_Field.v -- the texts inserted by addI, addU, addS. *)
From Verif Require Import Base M_Stream M_Format S_Num S_Split S_Field L_Num.

Lemma to_i32_small z : (- two31 <= z < two31)%Z -> to_i32 z = z.
Proof.
  unfold to_i32, two31, two32. intros H.
  destruct (Z.ltb_spec (z mod 4294967296) 2147483648) as [L|L].
  - destruct (Z.neg_nonneg_cases z); [|apply Z.mod_small; lia].
    assert (z mod 4294967296 = z + 4294967296)%Z; [|lia].
    symmetry. apply Z.mod_unique with (-1)%Z; lia.
  - destruct (Z.neg_nonneg_cases z).
    + assert (z mod 4294967296 = z + 4294967296)%Z; [|lia].
      symmetry. apply Z.mod_unique with (-1)%Z; lia.
    + rewrite Z.mod_small in L; lia.
Qed.
Lemma to_i32_high z : (two31 <= z < two32)%Z -> (to_i32 z < 0)%Z.
Proof.
  unfold to_i32, two31, two32. intros H. rewrite Z.mod_small by lia.
  destruct (Z.ltb_spec z 2147483648); lia.
Qed.
Lemma to_i32_u64 z : to_i32 (to_u64 z) = to_i32 z.
Proof.
  unfold to_i32, to_u64, two64, two32.
  replace ((z mod 18446744073709551616) mod 4294967296)%Z with (z mod 4294967296)%Z; [reflexivity|].
  rewrite (Z.mod_eq z 18446744073709551616) by lia.
  replace (z - 18446744073709551616 * (z / 18446744073709551616))%Z
    with (z + - (4294967296 * (z / 18446744073709551616)) * 4294967296)%Z by lia.
  rewrite Z_mod_plus_full. reflexivity.
Qed.

Lemma pad_l_spec fill w t : right_justified fill w t (pad_l fill w t).
Proof. exists (fill_count w t). split; [reflexivity|]. unfold fill_count. lia. Qed.
Lemma pad_r_spec fill w t : left_justified fill w t (pad_r fill w t).
Proof. exists (fill_count w t). split; [reflexivity|]. unfold fill_count. lia. Qed.

Lemma pad_l_neg fill w t : (w <= 0)%Z -> pad_l fill w t = t.
Proof. intros H. unfold pad_l, fill_count. replace (Z.to_nat _) with 0 by lia. reflexivity. Qed.

(* ---- addI ---- *)
Lemma addI_plain v w fill : (0 <= w < two31)%Z ->
  exists t, int_numeral_of v t /\ right_justified (fill_char fill) w t (addI_text v w nul fill).
Proof.
  intros Hw. exists (put_int v). split; [apply put_int_spec|].
  unfold addI_text. cbn [is_nul]. change (is_nul nul) with true. cbn iota.
  destruct (Z.eqb_spec w 0) as [->|Hz].
  - exists 0. split; [reflexivity|]. cbn. lia.
  - rewrite to_i32_small by (unfold two31 in *; lia). apply pad_l_spec.
Qed.
Lemma addI_wide v w fill : (two31 <= w < two32)%Z -> addI_text v w nul fill = put_int v.
Proof.
  intros Hw. unfold addI_text. change (is_nul nul) with true. cbn iota.
  destruct (Z.eqb_spec w 0); [reflexivity|]. pose proof (to_i32_high w Hw).
  apply pad_l_neg. lia.
Qed.

(* grouping *)
Lemma join_cons2 sep a b l : join sep (a :: b :: l) = a ++ sep ++ join sep (b :: l).
Proof. reflexivity. Qed.

Lemma addU_group_run sep gc lim vrev : (1 <= gc)%Z -> forall cur gs cc,
  (cc + Z.of_nat (length vrev) <= lim)%Z ->
  (1 <= Z.of_nat (length cur) <= gc)%Z -> (forall h, In h gs -> length h = Z.to_nat gc) ->
  exists g gs', addU_group sep gc lim vrev (Z.of_nat (length cur)) cc (join [sep] (cur :: gs)) = join [sep] (g :: gs') /\
    rev vrev ++ concat (cur :: gs) = concat (g :: gs') /\
    (1 <= Z.of_nat (length g) <= gc)%Z /\ (forall h, In h gs' -> length h = Z.to_nat gc).
Proof.
  intros Hg. induction vrev as [|c r IH]; intros cur gs cc Hl Hc Hgs.
  - exists cur, gs. cbn [addU_group rev app]. auto.
  - cbn [addU_group]. cbn [length] in Hl.
    destruct (Z.eqb_spec (Z.of_nat (length cur)) gc) as [E|E].
    + destruct (Z.ltb_spec cc lim); [|lia]. cbn [andb].
      destruct (IH [c] (cur :: gs) (cc + 1)%Z) as (g & gs' & R & C & L & F).
      * lia.
      * cbn. lia.
      * intros h [<-|Hh]; [lia|auto].
      * exists g, gs'. split; [|split; [|auto]].
        -- rewrite <- R. reflexivity.
        -- rewrite <- C. cbn. rewrite <- app_assoc. reflexivity.
    + cbn [andb].
      destruct (IH (c :: cur) gs (cc + 1)%Z) as (g & gs' & R & C & L & F).
      * lia.
      * cbn [length]. lia.
      * exact Hgs.
      * exists g, gs'. split; [|split; [|auto]].
        -- rewrite <- R. replace (Z.of_nat (length (c :: cur))) with (Z.of_nat (length cur) + 1)%Z by (cbn [length]; lia).
           f_equal. destruct gs; reflexivity.
        -- rewrite <- C. cbn. rewrite <- app_assoc. reflexivity.
Qed.

Lemma addU_group_all sep gc lim t : (1 <= gc)%Z -> t <> [] -> (Z.of_nat (length t) <= lim)%Z ->
  grouped (Z.to_nat gc) sep t (addU_group sep gc lim (rev t) 0 0 []).
Proof.
  intros Hg Ht Hl. destruct (rev t) as [|c r] eqn:E.
  - apply (f_equal (@rev ascii)) in E. rewrite rev_involutive in E. cbn in E. congruence.
  - assert (Et : t = rev r ++ [c]) by (rewrite <- (rev_involutive t), E; reflexivity).
    assert (Lt : length t = S (length r)) by (rewrite Et, app_length, rev_length; cbn; lia).
    cbn [addU_group]. destruct (Z.eqb_spec 0 gc); [lia|]. cbn [andb].
    destruct (addU_group_run sep gc lim r Hg [c] [] (0 + 1)%Z) as (g & gs & R & C & L & F).
    + lia.
    + cbn; lia.
    + intros h [].
    + exists g, gs. split; [|split; [|split; [lia|exact F]]].
      * rewrite Et, <- C. reflexivity.
      * rewrite <- R. reflexivity.
Qed.

(* once cc >= lim no separator is inserted *)
Lemma addU_group_done sep gc lim vrev : forall i cc ns, (lim <= cc)%Z ->
  addU_group sep gc lim vrev i cc ns = rev vrev ++ ns.
Proof.
  induction vrev as [|c r IH]; intros i cc ns H; [reflexivity|].
  cbn [addU_group]. destruct (Z.ltb_spec cc lim); [lia|]. rewrite andb_false_r.
  rewrite IH by lia. cbn. rewrite <- app_assoc. reflexivity.
Qed.

Lemma addU_group_app sep gc lim a : forall b i cc ns,
  (lim <= cc + Z.of_nat (length a))%Z ->
  addU_group sep gc lim (a ++ b) i cc ns = rev b ++ addU_group sep gc lim a i cc ns.
Proof.
  induction a as [|c a IH]; intros b i cc ns H; cbn [app addU_group].
  - rewrite addU_group_done by (cbn in H; lia). reflexivity.
  - cbn [length] in H. destruct ((i =? gc) && (cc <? lim))%Z; apply IH; lia.
Qed.

(* prefix p excluded from grouping *)
Lemma addU_group_prefix sep gc p t : (1 <= gc)%Z -> t <> [] ->
  exists u, addU_group sep gc (Z.of_nat (length t)) (rev (p ++ t)) 0 0 [] = p ++ u /\
    grouped (Z.to_nat gc) sep t u.
Proof.
  intros Hg Ht. rewrite rev_app_distr, addU_group_app by (rewrite rev_length; lia).
  rewrite rev_involutive. eexists. split; [reflexivity|]. apply addU_group_all; auto. lia.
Qed.

Lemma addI_group_addU sep vrev : forall i ns lim cc, (cc + Z.of_nat (length vrev) <= lim)%Z ->
  addI_group sep vrev i ns = addU_group sep 3 lim vrev (Z.of_nat i) cc ns.
Proof.
  induction vrev as [|c r IH]; intros i ns lim cc H; [reflexivity|].
  cbn [addI_group addU_group]. cbn [length] in H.
  destruct (Z.ltb_spec cc lim); [|lia]. rewrite andb_true_r.
  destruct (Nat.eqb_spec i 3) as [->|E].
  - change (Z.of_nat 3 =? 3)%Z with true. cbn iota. apply (IH 1 _ lim). lia.
  - destruct (Z.eqb_spec (Z.of_nat i) 3); [lia|].
    rewrite (IH (S i) (c :: ns) lim (cc + 1)%Z) by lia. f_equal. lia.
Qed.

Lemma addI_group_grouped sep t : t <> [] -> grouped 3 sep t (addI_group sep (rev t) 0 []).
Proof.
  intros Ht. rewrite (addI_group_addU sep (rev t) 0 [] (Z.of_nat (length t)) 0) by (rewrite rev_length; lia).
  apply (addU_group_all sep 3); auto; lia.
Qed.

(* properties of grouped *)
Lemma grouped_unique n sep t s s' : grouped n sep t s -> grouped n sep t s' -> s = s'.
Proof.
  intros (g & gs & -> & -> & L & F) (g' & gs' & E & -> & L' & F').
  assert (K : length (concat gs) = n * length gs).
  { clear -F. induction gs as [|h gs IH]; [cbn; lia|]. cbn. rewrite app_length, (F h) by (left; auto).
    rewrite IH by (intros; apply F; right; auto). lia. }
  assert (K' : length (concat gs') = n * length gs').
  { clear -F'. induction gs' as [|h gs' IH]; [cbn; lia|]. cbn. rewrite app_length, (F' h) by (left; auto).
    rewrite IH by (intros; apply F'; right; auto). lia. }
  assert (EL : length g + n * length gs = length g' + n * length gs').
  { pose proof (f_equal (@length _) E) as EL. cbn in EL. rewrite !app_length in EL. lia. }
  assert (length gs = length gs') by nia.
  assert (Lg : length g = length g') by nia.
  cbn in E.
  assert (A : forall (a b c d : str), length a = length c -> a ++ b = c ++ d -> a = c /\ b = d).
  { clear. induction a as [|x a IH]; intros b [|y c] d Hl He; try discriminate; [auto|].
    cbn in *. injection He as <- He. destruct (IH b c d) as [-> ->]; auto. }
  destruct (A _ _ _ _ Lg E) as [-> E2]. f_equal. f_equal.
  clear -E2 F F' H A. revert gs' F' H E2. induction gs as [|h gs IH]; intros [|h' gs'] F' H E; try discriminate; [reflexivity|].
  cbn in E. destruct (A h (concat gs) h' (concat gs')) as [-> E2]; auto.
  { rewrite F, F' by (left; auto). reflexivity. }
  f_equal. apply IH; auto; intros; [apply F|apply F']; right; auto.
Qed.

Lemma delete_app c a b : delete c (a ++ b) = delete c a ++ delete c b.
Proof. unfold delete. apply filter_app. Qed.
Lemma delete_notin c s : ~ In c s -> delete c s = s.
Proof.
  induction s as [|x s IH]; [reflexivity|]. intros H. cbn.
  destruct (Ascii.eqb_spec x c) as [->|E]; [destruct H; left; auto|]. cbn. f_equal. apply IH.
  intros Hi. apply H. right. exact Hi.
Qed.
Lemma grouped_delete n sep t s : grouped n sep t s -> ~ In sep t -> delete sep s = t.
Proof.
  intros (g & gs & -> & -> & _) H.
  revert g H. induction gs as [|h gs IH]; intros g H.
  - cbn in *. rewrite app_nil_r in *. apply delete_notin, H.
  - rewrite join_cons2, !delete_app, IH.
    + cbn. rewrite Ascii.eqb_refl. cbn. rewrite delete_notin; [reflexivity|].
      intros Hi. apply H. cbn. rewrite in_app_iff. auto.
    + intros Hi. apply H. cbn in *. rewrite in_app_iff. auto.
Qed.

Lemma put_dec_nonempty n : put_dec n <> [].
Proof. apply numeral_spec. lia. Qed.

Lemma grouped_cons_short n sep c t s : grouped n sep t s -> length t mod n <> 0 ->
  grouped n sep (c :: t) (c :: s).
Proof.
  intros (g & gs & -> & -> & L & F) H.
  assert (K : length (concat gs) = n * length gs).
  { clear -F. induction gs as [|h gs IH]; [cbn; lia|]. cbn. rewrite app_length, (F h) by (left; auto).
    rewrite IH by (intros; apply F; right; auto). lia. }
  assert (length g <> n).
  { intros E. apply H. cbn. rewrite app_length, K, E, Nat.mul_comm.
    change (n + length gs * n) with (S (length gs) * n). apply Nat.mod_mul. lia. }
  exists (c :: g), gs. cbn [concat app length]. repeat split; auto; try lia.
  destruct gs; reflexivity.
Qed.
Lemma grouped_cons_full n sep c t s : n <> 0 -> grouped n sep t s -> length t mod n = 0 ->
  grouped n sep (c :: t) (c :: sep :: s).
Proof.
  intros Hn (g & gs & -> & -> & L & F) H.
  assert (K : length (concat gs) = n * length gs).
  { clear -F. induction gs as [|h gs IH]; [cbn; lia|]. cbn. rewrite app_length, (F h) by (left; auto).
    rewrite IH by (intros; apply F; right; auto). lia. }
  assert (length g = n).
  { cbn in H. rewrite app_length, K, Nat.mul_comm, Nat.mod_add in H by lia.
    destruct (Nat.eq_dec (length g) n); auto. rewrite Nat.mod_small in H; lia. }
  exists [c], (g :: gs). repeat split; auto; cbn; try lia. intros h [<-|]; auto.
Qed.

(* body of addI with a separator, by sign *)
Lemma addI_sep_body v sep :
  let body := addI_group sep (rev (put_int v)) 0 [] in
  if (0 <=? v)%Z then exists t, numeral_of false 10 (Z.to_N v) t /\ grouped 3 sep t body
  else exists t u, numeral_of false 10 (Z.to_N (- v)) t /\ grouped 3 sep t u /\
    body = if Nat.eqb (length t mod 3) 0 then "-"%char :: sep :: u else "-"%char :: u.
Proof.
  intros body. unfold body, put_int. destruct (Z.leb_spec 0 v) as [H|H].
  - destruct (Z.ltb_spec v 0); [lia|]. exists (put_dec (Z.to_N v)).
    split; [apply put_dec_spec|]. apply addI_group_grouped, put_dec_nonempty.
  - destruct (Z.ltb_spec v 0); [|lia].
    set (t := put_dec (Z.to_N (- v))).
    exists t, (addI_group sep (rev t) 0 []).
    split; [apply put_dec_spec|].
    assert (G : grouped 3 sep t (addI_group sep (rev t) 0 [])) by (apply addI_group_grouped, put_dec_nonempty).
    split; [exact G|].
    eapply grouped_unique; [apply addI_group_grouped; discriminate|].
    destruct (Nat.eqb_spec (length t mod 3) 0) as [E|E].
    + apply grouped_cons_full; auto.
    + apply grouped_cons_short; auto.
Qed.

Lemma addI_sep v w sep fill : sep <> nul -> (0 <= w < two31)%Z ->
  right_justified (fill_char fill) w (addI_group sep (rev (put_int v)) 0 []) (addI_text v w sep fill).
Proof.
  intros Hs Hw. unfold addI_text.
  assert (is_nul sep = false) as -> by (unfold is_nul; destruct (Ascii.eqb_spec sep nul); congruence).
  destruct (Z.eqb_spec w 0) as [->|Hz].
  - exists 0. split; [reflexivity|]. cbn. lia.
  - rewrite to_i32_small by (unfold two31 in *; lia). apply pad_l_spec.
Qed.

(* ---- addU ---- *)
Lemma value_zeros up b k t : (2 <= b)%N -> t <> [] -> value up b (repeat "0"%char k ++ t) = value up b t.
Proof.
  intros Hb Ht.
  assert (E : value_from up b 0 (repeat "0"%char k ++ t) = value_from up b 0 t).
  { induction k as [|k IH]; [reflexivity|]. cbn.
    replace (digit_of up "0"%char) with (Some 0%N) by (destruct up; reflexivity).
    destruct (N.ltb_spec 0 b); [|lia]. exact IH. }
  destruct t as [|x t]; [congruence|].
  unfold value at 2. rewrite <- E. unfold value. destruct (repeat "0"%char k ++ x :: t) eqn:R; [|reflexivity].
  destruct k; discriminate R.
Qed.

Lemma numeral_loop_len up b fuel : forall n acc, length (numeral_loop fuel up b n acc) <= fuel + length acc.
Proof.
  induction fuel as [|f IH]; intros n acc; cbn; [lia|].
  destruct (n / b =? 0)%N; [cbn; lia|]. rewrite IH. cbn. lia.
Qed.
Lemma size_nat_le n k : (n < 2 ^ N.of_nat k)%N -> N.size_nat n <= k.
Proof.
  intros H.
  assert (E : N.of_nat (N.size_nat n) = N.size n).
  { destruct n as [|p]; [reflexivity|]. cbn [N.size_nat N.size]. clear H.
    induction p; cbn [Pos.size_nat Pos.size]; rewrite ?Nat2N.inj_succ, ?IHp; try lia; reflexivity. }
  destruct (N.eq_dec n 0) as [->|Hz]; [cbn; lia|].
  rewrite N.size_log2 in E by exact Hz. apply N.log2_lt_pow2 in H; lia.
Qed.
Lemma numeral_len up b n : (n < 18446744073709551616)%N -> length (numeral up b n) <= 65.
Proof.
  intros H. unfold numeral. rewrite numeral_loop_len.
  pose proof (size_nat_le n 64 H). cbn [length]. lia.
Qed.

Lemma hex_text v w fm up : radix_of fm = RHex up -> (0 <= w < two31)%Z ->
  exists t s, numeral_of up 16 v t /\ right_justified "0"%char w t s /\ value up 16 s = Some v /\
  addU_text v fm w nul 0 = lit "0x" ++ s.
Proof.
  intros R Hw. unfold addU_text, addU_valstr. change (is_nul nul) with true. rewrite R. unfold toHex.
  destruct (numeral_spec up 16 v) as [N1 N2]; [lia|].
  exists (put_hex up v), (pad_l "0"%char (to_i32 w) (put_hex up v)).
  split; [exact N2|]. split; [rewrite to_i32_small by (unfold two31 in *; lia); apply pad_l_spec|].
  split; [|reflexivity]. unfold pad_l. rewrite value_zeros by (auto; lia). apply N2.
Qed.

Lemma put_oct_value v : value false 8 (put_oct_base v) = Some v /\ put_oct_base v <> [].
Proof.
  unfold put_oct_base. destruct (N.eqb_spec v 0) as [->|E]; [split; [reflexivity|discriminate]|].
  split; [|discriminate]. destruct (numeral_spec false 8 v) as [N1 [N2 _]]; [lia|].
  rewrite <- N2. apply (value_zeros false 8 1); [lia|exact N1].
Qed.

Definition oct_numeral (v : N) (t : str) : Prop :=
  (v = 0%N /\ t = lit "0") \/ (v <> 0%N /\ exists u, t = "0"%char :: u /\ numeral_of false 8 v u).

Lemma put_oct_spec v : (v = 0%N /\ put_oct_base v = lit "0") \/
  (v <> 0%N /\ exists u, put_oct_base v = "0"%char :: u /\ numeral_of false 8 v u).
Proof.
  unfold put_oct_base. destruct (N.eqb_spec v 0) as [->|E]; [left; split; reflexivity|].
  right. split; [exact E|]. eexists. split; [reflexivity|]. apply numeral_spec. lia.
Qed.

Lemma oct_text v w fm : radix_of fm = ROct -> (0 <= w < two31)%Z ->
  exists t s, ((v = 0%N /\ t = lit "0") \/ (v <> 0%N /\ exists u, t = "0"%char :: u /\ numeral_of false 8 v u)) /\
    right_justified "0"%char w t s /\ value false 8 s = Some v /\ addU_text v fm w nul 0 = s.
Proof.
  intros R Hw. unfold addU_text, addU_valstr. change (is_nul nul) with true. rewrite R. unfold toOct.
  destruct (put_oct_value v) as [V N1].
  exists (put_oct_base v), (pad_l "0"%char (to_i32 w) (put_oct_base v)).
  split; [apply put_oct_spec|].
  split; [rewrite to_i32_small by (unfold two31 in *; lia); apply pad_l_spec|].
  split; [|reflexivity]. unfold pad_l. rewrite value_zeros by (auto; lia). exact V.
Qed.

Lemma dec_text v w fm : radix_of fm = RDec -> (0 <= w < two31)%Z ->
  exists t, numeral_of false 10 v t /\ right_justified " "%char w t (addU_text v fm w nul 0).
Proof.
  intros R Hw. unfold addU_text, addU_valstr. change (is_nul nul) with true. rewrite R.
  exists (put_dec v). split; [apply put_dec_spec|].
  destruct (Z.eqb_spec w 0) as [->|Hz].
  - exists 0. split; [reflexivity|]. cbn. lia.
  - rewrite to_i32_small by (unfold two31 in *; lia). apply pad_l_spec.
Qed.

Lemma addU_nosep v fm w gc gc' : addU_text v fm w nul gc = addU_text v fm w nul gc'.
Proof. reflexivity. Qed.

(* length of the unseparated text stays below 2^31 *)
Lemma valstr_len v fm w : (v < 18446744073709551616)%N -> (0 <= w <= 2147483645)%Z ->
  (Z.of_nat (length (addU_valstr v fm w)) < two31)%Z.
Proof.
  intros Hv Hw. unfold addU_valstr, toHex, toOct, two31.
  assert (P : forall c t, length t <= 66 -> (Z.of_nat (length (pad_l c w t)) <= Z.max w 66)%Z).
  { intros c t Ht. unfold pad_l, fill_count. rewrite app_length, repeat_length. lia. }
  rewrite to_i32_small by (unfold two31; lia).
  destruct (radix_of fm) as [up| |].
  - rewrite app_length. cbn [length lit String.list_ascii_of_string].
    specialize (P "0"%char (put_hex up v)). unfold put_hex in *.
    pose proof (numeral_len up 16 v Hv). lia.
  - specialize (P "0"%char (put_oct_base v)). unfold put_oct_base in *. destruct (v =? 0)%N.
    + change (length (put_dec 0)) with 1 in P. lia.
    + pose proof (numeral_len false 8 v Hv). cbn [length] in P. lia.
  - specialize (P " "%char (put_dec v)). pose proof (numeral_len false 10 v Hv). unfold put_dec in *.
    destruct (Z.eqb_spec w 0); lia.
Qed.

Lemma addU_sep_hex v w fm up sep gc : radix_of fm = RHex up -> sep <> nul -> (1 <= gc)%Z ->
  (v < 18446744073709551616)%N -> (0 <= w <= 2147483645)%Z ->
  exists t u, addU_text v fm w nul gc = lit "0x" ++ t /\ t <> [] /\
    grouped (Z.to_nat gc) sep t u /\ addU_text v fm w sep gc = lit "0x" ++ u.
Proof.
  intros R Hs Hg Hv Hw. pose proof (valstr_len v fm w Hv Hw) as L.
  unfold addU_text. change (is_nul nul) with true. cbn iota.
  assert (is_nul sep = false) as -> by (unfold is_nul; destruct (Ascii.eqb_spec sep nul); congruence).
  rewrite to_i32_small by (unfold two31 in *; lia).
  unfold addU_valstr in *. rewrite R in *. unfold toHex in *.
  set (t := pad_l "0"%char (to_i32 w) (put_hex up v)) in *.
  assert (Ht : t <> []).
  { unfold t, pad_l. destruct (numeral_spec up 16 v) as [N1 _]; [lia|]. intros E.
    apply app_eq_nil in E. unfold put_hex in E. tauto. }
  rewrite app_length.
  replace (Z.of_nat (length (lit "0x") + length t) - 2)%Z with (Z.of_nat (length t)) by (cbn [length lit String.list_ascii_of_string]; lia).
  destruct (addU_group_prefix sep gc (lit "0x") t Hg Ht) as (u & E & G).
  exists t, u. auto.
Qed.

Lemma pad_oct_head v w : (0 <= w < two31)%Z ->
  exists t, pad_l "0"%char (to_i32 w) (put_oct_base v) = "0"%char :: t.
Proof.
  intros Hw. unfold pad_l. destruct (fill_count _ _); [|eexists; reflexivity].
  destruct (put_oct_spec v) as [[-> ->]|[_ (u & -> & _)]]; eexists; reflexivity.
Qed.

Lemma addU_sep_oct v w fm sep gc : radix_of fm = ROct -> sep <> nul -> (1 <= gc)%Z ->
  (v < 18446744073709551616)%N -> (0 <= w <= 2147483645)%Z ->
  exists t u, addU_text v fm w nul gc = "0"%char :: t /\
    ((t = [] /\ u = []) \/ grouped (Z.to_nat gc) sep t u) /\ addU_text v fm w sep gc = "0"%char :: u.
Proof.
  intros R Hs Hg Hv Hw. pose proof (valstr_len v fm w Hv Hw) as L.
  unfold addU_text. change (is_nul nul) with true. cbn iota.
  assert (is_nul sep = false) as -> by (unfold is_nul; destruct (Ascii.eqb_spec sep nul); congruence).
  rewrite to_i32_small by (unfold two31 in *; lia).
  unfold addU_valstr in *. rewrite R in *. unfold toOct in *.
  destruct (pad_oct_head v w) as [t Et]; [unfold two31; lia|]. rewrite Et. exists t.
  destruct t as [|x t].
  - exists []. split; [reflexivity|]. split; [auto|].
    cbn [length rev app addU_group]. change (Z.of_nat 1 - 1)%Z with 0%Z.
    rewrite andb_false_r. reflexivity.
  - replace (Z.of_nat (length ("0"%char :: x :: t)) - 1)%Z with (Z.of_nat (length (x :: t))) by (cbn [length]; lia).
    destruct (addU_group_prefix sep gc ["0"%char] (x :: t) Hg) as (u & E & G); [discriminate|].
    exists u. auto.
Qed.

Lemma addU_sep_dec v w fm sep gc : radix_of fm = RDec -> sep <> nul -> (1 <= gc)%Z ->
  (v < 18446744073709551616)%N -> (0 <= w <= 2147483645)%Z ->
  grouped (Z.to_nat gc) sep (addU_text v fm w nul gc) (addU_text v fm w sep gc).
Proof.
  intros R Hs Hg Hv Hw. pose proof (valstr_len v fm w Hv Hw) as L.
  unfold addU_text. change (is_nul nul) with true. cbn iota.
  assert (is_nul sep = false) as -> by (unfold is_nul; destruct (Ascii.eqb_spec sep nul); congruence).
  rewrite to_i32_small by (unfold two31 in *; lia). rewrite R.
  apply addU_group_all; auto; [|lia].
  unfold addU_valstr. rewrite R. pose proof (put_dec_nonempty v).
  destruct (w =? 0)%Z; auto. unfold pad_l. intros E. apply app_eq_nil in E. tauto.
Qed.

Lemma addU_dec_narrow v w fm : radix_of fm = RDec -> (0 <= w <= Z.of_nat (length (put_dec v)))%Z ->
  (w < two31)%Z -> addU_text v fm w nul 0 = put_dec v.
Proof.
  intros R Hw Hw2. unfold addU_text, addU_valstr. change (is_nul nul) with true. cbn iota. rewrite R.
  destruct (w =? 0)%Z; [reflexivity|]. rewrite to_i32_small by (unfold two31 in *; lia).
  unfold pad_l, fill_count. replace (Z.to_nat _) with 0 by lia. reflexivity.
Qed.

(* group_count 0 *)
Lemma addU_group_zero sep lim vrev : forall i cc ns, (1 <= i)%Z ->
  addU_group sep 0 lim vrev i cc ns = rev vrev ++ ns.
Proof.
  induction vrev as [|c r IH]; intros i cc ns H; [reflexivity|].
  cbn [addU_group]. destruct (Z.eqb_spec i 0); [lia|]. cbn [andb]. rewrite IH by lia.
  cbn. rewrite <- app_assoc. reflexivity.
Qed.
Lemma addU_sep_zero v w fm sep : sep <> nul ->
  (v < 18446744073709551616)%N -> (0 <= w <= 2147483645)%Z ->
  1 < length (addU_text v fm w nul 0) ->
  addU_text v fm w sep 0 = addU_text v fm w nul 0 ++ [sep].
Proof.
  intros Hs Hv Hw. pose proof (valstr_len v fm w Hv Hw) as L.
  unfold addU_text. change (is_nul nul) with true. cbn iota.
  assert (is_nul sep = false) as -> by (unfold is_nul; destruct (Ascii.eqb_spec sep nul); congruence).
  rewrite to_i32_small by (unfold two31 in *; lia). intros L1.
  set (t := addU_valstr v fm w) in *.
  assert (Lim : (0 < match radix_of fm with RHex _ => Z.of_nat (length t) - 2 | ROct => Z.of_nat (length t) - 1 | RDec => Z.of_nat (length t) end)%Z).
  { unfold t in *. unfold addU_valstr in *. destruct (radix_of fm) as [up| |]; try lia.
    unfold toHex in *. rewrite app_length in *. cbn [length lit String.list_ascii_of_string] in *.
    unfold pad_l. rewrite app_length. destruct (numeral_spec up 16 v) as [N1 _]; [lia|].
    unfold put_hex. destruct (numeral up 16 v); [congruence|]. cbn [length]. lia. }
  destruct (rev t) as [|c r] eqn:E.
  { apply (f_equal (@length _)) in E. rewrite rev_length in E. cbn in E. lia. }
  assert (Et : t = rev r ++ [c]) by (rewrite <- (rev_involutive t), E; reflexivity).
  cbn [addU_group]. destruct (Z.ltb_spec 0 (match radix_of fm with RHex _ => Z.of_nat (length t) - 2 | ROct => Z.of_nat (length t) - 1 | RDec => Z.of_nat (length t) end)); [|lia].
  cbn [andb Z.eqb]. rewrite addU_group_zero by lia. rewrite Et, <- app_assoc. reflexivity.
Qed.

(* ---- addS ---- *)
Lemma addS_spec v w : (- two31 < w < two31)%Z -> (Z.of_nat (length v) < two31)%Z ->
  exists t, addS_text v w = Ok t /\
    (if (w <? 0)%Z then left_justified " "%char (- w) v t else right_justified " "%char w v t).
Proof.
  intros Hw Hl. unfold addS_text. rewrite !to_i32_u64.
  destruct (Z.ltb_spec w 0) as [N|N].
  - destruct (Z.eqb_spec w (- two31)); [lia|].
    eexists. split; [reflexivity|]. eexists. split; [reflexivity|].
    rewrite to_i32_small by (unfold two31 in *; lia). lia.
  - destruct (Z.ltb_spec 0 w) as [P|P].
    + eexists. split; [reflexivity|]. eexists. split; [reflexivity|].
      rewrite to_i32_small by (unfold two31 in *; lia). lia.
    + eexists. split; [reflexivity|]. exists 0. split; [reflexivity|]. cbn. lia.
Qed.

Lemma numeral_digits n t : numeral_of false 10 n t -> forallb digit_byte t = true.
Proof. intros [V _]. destruct t as [|c t]; [discriminate V|]. eapply value_digits; exact V. Qed.
