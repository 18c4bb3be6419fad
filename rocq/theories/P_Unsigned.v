(* P_Unsigned.v -- C125: what addU prints, given to an unsigned option *)
From Coq Require Import Lia.
From Verif Require Import Base S_Num S_Field S_Format S_Options M_Stream M_Format M_StreamIn M_Options
  L_Num L_Format L_StreamIn C_Format C_Options C_OptionsP P_Format P_Options.

(* a formatter with the one field %0 shows just the value *)
Lemma one_field im f t : newFormat im (lit "%0") = Ok f -> fmt_str (insertField f t) false = Ok t.
Proof.
  intros NF. assert (X : fmt_str (fold_left insertField [t] f) false = Ok (t ++ [])).
  { apply (c06 im (lit "%0") f [t] [IField 0] (t ++ [])).
    - exact NF.
    - apply (T_field (lit "0") 0%N []); [reflexivity|reflexivity|apply T_nil].
    - intros n [[= <-]|[]]. reflexivity.
    - apply Sh_filled; [reflexivity|apply Sh_nil]. }
  rewrite app_nil_r in X. exact X.
Qed.
Lemma no_option c t : c <> "-"%char -> ~ looks_like_option (c :: t).
Proof. intros N [(x&r&[= E _]&_)|(x&r&[= E _])]; congruence. Qed.
Lemma value_head up b s n : value up b s = Some n -> exists c t d, s = c :: t /\ digit_of up c = Some d /\ (d < b)%N.
Proof.
  destruct s as [|c t]; [discriminate|]. cbn. destruct (digit_of up c) as [d|] eqn:E; [|discriminate]. destruct (N.ltb_spec d b); [|discriminate]. eauto 6.
Qed.
Lemma one_value s tok o a test t text v : settled s -> names s tok o -> o_kind o = KScalar t a test -> ty_read t text = RdOk v -> test v = true ->
  ~ looks_like_option text -> exists s', parse_list s [tok; text] = Ok (true, s') /\ mem s' a = v.
Proof.
  intros H N K RD T L.
  destruct (C33_understood_exactly s [tok; text] [Given tok o text v] H) as (s'&P&A&_).
  { eapply R_given; [exact N| |contradiction|apply R_end]. unfold accepts. rewrite K. auto. }
  exists s'. split; [exact P|]. rewrite (af_mem _ _ _ A). cbn [flat_map stored app]. rewrite K, Nat.eqb_refl. reflexivity.
Qed.
(* the digits of an octal numeral read as a decimal one *)
Lemma vf_more up s : forall a a' v, (a <= a')%N -> value_from up 8 a s = Some v ->
  exists n, value_from up 10 a' s = Some n /\ (v <= n)%N /\ ((a < a')%N -> (v < n)%N) /\ ((0 < a)%N -> s <> [] -> (v < n)%N) /\ (a <= v)%N /\ ((0 < a)%N -> s <> [] -> (8 <= v)%N).
Proof.
  induction s as [|c s IH]; intros a a' v L E; cbn in *.
  - injection E as <-. exists a'. split; [reflexivity|]. split; [exact L|]. split; [auto|]. split; [congruence|]. split; [lia|congruence].
  - destruct (digit_of up c) as [d|]; [|discriminate]. destruct (N.ltb_spec d 8); [|discriminate]. destruct (N.ltb_spec d 10); [|lia].
    destruct (IH (a * 8 + d)%N (a' * 10 + d)%N v ltac:(lia) E) as (n&A&B&C&D&F&G). exists n. split; [exact A|]. split; [exact B|].
    split; [intros; apply C; lia|]. split; [intros; apply C; lia|]. split; [lia|]. intros. lia.
Qed.
Lemma oct_as_dec up s : forall v, value_from up 8 0 s = Some v -> exists n, value_from up 10 0 s = Some n /\ (n = v <-> (v < 8)%N).
Proof.
  induction s as [|c s IH]; intros v E; cbn in *.
  - injection E as <-. exists 0%N. split; [reflexivity|]. split; [lia|auto].
  - destruct (digit_of up c) as [d|]; [|discriminate]. destruct (N.ltb_spec d 8); [|discriminate]. destruct (N.ltb_spec d 10); [|lia].
    destruct (N.eq_dec d 0) as [->|Nd]; [exact (IH v E)|].
    destruct (vf_more up s d d v ltac:(lia) E) as (n&A&B&_&D&_&G). exists n. split; [exact A|].
    destruct s as [|x s]; [cbn in *; split; [|congruence]; intros; injection E as E; lia|].
    specialize (D ltac:(lia) ltac:(discriminate)). specialize (G ltac:(lia) ltac:(discriminate)). lia.
Qed.

Lemma padded k t v : value false 10 t = Some v -> leading_int (repeat " "%char k ++ t) false v /\ ~ looks_like_option (repeat " "%char k ++ t).
Proof.
  intros V. split.
  - exists (repeat " "%char k), [], t, []. rewrite app_nil_r. split; [reflexivity|]. split; [apply Forall_forall; intros x J; apply repeat_spec in J; subst; reflexivity|]. split; [left; reflexivity|]. split; [exact V|exact I].
  - destruct k; [|apply no_option; discriminate]. destruct (value_head _ _ _ _ V) as (c&r&d&->&D&_). apply no_option. intros ->. discriminate D.
Qed.

(* decimal numbers come back, in unsigned long and, if they fit, in unsigned int options *)
Theorem C125_decimal_partial : forall im f text v fm w gc s tok o a test, (Z.of_N v < 2 ^ 64)%Z -> (0 <= w < 2 ^ 31)%Z -> ~ In fm (lit "xXhHoO") ->
  newFormat im (lit "%0") = Ok f -> fmt_str (addU f v fm w "000" gc) false = Ok text ->
  settled s -> names s tok o -> (o_kind o = KScalar ty_ulong a test \/ (o_kind o = KScalar ty_uint a test /\ (Z.of_N v < 2 ^ 32)%Z)) ->
  test (VInt (Z.of_N v)) = true ->
  exists s', parse_list s [tok; text] = Ok (true, s') /\ mem s' a = VInt (Z.of_N v).
Proof.
  intros im f text v fm w gc s tok o a test Hv Hw Nf NF FS H N K T.
  destruct (C17_addU_dec f v fm w gc Hw Nf) as (t&x&E&(V&_)&k&->&_). rewrite E, (one_field im) in FS by exact NF. injection FS as <-.
  destruct (padded k t v V) as [L NL].
  destruct K as [K|[K Hv2]]; (eapply one_value; [exact H|exact N|exact K| |exact T|exact NL]).
  - apply C45_ulong_partial. exists false, v. split; [exact L|]. split; [exact Hv|]. cbn. rewrite Z.mod_small; lia.
  - apply C45_unsigned_partial. exists false, v. split; [exact L|]. split; [exact Hv2|]. cbn. rewrite Z.mod_small; lia.
Qed.
Print Assumptions C125_decimal_partial.
(* a hexadecimal number never does: the option takes 0 and parse returns true,
   whatever number was printed *)
Theorem C125_hexadecimal_refuted : forall im f text v fm w gc s tok o a test t, (0 <= w < 2 ^ 31)%Z -> In fm (lit "xXhH") ->
  newFormat im (lit "%0") = Ok f -> fmt_str (addU f v fm w "000" gc) false = Ok text ->
  settled s -> names s tok o -> o_kind o = KScalar t a test -> In t [ty_uint; ty_ulong; ty_int; ty_long] -> test (VInt 0) = true ->
  exists s', parse_list s [tok; text] = Ok (true, s') /\ mem s' a = VInt 0.
Proof.
  intros im f text v fm w gc s tok o a test t Hw If NF FS H N K It T.
  assert (X : exists up : bool, if up then fm = "X"%char \/ fm = "H"%char else fm = "x"%char \/ fm = "h"%char).
  { cbn in If. destruct If as [<-|[<-|[<-|[<-|[]]]]]; [exists false|exists true|exists false|exists true]; auto. }
  destruct X as (up&X). destruct (C15_addU_hex f v fm up w gc Hw X) as (u&x&E&_). rewrite E, (one_field im) in FS by exact NF. injection FS as <-.
  assert (L : leading_int (lit "0x" ++ x) false 0).
  { exists [], [], (lit "0"), ("x"%char :: x). repeat split; auto. constructor. }
  eapply one_value; [exact H|exact N|exact K| |exact T|apply no_option; discriminate].
  destruct It as [<-|[<-|[<-|[<-|[]]]]].
  - apply C45_unsigned_partial. exists false, 0%N. repeat split; auto.
  - apply C45_ulong_partial. exists false, 0%N. repeat split; auto.
  - apply C45_int_partial. exists false, 0%N. repeat split; auto; cbn; lia.
  - apply C45_long_partial. exists false, 0%N. repeat split; auto; cbn; lia.
Qed.
Print Assumptions C125_hexadecimal_refuted.
(* an octal number is read as a decimal one: it comes back only if it has one digit *)
Theorem C125_octal_refuted : forall im f text v fm w gc, (Z.of_N v < 2 ^ 64)%Z -> (0 <= w < 2 ^ 31)%Z -> In fm (lit "oO") ->
  newFormat im (lit "%0") = Ok f -> fmt_str (addU f v fm w "000" gc) false = Ok text ->
  (ty_read ty_ulong text = RdOk (VInt (Z.of_N v)) <-> (v < 8)%N) /\
  exists n, value false 10 text = Some n /\ forall r, ty_read ty_ulong text = RdOk (VInt r) <-> (r = Z.of_N n /\ (r < 2 ^ 64)%Z).
Proof.
  intros im f text v fm w gc Hv Hw If NF FS.
  destruct (C16_addU_oct f v fm w gc Hw) as (t&x&E&_&_&V); [cbn in If; intuition congruence|].
  rewrite E, (one_field im) in FS by exact NF. injection FS as <-.
  destruct (value_head _ _ _ _ V) as (c&r&d&->&_). destruct (oct_as_dec _ _ _ V) as (n&Vn&Q).
  assert (L : leading_int (c :: r) false n) by (exists [], [], (c :: r), []; rewrite app_nil_r; repeat split; auto; constructor).
  assert (U : forall z, ty_read ty_ulong (c :: r) = RdOk (VInt z) <-> (z = Z.of_N n /\ (z < 2 ^ 64)%Z)).
  { intros z. split.
    - intros R. apply C45_ulong_partial in R as (neg&m&Lm&Bm&->). destruct (leading_int_fun _ _ _ _ _ L Lm) as [<- <-]. cbn. rewrite Z.mod_small; lia.
    - intros [-> B]. apply C45_ulong_partial. exists false, n. split; [exact L|]. split; [exact B|]. cbn. rewrite Z.mod_small; lia. }
  split; [rewrite U; split; [intros [X _]; apply Q; lia|intros X; apply Q in X; subst; auto]|]. exists n. split; [exact Vn|exact U].
Qed.
Print Assumptions C125_octal_refuted.
Definition o_mask := mkOpt 0 (lit "mask") "m" (lit "a mask") (lit "bad") false true (KScalar ty_ulong 0 (fun _ => true)).
Definition r_mask := mkReg (lit "mask") "m" (fun s => add_def s ty_ulong 0 (lit "mask") "m" (VInt 7) (lit "a mask") (fun _ => true) (lit "bad")).
Definition with_mask : st := rg_add r_mask (newOptions false (fun _ => VInt 99) (fun _ => [])).
Example C125_nonvacuous : settled with_mask /\ names with_mask (lit "--mask") o_mask /\ o_kind o_mask = KScalar ty_ulong 0 (fun _ => true) /\
  exists f, newFormat Glibc (lit "%0") = Ok f /\ fmt_str (addU f 48879 "d" 8 "000" 4) false = Ok (lit "   48879") /\
    fmt_str (addU f 48879 "x" 8 "000" 4) false = Ok (lit "0x0000beef") /\ fmt_str (addU f 95 "o" 0 "000" 4) false = Ok (lit "0137") /\
    ty_read ty_ulong (lit "0137") = RdOk (VInt 137).
Proof.
  split; [unfold with_mask; apply ST_reg; [apply ST_new|constructor]|].
  split; [apply (N_long with_mask (lit "mask")); [discriminate|discriminate|reflexivity]|]. split; [reflexivity|].
  eexists. split; [vm_compute; reflexivity|]. vm_compute. repeat split.
Qed.
