(* L_StreamIn.v -- integer extraction computes the leading numeral. *)
From Verif Require Import Base M_StreamIn M_Stream S_Num L_Num M_Options S_Options.

Fixpoint span_digits (s : str) : str * str :=
  match s with
  | [] => ([], [])
  | c :: r => if digit_byte c then let '(a, b) := span_digits r in (c :: a, b) else ([], s)
  end.
Lemma span_digits_spec s : let '(a, b) := span_digits s in
  s = a ++ b /\ forallb digit_byte a = true /\ match b with c :: _ => digit_byte c = false | [] => True end.
Proof.
  induction s as [|c r IH]; cbn; [auto|]. destruct (digit_byte c) eqn:D.
  - destruct (span_digits r) as [a b]. destruct IH as (-> & H & K). cbn. rewrite D, H. auto.
  - auto.
Qed.
Lemma span_digits_app ds rest : forallb digit_byte ds = true ->
  match rest with c :: _ => digit_byte c = false | [] => True end -> span_digits (ds ++ rest) = (ds, rest).
Proof.
  induction ds as [|c ds IH]; cbn.
  - intros _. destruct rest as [|c r]; [reflexivity|]. cbn. intros ->. reflexivity.
  - intros H K. apply andb_true_iff in H as [-> H]. rewrite IH by assumption. reflexivity.
Qed.

Lemma value_from_le ds : forall a n, value_from false 10 a ds = Some n -> (a <= n)%N.
Proof.
  induction ds as [|c ds IH]; cbn; intros a n; [intros [= ->]; lia|].
  destruct (digit_of false c) as [d|]; [|discriminate]. destruct (d <? 10)%N; [|discriminate].
  intros H. apply IH in H. lia.
Qed.
Lemma value_from_step c ds a : digit_byte c = true ->
  value_from false 10 a (c :: ds) = value_from false 10 (a * 10 + digit_val c) ds /\ (digit_val c < 10)%N.
Proof.
  intros H. apply digit_byte_digit_of in H as (d & E & L & ->). cbn [value_from]. rewrite E.
  destruct (N.ltb_spec (digit_val c) 10); [auto|lia].
Qed.

Lemma dl_ovf max s : forall r got, exists r' g', digits_loop max s r true got = (r', true, g') /\ (got = true -> g' = true).
Proof.
  induction s as [|c s IH]; intros r got; cbn; [eauto|].
  destruct (digit_byte c); [|eauto]. destruct (max / 10 <? r)%N; [apply IH|].
  destruct (IH (r * 10 + digit_val c)%N true) as (r' & g' & E & H). exists r', g'. auto.
Qed.

Definition nonempty_b (s : str) : bool := match s with [] => false | _ => true end.

Lemma dl_spec max rest : (9 <= max)%N -> match rest with c :: _ => digit_byte c = false | [] => True end ->
  forall ds r got n, forallb digit_byte ds = true -> (r <= max)%N -> (r = 0%N \/ got = true) ->
  value_from false 10 r ds = Some n ->
  if (n <=? max)%N then digits_loop max (ds ++ rest) r false got = (n, false, got || nonempty_b ds)
  else exists r', digits_loop max (ds ++ rest) r false got = (r', true, true).
Proof.
  intros M9 HR. induction ds as [|c ds IH]; intros r got n HD HM HG HV.
  - cbn in HV. injection HV as <-. destruct (N.leb_spec r max); [|lia]. cbn [app].
    destruct rest as [|c rest]; cbn; [|rewrite HR]; rewrite orb_false_r; reflexivity.
  - cbn [forallb] in HD. apply andb_true_iff in HD as [Hc HD].
    destruct (value_from_step c ds r Hc) as [E L]. rewrite E in HV.
    cbn [app digits_loop]. rewrite Hc. cbn [nonempty_b]. rewrite orb_true_r.
    pose proof (value_from_le _ _ _ HV) as LE.
    pose proof (N.div_mod max 10 ltac:(lia)) as DM. pose proof (N.mod_lt max 10 ltac:(lia)) as ML.
    destruct (N.ltb_spec (max / 10) r) as [Q|Q].
    + destruct (N.leb_spec n max); [nia|].
      assert (G : got = true) by (destruct HG; [lia|assumption]). subst got.
      destruct (dl_ovf max (ds ++ rest) r true) as (r' & g' & X & Y). exists r'. rewrite X, Y; reflexivity.
    + cbn [orb]. destruct (N.ltb_spec (max - digit_val c) (r * 10)) as [O|O].
      * destruct (N.leb_spec n max); [lia|].
        destruct (dl_ovf max (ds ++ rest) (r * 10 + digit_val c)%N true) as (r' & g' & X & Y).
        exists r'. rewrite X, Y; reflexivity.
      * specialize (IH (r * 10 + digit_val c)%N true n HD ltac:(lia) ltac:(auto) HV).
        destruct (n <=? max)%N; exact IH.
Qed.

Lemma skip_zeros_spec s : forall f, exists k,
  let '(s2, f') := skip_zeros s f in
  s = repeat "0"%char k ++ s2 /\ hd_error s2 <> Some "0"%char /\ f' = f || negb (k =? 0).
Proof.
  induction s as [|c s IH]; intros f; cbn.
  - exists 0. cbn. rewrite orb_false_r. repeat split. discriminate.
  - destruct (Ascii.eqb_spec c "0"%char) as [->|N].
    + destruct (IH true) as (k & H). exists (S k). destruct (skip_zeros s true) as [s2 f'].
      destruct H as (-> & H & ->). cbn. rewrite orb_true_r. auto.
    + exists 0. cbn. rewrite orb_false_r. repeat split. congruence.
Qed.
Lemma value_zeros k ds : value_from false 10 0 (repeat "0"%char k ++ ds) = value_from false 10 0 ds.
Proof. induction k as [|k IH]; [reflexivity|]. cbn [repeat app]. cbn. exact IH. Qed.

(* the sign *)
Definition take_sign (s : str) : bool * str :=
  match s with
  | [] => (false, [])
  | c :: r => if Ascii.eqb c "-"%char then (true, r)
              else if Ascii.eqb c "+"%char then (false, r) else (false, s)
  end.

Lemma extract_int_spec lo hi t : (9 <= hi)%Z -> (lo = 0 \/ lo <= -9)%Z ->
  let '(neg, s1) := take_sign t in
  let '(ds, _) := span_digits s1 in
  extract_int lo hi t =
  match value false 10 ds with
  | None => (0%Z, false)
  | Some n =>
    let max := if neg && (lo <? 0)%Z then Z.to_N (- lo) else Z.to_N hi in
    if (n <=? max)%N
    then ((if neg then if (lo <? 0)%Z then - Z.of_N n else (- Z.of_N n) mod (hi + 1) else Z.of_N n)%Z, true)
    else ((if neg && (lo <? 0)%Z then lo else hi), false)
  end.
Proof.
  intros Hhi Hlo. unfold extract_int. fold (take_sign t). destruct (take_sign t) as [neg s1].
  pose proof (span_digits_spec s1) as SD. destruct (span_digits s1) as [ds rest] eqn:ES. destruct SD as (E1 & HD & HR).
  destruct (skip_zeros_spec s1 false) as (k & SZ). destruct (skip_zeros s1 false) as [s2 fz].
  destruct SZ as (E2 & H2 & ->). cbn [orb].
  cbv zeta. set (max := if neg && (lo <? 0)%Z then Z.to_N (- lo) else Z.to_N hi).
  assert (M9 : (9 <= max)%N) by (unfold max; destruct neg; cbn [andb]; [destruct (Z.ltb_spec lo 0)|]; lia).
  (* the digits after the zeros *)
  assert (D2 : exists ds2, ds = repeat "0"%char k ++ ds2 /\ s2 = ds2 ++ rest).
  { rewrite E1 in E2. clear -E2 HR HD. revert ds E2 HD. induction k as [|k IH]; intros ds E2 HD.
    - exists ds. auto.
    - cbn in E2. destruct ds as [|c ds].
      + cbn in E2. subst rest. cbn in HR. discriminate.
      + cbn in E2. injection E2 as -> E2. cbn in HD. destruct (IH ds E2 HD) as (ds2 & -> & ->). exists ds2. auto. }
  destruct D2 as (ds2 & -> & ->).
  assert (HD2 : forallb digit_byte ds2 = true).
  { rewrite forallb_app in HD. apply andb_true_iff in HD. apply HD. }
  destruct (digits_value ds2 0%N HD2) as (n & V).
  pose proof (dl_spec max rest M9 HR ds2 0%N false n HD2 ltac:(lia) ltac:(auto) V) as DL.
  assert (V2 : value false 10 (repeat "0"%char k ++ ds2) =
               if negb (k =? 0) || nonempty_b ds2 then Some n else None).
  { unfold value. rewrite <- V, <- (value_zeros k ds2). destruct k, ds2; reflexivity. }
  rewrite V2. cbv zeta. fold max. destruct (n <=? max)%N eqn:LE.
  - rewrite DL. cbn [orb]. destruct (k =? 0), (nonempty_b ds2); cbn [negb orb andb]; rewrite ?LE; destruct neg; reflexivity.
  - destruct DL as (r' & ->). cbn [negb andb].
    destruct (negb (k =? 0) || nonempty_b ds2) eqn:NE; [rewrite LE; reflexivity|].
    (* no digits at all: nothing can overflow *)
    exfalso. destruct k; [|discriminate]. destruct ds2; [|discriminate]. cbn in V. injection V as <-.
    destruct (N.leb_spec 0 max); [discriminate|lia].
Qed.

(* ---------- texts that begin with an integer ---------- *)
Lemma skip_ws_app w t : blank w -> match t with c :: _ => space_byte c = false | [] => True end -> skip_ws (w ++ t) = t.
Proof.
  intros B H. induction B as [|c w Hc B IH]; cbn.
  - destruct t as [|c t]; [reflexivity|]. cbn. rewrite H. reflexivity.
  - unfold space in Hc. rewrite white_eq in Hc. rewrite Hc. exact IH.
Qed.
Lemma skip_ws_spec s : exists w, blank w /\ s = w ++ skip_ws s /\ match skip_ws s with c :: _ => space_byte c = false | [] => True end.
Proof.
  induction s as [|c s (w & B & E & H)].
  - exists []. repeat split. constructor.
  - cbn [skip_ws]. destruct (space_byte c) eqn:P.
    + exists (c :: w). split; [constructor; [unfold space; rewrite white_eq|]; assumption|]. split; [cbn; congruence|exact H].
    + exists []. split; [constructor|]. auto.
Qed.

Lemma digit_not c : digit_byte c = true -> space_byte c = false /\ Ascii.eqb c "-"%char = false /\ Ascii.eqb c "+"%char = false.
Proof. destruct c as [[][][][][][][][]]; cbv; intros H; try discriminate H; auto. Qed.

Lemma leading_int_iff text neg n : leading_int text neg n <->
  fst (take_sign (skip_ws text)) = neg /\ value false 10 (fst (span_digits (snd (take_sign (skip_ws text))))) = Some n.
Proof.
  split.
  - intros (w & sign & ds & rest & -> & B & SG & V & HR).
    assert (HD : forallb digit_byte ds = true).
    { unfold value in V. destruct ds; [discriminate|]. eapply value_digits, V. }
    destruct ds as [|d ds]; [discriminate|].
    assert (Hd : digit_byte d = true) by (cbn in HD; apply andb_true_iff in HD; apply HD).
    destruct (digit_not d Hd) as (D1 & D2 & D3).
    assert (E : take_sign (skip_ws (w ++ sign ++ (d :: ds) ++ rest)) = (neg, (d :: ds) ++ rest)).
    { rewrite skip_ws_app; [|exact B|].
      - destruct neg; [subst sign; reflexivity|]. destruct SG as [-> | ->]; [|reflexivity].
        cbn [app take_sign]. rewrite D2, D3. reflexivity.
      - destruct neg; [subst sign; reflexivity|]. destruct SG as [-> | ->]; [exact D1|reflexivity]. }
    rewrite E. cbn [fst snd]. rewrite span_digits_app by assumption. auto.
  - destruct (skip_ws_spec text) as (w & B & E & _). set (t := skip_ws text) in *. clearbody t. subst text.
    intros [<- V]. pose proof (span_digits_spec (snd (take_sign t))) as SD.
    destruct (span_digits (snd (take_sign t))) as [ds rest]. cbn [fst] in V. destruct SD as (E & HD & HR).
    destruct t as [|c t]; cbn [take_sign fst snd] in *.
    + destruct ds; [discriminate|discriminate].
    + destruct (Ascii.eqb_spec c "-"%char) as [->|N1]; cbn [fst snd] in *.
      * exists w, (lit "-"), ds, rest. rewrite E. repeat split; auto.
      * destruct (Ascii.eqb_spec c "+"%char) as [->|N2]; cbn [fst snd] in *.
        -- exists w, (lit "+"), ds, rest. rewrite E. repeat split; auto.
        -- exists w, [], ds, rest. rewrite E. repeat split; auto.
Qed.
Lemma leading_int_fun text neg n neg' n' : leading_int text neg n -> leading_int text neg' n' -> neg = neg' /\ n = n'.
Proof. rewrite !leading_int_iff. intros [<- A] [<- B]. split; congruence. Qed.

Lemma read_with_spec {A} (get : str -> A * bool) text v :
  read_with get text = RdOk v <-> skip_ws text <> [] /\ get (skip_ws text) = (v, true).
Proof.
  unfold read_with. destruct (skip_ws text) as [|c t]; [split; [discriminate|tauto]|].
  destruct (get (c :: t)) as [v' []]; split.
  - intros [= ->]. split; [discriminate|reflexivity].
  - intros [_ [= ->]]. reflexivity.
  - discriminate.
  - intros [_ [=]].
Qed.

Lemma extract_ok lo hi text v : (9 <= hi)%Z -> (lo = 0 \/ lo <= -9)%Z ->
  (skip_ws text <> [] /\ extract_int lo hi (skip_ws text) = (v, true) <->
   exists neg n, leading_int text neg n /\
     if (lo <? 0)%Z then v = signed_value neg n /\ (if neg then - lo >=? Z.of_N n else hi >=? Z.of_N n)%Z = true
     else v = (signed_value neg n mod (hi + 1))%Z /\ (Z.of_N n <= hi)%Z).
Proof.
  intros Hhi Hlo. pose proof (extract_int_spec lo hi (skip_ws text) Hhi Hlo) as S0.
  assert (LI : forall neg n, leading_int text neg n <-> fst (take_sign (skip_ws text)) = neg /\
     value false 10 (fst (span_digits (snd (take_sign (skip_ws text))))) = Some n) by (intros; apply leading_int_iff).
  destruct (take_sign (skip_ws text)) as [neg s1] eqn:TS. destruct (span_digits s1) as [ds rest] eqn:SD.
  cbn [fst snd] in LI. rewrite SD in LI. cbn [fst] in LI. rewrite S0. split.
  - intros [NE E]. destruct (value false 10 ds) as [n|] eqn:V; [|discriminate].
    exists neg, n. split; [apply LI; auto|]. destruct (Z.ltb_spec lo 0) as [L|L].
    + rewrite andb_true_r in E. unfold signed_value. destruct neg; cbv zeta in E; [destruct (N.leb_spec n (Z.to_N (- lo))) as [Q|Q]|destruct (N.leb_spec n (Z.to_N hi)) as [Q|Q]];
        try discriminate; injection E as <-; split; try reflexivity; apply Z.geb_le; lia.
    + rewrite andb_false_r in E. cbv zeta in E. destruct (N.leb_spec n (Z.to_N hi)) as [Q|Q]; [|discriminate].
      injection E as <-. unfold signed_value. destruct neg; split; try reflexivity; try lia.
      rewrite Z.mod_small by lia. reflexivity.
  - intros (neg' & n & H & K). apply LI in H as [<- V]. split.
    + intros X. rewrite X in TS. cbn in TS. injection TS as <- <-. cbn in SD. injection SD as <- <-. discriminate.
    + rewrite V. destruct (Z.ltb_spec lo 0) as [L|L].
      * destruct K as [-> K]. rewrite andb_true_r. unfold signed_value. destruct neg; apply Z.geb_le in K; cbv zeta;
          [destruct (N.leb_spec n (Z.to_N (- lo))) as [Q|Q]|destruct (N.leb_spec n (Z.to_N hi)) as [Q|Q]]; (reflexivity || lia).
      * destruct K as [-> K]. rewrite andb_false_r. cbv zeta. destruct (N.leb_spec n (Z.to_N hi)) as [Q|Q]; [|lia].
        unfold signed_value. destruct neg; [reflexivity|]. rewrite Z.mod_small by lia. reflexivity.
Qed.

Lemma in_i32_range v : in_i32 v = true <-> (- 2 ^ 31 <= v < 2 ^ 31)%Z.
Proof. unfold in_i32, two31. lia. Qed.
Lemma in_i64_range v : in_i64 v = true <-> (- 2 ^ 63 <= v < 2 ^ 63)%Z.
Proof. unfold in_i64, two63. lia. Qed.
Lemma read_i64_spec text v : read_i64 text = RdOk v <->
  exists neg n, leading_int text neg n /\ v = signed_value neg n /\ in_i64 v = true.
Proof.
  unfold read_i64. rewrite read_with_spec, extract_ok by (unfold two63; lia).
  change ((- two63 <? 0)%Z) with true. cbv iota. unfold in_i64, signed_value, two63. split.
  - intros (neg & n & H & -> & K). exists neg, n. split; [exact H|]. split; [reflexivity|].
    destruct neg; apply Z.geb_le in K; lia.
  - intros (neg & n & H & -> & K). exists neg, n. split; [exact H|]. split; [reflexivity|].
    destruct neg; apply Z.geb_le; lia.
Qed.

Lemma extract_i64_cases t : exists v ok, extract_int (- two63) (two63 - 1) t = (v, ok) /\
  (ok = false -> v = 0 \/ v = - two63 \/ v = two63 - 1)%Z.
Proof.
  pose proof (extract_int_spec (- two63) (two63 - 1) t ltac:(unfold two63; lia) ltac:(unfold two63; lia)) as E.
  destruct (take_sign t) as [neg s1]. destruct (span_digits s1) as [ds rest]. rewrite E.
  destruct (value false 10 ds) as [n|]; [|eauto]. cbv zeta.
  change ((- two63 <? 0)%Z) with true. rewrite andb_true_r.
  destruct (n <=? _)%N; [do 2 eexists; split; [reflexivity|discriminate]|].
  do 2 eexists; split; [reflexivity|]. intros _. destruct neg; auto.
Qed.

Lemma read_i32_spec text v : read_i32 text = RdOk v <->
  exists neg n, leading_int text neg n /\ v = signed_value neg n /\ in_i32 v = true.
Proof.
  unfold read_i32. rewrite read_with_spec.
  assert (K : (skip_ws text <> [] /\
    (let '(l, ok) := extract_int (- two63) (two63 - 1) (skip_ws text) in
     if (l <? - two31)%Z then ((- two31)%Z, false) else if (two31 - 1 <? l)%Z then ((two31 - 1)%Z, false) else (l, ok)) = (v, true)) <->
    read_i64 text = RdOk v /\ in_i32 v = true).
  { unfold read_i64. rewrite read_with_spec. destruct (extract_int (- two63) (two63 - 1) (skip_ws text)) as [l ok].
    unfold in_i32, two31. destruct (Z.ltb_spec l (- (2147483648))) as [A|A]; [|destruct (Z.ltb_spec (2147483648 - 1) l) as [B|B]].
    - split; [intros [_ [=]]|]. intros [[_ [= -> _]] C]. lia.
    - split; [intros [_ [=]]|]. intros [[_ [= -> _]] C]. lia.
    - split; [intros [N [= -> ->]]; repeat split; auto; lia|]. intros [[N [= -> ->]] C]. auto. }
  rewrite K, read_i64_spec. split.
  - intros [(neg & n & H & E & _) C]. eauto.
  - intros (neg & n & H & E & C). split; [exists neg, n; repeat split; auto|exact C].
    unfold in_i32, in_i64, two31, two63 in *. lia.
Qed.

Lemma read_u_spec hi text v : (9 <= hi)%Z ->
  (read_with (extract_int 0 hi) text = RdOk v <->
   exists neg n, leading_int text neg n /\ (Z.of_N n <= hi)%Z /\ v = (signed_value neg n mod (hi + 1))%Z).
Proof.
  intros H. rewrite read_with_spec, extract_ok by lia. cbn [Z.ltb Z.compare].
  split; intros (neg & n & A & B & C); exists neg, n; auto.
Qed.

(* a numeral, with white space before it, is read back *)
Lemma put_int_leading w z : blank w -> leading_int (w ++ put_int z) (z <? 0)%Z (Z.to_N (Z.abs z)).
Proof.
  intros B. destruct (put_int_spec z) as [(P & V & _)|(P & t & E & V & _)].
  - exists w, [], (put_int z), []. rewrite app_nil_r. destruct (Z.ltb_spec z 0); [lia|].
    rewrite Z.abs_eq by lia. repeat split; auto.
  - exists w, (lit "-"), t, []. rewrite app_nil_r, E. destruct (Z.ltb_spec z 0); [|lia].
    rewrite Z.abs_neq by lia. repeat split; auto.
Qed.
Lemma put_int_value z : signed_value (z <? 0)%Z (Z.to_N (Z.abs z)) = z.
Proof. unfold signed_value. destruct (Z.ltb_spec z 0); lia. Qed.
