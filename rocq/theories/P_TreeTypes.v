(* P_TreeTypes.v -- C127: PropNode::get for bool, unsigned, short and char;
   C128: what a get that fails leaves in the variable *)
From Coq Require Import Lia.
From Verif Require Import Base S_Num S_Format S_Options S_PropertyTree S_TreeTypes M_StreamIn M_Format M_Options M_PropertyTree
  L_Num L_Options L_StreamIn L_PropertyTree C_Format C_Options C_PropertyTree P_Format P_Options.

(* ---- reading in all cases ---- *)
Lemma blank_skip text : blank text <-> skip_ws text = [].
Proof.
  split.
  - intros B. rewrite <- (app_nil_r text). apply skip_ws_app; [exact B|exact I].
  - intros E. destruct (skip_ws_spec text) as (w & B & T & _). rewrite E, app_nil_r in T. subst w. exact B.
Qed.
Lemma no_int_iff text : (forall neg n, ~ leading_int text neg n) <->
  value false 10 (fst (span_digits (snd (take_sign (skip_ws text))))) = None.
Proof.
  split.
  - intros H. destruct (value _ _ _) as [n|] eqn:V; [|reflexivity]. exfalso.
    apply (H (fst (take_sign (skip_ws text))) n). apply leading_int_iff. auto.
  - intros H neg n L. apply leading_int_iff in L as [_ L]. congruence.
Qed.
Lemma read_long_cases text :
  (blank text /\ read_with (extract_int (- two63) (two63 - 1)) text = RdFail None /\ skip_ws text = []) \/
  (no_integer text /\ skip_ws text <> [] /\ extract_int (- two63) (two63 - 1) (skip_ws text) = (0%Z, false)) \/
  (exists neg n, leading_int text neg n /\ skip_ws text <> [] /\ extract_int (- two63) (two63 - 1) (skip_ws text) =
     let z := signed_value neg n in
     if (z <? - 2 ^ 63)%Z then (- 2 ^ 63, false)%Z else if (2 ^ 63 - 1 <? z)%Z then (2 ^ 63 - 1, false)%Z else (z, true)).
Proof.
  destruct (skip_ws text) as [|c t] eqn:SK.
  { left. split; [apply blank_skip, SK|]. unfold read_with. rewrite SK. auto. }
  right. pose proof (extract_int_spec (- two63) (two63 - 1) (skip_ws text) ltac:(unfold two63; lia) ltac:(unfold two63; lia)) as X.
  pose proof (no_int_iff text) as NI. pose proof (fun neg n => leading_int_iff text neg n) as LI.
  rewrite SK in X, NI, LI. destruct (take_sign (c :: t)) as [neg s1] eqn:TS. cbn [fst snd] in NI, LI. destruct (span_digits s1) as [ds rest].
  cbn [fst] in NI, LI. rewrite X. destruct (value false 10 ds) as [n|].
  - right. exists neg, n. split; [apply LI; auto|]. split; [discriminate|]. cbv zeta. change ((- two63 <? 0)%Z) with true. rewrite andb_true_r.
    unfold signed_value, two63. destruct neg.
    + destruct (N.leb_spec n (Z.to_N (- - (9223372036854775808)))) as [Q|Q]; destruct (Z.ltb_spec (- Z.of_N n) (- 2 ^ 63)); try lia; try reflexivity.
      destruct (Z.ltb_spec (2 ^ 63 - 1) (- Z.of_N n)); [lia|reflexivity].
    + destruct (N.leb_spec n (Z.to_N (9223372036854775808 - 1))) as [Q|Q]; destruct (Z.ltb_spec (Z.of_N n) (- 2 ^ 63)); try lia;
        destruct (Z.ltb_spec (2 ^ 63 - 1) (Z.of_N n)); try lia; reflexivity.
  - left. split; [|split; [discriminate|reflexivity]]. split; [|apply NI; reflexivity]. intros B. apply blank_skip in B. congruence.
Qed.
(* a narrower type that is read as a long and clamped *)
Definition clamped (lo hi : Z) (text : str) (r : rd Z) : Prop :=
  (blank text /\ r = RdFail None) \/ (no_integer text /\ r = RdFail (Some 0%Z)) \/
  (exists z, begins_with_int text z /\
     ((z < lo /\ r = RdFail (Some lo)) \/ (hi < z /\ r = RdFail (Some hi)) \/ (lo <= z <= hi /\ r = RdOk z))%Z).
Lemma clamp_cases lo hi text (r : rd Z) : (- 2 ^ 63 <= lo <= 0)%Z -> (0 <= hi < 2 ^ 63)%Z ->
  r = read_with (fun t => let '(l, ok) := extract_int (- two63) (two63 - 1) t in
        if (l <? lo)%Z then (lo, false) else if (hi <? l)%Z then (hi, false) else (l, ok)) text ->
  clamped lo hi text r.
Proof.
  intros L H ->. destruct (read_long_cases text) as [(B & _ & SK)|[(B & NE & E)|(neg & n & LI & NE & E)]]; unfold read_with.
  - left. rewrite SK. auto.
  - right; left. destruct (skip_ws text) as [|c t]; [congruence|]. rewrite E.
    destruct (Z.ltb_spec 0 lo); [lia|]. destruct (Z.ltb_spec hi 0); [lia|]. auto.
  - right; right. exists (signed_value neg n). split; [exists neg, n; auto|]. destruct (skip_ws text) as [|c t]; [congruence|]. rewrite E. cbv zeta.
    destruct (Z.ltb_spec (signed_value neg n) (- 2 ^ 63)).
    + destruct (Z.ltb_spec (- 2 ^ 63) lo).
      * left. split; [lia|reflexivity].
      * destruct (Z.ltb_spec hi (- 2 ^ 63)); [lia|]. left. split; [lia|]. assert (lo = - 2 ^ 63)%Z as -> by lia. reflexivity.
    + destruct (Z.ltb_spec (2 ^ 63 - 1) (signed_value neg n)).
      * destruct (Z.ltb_spec (2 ^ 63 - 1) lo); [lia|]. right; left. split; [lia|].
        destruct (Z.ltb_spec hi (2 ^ 63 - 1)); [reflexivity|]. assert (hi = 2 ^ 63 - 1)%Z as -> by lia. reflexivity.
      * destruct (Z.ltb_spec (signed_value neg n) lo); [left; auto|]. destruct (Z.ltb_spec hi (signed_value neg n)); [right; left; auto|right; right; auto].
Qed.
Lemma read_i32_cases text : clamped (- 2 ^ 31) (2 ^ 31 - 1) text (read_i32 text).
Proof. apply clamp_cases; [lia|lia|reflexivity]. Qed.
Lemma read_i16_cases text : clamped (- 2 ^ 15) (2 ^ 15 - 1) text (read_i16 text).
Proof. apply clamp_cases; [lia|lia|reflexivity]. Qed.
Lemma read_i64_cases text : clamped (- 2 ^ 63) (2 ^ 63 - 1) text (read_i64 text).
Proof.
  apply clamp_cases; [lia|lia|]. unfold read_i64, read_with. destruct (read_long_cases text) as [(_ & _ & ->)|[(_ & _ & E)|(neg & n & _ & _ & E)]]; [reflexivity| |];
    destruct (skip_ws text) as [|c t]; try reflexivity; rewrite E; cbv zeta.
  - reflexivity.
  - destruct (Z.ltb_spec (signed_value neg n) (- 2 ^ 63)); [reflexivity|]. destruct (Z.ltb_spec (2 ^ 63 - 1) (signed_value neg n)); [reflexivity|].
    destruct (Z.ltb_spec (signed_value neg n) (- 2 ^ 63)); [lia|]. destruct (Z.ltb_spec (2 ^ 63 - 1) (signed_value neg n)); [lia|]. reflexivity.
Qed.
Lemma read_flag_cases text :
  (blank text /\ read_flag text = RdFail None) \/ (no_integer text /\ read_flag text = RdFail (Some false)) \/
  (exists z, begins_with_int text z /\
     ((z = 0%Z /\ read_flag text = RdOk false) \/ (z = 1%Z /\ read_flag text = RdOk true) \/
      (z <> 0%Z /\ z <> 1%Z /\ read_flag text = RdFail (Some true)))).
Proof.
  unfold read_flag, read_with. destruct (read_long_cases text) as [(B & _ & SK)|[(B & NE & E)|(neg & n & LI & NE & E)]].
  - left. rewrite SK. auto.
  - right; left. destruct (skip_ws text) as [|c t]; [congruence|]. rewrite E. auto.
  - right; right. exists (signed_value neg n). split; [exists neg, n; auto|]. destruct (skip_ws text) as [|c t]; [congruence|]. rewrite E. cbv zeta.
    set (z := signed_value neg n). destruct (Z.ltb_spec z (- 2 ^ 63)).
    + right; right. split; [lia|]. split; [lia|reflexivity].
    + destruct (Z.ltb_spec (2 ^ 63 - 1) z); [right; right; split; [lia|]; split; [lia|reflexivity]|].
      destruct (Z.eqb_spec z 0); [left; auto|]. destruct (Z.eqb_spec z 1); [right; left; auto|right; right; auto].
Qed.
Lemma begins_fun text z z' : begins_with_int text z -> begins_with_int text z' -> z = z'.
Proof. intros (a & n & L & ->) (b & m & M & ->). destruct (leading_int_fun _ _ _ _ _ L M) as [<- <-]. reflexivity. Qed.
Lemma begins_not_blank text z : begins_with_int text z -> ~ blank text.
Proof.
  intros (neg & n & L & _) B. apply leading_int_iff in L as [_ V]. apply blank_skip in B. rewrite B in V. cbn in V. discriminate.
Qed.
Lemma get_read {A} (read : str -> rd A) h m text ty te : terminal_with h m text ->
  fst (node_get read ty h m te) = match read text with RdOk v => Some v | RdFail o => o end /\
  (snd (node_get read ty h m te) = Ok true <-> exists v, read text = RdOk v).
Proof.
  intros (n & E & _ & V). unfold node_get. rewrite E, V. destruct (read text) as [v|o]; cbn [fst snd].
  - split; [reflexivity|]. split; [eauto|reflexivity].
  - split; [reflexivity|]. split; [|intros (v & [=])]. destruct te; [|discriminate]. destruct (getPathName h m); discriminate.
Qed.
Lemma get_ok {A} (read : str -> rd A) h m text ty te v : terminal_with h m text ->
  (node_get read ty h m te = (Some v, Ok true) <-> read text = RdOk v).
Proof.
  intros T. destruct (get_read read h m text ty te T) as [F S]. split.
  - intros E. rewrite E in F, S. cbn in F, S. destruct (proj1 S eq_refl) as (w & W). rewrite W in *. congruence.
  - intros E. rewrite E in F. rewrite (surjective_pairing (node_get read ty h m te)), F. f_equal. apply S. eauto.
Qed.

(* ---- C127 ---- *)
(* get<bool> succeeds exactly on the integers 0 and 1 *)
Theorem C127_get_bool_partial : forall nk l m text ty te b, terminal_with (tree nk l) m text ->
  (node_get read_flag ty (tree nk l) m te = (Some b, Ok true) <-> begins_with_int text (if b then 1 else 0)).
Proof.
  intros nk l m text ty te b T. rewrite (get_ok read_flag _ m text) by exact T.
  destruct (read_flag_cases text) as [(B & ->)|[((_ & B) & ->)|(z & Z & [(E & ->)|[(E & ->)|(E0 & E1 & ->)]])]].
  - split; [discriminate|]. intros H. exfalso. exact (begins_not_blank _ _ H B).
  - split; [discriminate|]. intros (neg & n & H & _). exfalso. exact (B _ _ H).
  - subst z. split; [intros [= <-]; exact Z|]. intros H. destruct b; [pose proof (begins_fun _ _ _ Z H); lia|reflexivity].
  - subst z. split; [intros [= <-]; exact Z|]. intros H. destruct b; [reflexivity|pose proof (begins_fun _ _ _ Z H); lia].
  - split; [discriminate|]. intros H. pose proof (begins_fun _ _ _ Z H). destruct b; congruence.
Qed.
Print Assumptions C127_get_bool_partial.
(* so the words for truth values are refused, among them what Format::addB prints *)
Theorem C127_words_refuted : forall nk l m text ty c r, terminal_with (tree nk l) m text ->
  text = c :: r -> In c (lit "tTfFyYnNoO") ->
  node_get read_flag ty (tree nk l) m false = (Some false, Ok false).
Proof.
  intros nk l m text ty c r T -> I.
  assert (NI : no_integer (c :: r)).
  { split.
    - intros B. apply blank_skip in B. cbn in I. repeat (destruct I as [<-|I]; [cbn in B; discriminate B|]). destruct I.
    - intros neg n L. apply leading_int_iff in L as [_ V]. cbn in I. repeat (destruct I as [<-|I]; [cbn in V; discriminate V|]). destruct I. }
  assert (R : read_flag (c :: r) = RdFail (Some false)).
  { destruct (read_flag_cases (c :: r)) as [(B & _)|[(_ & E)|(z & (neg & n & L & _) & _)]]; [destruct NI; contradiction|exact E|].
    exfalso. exact (proj2 NI _ _ L). }
  destruct T as (n & E & _ & V). unfold node_get. rewrite E, V, R. reflexivity.
Qed.
Print Assumptions C127_words_refuted.
Theorem C127_addB_refuted : forall im f text b nk l m ty, newFormat im (lit "%0") = Ok f -> fmt_str (addB f b) false = Ok text ->
  terminal_with (tree nk l) m text -> node_get read_flag ty (tree nk l) m false = (Some false, Ok false).
Proof.
  intros im f text b nk l m ty NF FS T. assert (E : text = if b then lit "T" else lit "F").
  { rewrite (proj2 (C20_addC_addB f "x" b)) in FS. set (t := if b then lit "T" else lit "F") in *.
    assert (X : fmt_str (fold_left insertField [t] f) false = Ok (t ++ [])).
    { apply (c06 im (lit "%0") f [t] [IField 0] (t ++ [])).
      - exact NF.
      - apply (T_field (lit "0") 0%N []); [reflexivity|reflexivity|apply T_nil].
      - intros n [[= <-]|[]]. reflexivity.
      - apply Sh_filled; [reflexivity|apply Sh_nil]. }
    cbn [fold_left] in X. rewrite app_nil_r in X. congruence. }
  destruct b; subst text; (eapply C127_words_refuted; [exact T|reflexivity|cbn; tauto]).
Qed.
Print Assumptions C127_addB_refuted.
(* where get<bool> succeeds, a bool option would take the same value *)
Theorem C127_agrees_with_options : forall nk l m text ty te b, terminal_with (tree nk l) m text ->
  node_get read_flag ty (tree nk l) m te = (Some b, Ok true) -> ty_read ty_bool text = RdOk (VBool b).
Proof.
  intros nk l m text ty te b T G. apply (C127_get_bool_partial nk l m text ty te b T) in G as (neg & n & L & E).
  apply C46_bool_partial. right; right. exists neg, n. split; [exact L|]. rewrite <- E. split; [destruct b; lia|].
  unfold signed_value in E. destruct b, neg; destruct (N.eqb_spec n 0); try reflexivity; lia.
Qed.
Print Assumptions C127_agrees_with_options.
(* an unsigned type takes negative numbers too, modulo 2^k *)
Theorem C127_get_unsigned : forall nk l m text ty te v, terminal_with (tree nk l) m text ->
  let reads (k : Z) (read : str -> rd Z) := node_get read ty (tree nk l) m te = (Some v, Ok true) <->
    exists z, begins_with_int text z /\ (Z.abs z < 2 ^ k)%Z /\ (0 <= v < 2 ^ k)%Z /\ exists q, (z = v + q * 2 ^ k)%Z in
  reads 16%Z read_u16 /\ reads 32%Z read_u32 /\ reads 64%Z read_u64.
Proof.
  intros nk l m text ty te v T reads.
  assert (H : forall k hi read, (4 <= k)%Z -> (hi = 2 ^ k - 1)%Z -> read = read_with (extract_int 0 hi) -> reads k read).
  { intros k hi read K -> ->. unfold reads. rewrite (get_ok _ _ m text) by exact T.
    assert (2 ^ 4 <= 2 ^ k)%Z by (apply Z.pow_le_mono_r; lia). change (2 ^ 4)%Z with 16%Z in *. rewrite read_u_spec by lia.
    replace (2 ^ k - 1 + 1)%Z with (2 ^ k)%Z by lia. set (M := (2 ^ k)%Z) in *. split.
    - intros (neg & n & L & B & ->). exists (signed_value neg n). split; [exists neg, n; auto|]. split; [unfold signed_value; destruct neg; lia|].
      split; [apply Z.mod_pos_bound; lia|]. exists (signed_value neg n / M)%Z. pose proof (Z.div_mod (signed_value neg n) M). lia.
    - intros (z & (neg & n & L & ->) & A & B & q & Q). exists neg, n. split; [exact L|]. split; [unfold signed_value in A; destruct neg; lia|].
      rewrite Q, Z.mod_add by lia. symmetry. apply Z.mod_small. lia. }
  split; [|split]; [apply (H 16%Z 65535%Z)|apply (H 32%Z (two32 - 1)%Z)|apply (H 64%Z (two64 - 1)%Z)]; try reflexivity; lia.
Qed.
Print Assumptions C127_get_unsigned.
(* so "-1" is no error for get<unsigned> *)
Theorem C127_negative_refuted : forall nk l m ty te, terminal_with (tree nk l) m (lit "-1") ->
  node_get read_u32 ty (tree nk l) m te = (Some (2 ^ 32 - 1)%Z, Ok true).
Proof.
  intros nk l m ty te T. refine (proj2 (proj1 (proj2 (C127_get_unsigned nk l m _ ty te _ T))) _).
  exists (-1)%Z. split; [|split; [lia|split; [lia|exists (-1)%Z; lia]]].
  exists true, 1%N. split; [|reflexivity]. exists [], (lit "-"), (lit "1"), []. repeat split. constructor.
Qed.
Print Assumptions C127_negative_refuted.
Theorem C127_get_short : forall nk l m text ty te v, terminal_with (tree nk l) m text ->
  (node_get read_i16 ty (tree nk l) m te = (Some v, Ok true) <-> begins_with_int text v /\ (- 2 ^ 15 <= v < 2 ^ 15)%Z).
Proof.
  intros nk l m text ty te v T. rewrite (get_ok read_i16 _ m text) by exact T.
  destruct (read_i16_cases text) as [(B & ->)|[((_ & B) & ->)|(z & Z & [(E & ->)|[(E & ->)|(E & ->)]])]].
  - split; [discriminate|]. intros [H _]. exfalso. exact (begins_not_blank _ _ H B).
  - split; [discriminate|]. intros [(neg & n & H & _) _]. exfalso. exact (B _ _ H).
  - split; [discriminate|]. intros [H R]. pose proof (begins_fun _ _ _ Z H). lia.
  - split; [discriminate|]. intros [H R]. pose proof (begins_fun _ _ _ Z H). lia.
  - split; [intros [= <-]; split; [exact Z|lia]|]. intros [H R]. rewrite (begins_fun _ _ _ Z H). reflexivity.
Qed.
Print Assumptions C127_get_short.
Theorem C127_get_char : forall nk l m text ty te c, terminal_with (tree nk l) m text ->
  (node_get read_char ty (tree nk l) m te = (Some c, Ok true) <-> first_visible text c).
Proof.
  intros nk l m text ty te c T. rewrite (get_ok read_char _ m text) by exact T. unfold read_char, first_visible.
  destruct (skip_ws_spec text) as (w & B & E & N). split.
  - destruct (skip_ws text) as [|d r]; [discriminate|]. intros [= <-]. exists w, r. split; [exact E|]. split; [exact B|].
    intros S. unfold space in S. rewrite white_eq in S. congruence.
  - intros (w' & r & -> & B' & S). rewrite skip_ws_app; [reflexivity|exact B'|]. unfold space in S. rewrite white_eq in S. destruct (space_byte c); [contradiction S; reflexivity|reflexivity].
Qed.
Print Assumptions C127_get_char.
Definition bdoc := YMap [(YScalar (lit "a"), YScalar (lit "1")); (YScalar (lit "b"), YScalar (lit "true")); (YScalar (lit "c"), YScalar (lit "-1"));
  (YScalar (lit "d"), YScalar (lit " x1")); (YScalar (lit "e"), YScalar (lit "-32769"))].
Example C127_nonvacuous : let h := tree None [Loaded bdoc] in
  terminal_with h 1 (lit "1") /\ terminal_with h 2 (lit "true") /\ terminal_with h 3 (lit "-1") /\
  node_get read_flag (lit "b") h 1 true = (Some true, Ok true) /\ begins_with_int (lit "1") 1 /\
  node_get read_flag (lit "b") h 2 false = (Some false, Ok false) /\
  node_get read_u32 (lit "j") h 3 true = (Some 4294967295%Z, Ok true) /\
  node_get read_char (lit "c") h 4 true = (Some "x"%char, Ok true) /\
  node_get read_i16 (lit "s") h 5 false = (Some (-32768)%Z, Ok false) /\
  node_get read_u16 (lit "t") h 5 false = (Some 32767%Z, Ok true).
Proof.
  split; [eexists; repeat split|]. split; [eexists; repeat split|]. split; [eexists; repeat split|]. split; [vm_compute; reflexivity|].
  split; [exists false, 1%N; split; [exists [], [], (lit "1"), []; repeat split; auto; constructor|reflexivity]|].
  repeat split; vm_compute; reflexivity.
Qed.

(* ---- C128 ---- *)
(* a signed variable that held d: kept if the text is blank, else overwritten *)
Theorem C128_signed_partial : forall nk l m text ty te d v, terminal_with (tree nk l) m text ->
  let leaves (lo hi : Z) (read : str -> rd Z) := snd (node_get read ty (tree nk l) m te) <> Ok true ->
    (holds_after d (fst (node_get read ty (tree nk l) m te)) v <->
     (blank text /\ v = d) \/ (no_integer text /\ v = 0%Z) \/
     (exists z, begins_with_int text z /\ ((z < lo /\ v = lo) \/ (hi < z /\ v = hi)))%Z) in
  leaves (- 2 ^ 15)%Z (2 ^ 15 - 1)%Z read_i16 /\ leaves (- 2 ^ 31)%Z (2 ^ 31 - 1)%Z read_i32 /\ leaves (- 2 ^ 63)%Z (2 ^ 63 - 1)%Z read_i64.
Proof.
  intros nk l m text ty te d v T leaves.
  assert (H : forall lo hi read, (lo <= hi)%Z -> clamped lo hi text (read text) -> leaves lo hi read).
  { intros lo hi read LH C. unfold leaves. destruct (get_read read (tree nk l) m text ty te T) as [-> S]. intros NT.
    unfold holds_after. destruct C as [(B & E)|[(B & E)|(z & Z & C)]].
    - rewrite E. split; [auto|]. intros [(_ & X)|[((X & _) & _)|(z & Z & _)]]; [exact X|contradiction|exfalso; exact (begins_not_blank _ _ Z B)].
    - rewrite E. split; [auto|]. intros [(X & _)|[(_ & X)|(z & (neg & n & L & _) & _)]]; [destruct B; contradiction|exact X|exfalso; exact (proj2 B _ _ L)].
    - assert (NB : ~ blank text) by exact (begins_not_blank _ _ Z). assert (NN : ~ no_integer text).
      { destruct Z as (neg & n & L & _). intros [_ X]. exact (X _ _ L). }
      destruct C as [(E & R)|[(E & R)|(E & R)]].
      + rewrite R. split; [intros ->; right; right; exists z; auto|]. intros [(X & _)|[(X & _)|(z' & Z' & [(X & Y)|(X & Y)])]]; try contradiction; [exact Y|].
        pose proof (begins_fun _ _ _ Z Z'). lia.
      + rewrite R. split; [intros ->; right; right; exists z; auto|]. intros [(X & _)|[(X & _)|(z' & Z' & [(X & Y)|(X & Y)])]]; try contradiction; [|exact Y].
        pose proof (begins_fun _ _ _ Z Z'). lia.
      + exfalso. apply NT, S. eauto. }
  split; [|split]; (apply H; [lia|]); [apply read_i16_cases|apply read_i32_cases|apply read_i64_cases].
Qed.
Print Assumptions C128_signed_partial.
(* a bool variable: false for a word, true for a number that is neither 0 nor 1 *)
Theorem C128_bool_partial : forall nk l m text ty te d v, terminal_with (tree nk l) m text ->
  snd (node_get read_flag ty (tree nk l) m te) <> Ok true ->
  (holds_after d (fst (node_get read_flag ty (tree nk l) m te)) v <->
   (blank text /\ v = d) \/ (no_integer text /\ v = false) \/ (exists z, begins_with_int text z /\ z <> 0%Z /\ z <> 1%Z /\ v = true)).
Proof.
  intros nk l m text ty te d v T NT. destruct (get_read read_flag (tree nk l) m text ty te T) as [-> S]. unfold holds_after.
  destruct (read_flag_cases text) as [(B & E)|[(B & E)|(z & Z & C)]].
  - rewrite E. split; [auto|]. intros [(_ & X)|[((X & _) & _)|(z & Z & _)]]; [exact X|contradiction|exfalso; exact (begins_not_blank _ _ Z B)].
  - rewrite E. split; [auto|]. intros [(X & _)|[(_ & X)|(z & (neg & n & L & _) & _)]]; [destruct B; contradiction|exact X|exfalso; exact (proj2 B _ _ L)].
  - assert (NB : ~ blank text) by exact (begins_not_blank _ _ Z). assert (NN : ~ no_integer text).
    { destruct Z as (neg & n & L & _). intros [_ X]. exact (X _ _ L). }
    destruct C as [(_ & R)|[(_ & R)|(E0 & E1 & R)]]; [exfalso; apply NT, S; eauto|exfalso; apply NT, S; eauto|].
    rewrite R. split; [intros ->; right; right; exists z; auto|]. intros [(X & _)|[(X & _)|(z' & _ & _ & _ & Y)]]; [contradiction|contradiction|exact Y].
Qed.
Print Assumptions C128_bool_partial.
(* the other ways to fail leave the variable alone: no such property, and, for
   strings and characters, every failure *)
Theorem C128_not_found_partial : forall {A} (read : str -> rd A) nk l path ty te e,
  getProp (tree nk l) root path te = Ok None \/ getProp (tree nk l) root path te = Throw e ->
  fst (tree_get read ty (tree nk l) path te) = None /\ snd (tree_get read ty (tree nk l) path te) <> Ok true.
Proof.
  intros A read nk l path ty te e [E|E]; unfold tree_get; rewrite E; split; (reflexivity || discriminate).
Qed.
Print Assumptions C128_not_found_partial.
Theorem C128_text_partial : forall nk l m text ty te, terminal_with (tree nk l) m text ->
  (snd (node_get read_string ty (tree nk l) m te) <> Ok true -> blank text /\ fst (node_get read_string ty (tree nk l) m te) = None) /\
  (snd (node_get read_char ty (tree nk l) m te) <> Ok true -> blank text /\ fst (node_get read_char ty (tree nk l) m te) = None).
Proof.
  intros nk l m text ty te T. split; intros NT; [destruct (get_read read_string _ _ _ ty te T) as [-> S]|destruct (get_read read_char _ _ _ ty te T) as [-> S]];
    rewrite blank_skip; unfold read_string, read_char in *; (destruct (skip_ws text); [auto|]); exfalso; apply NT, S; eauto.
Qed.
Print Assumptions C128_text_partial.
(* so the default in the variable is lost although get returned false *)
Theorem C128_default_lost_refuted : forall nk l m text ty, terminal_with (tree nk l) m text -> no_integer text ->
  node_get read_i32 ty (tree nk l) m false = (Some 0%Z, Ok false).
Proof.
  intros nk l m text ty (n & E & _ & V) NI. unfold node_get. rewrite E, V.
  destruct (read_i32_cases text) as [(B & _)|[(_ & ->)|(z & (neg & k & L & _) & _)]]; [destruct NI; contradiction|reflexivity|].
  exfalso. exact (proj2 NI _ _ L).
Qed.
Print Assumptions C128_default_lost_refuted.
Example C128_nonvacuous : let h := tree None [Loaded (YMap [(YScalar (lit "a"), YScalar (lit "40000")); (YScalar (lit "b"), YScalar (lit " "))])] in
  terminal_with h 1 (lit "40000") /\ terminal_with h 2 (lit " ") /\
  node_get read_i16 (lit "s") h 1 false = (Some 32767%Z, Ok false) /\ node_get read_flag (lit "b") h 1 false = (Some true, Ok false) /\
  node_get read_i32 (lit "i") h 2 false = (None, Ok false) /\ node_get read_char (lit "c") h 2 false = (None, Ok false) /\
  getProp h root (lit "x") false = Ok None /\ no_integer (lit "root") /\ getProp h root (lit "a") false = Ok (Some root).
Proof.
  split; [eexists; repeat split|]. split; [eexists; repeat split|]. do 5 (split; [vm_compute; reflexivity|]). split; [|vm_compute; reflexivity].
  split; [intros B; apply blank_skip in B; discriminate B|]. apply no_int_iff. reflexivity.
Qed.
