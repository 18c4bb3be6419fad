(* P_Back.v -- property theorems: values printed by Format and read back by
   Options or from a PropertyTree; PropNode::get for integers. *)
From Coq Require Import Reals Lra.
From Flocq Require Import Core.Core IEEE754.BinarySingleNaN.
From Verif Require Import Base M_Stream M_StreamIn M_Float M_StreamFloat M_Format M_FormatF M_Options M_PropertyTree S_Num S_Field S_FormatF S_Format
  S_Options S_FloatIn S_PropertyTree L_Options L_StreamIn L_PropertyTree C_Options C_OptionsP C_Format C_FormatF L_Float L_FloatR L_FloatBack
  C_FloatIn P_FormatF P_FloatIn C_PropertyTree.
Local Open Scope R_scope.

(* ---- C95: float, printed with 9 significant digits ---- *)
Lemma back_opt_float fm im sep fuel f f' text (v : single) w sd s tok o a test :
  (exists t, addF_text fuel sep (float_to_double v) fm w sd = Some (Ok t) /\ read_float t = RdOk v) ->
  newFormat im (lit "%0") = Ok f -> addF fuel sep f (float_to_double v) fm w sd = Some (Ok f') -> fmt_str f' false = Ok text ->
  settled s -> names s tok o -> o_kind o = KScalar ty_float a test -> test (VFloat v) = true ->
  exists s', parse_list s [tok; text] = Ok (true, s') /\ mem s' a = VFloat v.
Proof.
  intros (t & E & RD) NF AF FS H N K T. rewrite (addF_text_ok _ _ f _ _ _ _ _ E) in AF. injection AF as <-.
  rewrite (one_field im f t text NF FS). assert (RD' : ty_read ty_float t = RdOk (VFloat v)) by (cbn [ty_float ty_read]; rewrite RD; reflexivity).
  apply C91_float in RD' as (neg & ip & fp & ex & x & L & D & Nr).
  destruct (C91_option_float s tok o a test t neg ip fp ex x v L D Nr H N K T) as (s' & P & M & _). eauto.
Qed.
Theorem C95_float_scientific : forall im sep fuel f f' text (v : single) w sd s tok o a test,
  is_finite v = true -> (8 <= sd < two31)%Z -> (0 <= requested w sd < two31)%Z ->
  newFormat im (lit "%0") = Ok f -> addF fuel sep f (float_to_double v) "s" w sd = Some (Ok f') -> fmt_str f' false = Ok text ->
  settled s -> names s tok o -> o_kind o = KScalar ty_float a test -> test (VFloat v) = true ->
  exists s', parse_list s [tok; text] = Ok (true, s') /\ mem s' a = VFloat v.
Proof.
  intros im sep fuel f f' text v w sd s tok o a test F Hs Hw. destruct (widen_ok v F) as (Fw & _ & _).
  apply (back_opt_float "s"). destruct (sci_near fuel sep (float_to_double v) w sd Fw ltac:(lia) Hw) as (t & E & P).
  exists t. split; [exact E|]. apply (near_back_float t v sd F); [lia|exact P].
Qed.
Print Assumptions C95_float_scientific.
Theorem C95_float_general : forall im sep fuel f f' text (v : single) w sd s tok o a test,
  is_finite v = true -> B2R v <> 0 -> (9 <= sd < two31)%Z -> (0 <= requested w sd < two31)%Z ->
  newFormat im (lit "%0") = Ok f -> addF fuel sep f (float_to_double v) "g" w sd = Some (Ok f') -> fmt_str f' false = Ok text ->
  settled s -> names s tok o -> o_kind o = KScalar ty_float a test -> test (VFloat v) = true ->
  exists s', parse_list s [tok; text] = Ok (true, s') /\ mem s' a = VFloat v.
Proof.
  intros im sep fuel f f' text v w sd s tok o a test F Nz Hs Hw. destruct (widen_ok v F) as (Fw & Vw & _).
  apply (back_opt_float "g"). destruct (gen_near fuel sep (float_to_double v) w sd Fw ltac:(rewrite Vw; exact Nz) ltac:(lia) Hw) as (t & E & P).
  exists t. split; [exact E|]. apply (near_back_float t v (sd - 1) F); [lia|exact P].
Qed.
Print Assumptions C95_float_general.
(* a float reaches addF unchanged *)
Theorem C95_widen : forall v : single, is_finite v = true ->
  finite (float_to_double v) /\ real_of (float_to_double v) = B2R v /\ Bsign (float_to_double v) = Bsign v.
Proof. exact widen_ok. Qed.
Print Assumptions C95_widen.
Definition f0_1 : single := @B754_finite 24 128 false 13421773 (-27) eq_refl.                  (* 0.1f *)
Definition o_level := mkOpt 0 (lit "level") "v" (lit "level") (lit "not a number") true true (KScalar ty_float 0 (fun _ => true)).
Definition r_level := mkReg (lit "level") "v"
  (fun s => add_def s ty_float 0 (lit "level") "v" (VFloat (B754_zero false)) (lit "level") (fun _ => true) (lit "not a number")).
Definition fdemo2 : st := rg_add r_level (newOptions false (fun _ => VInt 99) (fun _ => [])).
Example C95_nonvacuous : is_finite f0_1 = true /\ B2R f0_1 <> 0 /\ requested 0 8 = 12%Z /\
  (exists f f', newFormat Glibc (lit "%0") = Ok f /\ addF 0 "."%char f (float_to_double f0_1) "s" 0 8 = Some (Ok f') /\
    fmt_str f' false = Ok (lit "1.00000001e-01")) /\
  settled fdemo2 /\ names fdemo2 (lit "-v") o_level /\
  exists s', parse_list fdemo2 [lit "-v"; lit "1.00000001e-01"] = Ok (true, s') /\ mem s' 0 = VFloat f0_1.
Proof.
  assert (N0 : B2R f0_1 <> 0) by (apply F2R_neq_0; discriminate).
  assert (St : settled fdemo2) by (unfold fdemo2; apply ST_reg; [apply ST_new|constructor]).
  assert (Nm : names fdemo2 (lit "-v") o_level) by (apply (N_short fdemo2 "v" []); [discriminate|discriminate|reflexivity]).
  assert (FF : exists f f', newFormat Glibc (lit "%0") = Ok f /\ addF 0 "."%char f (float_to_double f0_1) "s" 0 8 = Some (Ok f') /\
    fmt_str f' false = Ok (lit "1.00000001e-01")).
  { eexists; eexists; split; [reflexivity|]; split; [vm_compute; reflexivity|vm_compute; reflexivity]. }
  split; [reflexivity|]. split; [exact N0|]. split; [reflexivity|]. split; [exact FF|]. split; [exact St|]. split; [exact Nm|].
  destruct FF as (f & f' & A & B & C).
  assert (R : (0 <= requested 0 8 < two31)%Z) by (vm_compute; split; [discriminate|reflexivity]).
  assert (R8 : (8 <= 8 < two31)%Z) by (unfold two31; lia).
  exact (C95_float_scientific Glibc "."%char 0 f f' _ f0_1 0 8 fdemo2 (lit "-v") o_level 0 (fun _ => true) eq_refl R8 R A B C St Nm eq_refl eq_refl).
Qed.

(* ---- C96: PropNode::get<int>, get<long> ---- *)
Lemma get_iff {A} (read : str -> rd A) (P : str -> A -> Prop) : (forall text v, read text = RdOk v <-> P text v) ->
  forall h m text ty te v, terminal_with h m text -> (node_get read ty h m te = (Some v, Ok true) <-> P text v).
Proof.
  intros S h m text ty te v (n & E & _ & V). unfold node_get. rewrite E, V, <- S. destruct (read text) as [y|y]; split; intros H.
  - injection H as ->. reflexivity.
  - injection H as ->. reflexivity.
  - exfalso. apply (f_equal snd) in H. cbn [snd] in H. destruct te; [|discriminate]. destruct (getPathName h m); discriminate.
  - discriminate.
Qed.
Theorem C96_get_int : forall nk l m text ty te v, terminal_with (tree nk l) m text ->
  (node_get read_i32 ty (tree nk l) m te = (Some v, Ok true) <->
   exists neg n, leading_int text neg n /\ v = signed_value neg n /\ (- 2 ^ 31 <= v < 2 ^ 31)%Z).
Proof. intros. setoid_rewrite <- in_i32_range. apply (get_iff read_i32 _ read_i32_spec (tree nk l)). assumption. Qed.
Print Assumptions C96_get_int.
Theorem C96_get_long : forall nk l m text ty te v, terminal_with (tree nk l) m text ->
  (node_get read_i64 ty (tree nk l) m te = (Some v, Ok true) <->
   exists neg n, leading_int text neg n /\ v = signed_value neg n /\ (- 2 ^ 63 <= v < 2 ^ 63)%Z).
Proof. intros. setoid_rewrite <- in_i64_range. apply (get_iff read_i64 _ read_i64_spec (tree nk l)). assumption. Qed.
Print Assumptions C96_get_long.
(* in all other cases the call returns false, or throws when asked to *)
Theorem C96_get_refused : forall {A} (read : str -> rd A) nk l ks m text ty te, follows (tree nk l) root ks m -> terminal_with (tree nk l) m text ->
  (forall v, node_get read ty (tree nk l) m te <> (Some v, Ok true)) ->
  snd (node_get read ty (tree nk l) m te) =
    (if te then Throw (badPropertyType (repeat ":"%char (length ks) ++ text) ty text) else Ok false).
Proof.
  intros A read nk l ks m text ty te F (n & E & Tm & V) Bad.
  assert (GP : getPathName (tree nk l) m = Ok (repeat ":"%char (length ks) ++ text)).
  { destruct (c77_partial nk l ks m F) as [(_ & x & Ex & Tx)|(s & (x & Ex & _ & Vx) & G)]; [congruence|].
    assert (s = text) by congruence. congruence. }
  unfold node_get in *. rewrite E, V in *. rewrite GP in *. cbn [obind] in *. destruct (read text) as [y|y]; [|reflexivity].
  exfalso. exact (Bad y eq_refl).
Qed.
Print Assumptions C96_get_refused.
Definition idoc := YMap [(YScalar (lit "a"), YScalar (lit " -42 deg")); (YScalar (lit "b"), YScalar (lit "2147483648"))].
Example C96_nonvacuous : let h := tree None [Loaded idoc] in
  terminal_with h 1 (lit " -42 deg") /\ node_get read_i32 (lit "i") h 1 true = (Some (-42)%Z, Ok true) /\
  follows h root [lit "b"] 2 /\ terminal_with h 2 (lit "2147483648") /\
  node_get read_i32 (lit "i") h 2 false = (Some 2147483647%Z, Ok false) /\
  node_get read_i64 (lit "l") h 2 false = (Some 2147483648%Z, Ok true).
Proof.
  split; [eexists; repeat split|]. split; [vm_compute; reflexivity|].
  split; [econstructor; [reflexivity|right; left; reflexivity|constructor; cbn; lia]|].
  split; [eexists; repeat split|]. split; vm_compute; reflexivity.
Qed.

(* ---- C97: printed by Format, kept in a tree, read by PropNode::get ---- *)
Lemma read_get {A} (read : str -> rd A) h m text ty te v : terminal_with h m text -> read text = RdOk v ->
  node_get read ty h m te = (Some v, Ok true).
Proof. intros (n & E & _ & V) RD. unfold node_get. rewrite E, V, RD. reflexivity. Qed.
Theorem C97_int : forall im f text v w nk l m ty te, (- 2 ^ 31 <= v < 2 ^ 31)%Z ->
  newFormat im (lit "%0") = Ok f -> fmt_str (addI f v w "000" "000") false = Ok text -> terminal_with (tree nk l) m text ->
  node_get read_i32 ty (tree nk l) m te = (Some v, Ok true).
Proof.
  intros im f text v w nk l m ty te I NF FS TW. apply in_i32_range in I. apply (read_get read_i32 _ m text); [exact TW|].
  unfold addI in FS. rewrite (one_field im f _ text NF FS). destruct (addI_text_leading v w) as (b & B & Eb). unfold nul in Eb. rewrite Eb. apply read_put_i32; assumption.
Qed.
Print Assumptions C97_int.
Theorem C97_unsigned_long : forall im f text v w gc nk l m ty te, (v < 2 ^ 64)%N -> (0 <= w < two31)%Z ->
  newFormat im (lit "%0") = Ok f -> fmt_str (addU f v "d" w "000" gc) false = Ok text -> terminal_with (tree nk l) m text ->
  node_get read_u64 ty (tree nk l) m te = (Some (Z.of_N v), Ok true).
Proof.
  intros im f text v w gc nk l m ty te B Hw NF FS TW. apply (read_get read_u64 _ m text); [exact TW|].
  assert (Nd : ~ In "d"%char (lit "xXhHoO")) by (intros H; cbn in H; repeat (destruct H as [H|H]; [discriminate H|]); exact H).
  destruct (c17 f v "d"%char w gc Hw Nd) as (t & s & E & (Vt & _) & (k & -> & _)). rewrite E in FS. rewrite (one_field im f _ text NF FS).
  apply read_u_spec; [unfold two64; lia|]. exists false, v. split; [|split].
  - exists (repeat " "%char k), [], t, []. rewrite app_nil_r. split; [reflexivity|]. split; [apply repeat_blank|]. auto.
  - unfold two64. lia.
  - cbn [signed_value]. rewrite Z.mod_small; [reflexivity|]. unfold two64. lia.
Qed.
Print Assumptions C97_unsigned_long.
Lemma one_f fm im sep fuel f f' text (v : double) w sd :
  (exists t, addF_text fuel sep v fm w sd = Some (Ok t) /\ read_double t = RdOk v) ->
  newFormat im (lit "%0") = Ok f -> addF fuel sep f v fm w sd = Some (Ok f') -> fmt_str f' false = Ok text -> read_double text = RdOk v.
Proof.
  intros (t & E & RD) NF AF FS. rewrite (addF_text_ok _ _ f _ _ _ _ _ E) in AF. injection AF as <-.
  rewrite (one_field im f t text NF FS). exact RD.
Qed.
Theorem C97_double : forall im sep fuel f f' text (v : double) fm w sd nk l m ty te,
  finite v -> fm = "s"%char /\ (16 <= sd)%Z \/ fm = "g"%char /\ real_of v <> 0 /\ (17 <= sd)%Z ->
  (sd < two31)%Z -> (0 <= requested w sd < two31)%Z ->
  newFormat im (lit "%0") = Ok f -> addF fuel sep f v fm w sd = Some (Ok f') -> fmt_str f' false = Ok text ->
  terminal_with (tree nk l) m text ->
  node_get read_double ty (tree nk l) m te = (Some v, Ok true).
Proof.
  intros im sep fuel f f' text v fm w sd nk l m ty te F C Hs Hw NF AF FS TW. apply (read_get read_double _ m text); [exact TW|].
  apply (one_f fm im sep fuel f f' text v w sd); try assumption.
  destruct C as [(-> & C)|(-> & Nz & C)]; [apply sci_back|apply gen_back]; auto; lia.
Qed.
Print Assumptions C97_double.
Example C97_nonvacuous : (- 2 ^ 31 <= -42 < 2 ^ 31)%Z /\ (18446744073709551615 < 2 ^ 64)%N /\
  (exists f, newFormat Glibc (lit "%0") = Ok f /\ fmt_str (addI f (-42) 6 "000" "000") false = Ok (lit "   -42") /\
    fmt_str (addU f 18446744073709551615 "d" 22 "000" 1) false = Ok (lit "  18446744073709551615") /\
    exists f', addF 0 "."%char f d0_30 "g" 0 17 = Some (Ok f') /\ fmt_str f' false = Ok (lit "0.30000000000000004  ")) /\
  let h := tree None [Loaded (YMap [(YScalar (lit "a"), YScalar (lit "   -42")); (YScalar (lit "b"), YScalar (lit "0.30000000000000004  "))])] in
  terminal_with h 1 (lit "   -42") /\ terminal_with h 2 (lit "0.30000000000000004  ").
Proof.
  split; [lia|]. split; [reflexivity|].
  split; [eexists; split; [reflexivity|]; split; [vm_compute; reflexivity|]; split; [vm_compute; reflexivity|]; eexists; split; vm_compute; reflexivity|].
  split; eexists; repeat split.
Qed.
