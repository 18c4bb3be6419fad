(* P_FloatIn.v -- property theorems for options and properties of type float
   and double. *)
From Coq Require Import Reals Lra.
From Flocq Require Import Core.Core IEEE754.BinarySingleNaN.
From Verif Require Import Base M_StreamIn M_Float M_StreamFloat M_Format M_FormatF M_Options M_PropertyTree S_Num S_Field S_FormatF S_Format S_Options
  S_FloatIn S_PropertyTree L_Options L_PropertyTree C_Options C_OptionsP C_Format C_FormatF L_Float L_FloatR L_FloatBack C_FloatIn P_FormatF C_PropertyTree.
Local Open Scope R_scope.

(* ---- C91 ---- *)
Theorem C91_double : forall text v, ty_read ty_double text = RdOk (VDouble v) <->
  exists neg ip fp ex x, leading_float text neg ip fp ex /\ denotes neg ip fp ex x /\ is_nearest neg x v.
Proof.
  intros text v. rewrite <- (read_fp_spec 53 1024 prec64 emax64). cbn [ty_double ty_read]. unfold read_double.
  destruct (read_fp 53 1024 prec64 emax64 text); cbn; split; congruence.
Qed.
Print Assumptions C91_double.
Theorem C91_float : forall text v, ty_read ty_float text = RdOk (VFloat v) <->
  exists neg ip fp ex x, leading_float text neg ip fp ex /\ denotes neg ip fp ex x /\ is_nearest neg x v.
Proof.
  intros text v. rewrite <- (read_fp_spec 24 128 prec32 emax32). cbn [ty_float ty_read]. unfold read_float.
  destruct (read_fp 24 128 prec32 emax32 text); cbn; split; congruence.
Qed.
Print Assumptions C91_float.
(* no other double (float) is nearer to the number x of the text *)
Theorem C91_nearest : forall neg x (v w : double), is_nearest neg x v -> Rabs (real_of v - x) <= Rabs (real_of w - x).
Proof. intros neg x v w N. exact (nearest_best 53 1024 prec64 x v w neg N). Qed.
Print Assumptions C91_nearest.
Theorem C91_nearest_float : forall neg x (v w : single), is_nearest neg x v -> Rabs (B2R v - x) <= Rabs (B2R w - x).
Proof. intros neg x v w N. exact (nearest_best 24 128 prec32 x v w neg N). Qed.
Print Assumptions C91_nearest_float.
(* on the command line, whatever the text looks like *)
Theorem C91_option : forall s tok o a test text neg ip fp ex x v,
  leading_float text neg ip fp ex -> denotes neg ip fp ex x -> is_nearest neg x v ->
  settled s -> names s tok o -> o_kind o = KScalar ty_double a test -> test (VDouble v) = true ->
  exists s', parse_list s [tok; text] = Ok (true, s') /\ mem s' a = VDouble v /\ getPosArgs s' = getPosArgs s.
Proof.
  intros s tok o a test text neg ip fp ex x v L D N H Nm K T.
  assert (RD : ty_read ty_double text = RdOk (VDouble v)) by (apply C91_double; exists neg, ip, fp, ex, x; auto).
  destruct (c41_scalar s tok o a test ty_double eq_refl text (VDouble v) [] [] H Nm K RD T (R_end s [])) as (s' & P & A).
  exists s'. split; [exact P|]. rewrite (af_mem _ _ _ A). unfold getPosArgs. rewrite (af_pos _ _ _ A). cbn [flat_map stored word app].
  rewrite K, Nat.eqb_refl, !app_nil_r. split; reflexivity.
Qed.
Print Assumptions C91_option.
(* a text that does not begin with a numeral, or with one too large, is refused *)
Theorem C91_refused : forall s ts is tok o a test text rest, settled s ->
  reads s ts is (tok :: text :: rest) -> names s tok o -> o_kind o = KScalar ty_double a test -> o_signed o = true ->
  (forall neg ip fp ex x, leading_float text neg ip fp ex -> denotes neg ip fp ex x ->
     bpow radix2 1024 <= Rabs (nearest_even 53 1024 x)) ->
  exists s', parse_list s ts = Ok (false, s').
Proof.
  intros s ts is tok o a test text rest H RD N K SG Bad.
  assert (NA : forall v, ~ accepts o text v).
  { intros v Av. unfold accepts in Av. rewrite K in Av. destruct Av as (Av & _).
    destruct (ty_read ty_double text) eqn:E; [|discriminate]. injection Av as ->. cbn [ty_double ty_read] in E.
    destruct (read_double text) as [d|] eqn:R; [|discriminate]. unfold read_double in R. apply (read_fp_spec 53 1024) in R.
    destruct R as (neg & ip & fp & ex & x & L & D & (_ & _ & _ & B)). specialize (Bad _ _ _ _ _ L D). lra. }
  destruct (c37 s ts is tok o text rest (settled_reach s H) (settled_calm s H) RD N) as (s1 & s' & _ & P & _).
  - intros [b Q]. congruence.
  - intros _. right. exact SG.
  - exact NA.
  - exists s'. exact P.
Qed.
Print Assumptions C91_refused.
(* the same for float *)
Theorem C91_option_float : forall s tok o a test text neg ip fp ex x v,
  leading_float text neg ip fp ex -> denotes neg ip fp ex x -> is_nearest neg x v ->
  settled s -> names s tok o -> o_kind o = KScalar ty_float a test -> test (VFloat v) = true ->
  exists s', parse_list s [tok; text] = Ok (true, s') /\ mem s' a = VFloat v /\ getPosArgs s' = getPosArgs s.
Proof.
  intros s tok o a test text neg ip fp ex x v L D N H Nm K T.
  assert (RD : ty_read ty_float text = RdOk (VFloat v)) by (apply C91_float; exists neg, ip, fp, ex, x; auto).
  destruct (c41_scalar s tok o a test ty_float eq_refl text (VFloat v) [] [] H Nm K RD T (R_end s [])) as (s' & P & A).
  exists s'. split; [exact P|]. rewrite (af_mem _ _ _ A). unfold getPosArgs. rewrite (af_pos _ _ _ A). cbn [flat_map stored word app].
  rewrite K, Nat.eqb_refl, !app_nil_r. split; reflexivity.
Qed.
Print Assumptions C91_option_float.
Theorem C91_refused_float : forall s ts is tok o a test text rest, settled s ->
  reads s ts is (tok :: text :: rest) -> names s tok o -> o_kind o = KScalar ty_float a test -> o_signed o = true ->
  (forall neg ip fp ex x, leading_float text neg ip fp ex -> denotes neg ip fp ex x ->
     bpow radix2 128 <= Rabs (nearest_even 24 128 x)) ->
  exists s', parse_list s ts = Ok (false, s').
Proof.
  intros s ts is tok o a test text rest H RD N K SG Bad.
  assert (NA : forall v, ~ accepts o text v).
  { intros v Av. unfold accepts in Av. rewrite K in Av. destruct Av as (Av & _).
    destruct (ty_read ty_float text) eqn:E; [|discriminate]. injection Av as ->. cbn [ty_float ty_read] in E.
    destruct (read_float text) as [d|] eqn:R; [|discriminate]. unfold read_float in R. apply (read_fp_spec 24 128) in R.
    destruct R as (neg & ip & fp & ex & x & L & D & (_ & _ & _ & B)). specialize (Bad _ _ _ _ _ L D). lra. }
  destruct (c37 s ts is tok o text rest (settled_reach s H) (settled_calm s H) RD N) as (s1 & s' & _ & P & _).
  - intros [b Q]. congruence.
  - intros _. right. exact SG.
  - exact NA.
  - exists s'. exact P.
Qed.
Print Assumptions C91_refused_float.

(* the program of the examples: one option --gain / -g of type double *)
Definition o_gain := mkOpt 0 (lit "gain") "g" (lit "gain in dB") (lit "not a number") true true (KScalar ty_double 0 (fun _ => true)).
Definition r_gain := mkReg (lit "gain") "g"
  (fun s => add_def s ty_double 0 (lit "gain") "g" (VDouble dzero) (lit "gain in dB") (fun _ => true) (lit "not a number")).
Definition fdemo : st := rg_add r_gain (newOptions false (fun _ => VInt 99) (fun _ => [])).
Lemma fdemo_settled : settled fdemo.
Proof. unfold fdemo. apply ST_reg; [apply ST_new|constructor]. Qed.
Lemma fdemo_gain : names fdemo (lit "-g") o_gain.
Proof. apply (N_short fdemo "g" []); [discriminate|discriminate|reflexivity]. Qed.
Example C91_nonvacuous : settled fdemo /\ names fdemo (lit "-g") o_gain /\
  (* -1.25; the nearest double to 0.1; the smallest positive double *)
  (exists v neg ip fp ex x s', leading_float (lit " -.125e1x") neg ip fp ex /\ denotes neg ip fp ex x /\ is_nearest neg x v /\
  B2SF v = SpecFloat.S754_finite true 5629499534213120 (-52) /\
  parse_list fdemo [lit "-g"; lit " -.125e1x"] = Ok (true, s') /\ mem s' 0 = VDouble v) /\
  (exists v, ty_read ty_double (lit "0.1") = RdOk (VDouble v) /\ B2SF v = B2SF d0_1) /\
  (exists v, ty_read ty_double (lit "2.5e-324") = RdOk (VDouble v) /\ B2SF v = SpecFloat.S754_finite false 1 (-1074)) /\
  (exists v, ty_read ty_float (lit "16777217") = RdOk (VFloat v) /\ B2SF v = SpecFloat.S754_finite false 8388608 1) /\
  (exists v, ty_read ty_double (lit "1e309") = RdFail (Some v)) /\ (exists v, ty_read ty_double (lit "1e") = RdFail (Some v)) /\
  (exists s', parse_list fdemo [lit "-g"; lit "1e309"] = Ok (false, s')) /\ (exists s', parse_list fdemo [lit "-g"; lit "x"] = Ok (false, s')).
Proof.
  split; [exact fdemo_settled|]. split; [exact fdemo_gain|].
  assert (RB : forall s v, ty_read ty_double (lit s) = RdOk (VDouble v) -> exists neg ip fp ex x s',
     leading_float (lit s) neg ip fp ex /\ denotes neg ip fp ex x /\ is_nearest neg x v /\
  parse_list fdemo [lit "-g"; lit s] = Ok (true, s') /\ mem s' 0 = VDouble v).
  { intros s v H. apply C91_double in H. destruct H as (neg & ip & fp & ex & x & L & D & N).
    destruct (C91_option fdemo (lit "-g") o_gain 0 (fun _ => true) (lit s) neg ip fp ex x v L D N fdemo_settled fdemo_gain eq_refl eq_refl)
      as (s' & P & M & _). exists neg, ip, fp, ex, x, s'. auto. }
  split.
  { set (t := " -.125e1x"%string). destruct (ty_read ty_double (lit t)) as [[| | | | |v]|] eqn:E; try (vm_compute in E; discriminate).
    assert (B : B2SF v = SpecFloat.S754_finite true 5629499534213120 (-52)).
    { assert (X : match ty_read ty_double (lit t) with RdOk (VDouble v) => B2SF v | _ => SpecFloat.S754_nan end =
        SpecFloat.S754_finite true 5629499534213120 (-52)) by (vm_compute; reflexivity). rewrite E in X. exact X. }
    destruct (RB t v E) as (neg & ip & fp & ex & x & s' & ? & ? & ? & ? & ?). exists v, neg, ip, fp, ex, x, s'. auto 9. }
  split; [eexists; split; vm_compute; reflexivity|]. split; [eexists; split; vm_compute; reflexivity|].
  split; [eexists; split; vm_compute; reflexivity|].
  split; [eexists; vm_compute; reflexivity|]. split; [eexists; vm_compute; reflexivity|].
  assert (NR : forall text, (forall v, ty_read ty_double text <> RdOk v) -> exists s', parse_list fdemo [lit "-g"; text] = Ok (false, s')).
  { intros text H. apply (C91_refused fdemo [lit "-g"; text] [] (lit "-g") o_gain 0 (fun _ => true) text [] fdemo_settled (R_end _ _) fdemo_gain eq_refl eq_refl).
    intros neg ip fp ex x L D. destruct (Rle_or_lt (bpow radix2 1024) (Rabs (nearest_even 53 1024 x))) as [Q|Q]; [exact Q|exfalso].
    assert (Q2 := Rlt_bool_true _ _ Q). destruct D as (n & V & X).
    assert (O := dec_to_float_ok 53 1024 prec64 emax64 neg n (ex - Z.of_nat (length fp)) x X). rewrite Q2 in O.
    apply (H (VDouble (dec_to_float 53 1024 neg n (ex - Z.of_nat (length fp))))). apply C91_double. exists neg, ip, fp, ex, x.
    split; [exact L|]. split; [exists n; auto|exact O]. }
  split; apply NR; intros v; vm_compute; discriminate.
Qed.

(* ---- C92: printed by Format, read back by Options ---- *)
Lemma option_reads s tok o a test text (v : double) : read_double text = RdOk v ->
  settled s -> names s tok o -> o_kind o = KScalar ty_double a test -> test (VDouble v) = true ->
  exists s', parse_list s [tok; text] = Ok (true, s') /\ mem s' a = VDouble v.
Proof.
  intros RD H N K T. assert (RD' : ty_read ty_double text = RdOk (VDouble v)) by (cbn [ty_double ty_read]; rewrite RD; reflexivity).
  apply C91_double in RD' as (neg & ip & fp & ex & x & L & D & Nr).
  destruct (C91_option s tok o a test text neg ip fp ex x v L D Nr H N K T) as (s' & P & M & _). eauto.
Qed.
Lemma back_opt fm im sep fuel f f' text (v : double) w sd s tok o a test :
  (exists t, addF_text fuel sep v fm w sd = Some (Ok t) /\ read_double t = RdOk v) ->
  newFormat im (lit "%0") = Ok f -> addF fuel sep f v fm w sd = Some (Ok f') -> fmt_str f' false = Ok text ->
  settled s -> names s tok o -> o_kind o = KScalar ty_double a test -> test (VDouble v) = true ->
  exists s', parse_list s [tok; text] = Ok (true, s') /\ mem s' a = VDouble v.
Proof.
  intros (t & E & RD) NF AF FS H N K T. rewrite (addF_text_ok _ _ f _ _ _ _ _ E) in AF. injection AF as <-.
  rewrite (one_field im f t text NF FS). apply (option_reads s tok o a test); assumption.
Qed.
(* 's' with at least 16 digits after the point: every finite double, zeros with their signs included *)
Theorem C92_scientific : forall im sep fuel f f' text (v : double) w sd s tok o a test,
  finite v -> (16 <= sd < two31)%Z -> (0 <= requested w sd < two31)%Z ->
  newFormat im (lit "%0") = Ok f -> addF fuel sep f v "s" w sd = Some (Ok f') -> fmt_str f' false = Ok text ->
  settled s -> names s tok o -> o_kind o = KScalar ty_double a test -> test (VDouble v) = true ->
  exists s', parse_list s [tok; text] = Ok (true, s') /\ mem s' a = VDouble v.
Proof. intros. apply (back_opt "s" im sep fuel f f' text v w sd s tok o a test); auto using sci_back. Qed.
Print Assumptions C92_scientific.
(* 'g' with at least 17 significant digits *)
Theorem C92_general : forall im sep fuel f f' text (v : double) w sd s tok o a test,
  finite v -> real_of v <> 0 -> (17 <= sd < two31)%Z -> (0 <= requested w sd < two31)%Z ->
  newFormat im (lit "%0") = Ok f -> addF fuel sep f v "g" w sd = Some (Ok f') -> fmt_str f' false = Ok text ->
  settled s -> names s tok o -> o_kind o = KScalar ty_double a test -> test (VDouble v) = true ->
  exists s', parse_list s [tok; text] = Ok (true, s') /\ mem s' a = VDouble v.
Proof. intros. apply (back_opt "g" im sep fuel f f' text v w sd s tok o a test); auto using gen_back. Qed.
Print Assumptions C92_general.
(* 'f' with enough digits to print the value exactly *)
Theorem C92_fixed : forall im sep fuel f f' text (v : double) w sd z s tok o a test,
  finite v -> real_of v = IZR z * powerRZ 10 (- sd) -> (0 <= sd < two31)%Z -> (0 <= requested w sd < two31)%Z ->
  newFormat im (lit "%0") = Ok f -> addF fuel sep f v "f" w sd = Some (Ok f') -> fmt_str f' false = Ok text ->
  settled s -> names s tok o -> o_kind o = KScalar ty_double a test -> test (VDouble v) = true ->
  exists s', parse_list s [tok; text] = Ok (true, s') /\ mem s' a = VDouble v.
Proof. intros. apply (back_opt "f" im sep fuel f f' text v w sd s tok o a test); auto. eapply fixed_back; eauto. Qed.
Print Assumptions C92_fixed.
(* the digit counts cannot be lowered *)
Definition d0_30 : double := dbl false 5404319552844596 (-54) eq_refl.             (* 0.30000000000000004 *)
Theorem C92_sharp : exists v, finite v /\ forall sep fuel,
  (exists t v', addF_text fuel sep v "s" 0 15 = Some (Ok t) /\ read_double t = RdOk v' /\ real_of v' <> real_of v) /\
  (exists t v', addF_text fuel sep v "g" 0 16 = Some (Ok t) /\ read_double t = RdOk v' /\ real_of v' <> real_of v).
Proof.
  exists d0_30. split; [reflexivity|]. intros sep fuel.
  assert (T : forall t, match read_double t with RdOk v' => if is_finite v' then SpecFloat.SFcompare (B2SF v') (B2SF d0_30) else None | _ => None end = Some Lt ->
    exists v', read_double t = RdOk v' /\ real_of v' <> real_of d0_30).
  { intros t H. destruct (read_double t) as [v'|]; [|discriminate]. exists v'. split; [reflexivity|]. intros Q.
    destruct (is_finite v') eqn:Fv; [|discriminate].
    assert (C := Bcompare_correct 53 1024 v' d0_30 Fv eq_refl). unfold Bcompare in C. rewrite H in C. injection C as C.
    change (B2R v' = B2R d0_30) in Q. rewrite Q, Rcompare_Eq in C by reflexivity. discriminate. }
  split.
  - set (t := lit "3.000000000000000e-01"). destruct (T t) as (v' & R & N); [vm_compute; reflexivity|].
    exists t, v'. split; [vm_compute; reflexivity|auto].
  - set (t := lit "0.3                 "). destruct (T t) as (v' & R & N); [vm_compute; reflexivity|].
    exists t, v'. split; [vm_compute; reflexivity|auto].
Qed.
Print Assumptions C92_sharp.
Example C92_nonvacuous : finite d0_30 /\ real_of d0_30 <> 0 /\ requested 0 17 = 21%Z /\
  real_of (dlit 5) = IZR 50 * powerRZ 10 (- (1)) /\
  (exists f f', newFormat Glibc (lit "%0") = Ok f /\ addF 0 "."%char f d0_30 "s" 0 17 = Some (Ok f') /\
    fmt_str f' false = Ok (lit "3.00000000000000044e-01")) /\
  (exists f f', newFormat Glibc (lit "%0") = Ok f /\ addF 0 "."%char f d0_30 "g" 0 17 = Some (Ok f') /\
    fmt_str f' false = Ok (lit "0.30000000000000004  ")) /\
  settled fdemo /\ names fdemo (lit "-g") o_gain.
Proof.
  split; [reflexivity|]. split; [apply F2R_neq_0; discriminate|]. split; [reflexivity|].
  split; [rewrite (proj2 (dlit_ok 5 ltac:(lia))); simpl; field|].
  split; [eexists; eexists; split; [reflexivity|]; split; [vm_compute; reflexivity|vm_compute; reflexivity]|].
  split; [eexists; eexists; split; [reflexivity|]; split; [vm_compute; reflexivity|vm_compute; reflexivity]|].
  split; [exact fdemo_settled|exact fdemo_gain].
Qed.

(* ---- C93: the engineering format read back ---- *)
Theorem C93_engineering : forall im sep f f' text (v : double) w sd s tok o a test,
  finite v -> powerRZ 2 (-1015) <= Rabs (real_of v) <= powerRZ 2 1023 -> (1 <= sd <= 7)%Z ->
  newFormat im (lit "%0") = Ok f -> addF 501 sep f v "e" w sd = Some (Ok f') -> fmt_str f' false = Ok text ->
  settled s -> names s tok o -> o_kind o = KScalar ty_double a test -> (forall y, test y = true) ->
  exists s' y, parse_list s [tok; text] = Ok (true, s') /\ mem s' a = VDouble y /\
    Rabs (real_of y - real_of v) <= (5 * powerRZ 10 (- sd) + powerRZ 2 (-52)) * Rabs (real_of v).
Proof.
  intros im sep f f' text v w sd s tok o a test F B Hs NF AF FS H N K T.
  destruct (eng_back sep v w sd F B Hs) as (t & y & E & RD & Er). rewrite (addF_text_ok _ _ f _ _ _ _ _ E) in AF. injection AF as <-.
  rewrite (one_field im f t text NF FS).
  destruct (option_reads s tok o a test t y RD H N K (T _)) as (s' & P & M). exists s', y. auto.
Qed.
Print Assumptions C93_engineering.
Example C93_nonvacuous : finite d1234 /\ powerRZ 2 (-1015) <= Rabs (real_of d1234) <= powerRZ 2 1023 /\
  (exists f f', newFormat Glibc (lit "%0") = Ok f /\ addF 501 "."%char f d1234 "e" 12 6 = Some (Ok f') /\
    fmt_str f' false = Ok (lit "-1.23457e+3   ")) /\ settled fdemo /\ names fdemo (lit "-g") o_gain.
Proof.
  split; [reflexivity|]. split.
  { rewrite <- !(bpow_powerRZ radix2). unfold d1234, dbl, real_of. cbn [B2R]. rewrite <- F2R_Zabs. cbn [SpecFloat.cond_Zopp Z.opp Z.abs]. unfold F2R. cbn [Fnum Fexp]. split.
    - apply Rle_trans with (bpow radix2 0 * bpow radix2 (-42)); [rewrite <- bpow_plus; apply bpow_le; lia|].
      apply Rmult_le_compat_r; [apply bpow_ge_0|]. apply (IZR_le 1). lia.
    - apply Rle_trans with (bpow radix2 53 * bpow radix2 (-42)); [|rewrite <- bpow_plus; apply bpow_le; lia].
      apply Rmult_le_compat_r; [apply bpow_ge_0|]. apply (IZR_le _ (2 ^ 53)). lia. }
  split; [eexists; eexists; split; [reflexivity|]; split; [vm_compute; reflexivity|vm_compute; reflexivity]|].
  split; [exact fdemo_settled|exact fdemo_gain].
Qed.

(* ---- C94: PropNode::get<double> ---- *)
Theorem C94_get_double : forall nk l m text ty te v, terminal_with (tree nk l) m text ->
  (node_get read_double ty (tree nk l) m te = (Some v, Ok true) <->
   exists neg ip fp ex x, leading_float text neg ip fp ex /\ denotes neg ip fp ex x /\ is_nearest neg x v).
Proof.
  intros nk l m text ty te v (n & E & _ & V). unfold node_get. rewrite E, V. rewrite <- (read_fp_spec 53 1024 prec64 emax64).
  fold (read_double text).
  destruct (read_double text) as [y|y]; split; intros H.
  - injection H as ->. reflexivity.
  - injection H as ->. reflexivity.
  - exfalso. apply (f_equal snd) in H. cbn [snd] in H. destruct te; [|discriminate]. destruct (getPathName (tree nk l) m); discriminate.
  - discriminate.
Qed.
Print Assumptions C94_get_double.
(* otherwise it returns false or throws; what it then leaves in the variable *)
Theorem C94_no_number : forall nk l ks m text ty te, follows (tree nk l) root ks m -> terminal_with (tree nk l) m text ->
  (forall neg ip fp ex x, leading_float text neg ip fp ex -> denotes neg ip fp ex x ->
     bpow radix2 1024 <= Rabs (nearest_even 53 1024 x)) ->
  snd (node_get read_double ty (tree nk l) m te) =
    (if te then Throw (badPropertyType (repeat ":"%char (length ks) ++ text) ty text) else Ok false) /\
  (let y := fst (node_get read_double ty (tree nk l) m te) in
   y = None \/ y = Some (B754_zero false) \/ exists d, y = Some d /\ Rabs (real_of d) = (powerRZ 2 53 - 1) * powerRZ 2 971).
Proof.
  intros nk l ks m text ty te F (n & E & Tm & V) Bad.
  assert (GP : getPathName (tree nk l) m = Ok (repeat ":"%char (length ks) ++ text)).
  { destruct (c77_partial nk l ks m F) as [(_ & x & Ex & Tx)|(s & (x & Ex & _ & Vx) & G)]; [congruence|].
    assert (s = text) by congruence. congruence. }
  unfold node_get. rewrite E, V, GP. cbn [obind].
  destruct (read_double text) as [y|y] eqn:RD; unfold read_double in RD.
  - apply (read_fp_spec 53 1024) in RD as (neg & ip & fp & ex & x & L & D & (_ & _ & _ & B)). specialize (Bad _ _ _ _ _ L D). lra.
  - split; [reflexivity|]. cbn [fst]. apply (read_fp_fail 53 1024 prec64 emax64) in RD as [->|[->|(neg & ip & fp & ex & x & _ & _ & _ & ->)]]; auto.
    right. right. eexists. split; [reflexivity|]. change real_of with (@B2R 53 1024).
    assert (P : forall d : double, B2SF d = SpecFloat.S754_finite false 9007199254740991 971 -> Rabs (B2R d) = (powerRZ 2 53 - 1) * powerRZ 2 971).
    { intros d H. destruct d; try discriminate. injection H as -> -> ->. cbn [B2R SpecFloat.cond_Zopp]. unfold F2R. cbn [Fnum Fexp].
      rewrite Rabs_pos_eq by (apply Rmult_le_pos; [apply (IZR_le 0); lia|apply bpow_ge_0]).
      rewrite <- !(bpow_powerRZ radix2). f_equal. change (bpow radix2 53) with (IZR (2 ^ 53)). rewrite <- minus_IZR. reflexivity. }
    destruct neg; [rewrite (B2R_Bopp 53 1024), Rabs_Ropp|]; apply P; reflexivity.
Qed.
Print Assumptions C94_no_number.
Example C94_nonvacuous : let h := tree None [Loaded (YMap [(YScalar (lit "f0"), YScalar (lit "7.2e6 Hz")); (YScalar (lit "id"), YScalar (lit "x"))])] in
  terminal_with h 1 (lit "7.2e6 Hz") /\ (exists v, node_get read_double (lit "d") h 1 true = (Some v, Ok true) /\ B2SF v = B2SF (dlit 7200000)) /\
  follows h root [lit "id"] 2 /\ terminal_with h 2 (lit "x") /\
  node_get read_double (lit "d") h 2 true = (Some (B754_zero false), Throw (badPropertyType (lit ":x") (lit "d") (lit "x"))).
Proof.
  split; [eexists; repeat split|]. split; [eexists; split; vm_compute; reflexivity|].
  split; [econstructor; [reflexivity|right; left; reflexivity|constructor; cbn; lia]|].
  split; [eexists; repeat split|vm_compute; reflexivity].
Qed.
