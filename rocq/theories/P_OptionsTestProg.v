(* P_OptionsTestProg.v -- C143: what the PASS of the test program OptionsTest tells *)
From Coq Require Import Reals Lra.
From Flocq Require Import IEEE754.BinarySingleNaN.
From Verif Require Import Base M_Stream M_StreamFloat M_Float M_Format M_Options M_OptionsExample M_OptionsTestProg.
From Verif Require Import S_Num S_Options S_OptionsExample S_OptionsTestProg L_Num L_Map L_OptionsT C_Options C_OptionsExample C_BarrierUse
  L_OptionsTestProg C_OptionsTestProg.

(* ---- C143 ---- *)
(* with arguments: the last value of --sva is shown, and PASS is printed
   whether or not the line is in order; only std::cerr tells *)
Theorem C143_arguments_partial : forall dec A prog ts vs rest, (forall z, int_numeral_of z (dec z)) ->
  (0 < length ts)%nat -> t_line ts vs rest -> t_complete rest \/ t_stuck rest ->
  exists err, ot_main A (prog :: ts) =
    Ok (mkRun 0 (lines [lit "argc = " ++ dec (Z.of_nat (length ts) + 1)%Z; lit "Why are we here?";
                        lit "!!!! s_val = ??? [" ++ last vs [] ++ lit "]"; lit "PASS"]) err) /\
    (err = [] <-> t_complete rest).
Proof.
  intros dec A prog ts vs rest D N L E. destruct (y_parse ts vs rest L E) as (ok & s' & P & M & C1 & C2). exists (cerr s'). split.
  - unfold ot_main. cbv zeta. destruct (Z.ltb_spec (Z.of_nat (length (prog :: ts))) 2) as [H|H]; [cbn [length] in H; lia|].
    unfold parse_argv. pose proof (argv_tokens prog ts []) as T. rewrite app_nil_r in T. cbn [length] in T |- *. rewrite T. cbn [obind].
    change (is_kvp ot_options) with false. cbv iota. rewrite P. cbn [obind]. rewrite M, (dec_put dec D). cbn [ex_put].
    replace (Z.of_nat (length ts) + 1)%Z with (Z.of_nat (S (length ts))) by lia.
    unfold lines. cbn [flat_map]. repeat rewrite <- app_assoc. rewrite app_nil_r. reflexivity.
  - split; [|intros C; apply (C1 C)]. intros Z. destruct E as [E|E]; [exact E|]. elim (proj2 (C2 E) Z).
Qed.
Print Assumptions C143_arguments_partial.
(* every line is such a line *)
Theorem C143_every_line_partial : forall ts, exists vs rest, t_line ts vs rest /\ (t_complete rest \/ t_stuck rest).
Proof. exact y_total. Qed.
Print Assumptions C143_every_line_partial.
(* a line that parse refuses, and the program says PASS *)
Theorem C143_pass_refuted : forall A prog v, ~ i32_text v -> exists out err s,
  t_stuck [lit "--sint"; v] /\ parse_argv ot_options 3 [prog; lit "--sint"; v] = Ok (false, s) /\
  ot_main A [prog; lit "--sint"; v] = Ok (mkRun 0 (out ++ lit "PASS" ++ ["010"%char]) err) /\ err <> [].
Proof.
  intros A prog v W. assert (ST : t_stuck [lit "--sint"; v]).
  { right. right. exists (lit "--sint"), v, []. split; [reflexivity|]. right. left. split; [left; left; reflexivity|exact W]. }
  destruct (y_parse [lit "--sint"; v] [] _ (TP_end _) (or_intror ST)) as (ok & s & P & M & _ & C2). destruct (C2 ST) as [-> NE].
  assert (T : parse_argv ot_options 3 [prog; lit "--sint"; v] = Ok (false, s)).
  { unfold parse_argv. cbn [buildTokenList_argv Z.ltb Z.compare Pos.compare Pos.compare_cont obind args_from Z.to_nat Z.sub Z.add Z.opp Z.pos_sub Pos.pred_double Pos.to_nat Pos.iter_op Nat.add tl]. exact P. }
  exists (lit "argc = 3" ++ ["010"%char] ++ lit "Why are we here?" ++ ["010"%char] ++ lit "!!!! s_val = ??? [" ++ [] ++ lit "]" ++ ["010"%char]), (cerr s), s.
  split; [exact ST|]. split; [exact T|]. split; [|exact NE].
  unfold ot_main. cbv zeta. change (Z.of_nat (length [prog; lit "--sint"; v])) with 3%Z. change (3 <? 2)%Z with false. cbv iota.
  rewrite T. cbn [obind]. rewrite M. cbn [last ex_put]. repeat rewrite <- app_assoc. reflexivity.
Qed.
Print Assumptions C143_pass_refuted.
(* without arguments: the library passes its test *)
Theorem C143_own_test_partial : forall prog,
  ot_main ot_library [prog] = Ok (mkRun 0 (lines [lit "argc = 1"; lit "We are in here."; lit "PASS"]) []).
Proof. intros prog. vm_compute. reflexivity. Qed.
Print Assumptions C143_own_test_partial.

Lemma note_fst b t r : fst (ot_note b t r) = fst r && negb b.
Proof. unfold ot_note. destruct b; cbn; [rewrite andb_false_r|rewrite andb_true_r]; reflexivity. Qed.
Lemma note_snd b t r : b = false -> ot_note b t r = r.
Proof. intros ->. reflexivity. Qed.
Lemma int_bad v z : ot_int_bad v z = false <-> v = VInt z.
Proof.
  unfold ot_int_bad. destruct v; try (split; discriminate). destruct (Z.eqb_spec z0 z); cbn; split; congruence.
Qed.
Lemma str_bad v t : ot_str_bad v t = false <-> v = VStr t.
Proof.
  unfold ot_str_bad. destruct v; try (split; discriminate). destruct (str_eqb_spec s t); cbn; split; congruence.
Qed.
Lemma f0_bad v : ot_float_bad dadd v = false <-> near v (- about_1p1) \/ not_a_number v.
Proof.
  unfold near, not_a_number. destruct v as [| | | |x|]; try (split; [discriminate|intros [(? & ? & _)|?]; discriminate]).
  destruct (is_finite x) eqn:F.
  - rewrite float_bad_add by exact F. change r1p1 with about_1p1. change r1em6 with about_1em6. split.
    + intros H. left. exists x. repeat split; auto. replace (B2R x - - about_1p1)%R with (B2R x + about_1p1)%R by lra. exact H.
    + intros [(y & [= <-] & _ & H)|[= ->]]; [|discriminate]. replace (B2R x + about_1p1)%R with (B2R x - - about_1p1)%R by lra. exact H.
  - destruct x as [| | |]; try discriminate.
    + rewrite float_bad_inf by auto. split; [discriminate|intros [(y & [= <-] & X & _)|?]; discriminate].
    + rewrite float_bad_nan by auto. tauto.
Qed.
Lemma f1_bad v : ot_float_bad dsub v = false <-> near v about_1p1 \/ not_a_number v.
Proof.
  unfold near, not_a_number. destruct v as [| | | |x|]; try (split; [discriminate|intros [(? & ? & _)|?]; discriminate]).
  destruct (is_finite x) eqn:F.
  - rewrite float_bad_sub by exact F. change r1p1 with about_1p1. change r1em6 with about_1em6. split.
    + intros H. left. exists x. auto.
    + intros [(y & [= <-] & _ & H)|[= ->]]; [exact H|discriminate].
  - destruct x as [| | |]; try discriminate.
    + rewrite float_bad_inf by auto. split; [discriminate|intros [(y & [= <-] & X & _)|?]; discriminate].
    + rewrite float_bad_nan by auto. tauto.
Qed.
(* for any library: the test looks at these values and counts, and at nothing
   else.  It hands parse main's object, with si_val set to 0. *)
Theorem C143_looks_at_partial : forall A prog ok s,
  a_parse A (set_mem ot_options 2 (VInt 0)) test_line = Ok (ok, s) ->
  exists good err, ot_main A [prog] =
    Ok (mkRun 0 (lines [lit "argc = 1"; lit "We are in here."; if good : bool then lit "PASS" else lit "FAIL"]) err) /\
    (good = true <-> passes (a_num A s) (a_all A s) ok s) /\ (good = true -> err = cerr s).
Proof.
  intros A prog ok s P. unfold ot_main. cbv zeta. change (Z.of_nat (length [prog])) with 1%Z. change (1 <? 2)%Z with true. cbv iota.
  unfold testPosArgs. change (merge ot_arglist ot_poslist) with (test_line, @nil str). cbv zeta iota. rewrite P. cbn [obind ot_loop].
  match goal with |- context [ot_note ?b ?t ?r] => match goal with |- context [fst (ot_note b t r)] => set (g := ot_note b t r) end end.
  exists (fst g), (snd g). split; [|].
  { unfold lines. cbn [flat_map]. repeat rewrite <- app_assoc. rewrite app_nil_r. reflexivity. }
  assert (G : fst g = true <-> passes (a_num A s) (a_all A s) ok s).
  { unfold g. rewrite !note_fst. cbn [fst]. unfold passes. rewrite !andb_true_iff, !negb_true_iff, !int_bad, f0_bad, f1_bad, !str_bad.
    rewrite !negb_false_iff, Z.eqb_eq, Nat.eqb_eq. tauto. }
  split; [exact G|]. intros T. unfold g in T. rewrite !note_fst in T. cbn [fst] in T. rewrite !andb_true_iff, !negb_true_iff in T.
  decompose [and] T. unfold g. rewrite !note_snd by assumption. reflexivity.
Qed.
Print Assumptions C143_looks_at_partial.
(* so a library passes that hands out any three words and whose getPosArg
   does anything at all ... *)
Theorem C143_blind_refuted : forall words one prog, length words = 3 ->
  ot_main (mkApi parse_list numPosArgs (fun _ => words) one) [prog] =
  Ok (mkRun 0 (lines [lit "argc = 1"; lit "We are in here."; lit "PASS"]) []).
Proof.
  intros words one prog L. destruct words as [|a [|b [|c [|d w]]]]; try discriminate L. vm_compute. reflexivity.
Qed.
Print Assumptions C143_blind_refuted.
(* ... or one that stores no number for -1.1 and 1.1 *)
Theorem C143_nan_refuted : forall prog, let nan := VFloat B754_nan in
  ot_main (mkApi (fun s ts => do p <- parse_list s ts; Ok (fst p, set_mem (set_mem (snd p) 4 nan) 5 nan)) numPosArgs getPosArgs getPosArg) [prog] =
  Ok (mkRun 0 (lines [lit "argc = 1"; lit "We are in here."; lit "PASS"]) []).
Proof. intros prog nan. vm_compute. reflexivity. Qed.
Print Assumptions C143_nan_refuted.
Example C143_nonvacuous :
  (* a line with every kind of option, stopped by a wrong value *)
  (let ts := [lit "--sva"; lit "--x"; lit "-p"; lit "word"; lit "--sla"; lit "-s"; lit "last"; lit "-b"; lit "true"; lit "--uint"; lit "seven"] in
   (0 < length ts)%nat /\ t_line ts [lit "--x"; lit "last"] [lit "--uint"; lit "seven"] /\ t_stuck [lit "--uint"; lit "seven"]) /\
  ~ i32_text (lit "seven") /\
  (* the library's own parse, for C143_looks_at_partial *)
  (exists s, a_parse ot_library (set_mem ot_options 2 (VInt 0)) test_line = Ok (true, s) /\ passes (a_num ot_library s) (a_all ot_library s) true s) /\
  (* a library that reads -3 as 3 fails *)
  ot_main (mkApi (fun s ts => do p <- parse_list s ts; Ok (fst p, set_mem (snd p) 2 (VInt 3))) numPosArgs getPosArgs getPosArg) [lit "OptionsTest"] =
  Ok (mkRun 0 (lines [lit "argc = 1"; lit "We are in here."; lit "FAIL"]) (lines [lit "testPosArgs bad si_val"])).
Proof.
  assert (NI : ~ i32_text (lit "seven")).
  { rewrite y_int_text. intros (v & H). vm_compute in H. discriminate. }
  split; [|split; [exact NI|split]].
  - cbv zeta. split; [cbn; lia|]. split.
    + apply TP_sva; [left; reflexivity|]. apply TP_pres; [right; exists []; reflexivity|].
      apply TP_word; [intros [(c & r & [=] & _)|(c & r & [=])]|].
      apply TP_bare; [left; left; reflexivity|left; exists "s"%char, []; split; [reflexivity|discriminate]|].
      apply TP_sva; [right; exists []; reflexivity|].
      apply (TP_boo _ _ true); [right; exists []; reflexivity|left; split; [reflexivity|]|apply TP_end]. 
      exists (lit "rue"). left. reflexivity.
    + right. right. exists (lit "--uint"), (lit "seven"), []. split; [reflexivity|]. right. left. split; [right; left; reflexivity|exact NI].
  - destruct (parse_defined (set_mem ot_options 2 (VInt 0)) test_line) as (ok & s & P).
    destruct (C143_looks_at_partial ot_library (lit "x") ok s P) as (good & err & R & G & _).
    rewrite C143_own_test_partial in R. destruct good; [|apply (f_equal (fun o => match o with Ok r => r_out r | _ => [] end)) in R; cbv in R; discriminate].
    pose proof (proj1 G eq_refl) as G1. assert (ok = true) by apply G1. subst ok. exists s. split; [exact P|exact G1].
  - vm_compute. reflexivity.
Qed.
