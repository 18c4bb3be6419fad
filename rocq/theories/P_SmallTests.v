(* P_SmallTests.v -- what the success of test/SplitTest.cxx and of
   test/FormatHexTest.cxx tells about the library. *)
From Verif Require Import Base M_Stream M_Split M_Format L_Map M_SmallTests S_SmallTests L_SmallTests.

(* ---- SplitTest: any two functions in the place of splitVec and split ---- *)
(* The claim that PASS means that both returned the three fields is false: a
   split that never returns anything passes, and so does a splitVec that
   returns more fields. *)
Theorem C147_pass_refuted : forall extra, exists vec lst : str -> str -> outcome (list str),
  (forall s d, lst s d = Ok []) /\ (forall s d, vec s d = Ok (three_fields ++ extra)) /\
  split_test vec lst = Ok true.
Proof.
  intros extra. exists (fun _ _ => Ok (three_fields ++ extra)), (fun _ _ => Ok []). repeat split.
Qed.
Print Assumptions C147_pass_refuted.
(* What PASS tells exactly ... *)
Theorem C147_pass_partial : forall vec lst sv sl,
  vec (lit "this,that,the other thing") (lit ",") = Ok sv -> lst (lit "this,that,the other thing") (lit ",") = Ok sl ->
  (split_test vec lst = Ok true <->
   (exists more, sv = three_fields ++ more) /\ (exists rest, three_fields = sl ++ rest)).
Proof.
  intros vec lst sv sl Ev El. unfold split_test. change comma_test with (lit "this,that,the other thing"). rewrite Ev, El. cbn [obind].
  change comma_ref with three_fields. split.
  - destruct (check_vec three_fields sv true) as [b|e|] eqn:E; cbn [obind]; [|discriminate|discriminate]. intros H.
    apply check_list_iff in H as (L & H). destruct (proj1 H eq_refl) as (-> & Hs). apply check_vec_iff in E as (_ & E).
    destruct (proj1 E eq_refl) as (_ & Hv). split.
    + exists (skipn (length three_fields) sv). rewrite <- Hv at 1. symmetry. apply firstn_skipn.
    + exists (skipn (length sl) three_fields). rewrite Hs at 1. symmetry. apply firstn_skipn.
  - intros ((more & ->) & (rest & R)).
    assert (E : check_vec three_fields (three_fields ++ more) true = Ok true).
    { apply check_vec_iff. split; [rewrite app_length; lia|]. split; [intros _; split; [reflexivity|]|auto]. rewrite firstn_app, Nat.sub_diag, firstn_all. apply app_nil_r. }
    rewrite E. cbn [obind]. apply check_list_iff. rewrite R. split; [rewrite app_length; lia|]. split; [intros _; split; [reflexivity|]|auto].
    rewrite firstn_app, Nat.sub_diag, firstn_all. symmetry. apply app_nil_r.
Qed.
Print Assumptions C147_pass_partial.
(* ... and when the program itself goes beyond the end of a vector. *)
Theorem C147_undefined_partial : forall vec lst sv sl,
  vec (lit "this,that,the other thing") (lit ",") = Ok sv -> lst (lit "this,that,the other thing") (lit ",") = Ok sl ->
  ((exists b, split_test vec lst = Ok b) <-> 3 <= length sv /\ length sl <= 3).
Proof.
  intros vec lst sv sl Ev El. unfold split_test. change comma_test with (lit "this,that,the other thing"). rewrite Ev, El. cbn [obind].
  split.
  - intros (b & H). destruct (check_vec comma_ref sv true) as [b1|e|] eqn:E; cbn [obind] in H; try discriminate.
    apply check_list_iff in H as (L & _). apply check_vec_iff in E as (L' & _). cbn in L, L'. auto.
  - intros (L' & L).
    assert (D : forall P : Prop, (P \/ ~ P) -> exists b : bool, b = true <-> P) by (intros P [H|H]; [exists true; tauto|exists false; split; [discriminate|contradiction]]).
    assert (Q : forall x y : list str, x = y \/ x <> y) by (intros x y; destruct (list_eq_dec (list_eq_dec Ascii.ascii_dec) x y); auto).
    destruct (D (true = true /\ firstn (length comma_ref) sv = comma_ref)) as (b & Hb); [destruct (Q (firstn (length comma_ref) sv) comma_ref); tauto|].
    assert (E : check_vec comma_ref sv true = Ok b) by (apply check_vec_iff; split; [exact L'|exact Hb]). rewrite E. cbn [obind].
    destruct (D (b = true /\ sl = firstn (length sl) comma_ref)) as (c & Hc); [destruct (Q sl (firstn (length sl) comma_ref)), b; intuition congruence|].
    exists c. apply check_list_iff. split; [exact L|exact Hc].
Qed.
Print Assumptions C147_undefined_partial.
(* the library passes *)
Theorem C147_library_passes : split_test (fun s d => splitVec s d false) (fun s d => split s d false) = Ok true.
Proof. vm_compute. reflexivity. Qed.
Print Assumptions C147_library_passes.
Example C147_nonvacuous : exists vec lst sv sl,
  vec (lit "this,that,the other thing") (lit ",") = Ok sv /\ lst (lit "this,that,the other thing") (lit ",") = Ok sl /\
  sv = three_fields ++ [lit "x"] /\ sl = [lit "this"] /\ split_test vec lst = Ok true /\
  split_test lst vec = UB /\ split_test vec (fun _ _ => Ok [lit "that"]) = Ok false.
Proof.
  exists (fun _ _ => Ok (three_fields ++ [lit "x"])), (fun _ _ => Ok [lit "this"]). do 2 eexists.
  split; [reflexivity|]. split; [reflexivity|]. split; [reflexivity|]. split; [reflexivity|]. split; [reflexivity|]. split; reflexivity.
Qed.

(* ---- FormatHexTest: any function in the place of Format::addU ---- *)
(* Exit code 0 exactly if the demands of 24 of the 25 lines are met ... *)
Theorem C148_exit_code_partial : forall p, hex_main p = Ok 0%Z <-> (forall d, In d checked -> met p d).
Proof.
  intros p. rewrite hex_main_iff.
  assert (E1 : map_of hex_lines = [(lit "0x0", (0%N, 0%Z)); (lit "0x000", (0%N, 3%Z)); (lit "0x0000", (0%N, 4%Z));
    (lit "0x0000000000000100", (256%N, 16%Z)); (lit "0x00000100", (256%N, 8%Z)); (lit "0x0100", (256%N, 4%Z)); (lit "0x100", (256%N, 0%Z))]) by (vm_compute; reflexivity).
  assert (E2 : map_of under_lines = [(lit "0x0", (0%N, 0%Z)); (lit "0x000", (0%N, 3%Z)); (lit "0x0000_0000_0000_0100", (256%N, 16%Z));
    (lit "0x0000_0100", (256%N, 8%Z)); (lit "0x0100", (256%N, 4%Z)); (lit "0x100", (256%N, 0%Z))]) by (vm_compute; reflexivity).
  assert (E3 : map_of dec_lines = [(lit "             100", (100%N, 16%Z)); (lit "     100", (100%N, 8%Z)); (lit "  0", (0%N, 3%Z));
    (lit " 100", (100%N, 4%Z)); (lit "0", (0%N, 0%Z)); (lit "100", (100%N, 0%Z))]) by (vm_compute; reflexivity).
  assert (E4 : map_of oct_lines = [(lit "0", (0%N, 0%Z)); (lit "000", (0%N, 3%Z)); (lit "0000000000000137", (95%N, 16%Z));
    (lit "00000137", (95%N, 8%Z)); (lit "0137", (95%N, 0%Z))]) by (vm_compute; reflexivity).
  rewrite E1, E2, E3, E4. rewrite !Forall_cons_iff. unfold line_ok. cbn [fst snd].
  rewrite <- Forall_forall. unfold checked. rewrite !Forall_cons_iff. unfold met, nul.
  assert (N1 : forall A (P : A -> Prop), Forall P [] <-> True) by (intros; split; auto). rewrite !N1. tauto.
Qed.
Print Assumptions C148_exit_code_partial.
(* ... the other line has the same text as the one before, and a std::map keeps
   only the first: a library that prints it wrong passes. *)
Theorem C148_all_lines_refuted : exists p, hex_main p = Ok 0%Z /\ In (lit "0137", (95%N, 4%Z)) oct_lines /\ ~ met p unchecked.
Proof.
  exists (fun v fm w sep => if ((v =? 95)%N && (w =? 4)%Z)%bool then Ok [] else lib_printer v fm w sep).
  split; [vm_compute; reflexivity|]. split; [right; right; right; left; reflexivity|]. unfold met, unchecked. cbn. discriminate.
Qed.
Print Assumptions C148_all_lines_refuted.
(* the library passes, and meets that demand too *)
Theorem C148_library_passes : hex_main lib_printer = Ok 0%Z /\ met lib_printer unchecked.
Proof. split; [vm_compute; reflexivity|]. unfold met, unchecked. vm_compute. reflexivity. Qed.
Print Assumptions C148_library_passes.
Example C148_nonvacuous : hex_main lib_printer = Ok 0%Z /\ hex_main (fun _ _ _ _ => Ok []) = Ok (-1)%Z /\ length checked = 24.
Proof. split; [vm_compute; reflexivity|]. split; reflexivity. Qed.
