(* P_OptionsTest.v -- C121, C122: test functions that look at the program, and
   test functions that throw *)
From Verif Require Import Base M_StreamIn M_Options M_OptionsTest S_Options S_OptionsTest L_Map L_Options L_OptionsI C_Options L_OptionsTest.

(* ---- C121 ---- *)
(* a line whose values are all accepted, each by a test that sees what the
   earlier items have done, is read as M_Options reads it *)
Theorem C121_tests_see_earlier : forall T s ts is s', ready T s -> reads_t T s ts is s' [] ->
  parse_list_t T s ts = Ok (Returned true, s') /\ after s s' is.
Proof.
  intros T s ts is s' R L. destruct (ready_inv T s R) as [I W]. split; [|eapply treads_after; exact L].
  destruct (tparse_ending T s ts is s' [] (inv_flags_unsigned s I) W L (Et_done T s')) as [[_ P]|[(tok & o & X & _)|[(tok & r & t & X & _)|[(tok & o & x & r & v & e & X & _)|(tok & o & x & r & t & X & _)]]]];
    [exact P|discriminate..].
Qed.
Print Assumptions C121_tests_see_earlier.
(* there is such a reading of every line, up to its end or to the first
   argument that is not understood ... *)
Theorem C121_every_line : forall T s ts, exists is s' rest, reads_t T s ts is s' rest /\ ending_t T s' rest /\ after s s' is.
Proof.
  intros T s ts. destruct (treads_total T (length ts) ts s (le_n _)) as (is & s' & rest & R & E).
  exists is, s', rest. repeat split; auto; eapply treads_after; exact R.
Qed.
Print Assumptions C121_every_line.
(* ... and a value whose test does not accept it, seeing that, ends the parse *)
Theorem C121_refused : forall T s ts is s1 tok o text rest, ready T s -> reads_t T s ts is s1 (tok :: text :: rest) ->
  names s1 tok o -> ~ is_flag o -> (looks_like_option text -> greedy o) ->
  (forall v, ~ judged T s1 o text v Accept) -> (forall v e, ~ judged T s1 o text v (Raise e)) ->
  exists s', parse_list_t T s ts = Ok (Returned false, s') /\
    (forall a, vmem s' a = vmem s1 a) /\ (forall a, ~ target o a -> mem s' a = mem s1 a) /\
    (forall id, present s' id = present s1 id) /\ getPosArgs s' = getPosArgs s1.
Proof.
  intros T s ts is s1 tok o text rest R L N NF G NA NR. destruct (ready_inv T s R) as [I W].
  pose proof (inv_flags_unsigned s I) as FU. destruct (tloop_reads T _ _ _ _ _ L FU W) as (A & B & _).
  unfold parse_list_t. rewrite A, (tloop_rejected T s1 tok o text rest B N NF G).
  destruct (setVal_not T s1 o text NF NA) as [(v & e & J & _)|[_ ->]]; [elim (NR v e J)|].
  cbn [ex_class badOptValue]. eexists. split; [reflexivity|].
  unfold spoilt, target, arm, getPosArgs. destruct (leaves o text) as [v|], (o_kind o) as [t b k|t b k|b], (o_signed o); cbn; repeat split; auto;
    intros a NT; unfold upd; destruct (Nat.eqb_spec a b); congruence.
Qed.
Print Assumptions C121_refused.
(* success: all was read and accepted; only the value of a last option may be missing *)
Theorem C121_succeeds : forall T s ts, ready T s ->
  ((exists s', parse_list_t T s ts = Ok (Returned true, s')) <->
   exists is s1 rest, reads_t T s ts is s1 rest /\ (rest = [] \/ exists tok o, rest = [tok] /\ names s1 tok o /\ ~ is_flag o)).
Proof.
  intros T s ts R. destruct (ready_inv T s R) as [I W]. pose proof (inv_flags_unsigned s I) as FU. split.
  - intros [s' P]. destruct (treads_total T (length ts) ts s (le_n _)) as (is & s1 & rest & L & E). exists is, s1, rest. split; [exact L|].
    destruct (tparse_ending T s ts is s1 rest FU W L E)
      as [(Er & Q)|[(tok & o & Er & N & NF & Q)|[(tok & r & t & Er & _ & Q)|[(tok & o & text & r & v & e' & Er & N & NF & J & p' & t & Q & Q1 & Q2)|(tok & o & text & r & t & Er & N & NF & _ & NA & Q)]]]];
      [left; exact Er|right; eauto 6|rewrite Q in P; discriminate| |rewrite Q in P; discriminate].
    rewrite Q in P. injection P as -> _. exfalso.
    assert (F : family e' \/ ~ family e') by (unfold family; destruct (ex_class e'); (left; auto; fail) || (right; intros [X|X]; discriminate)).
    destruct F as [F|F]; [specialize (Q1 F)|destruct (Q2 F) as [Q3 _]]; discriminate.
  - intros (is & s1 & rest & L & [->|(tok & o & -> & N & NF)]);
      destruct (tloop_reads T _ _ _ _ _ L FU W) as (A & B & _); unfold parse_list_t; rewrite A.
    + eexists. reflexivity.
    + rewrite (tstep_named T s1 tok o [] B N), (isPresentOpt_false o NF). eexists. reflexivity.
Qed.
Print Assumptions C121_succeeds.
(* a test that only looks at the value: the parser of M_Options *)
Theorem C121_predicates : forall T s ts,
  (forall o, registered s o -> match o_kind o with
     | KScalar _ _ test | KVector _ _ test => forall w v, T (o_id o) w v = if test v then Accept else Refuse
     | KPresence _ => True end) ->
  parse_list_t T s ts = obind (parse_list s ts) (fun r => Ok (Returned (fst r), snd r)).
Proof.
  intros T s ts H. unfold parse_list_t, parse_list.
  rewrite (loop_agrees T s H ts s None (same_maps_refl s) ltac:(discriminate)).
  pose proof (loop_throws ts s None) as LT.
  destruct (parse_loop s None ts) as [s1 [| |e]]; cbn; [reflexivity|rewrite printHelp_ok; reflexivity|].
  destruct (LT s1 e eq_refl) as [C|C]; rewrite C; cbn; [reflexivity|]. rewrite printHelp_ok. reflexivity.
Qed.
Print Assumptions C121_predicates.

(* "--lo" and "--hi": hi must be above lo, and lo must not be negative *)
Definition t_lo := mkOpt 0 (lit "lo") "l" (lit "least") (lit "bad") true true (KScalar ty_int 0 (fun _ => true)).
Definition t_hi := mkOpt 1 (lit "hi") "u" (lit "most") (lit "not above lo") true true (KScalar ty_int 1 (fun _ => true)).
Definition t_n := mkOpt 2 (lit "num") "n" (lit "some") (lit "bad") false true (KScalar ty_uint 2 (fun _ => true)).
Definition two : st :=
  add_def (add_def (add_def (newOptions false (fun _ => VInt 99) (fun _ => []))
    ty_int 0 (lit "lo") "l" (VInt 0) (lit "least") (fun _ => true) (lit "bad"))
    ty_int 1 (lit "hi") "u" (VInt 10) (lit "most") (fun _ => true) (lit "not above lo"))
    ty_uint 2 (lit "num") "n" (VInt 3) (lit "some") (fun _ => true) (lit "bad").
Definition oops := mkExn (Foreign 0) (lit "negative").
Definition tests (id : nat) : tester := fun w v =>
  match id, v, v_mem w 0 with
  | 0, VInt z, _ => if (z <? 0)%Z then Raise oops else Accept
  | 1, VInt z, VInt lo => if (lo <? z)%Z then Accept else Refuse
  | 2, VInt z, _ => if (z =? 13)%Z then Raise oops else Accept
  | _, _, _ => Accept
  end.
Lemma two_ready : ready tests two.
Proof.
  unfold two.
  apply (Rd_reg tests _ (mkReg (lit "num") "n" (fun s => add_def s ty_uint 2 (lit "num") "n" (VInt 3) (lit "some") (fun _ => true) (lit "bad")))); [|constructor].
  apply (Rd_reg tests _ (mkReg (lit "hi") "u" (fun s => add_def s ty_int 1 (lit "hi") "u" (VInt 10) (lit "most") (fun _ => true) (lit "not above lo")))); [|constructor].
  apply (Rd_reg tests _ (mkReg (lit "lo") "l" (fun s => add_def s ty_int 0 (lit "lo") "l" (VInt 0) (lit "least") (fun _ => true) (lit "bad")))); [|constructor].
  apply Rd_new.
Qed.
Definition seen (s : st) := (mem s 0, mem s 1, mem s 2, getPosArgs s).
Lemma run1 T s l p o : match parse_list_t T s l with Ok (p, s') => Some (p, seen s') | _ => None end = Some (p, o) ->
  exists s', parse_list_t T s l = Ok (p, s') /\ seen s' = o.
Proof. destruct (parse_list_t T s l) as [[p' s']| |]; [|discriminate..]. intros [= -> <-]. eauto. Qed.
Lemma run2 T s l1 l2 p1 o1 p2 o2 :
  match parse_list_t T s l1 with
  | Ok (p, s') => match parse_list_t T s' l2 with Ok (q, s2) => Some (p, seen s', (q, seen s2)) | _ => None end
  | _ => None end = Some (p1, o1, (p2, o2)) ->
  exists s1 s2, parse_list_t T s l1 = Ok (p1, s1) /\ seen s1 = o1 /\ parse_list_t T s1 l2 = Ok (p2, s2) /\ seen s2 = o2.
Proof.
  destruct (parse_list_t T s l1) as [[p' s']| |]; [|discriminate..]. destruct (parse_list_t T s' l2) as [[q' s2]| |] eqn:E; [|discriminate..].
  intros [= -> <- -> <-]. eauto 6.
Qed.
(* 7 is above the lo given before it, and not above the lo given after it: the order counts *)
Example C121_nonvacuous : ready tests two /\
  (exists s', reads_t tests two [lit "--lo"; lit "5"; lit "--hi"; lit "7"]
     [Given (lit "--lo") t_lo (lit "5") (VInt 5); Given (lit "--hi") t_hi (lit "7") (VInt 7)] s' []) /\
  (exists s', parse_list_t tests two [lit "--lo"; lit "8"; lit "--hi"; lit "7"] = Ok (Returned false, s')) /\
  (exists s', parse_list_t tests two [lit "--hi"; lit "7"; lit "--lo"; lit "8"] = Ok (Returned true, s')).
Proof.
  split; [apply two_ready|]. split; [|split].
  - eexists. apply T_given.
    + apply (N_long two (lit "lo")); [discriminate|discriminate|reflexivity].
    + split; vm_compute; reflexivity.
    + right; reflexivity.
    + apply T_given; [|split; vm_compute; reflexivity|right; reflexivity|apply T_end].
      apply (N_long _ (lit "hi")); [discriminate|discriminate|reflexivity].
  - destruct (run1 tests two [lit "--lo"; lit "8"; lit "--hi"; lit "7"] (Returned false) (VInt 8, VInt 7, VInt 3, [])) as (s' & E & _); [vm_compute; reflexivity|eauto].
  - destruct (run1 tests two [lit "--hi"; lit "7"; lit "--lo"; lit "8"] (Returned true) (VInt 8, VInt 7, VInt 3, [])) as (s' & E & _); [vm_compute; reflexivity|eauto].
Qed.

(* ---- C122 ---- *)
(* the exception reaches the caller, unless it belongs to one of the two
   classes parse handles itself; nothing has been printed, the options before it
   are set, its own is not marked present, but a scalar's variable holds the value *)
Theorem C122_reaches_caller : forall T s ts is s1 tok o text v e rest, ready T s ->
  reads_t T s ts is s1 (tok :: text :: rest) -> names s1 tok o -> (looks_like_option text -> greedy o) ->
  judged T s1 o text v (Raise e) -> ex_class e <> BadOptValue -> ex_class e <> BadOptionName ->
  after s s1 is /\
  exists s', parse_list_t T s ts = Ok (Escaped e, s') /\ cerr s' = cerr s /\
    (forall a, vmem s' a = vmem s1 a) /\ 
    match o_kind o with
    | KScalar _ b _ => mem s' b = v /\ forall a, a <> b -> mem s' a = mem s1 a
    | _ => forall a, mem s' a = mem s1 a
    end /\
    (forall id, present s' id = present s1 id) /\ getPosArgs s' = getPosArgs s1.
Proof.
  intros T s ts is s1 tok o text v e rest R L N G J C1 C2. split; [eapply treads_after; exact L|].
  destruct (ready_inv T s R) as [I W]. pose proof (inv_flags_unsigned s I) as FU.
  destruct (tloop_reads T _ _ _ _ _ L FU W) as (A & B & _ & _ & CE & _).
  pose proof (judged_flag T _ _ _ _ _ J) as NF.
  unfold parse_list_t. rewrite A, (tloop_rejected T s1 tok o text rest B N NF G).
  unfold opt_setVal_t, judged in *. change sight with view_of in *. destruct (o_kind o) as [t b k|t b k|b]; [..|destruct J]; destruct J as [-> J].
  - cbv zeta. rewrite view_arm_mem, J. destruct (ex_class e); try congruence; (eexists; split; [reflexivity|]);
      unfold arm; destruct (o_signed o); cbn; unfold upd; repeat split; auto; try (rewrite Nat.eqb_refl; reflexivity);
      intros a Ne; destruct (Nat.eqb_spec a b); congruence.
  - rewrite view_arm, J. destruct (ex_class e); try congruence; (eexists; split; [reflexivity|]);
      unfold arm; destruct (o_signed o); cbn; repeat split; auto.
Qed.
Print Assumptions C122_reaches_caller.
(* an exception leaves parse only in that way *)
Theorem C122_only_tests_throw : forall T s ts e s', ready T s -> parse_list_t T s ts = Ok (Escaped e, s') ->
  ex_class e <> BadOptValue /\ ex_class e <> BadOptionName /\
  exists is s1 tok o text v rest, reads_t T s ts is s1 (tok :: text :: rest) /\ names s1 tok o /\ judged T s1 o text v (Raise e).
Proof.
  intros T s ts e s' R P. destruct (ready_inv T s R) as [I W]. pose proof (inv_flags_unsigned s I) as FU.
  destruct (treads_total T (length ts) ts s (le_n _)) as (is & s1 & rest & L & E).
  destruct (tparse_ending T s ts is s1 rest FU W L E)
      as [(_ & Q)|[(tok & o & Er & N & NF & Q)|[(tok & r & t & Er & _ & Q)|[(tok & o & text & r & v & e' & Er & N & NF & J & p' & t & Q & Q1 & Q2)|(tok & o & text & r & t & Er & N & NF & _ & NA & Q)]]]];
      rewrite Q in P; try discriminate.
  injection P as -> _. assert (NFam : ~ family e') by (intros F; specialize (Q1 F); discriminate).
  destruct (Q2 NFam) as [[= <-] _]. subst rest.
  split; [intros X; apply NFam; left; exact X|]. split; [intros X; apply NFam; right; exact X|].
  do 7 eexists. repeat split; eassumption.
Qed.
Print Assumptions C122_only_tests_throw.
(* exceptions of the two classes are taken for the parser's own *)
Theorem C122_handled_classes : forall T s ts is s1 tok o text v e rest, ready T s ->
  reads_t T s ts is s1 (tok :: text :: rest) -> names s1 tok o -> (looks_like_option text -> greedy o) ->
  judged T s1 o text v (Raise e) -> ex_class e = BadOptValue \/ ex_class e = BadOptionName ->
  exists s' t, parse_list_t T s ts = Ok (Returned false, s') /\ cerr s' = cerr s ++ c_str (ex_what e) ++ ["010"%char] ++ t /\
    (ex_class e = BadOptValue -> t = []).
Proof.
  intros T s ts is s1 tok o text v e rest R L N G J C.
  destruct (ready_inv T s R) as [I W]. pose proof (inv_flags_unsigned s I) as FU.
  destruct (tloop_reads T _ _ _ _ _ L FU W) as (A & B & _ & _ & CE & _).
  pose proof (judged_flag T _ _ _ _ _ J) as NF.
  unfold parse_list_t. rewrite A, (tloop_rejected T s1 tok o text rest B N NF G).
  assert (K : exists s2, opt_setVal_t T (arm s1 o) o text = (s2, Some e) /\ cerr s2 = cerr s).
  { rewrite <- CE. unfold opt_setVal_t, judged in *. change sight with view_of in *. destruct (o_kind o) as [t b k|t b k|b]; [..|destruct J]; destruct J as [-> J].
    - cbv zeta. rewrite view_arm_mem, J. eexists. split; [reflexivity|]. unfold arm. destruct (o_signed o); reflexivity.
    - rewrite view_arm, J. eexists. split; [reflexivity|]. unfold arm. destruct (o_signed o); reflexivity. }
  destruct K as (s2 & -> & E2). destruct C as [C|C]; rewrite C.
  - eexists _, []. split; [reflexivity|]. cbn. rewrite E2. split; [|auto]. reflexivity.
  - rewrite printHelp_ok. cbn [obind]. eexists _, _. split; [reflexivity|]. cbn [print_err cerr]. rewrite E2, <- !app_assoc. split; [reflexivity|discriminate].
Qed.
Print Assumptions C122_handled_classes.
(* apart from the exception and the message, throwing is refusing *)
Theorem C122_like_refusing : forall T s ts e s', parse_list_t T s ts = Ok (Escaped e, s') ->
  exists t, parse_list_t (refusing T) s ts = Ok (Returned false, print_err s' t).
Proof.
  intros T s ts e s' P. unfold parse_list_t in *. destruct (parse_loop_t T s None ts) as [s1 r] eqn:E.
  destruct (loop_refusing T ts s None s1 r E) as (r' & E' & [->|[[e' ->] (a & b & c & ->)]]); [|rewrite E'].
  - destruct r as [| |e0]; [discriminate|rewrite printHelp_ok in P; discriminate|]. exfalso.
    destruct (refusing_class T ts s None s1 e0 E') as [F|F]; rewrite F in P; [|rewrite printHelp_ok in P]; discriminate.
  - destruct (ex_class e'); try discriminate; try (rewrite printHelp_ok in P; discriminate); injection P as <- <-; cbn; eauto.
Qed.
Print Assumptions C122_like_refusing.
(* the object cannot be used again as if nothing had happened: after a throwing
   test of a signed option the next line is not understood *)
Theorem C122_used_again_refuted : exists e s1 s2, ready tests two /\
  parse_list_t tests two [lit "--lo"; lit "-4"] = Ok (Escaped e, s1) /\
  parse_list_t tests s1 [lit "--hi"; lit "7"] = Ok (Returned true, s2) /\
  mem s2 1 = VInt 10 /\ getPosArgs s2 = [lit "--hi"; lit "7"].
Proof.
  destruct (run2 tests two [lit "--lo"; lit "-4"] [lit "--hi"; lit "7"] (Escaped oops) (VInt (-4), VInt 10, VInt 3, [])
    (Returned true) (VInt (-4), VInt 10, VInt 3, [lit "--hi"; lit "7"])) as (s1 & s2 & A & _ & B & C); [vm_compute; reflexivity|].
  unfold seen in C. injection C as _ C1 _ C2. exists oops, s1, s2. split; [apply two_ready|]. auto.
Qed.
Print Assumptions C122_used_again_refuted.
(* after a test of any other option it can *)
Theorem C122_used_again_partial : forall T s ts is s1 tok o text v e rest s', ready T s ->
  reads_t T s ts is s1 (tok :: text :: rest) -> names s1 tok o -> (looks_like_option text -> greedy o) ->
  judged T s1 o text v (Raise e) -> parse_list_t T s ts = Ok (Escaped e, s') -> o_signed o = false ->
  forall ts2 is2 s2, reads_t T s' ts2 is2 s2 [] -> parse_list_t T s' ts2 = Ok (Returned true, s2) /\ after s' s2 is2.
Proof.
  intros T s ts is s1 tok o text v e rest s' R L N G J P SG ts2 is2 s2 L2. apply C121_tests_see_earlier; [|exact L2].
  eapply Rd_line; [exact R|exact L| |  |exact P].
  - apply (Et_rejected T s1 tok o); auto; [eapply judged_flag; exact J|].
    intros v' J'. unfold judged in J, J'. change sight with view_of in J, J'. destruct (o_kind o); [..|exact J]; destruct J as [J1 J2], J' as [J3 J4]; rewrite J1 in J3; injection J3 as <-; congruence.
  - intros (tok' & o' & N' & _ & SG' & [X|(text' & r' & X & _)]); [discriminate|]. injection X as <- _ _.
    rewrite (names_fun _ _ _ _ N N') in SG. congruence.
Qed.
Print Assumptions C122_used_again_partial.
Example C122_nonvacuous : ready tests two /\
  (exists s1, reads_t tests two [lit "--lo"; lit "5"; lit "--num"; lit "13"] [Given (lit "--lo") t_lo (lit "5") (VInt 5)] s1 [lit "--num"; lit "13"] /\
     names s1 (lit "--num") t_n /\ judged tests s1 t_n (lit "13") (VInt 13) (Raise oops) /\ o_signed t_n = false) /\
  ex_class oops <> BadOptValue /\ ex_class oops <> BadOptionName /\
  exists s1 s2, parse_list_t tests two [lit "--lo"; lit "5"; lit "--num"; lit "13"] = Ok (Escaped oops, s1) /\ mem s1 2 = VInt 13 /\ mem s1 0 = VInt 5 /\
    parse_list_t tests s1 [lit "--hi"; lit "7"] = Ok (Returned true, s2) /\ mem s2 1 = VInt 7.
Proof.
  split; [apply two_ready|]. split.
  - eexists. split; [|split; [|split; [split; vm_compute; reflexivity|reflexivity]]].
    + apply T_given; [|split; vm_compute; reflexivity|right; reflexivity|apply T_end].
      apply (N_long two (lit "lo")); [discriminate|discriminate|reflexivity].
    + apply (N_long _ (lit "num")); [discriminate|discriminate|reflexivity].
  - split; [discriminate|]. split; [discriminate|]. 
    destruct (run2 tests two [lit "--lo"; lit "5"; lit "--num"; lit "13"] [lit "--hi"; lit "7"] (Escaped oops) (VInt 5, VInt 10, VInt 13, [])
      (Returned true) (VInt 5, VInt 7, VInt 13, [])) as (s1 & s2 & A & B & C & D); [vm_compute; reflexivity|].
    unfold seen in B, D. injection B as B1 _ B2 _. injection D as _ D1 _ _. exists s1, s2. auto.
Qed.
