(* P_Options.v -- property theorems for SoDa::Options. *)
From Verif Require Import Base M_Stream M_StreamIn M_Split M_Format S_Num S_Format C_Format L_Map
  M_Options S_Options L_Options L_OptionsT L_StreamIn C_Options C_OptionsP.
From Coq Require Import Sorted.

(* ---------- the program used in the examples ---------- *)
Definition small (v : val) : bool := match v with VInt z => (z <? 100)%Z | _ => true end.
Definition o_count := mkOpt 0 (lit "count") "c" (lit "how many") (lit "too large") true true (KScalar ty_int 0 small).
Definition o_name := mkOpt 1 (lit "name") "n" (lit "a name") (lit "bad") false false (KScalar ty_string 1 (fun _ => true)).
Definition o_loud := mkOpt 2 (lit "loud") "l" (lit "be loud") [] false true (KPresence 2).
Definition o_list := mkOpt 3 (lit "list") "i" (lit "numbers") (lit "bad") false true (KVector ty_int 0 small).
Definition r_count := mkReg (lit "count") "c" (fun s => add_def s ty_int 0 (lit "count") "c" (VInt 7) (lit "how many") small (lit "too large")).
Definition r_name := mkReg (lit "name") "n" (fun s => add_nodef s ty_string 1 (lit "name") "n" (lit "a name") (fun _ => true) (lit "bad")).
Definition r_loud := mkReg (lit "loud") "l" (fun s => addP s 2 (lit "loud") "l" (lit "be loud")).
Definition r_list := mkReg (lit "list") "i" (fun s => addV s ty_int 0 (lit "list") "i" (lit "numbers") small (lit "bad")).
Definition demo : st :=
  addInfo (rg_add r_list (rg_add r_loud (rg_add r_name (rg_add r_count
    (newOptions false (fun _ => VInt 99) (fun _ => [VInt 5])))))) (lit "demo program").
Lemma registered_in s o : registered s o -> In o (map snd (long_map s)) \/ In o (map snd (ab_map s)).
Proof.
  intros [[n F]|[c F]]; [left|right]; apply in_map_iff; [exists (n, o)|exists (c, o)]; (split; [reflexivity|]).
  - exact (find_some_in str_compare scmp_eq n o (long_map s) F).
  - exact (find_some_in char_compare ccmp_eq c o (ab_map s) F).
Qed.
Lemma demo_settled : settled demo.
Proof.
  unfold demo. apply ST_info. repeat (apply ST_reg; [|constructor]). apply ST_new.
Qed.
Lemma demo_reach : reach demo.
Proof. apply settled_reach, demo_settled. Qed.
Lemma demo_count : names demo (lit "--count") o_count.
Proof. apply (N_long demo (lit "count")); [discriminate|discriminate|reflexivity]. Qed.
Lemma demo_name : names demo (lit "-n") o_name.
Proof. apply (N_short demo "n" []); [discriminate|discriminate|reflexivity]. Qed.
Lemma demo_loud : names demo (lit "--loud") o_loud.
Proof. apply (N_long demo (lit "loud")); [discriminate|discriminate|reflexivity]. Qed.
Lemma demo_list : names demo (lit "--list") o_list.
Proof. apply (N_long demo (lit "list")); [discriminate|discriminate|reflexivity]. Qed.
Definition demo_stuck : st := set_wfs demo true.
Lemma demo_stuck_ok : parse_list demo [lit "--count"] = Ok (true, demo_stuck).
Proof.
  unfold parse_list. rewrite (step_named demo (lit "--count") o_count [] eq_refl demo_count).
  change (isPresentOpt o_count) with false. cbv iota. cbn [parse_loop]. reflexivity.
Qed.
Lemma demo_stuck_reach : reach demo_stuck.
Proof. eapply RC_list; [apply demo_reach|exact demo_stuck_ok]. Qed.
Ltac nolook := let H := fresh in intros [(? & ? & H & _)|(? & ? & H)]; discriminate.
Ltac noflag := let H := fresh in intros [? H]; discriminate.

(* file --count -3 -n -x --list 4 --list --loud end *)
Definition line1 := [lit "file"; lit "--count"; lit "-3"; lit "-n"; lit "-x"; lit "--list"; lit "4"; lit "--list"; lit "--loud"; lit "end"].
Definition items1 := [Pos (lit "file"); Given (lit "--count") o_count (lit "-3") (VInt (-3));
  Given (lit "-n") o_name (lit "-x") (VStr (lit "-x")); Given (lit "--list") o_list (lit "4") (VInt 4);
  Bare (lit "--list") o_list; Flag (lit "--loud") o_loud; Pos (lit "end")].
Lemma line1_reads : reads demo line1 items1 [].
Proof.
  unfold line1, items1. apply R_pos; [nolook|].
  apply R_given; [apply demo_count|split; vm_compute; reflexivity|intros _; right; reflexivity|].
  apply R_given; [apply demo_name|split; vm_compute; reflexivity|intros _; left; reflexivity|].
  apply R_given; [apply demo_list|split; vm_compute; reflexivity|nolook|].
  apply R_bare; [apply demo_list|noflag|intros [H|H]; discriminate|right; exists "l"%char, (lit "oud"); reflexivity|].
  apply R_flag; [apply demo_loud|exists 2; reflexivity|].
  apply R_pos; [nolook|]. apply R_end.
Qed.

(* ---- C33 ---- *)
Theorem C33_understood_exactly : forall s ts is, settled s -> reads s ts is [] ->
  exists s', parse_list s ts = Ok (true, s') /\ after s s' is /\ cerr s' = cerr s.
Proof.
  intros s ts is H RD. destruct (c33 s ts is (settled_reach s H) (settled_calm s H) RD) as (s' & P & A & C & _). eauto.
Qed.
Print Assumptions C33_understood_exactly.
(* every line has exactly one reading as far as it can be understood *)
Theorem C33_reading_unique : forall s ts, exists is rest, reads s ts is rest /\ ending s rest /\
  ts = flat_map item_tokens is ++ rest /\
  forall is' rest', reads s ts is' rest' -> ending s rest' -> is' = is /\ rest' = rest.
Proof. exact reading_exists_unique. Qed.
Print Assumptions C33_reading_unique.
(* and parse returns true exactly for lines read to the end, or up to a last
   option whose value is missing; it always returns *)
Theorem C33_true_iff : forall s ts, settled s ->
  ((exists s', parse_list s ts = Ok (true, s')) <->
   exists is rest, reads s ts is rest /\
     (rest = [] \/ exists tok o, rest = [tok] /\ names s tok o /\ ~ is_flag o)).
Proof. intros s ts H. exact (c33_iff s ts (settled_reach s H) (settled_calm s H)). Qed.
Print Assumptions C33_true_iff.
Theorem C33_always_returns : forall s ts, exists b s', parse_list s ts = Ok (b, s').
Proof. exact parse_defined. Qed.
Print Assumptions C33_always_returns.
Example C33_nonvacuous : settled demo /\ reads demo line1 items1 [] /\
  exists s', parse_list demo line1 = Ok (true, s') /\ mem s' 0 = VInt (-3) /\ mem s' 1 = VStr (lit "-x") /\
    mem s' 2 = VBool true /\ mem s' 3 = VInt 99 /\ vmem s' 0 = [VInt 5; VInt 4] /\ getPosArgs s' = [lit "file"; lit "end"].
Proof.
  split; [apply demo_settled|]. split; [apply line1_reads|].
  destruct (C33_understood_exactly demo line1 items1 demo_settled line1_reads) as (s' & P & A & _).
  exists s'. split; [exact P|]. rewrite !(af_mem _ _ _ A), (af_vec _ _ _ A). unfold getPosArgs. rewrite (af_pos _ _ _ A).
  repeat split.
Qed.

(* ---- C34: as C33, for objects none of whose earlier parses stalled (see C48) ---- *)
Theorem C34_positional_in_order_partial : forall s ts s', settled s -> parse_list s ts = Ok (true, s') ->
  exists is rest, reads s ts is rest /\ ending s rest /\ ts = flat_map item_tokens is ++ rest /\
    getPosArgs s' = getPosArgs s ++ flat_map word is /\
    (rest = [] \/ exists tok o, rest = [tok] /\ names s tok o /\ ~ is_flag o).
Proof. exact c34. Qed.
Print Assumptions C34_positional_in_order_partial.
(* in the other states option tokens are taken for positional arguments *)
Theorem C34_positional_refuted : exists s ts s', reach s /\ parse_list s ts = Ok (true, s') /\
  ts = [lit "--loud"] /\ is_flag o_loud /\ names s (lit "--loud") o_loud /\ getPosArgs s' = getPosArgs s ++ [lit "--loud"].
Proof.
  destruct (wfs_waiting_stuck demo_stuck [lit "--loud"] eq_refl) as (s' & P & A & _).
  exists demo_stuck, [lit "--loud"], s'. split; [apply demo_stuck_reach|]. split; [exact P|]. split; [reflexivity|].
  split; [exists 2; reflexivity|].
  split; [apply (N_long _ (lit "loud")); [discriminate|discriminate|reflexivity]|exact A].
Qed.
Print Assumptions C34_positional_refuted.
Example C34_nonvacuous : exists s', parse_list demo line1 = Ok (true, s') /\ getPosArgs s' = [lit "file"; lit "end"].
Proof. destruct C33_nonvacuous as (_ & _ & s' & P & H). exists s'. split; [exact P|apply H]. Qed.

(* ---- C35 ---- *)
Theorem C35_present_refuted : exists s', settled demo /\ parse_list demo [lit "-n"] = Ok (true, s') /\
  names demo (lit "-n") o_name /\ isPresent_long s' (lit "name") = false /\ isPresent_ab s' "n" = false.
Proof.
  destruct (parse_defined demo [lit "-n"]) as (b & s' & P).
  assert (Q : match parse_list demo [lit "-n"] with
    Ok (b, s') => Some (b, isPresent_long s' (lit "name"), isPresent_ab s' "n") | _ => None end = Some (true, false, false))
    by (vm_compute; reflexivity).
  rewrite P in Q. injection Q as -> A B. exists s'. split; [apply demo_settled|]. split; [exact P|]. split; [apply demo_name|]. auto.
Qed.
Print Assumptions C35_present_refuted.
(* true of lines that do not end in an option with its value missing *)
Theorem C35_present_partial : forall s ls s', settled s -> understood s ls s' ->
  forall n c o, findOpt_long s n = Some o -> findOpt_ab s c = Some o ->
    isPresent_long s' n = isPresent_ab s' c /\
    (isPresent_long s' n = true <->
     isPresent_long s n = true \/ exists is i, In is ls /\ In i is /\ item_opt i = Some o).
Proof. exact c35_history. Qed.
Print Assumptions C35_present_partial.
Theorem C35_new_option_absent_partial : forall s r, is_reg r ->
  isPresent_long (rg_add r s) (rg_long r) = false /\ isPresent_ab (rg_add r s) (rg_ab r) = false.
Proof. exact present_after_reg. Qed.
Print Assumptions C35_new_option_absent_partial.
(* a name no option was ever registered under, whatever has been parsed *)
Theorem C35_unknown_absent_partial : forall rs s, program rs s ->
  (forall n, ~ In n (map rg_long rs) -> isPresent_long s n = false) /\
  (forall c, ~ In c (map rg_ab rs) -> isPresent_ab s c = false).
Proof. exact unknown_absent. Qed.
Print Assumptions C35_unknown_absent_partial.
Example C35_unknown_nonvacuous : exists r s, program [r] s /\ rg_long r = lit "loud" /\
  isPresent_long s (lit "loud") = true /\ isPresent_ab s "l" = true /\ isPresent_long s (lit "lou") = false.
Proof.
  exists (mkReg (lit "loud") "l" (fun s => addP s 0 (lit "loud") "l" (lit "noise"))).
  set (s0 := rg_add (mkReg (lit "loud") "l" (fun s => addP s 0 (lit "loud") "l" (lit "noise")))
    (newOptions false (fun _ => VInt 0) (fun _ => []))).
  destruct (parse_defined s0 [lit "--loud"; lit "x"]) as (b & s' & P).
  assert (Q : match parse_list s0 [lit "--loud"; lit "x"] with
    Ok (b, s') => Some (isPresent_long s' (lit "loud"), isPresent_ab s' "l", isPresent_long s' (lit "lou")) | _ => None end = Some (true, true, false))
    by (vm_compute; reflexivity).
  rewrite P in Q. injection Q as A B C. exists s'. split; [|auto].
  eapply PR_list; [|exact P]. apply (PR_reg []); [apply PR_new|apply RG_flag].
Qed.
Example C35_nonvacuous : exists s', understood demo [items1] s' /\
  findOpt_long demo (lit "list") = Some o_list /\ findOpt_ab demo "i" = Some o_list /\
  isPresent_long s' (lit "list") = true /\ isPresent_long demo (lit "list") = false.
Proof.
  destruct C33_nonvacuous as (_ & RD & s' & P & _). exists s'.
  assert (U : understood demo [items1] s') by (eapply U_line; [exact RD|exact P|apply U_none]).
  split; [exact U|]. split; [reflexivity|]. split; [reflexivity|]. split; [|reflexivity].
  apply (C35_present_partial demo [items1] s' demo_settled U (lit "list") "i"%char o_list eq_refl eq_refl).
  right. exists items1, (Bare (lit "--list") o_list). split; [left; reflexivity|]. split; [|reflexivity]. cbn. tauto.
Qed.

(* ---- C36 ---- *)
Theorem C36_unknown_option : forall s ts is tok rest, settled s ->
  reads s ts is (tok :: rest) -> looks_like_option tok -> ~ asks_help tok -> (forall o, ~ names s tok o) ->
  exists s' help said, printHelp s = Ok help /\ parse_list s ts = Ok (false, s') /\ after s s' is /\
    printed (lit "Command option [[" ++ tok ++ lit "]] is unknown.") said /\
    cerr s' = cerr s ++ said ++ ["010"%char] ++ help.
Proof.
  intros s ts is tok rest H RD L NH N.
  destruct (c36 s ts is tok rest (settled_reach s H) (settled_calm s H) RD L NH N) as (s' & h & A & B & C & D & _). eauto 9 using c_str_printed.
Qed.
Print Assumptions C36_unknown_option.
Example C36_nonvacuous : reads demo [lit "--loud"; lit "-z"; lit "--count"] [Flag (lit "--loud") o_loud] [lit "-z"; lit "--count"] /\
  looks_like_option (lit "-z") /\ ~ asks_help (lit "-z") /\ forall o, ~ names demo (lit "-z") o.
Proof.
  split; [apply R_flag; [apply demo_loud|exists 2; reflexivity|apply R_end]|].
  split; [left; exists "z"%char, []; split; [reflexivity|discriminate]|].
  split; [intros [H|(r & H)]; discriminate|]. intros o N. inversion N as [n o' _ _ F|c r o' _ _ F]; subst; cbn in F; discriminate.
Qed.

(* ---- C37 ---- *)
Theorem C37_rejected_refuted : exists s', settled demo /\ parse_list demo [lit "--count"; lit "250"] = Ok (false, s') /\
  mem demo 0 = VInt 7 /\ small (VInt 250) = false /\ mem s' 0 = VInt 250.
Proof.
  destruct (parse_defined demo [lit "--count"; lit "250"]) as (b & s' & P).
  assert (Q : match parse_list demo [lit "--count"; lit "250"] with Ok (b, s') => Some (b, mem s' 0) | _ => None end = Some (false, VInt 250))
    by (vm_compute; reflexivity).
  rewrite P in Q. injection Q as -> Q. exists s'. split; [apply demo_settled|].
  split; [exact P|]. split; [reflexivity|]. split; [reflexivity|exact Q].
Qed.
Print Assumptions C37_rejected_refuted.
(* what exactly happens: the scalar's variable holds what the conversion left in
   it; a vector is never changed; everything else is as before the option *)
Theorem C37_rejected_partial : forall s ts is tok o text rest, settled s ->
  reads s ts is (tok :: text :: rest) -> names s tok o -> ~ is_flag o ->
  (looks_like_option text -> greedy o) -> (forall v, ~ accepts o text v) ->
  exists s1 s' said, after s s1 is /\ parse_list s ts = Ok (false, s') /\
    (forall a, ~ target o a \/ leaves o text = None -> mem s' a = mem s1 a) /\
    (forall a v, target o a -> leaves o text = Some v -> mem s' a = v) /\
    (forall a, vmem s' a = vmem s1 a) /\ (forall id, present s' id = present s1 id) /\
    getPosArgs s' = getPosArgs s1 /\
    printed (o_long o ++ lit " unacceptable value """ ++ text ++ lit """ " ++ o_err o) said /\
    cerr s' = cerr s ++ said ++ ["010"%char].
Proof.
  intros s ts is tok o text rest H RD N F G NA.
  destruct (c37 s ts is tok o text rest (settled_reach s H) (settled_calm s H) RD N F G NA)
    as (s1 & s' & A & B & C & D & E & I & J & K & _). do 2 eexists. eexists. eauto 12 using c_str_printed.
Qed.
Print Assumptions C37_rejected_partial.
Example C37_nonvacuous : reads demo [lit "w"; lit "--list"; lit "x"] [Pos (lit "w")] [lit "--list"; lit "x"] /\
  (forall v, ~ accepts o_list (lit "x") v) /\ (forall v, ~ accepts o_count (lit "250") v) /\ leaves o_count (lit "250") = Some (VInt 250) /\
  leaves o_count (lit "x") = Some (VInt 0) /\ leaves o_count (lit " ") = None.
Proof.
  split; [apply R_pos; [nolook|apply R_end]|].
  split; [intros v [H _]; vm_compute in H; discriminate|].
  split; [intros v [H T]|split; [|split]; vm_compute; reflexivity].
  assert (Q : ty_read ty_int (lit "250") = RdOk (VInt 250)) by (vm_compute; reflexivity).
  rewrite Q in H. injection H as <-. vm_compute in T. discriminate.
Qed.

(* ---- C38 ---- *)
Theorem C38_help : forall s ts is tok rest, settled s -> reads s ts is (tok :: rest) -> asks_help tok ->
  exists s' help, printHelp s = Ok help /\ parse_list s ts = Ok (false, s') /\ after s s' is /\ cerr s' = cerr s ++ help.
Proof.
  intros s ts is tok rest H RD A.
  destruct (c38 s ts is tok rest (settled_reach s H) (settled_calm s H) RD A) as (s' & h & B & C & D & E & _). eauto 7.
Qed.
Print Assumptions C38_help.
Example C38_nonvacuous : asks_help (lit "--help") /\ asks_help (lit "-hot") /\
  reads demo [lit "a"; lit "--help"; lit "b"] [Pos (lit "a")] [lit "--help"; lit "b"].
Proof.
  split; [left; reflexivity|]. split; [right; eexists; reflexivity|]. apply R_pos; [nolook|apply R_end].
Qed.

(* ---- C39 ---- *)
Theorem C39_defaults : forall s t v ln ab d doc test err,
  mem (add_def s t v ln ab d doc test err) v = d /\
  mem (add_nodef s t v ln ab doc test err) v = ty_zero t /\
  mem (addP s v ln ab doc) v = VBool false /\
  (forall a, a <> v -> mem (add_def s t v ln ab d doc test err) a = mem s a /\
     mem (add_nodef s t v ln ab doc test err) a = mem s a /\ mem (addP s v ln ab doc) a = mem s a) /\
  (forall a, vmem (addV s t v ln ab doc test err) a = vmem s a /\ mem (addV s t v ln ab doc test err) a = mem s a).
Proof.
  intros. unfold add_def, add_nodef, addP, addV, registerOpt, set_mem. cbn [mem vmem]. unfold upd. rewrite Nat.eqb_refl.
  repeat split; destruct (Nat.eqb_spec a v); congruence.
Qed.
Print Assumptions C39_defaults.
(* the documented types: without a default, zero, false, the empty text *)
Theorem C39_zero : forall s v ln ab doc test err,
  (forall t, In t [ty_int; ty_long; ty_uint; ty_ulong] -> mem (add_nodef s t v ln ab doc test err) v = VInt 0) /\
  mem (add_nodef s ty_char v ln ab doc test err) v = VChar "000"%char /\
  mem (add_nodef s ty_float v ln ab doc test err) v = VFloat (BinarySingleNaN.B754_zero false) /\
  mem (add_nodef s ty_double v ln ab doc test err) v = VDouble (BinarySingleNaN.B754_zero false) /\
  mem (add_nodef s ty_bool v ln ab doc test err) v = VBool false /\
  mem (add_nodef s ty_string v ln ab doc test err) v = VStr [].
Proof.
  intros. split; [intros t [<-|[<-|[<-|[<-|[]]]]]|repeat split];
    rewrite (proj1 (proj2 (C39_defaults s _ v ln ab (VInt 0) doc test err))); reflexivity.
Qed.
Print Assumptions C39_zero.
(* in any state, and whatever parse returns *)
Theorem C39_unmentioned_unchanged : forall s ts b s' o, reach s -> registered s o -> parse_list s ts = Ok (b, s') ->
  (forall t, In t ts -> ~ names s t o) ->
  (forall a, target o a -> (forall o', registered s o' -> target o' a -> o' = o) -> mem s' a = mem s a) /\
  (forall a, vec_target o a -> (forall o', registered s o' -> vec_target o' a -> o' = o) -> vmem s' a = vmem s a) /\
  (forall n, findOpt_long s n = Some o -> isPresent_long s' n = isPresent_long s n) /\
  (forall c, findOpt_ab s c = Some o -> isPresent_ab s' c = isPresent_ab s c).
Proof. exact c39_untouched. Qed.
Print Assumptions C39_unmentioned_unchanged.
Example C39_nonvacuous : registered demo o_count /\ target o_count 0 /\ mem demo 0 = VInt 7 /\
  (forall t, In t [lit "--loud"; lit "--list"; lit "3"] -> ~ names demo t o_count) /\
  (forall o', registered demo o' -> target o' 0 -> o' = o_count).
Proof.
  split; [left; exists (lit "count"); reflexivity|]. split; [reflexivity|]. split; [reflexivity|]. split.
  - intros t [<-|[<-|[<-|[]]]] N.
    + pose proof (names_fun _ _ _ _ N demo_loud). discriminate.
    + pose proof (names_fun _ _ _ _ N demo_list). discriminate.
    + apply names_looks in N. revert N. nolook.
  - assert (Q : forall o', In o' [o_count; o_list; o_loud; o_name] -> target o' 0 -> o' = o_count).
    { intros o' H T. cbn in H. destruct H as [<-|[<-|[<-|[<-|[]]]]]; cbn in T; try discriminate; try contradiction; reflexivity. }
    intros o' R T. apply Q; [|exact T]. destruct (registered_in demo o' R) as [X|X]; [exact X|].
    cbn in X. cbn. tauto.
Qed.

(* ---- C40 ---- *)
Theorem C40_appends : forall s tok o text v t a test ts b s', settled s -> names s tok o -> o_kind o = KVector t a test ->
  ~ looks_like_option text -> ty_read t text = RdOk v -> test v = true ->
  parse_list s (tok :: text :: ts) = Ok (b, s') ->
  exists s1, parse_list s [tok; text] = Ok (true, s1) /\ settled s1 /\
    vmem s1 a = vmem s a ++ [v] /\ (forall a', a' <> a -> vmem s1 a' = vmem s a') /\ mem s1 = mem s /\
    getPosArgs s1 = getPosArgs s /\ parse_list s1 ts = Ok (b, s').
Proof. exact c40. Qed.
Print Assumptions C40_appends.
Theorem C40_all_values_in_order : forall s ts is, settled s -> reads s ts is [] ->
  exists s', parse_list s ts = Ok (true, s') /\ forall a, vmem s' a = vmem s a ++ flat_map (appended a) is.
Proof.
  intros s ts is H RD. destruct (C33_understood_exactly s ts is H RD) as (s' & P & A & _). exists s'. split; [exact P|apply A].
Qed.
Print Assumptions C40_all_values_in_order.
(* no parse, in any state, ever drops or changes an element *)
Theorem C40_never_drops : forall s ts b s' a, parse_list s ts = Ok (b, s') -> exists l, vmem s' a = vmem s a ++ l.
Proof. exact c40_prefix. Qed.
Print Assumptions C40_never_drops.
Example C40_nonvacuous : settled demo /\ names demo (lit "--list") o_list /\ o_kind o_list = KVector ty_int 0 small /\
  ~ looks_like_option (lit "42") /\ ty_read ty_int (lit "42") = RdOk (VInt 42) /\ small (VInt 42) = true.
Proof.
  split; [apply demo_settled|]. split; [apply demo_list|]. split; [reflexivity|]. split; [nolook|]. split; vm_compute; reflexivity.
Qed.

(* ---- C41 ---- *)
(* vectors: a token that looks like an option is never taken as the value *)
Theorem C41_vector_refuted : forall s tok o a test t text ts,
  settled s -> names s tok o -> o_kind o = KVector t a test -> looks_like_option text ->
  exists s1, after s s1 [Bare tok o] /\ cerr s1 = cerr s /\
    parse_list s (tok :: text :: ts) = parse_list s1 (text :: ts).
Proof.
  intros s tok o a test t text ts H N K L.
  destruct (c41_vector s tok o a test t text ts H N K L) as (s1 & A & _ & B & C). eauto.
Qed.
Print Assumptions C41_vector_refuted.
Theorem C41_negative_looks_like_option_refuted : forall z, (z < 0)%Z -> looks_like_option (put_int z).
Proof. exact put_int_neg_looks. Qed.
Print Assumptions C41_negative_looks_like_option_refuted.
Theorem C41_vector_fails_refuted : exists s', settled demo /\ o_kind o_list = KVector ty_int 0 small /\
  names demo (lit "--list") o_list /\ ty_read ty_int (lit "-3") = RdOk (VInt (-3)) /\ small (VInt (-3)) = true /\
  parse_list demo [lit "--list"; lit "-3"] = Ok (false, s') /\ vmem s' 0 = vmem demo 0.
Proof.
  destruct (parse_defined demo [lit "--list"; lit "-3"]) as (b & s' & P).
  assert (Q : match parse_list demo [lit "--list"; lit "-3"] with Ok (b, s') => Some (b, vmem s' 0) | _ => None end = Some (false, [VInt 5]))
    by (vm_compute; reflexivity).
  rewrite P in Q. injection Q as -> Q. exists s'.
  split; [apply demo_settled|]. split; [reflexivity|]. split; [apply demo_list|]. split; [vm_compute; reflexivity|].
  split; [vm_compute; reflexivity|]. split; [exact P|exact Q].
Qed.
Print Assumptions C41_vector_fails_refuted.
(* scalars: whatever follows an option of signed type is its value *)
Theorem C41_scalar_partial : forall s tok o a test t text v ts is, In t [ty_int; ty_long; ty_char; ty_float; ty_double] ->
  settled s -> names s tok o -> o_kind o = KScalar t a test ->
  ty_read t text = RdOk v -> test v = true -> reads s ts is [] ->
  exists s', parse_list s (tok :: text :: ts) = Ok (true, s') /\ after s s' (Given tok o text v :: is).
Proof.
  intros s tok o a test t text v ts is I.
  assert (SG : ty_signed t = true) by (destruct I as [<-|[<-|[<-|[<-|[<-|[]]]]]]; reflexivity).
  exact (c41_scalar s tok o a test t SG text v ts is).
Qed.
Print Assumptions C41_scalar_partial.
Theorem C41_negative_int_partial : forall s tok o a test z, (- 2 ^ 31 <= z < 2 ^ 31)%Z ->
  settled s -> names s tok o -> o_kind o = KScalar ty_int a test -> test (VInt z) = true ->
  exists s', parse_list s [tok; put_int z] = Ok (true, s') /\ mem s' a = VInt z /\ getPosArgs s' = getPosArgs s.
Proof.
  intros s tok o a test z I H N K T.
  assert (RD : ty_read ty_int (put_int z) = RdOk (VInt z)).
  { cbn [ty_int ty_read]. change (put_int z) with ([] ++ put_int z). rewrite (read_put_i32 [] z); [reflexivity|constructor|]. apply in_i32_range. lia. }
  destruct (c41_scalar s tok o a test ty_int eq_refl (put_int z) (VInt z) [] [] H N K RD T (R_end s [])) as (s' & P & A).
  exists s'. split; [exact P|]. rewrite (af_mem _ _ _ A). unfold getPosArgs. rewrite (af_pos _ _ _ A). cbn [flat_map stored word app].
  rewrite K, Nat.eqb_refl, !app_nil_r. split; reflexivity.
Qed.
Print Assumptions C41_negative_int_partial.
(* an option of one of the other types that has a default leaves a token that
   looks like an option to be read as one *)
Theorem C41_other_types_partial : forall t s tok o a test text ts, In t [ty_uint; ty_ulong; ty_string; ty_bool] ->
  o_default o = true -> settled s -> names s tok o -> o_kind o = KScalar t a test -> looks_like_option text ->
  exists s1, after s s1 [Bare tok o] /\ cerr s1 = cerr s /\
    parse_list s (tok :: text :: ts) = parse_list s1 (text :: ts).
Proof.
  intros t s tok o a test text ts I D H N K L.
  assert (U : ty_signed t = false) by (destruct I as [<-|[<-|[<-|[<-|[]]]]]; reflexivity).
  destruct (c41_unsigned s tok o a test t text ts U D H N K L) as (s1 & A & _ & B & C). eauto.
Qed.
Print Assumptions C41_other_types_partial.
Example C41_other_nonvacuous :
  let s := add_def (newOptions false (fun _ => VInt 0) (fun _ => [])) ty_uint 4 (lit "size") "s" (VInt 8) [] (fun _ => true) [] in
  exists o, settled s /\ names s (lit "--size") o /\ o_kind o = KScalar ty_uint 4 (fun _ => true) /\ o_default o = true /\
    looks_like_option (lit "-s") /\ exists s', parse_list s [lit "--size"; lit "-s"; lit "3"] = Ok (true, s') /\ mem s' 4 = VInt 3.
Proof.
  cbv zeta. eexists. split.
  - exact (ST_reg _ _ (ST_new false _ _) (RG_def ty_uint 4 (lit "size") "s" (VInt 8) [] (fun _ => true) [])).
  - split; [apply (N_long _ (lit "size")); [discriminate|discriminate|reflexivity]|].
    split; [reflexivity|]. split; [reflexivity|].
    split; [left; exists "s"%char, []; split; [reflexivity|discriminate]|].
    eexists. split; [reflexivity|]. vm_compute. reflexivity.
Qed.
Example C41_nonvacuous : settled demo /\ names demo (lit "--count") o_count /\ o_kind o_count = KScalar ty_int 0 small /\
  small (VInt (-3)) = true /\ put_int (-3) = lit "-3".
Proof.
  split; [apply demo_settled|]. split; [apply demo_count|]. split; [reflexivity|]. split; vm_compute; reflexivity.
Qed.

(* ---- C42, C43: for objects not built for key=value input (those: C49) ---- *)
Theorem C42_quoted_tokens : forall im s ts l, is_kvp s = false -> quoted_line ts l -> defined_on im l ->
  parse_string im s l = parse_list s ts.
Proof. intros im s ts l K Q. exact (parse_string_typed im s ts l K (quoted_typed ts l Q)). Qed.
Print Assumptions C42_quoted_tokens.
Example C42_nonvacuous : is_kvp demo = false /\
  quoted_line [lit "--name"; lit "two words"; []] (lit "  ""--name"" ""two words"" """"") /\ defined_on Strict (lit "  ""--name"" ""two words"" """"").
Proof.
  split; [reflexivity|]. split; [|vm_compute; reflexivity].
  apply (QL_tok (lit "  ") (lit "--name") _ (lit " ""two words"" """"")).
  - repeat constructor.
  - intros H. vm_compute in H. repeat (destruct H as [H|H]; [discriminate|]). exact H.
  - apply (QL_tok (lit " ") (lit "two words") _ (lit " """"")).
    + repeat constructor.
    + intros H. vm_compute in H. repeat (destruct H as [H|H]; [discriminate|]). exact H.
    + apply (QL_tok (lit " ") [] [] []); [repeat constructor|intros []|apply QL_end; constructor].
Qed.
Theorem C43_unquoted_tokens : forall im s ts l, is_kvp s = false -> plain_text ts l -> defined_on im l ->
  parse_string im s l = parse_list s ts.
Proof. intros im s ts l K Q. exact (parse_string_typed im s ts l K (plain_typed ts l Q)). Qed.
Print Assumptions C43_unquoted_tokens.
(* and quoted and unquoted tokens mix *)
Theorem C43_mixed_tokens : forall im s ts l, is_kvp s = false -> typed_line ts l -> defined_on im l ->
  parse_string im s l = parse_list s ts.
Proof. exact parse_string_typed. Qed.
Print Assumptions C43_mixed_tokens.
Example C43_nonvacuous : plain_text [lit "--count"; lit "5"] (lit " --count  5 ") /\ defined_on Strict (lit " --count  5 ").
Proof.
  split; [|vm_compute; reflexivity].
  apply (PL_tok (lit " ") (lit "--count") " "%char _ (lit " 5 ")); try discriminate; try reflexivity.
  - repeat constructor.
  - intros H. vm_compute in H. repeat (destruct H as [H|H]; [discriminate|]). exact H.
  - repeat constructor; discriminate.
  - apply (PL_tok (lit " ") (lit "5") " "%char [] []); try discriminate; try reflexivity.
    + repeat constructor.
    + intros H. vm_compute in H. repeat (destruct H as [H|H]; [discriminate|]). exact H.
    + repeat constructor; discriminate.
    + apply PL_end. constructor.
Qed.

(* ---- C44 ---- *)
Theorem C44_argv : forall s prog ts more,
  parse_argv s (Z.of_nat (S (length ts))) (prog :: ts ++ more) =
  if is_kvp s then parseKeyValue_list s ts else parse_list s ts.
Proof. intros. unfold parse_argv. rewrite argv_tokens. reflexivity. Qed.
Print Assumptions C44_argv.
Theorem C44_no_arguments : forall s argc argv, (argc < 2)%Z ->
  parse_argv s argc argv = if is_kvp s then parseKeyValue_list s [] else parse_list s [].
Proof. intros s argc argv H. unfold parse_argv, buildTokenList_argv. destruct (Z.ltb_spec argc 2); [reflexivity|lia]. Qed.
Print Assumptions C44_no_arguments.
Example C44_nonvacuous : exists s', parse_argv demo 3 [lit "prog"; lit "--count"; lit "5"] = Ok (true, s') /\ mem s' 0 = VInt 5.
Proof.
  assert (E : buildTokenList_argv 3 [lit "prog"; lit "--count"; lit "5"] = Ok [lit "--count"; lit "5"]) by (vm_compute; reflexivity).
  assert (PI : put_int 5 = lit "5") by (vm_compute; reflexivity).
  unfold parse_argv. rewrite E. cbn [obind]. change (is_kvp demo) with false. cbv iota.
  destruct (C41_negative_int_partial demo (lit "--count") o_count 0 small 5) as (s' & P & M & _).
  - unfold two31. lia.
  - apply demo_settled.
  - apply demo_count.
  - reflexivity.
  - vm_compute. reflexivity.
  - rewrite PI in P. exists s'. split; [exact P|exact M].
Qed.

(* ---- C45 ---- *)
Theorem C45_round_trip_partial : forall im f text v w s tok o a test,
  (- 2 ^ 31 <= v < 2 ^ 31)%Z ->
  newFormat im (lit "%0") = Ok f -> fmt_str (addI f v w "000" "000") false = Ok text ->
  settled s -> names s tok o -> o_kind o = KScalar ty_int a test -> test (VInt v) = true ->
  exists s', parse_list s [tok; text] = Ok (true, s') /\ mem s' a = VInt v.
Proof.
  intros im f text v w s tok o a test I NF FS H N K T. apply in_i32_range in I.
  assert (E : text = addI_text v w nul nul).
  { assert (X : fmt_str (fold_left insertField [addI_text v w nul nul] f) false = Ok (addI_text v w nul nul ++ [])).
    { apply (c06 im (lit "%0") f [addI_text v w nul nul] [IField 0] (addI_text v w nul nul ++ [])).
      - exact NF.
      - apply (T_field (lit "0") 0%N []); [reflexivity|reflexivity|apply T_nil].
      - intros n [[= <-]|[]]. reflexivity.
      - apply Sh_filled; [reflexivity|apply Sh_nil]. }
    rewrite app_nil_r in X. cbn [fold_left] in X. unfold addI in FS. unfold nul in *. rewrite X in FS. congruence. }
  destruct (addI_text_leading v w) as (b & B & E2).
  assert (RD : ty_read ty_int text = RdOk (VInt v)).
  { rewrite E, E2. cbn [ty_int ty_read]. rewrite (read_put_i32 b v B I). reflexivity. }
  destruct (c41_scalar s tok o a test ty_int eq_refl text (VInt v) [] [] H N K RD T (R_end s [])) as (s' & P & A).
  exists s'. split; [exact P|]. rewrite (af_mem _ _ _ A). cbn [flat_map stored app]. rewrite K, Nat.eqb_refl. reflexivity.
Qed.
Print Assumptions C45_round_trip_partial.
Theorem C45_int_partial : forall text v, ty_read ty_int text = RdOk (VInt v) <->
  exists neg n, leading_int text neg n /\ v = signed_value neg n /\ (- 2 ^ 31 <= v < 2 ^ 31)%Z.
Proof.
  intros text v. setoid_rewrite <- in_i32_range. rewrite <- read_i32_spec. cbn [ty_int ty_read]. destruct (read_i32 text); cbn; split; congruence.
Qed.
Print Assumptions C45_int_partial.
Theorem C45_long_partial : forall text v, ty_read ty_long text = RdOk (VInt v) <->
  exists neg n, leading_int text neg n /\ v = signed_value neg n /\ (- 2 ^ 63 <= v < 2 ^ 63)%Z.
Proof.
  intros text v. setoid_rewrite <- in_i64_range. rewrite <- read_i64_spec. cbn [ty_long ty_read]. destruct (read_i64 text); cbn; split; congruence.
Qed.
Print Assumptions C45_long_partial.
(* unsigned types take the numeral's digits modulo 2^32 (2^64), negated after a
   minus sign *)
Theorem C45_unsigned_partial : forall text v, ty_read ty_uint text = RdOk (VInt v) <->
  exists neg n, leading_int text neg n /\ (Z.of_N n < 2 ^ 32)%Z /\ v = (signed_value neg n mod 2 ^ 32)%Z.
Proof.
  intros text v. change (2 ^ 32)%Z with two32. pose proof (read_u_spec (two32 - 1) text v ltac:(unfold two32; lia)) as R.
  replace (two32 - 1 + 1)%Z with two32 in R by (unfold two32; lia).
  assert (E : (exists neg n, leading_int text neg n /\ (Z.of_N n < two32)%Z /\ v = (signed_value neg n mod two32)%Z) <->
    read_u32 text = RdOk v).
  { unfold read_u32. rewrite R. split; intros (neg & n & A & B & C); exists neg, n; (split; [exact A|split; [lia|exact C]]). }
  rewrite E. cbn [ty_uint ty_read]. destruct (read_u32 text); cbn; split; congruence.
Qed.
Print Assumptions C45_unsigned_partial.
Theorem C45_ulong_partial : forall text v, ty_read ty_ulong text = RdOk (VInt v) <->
  exists neg n, leading_int text neg n /\ (Z.of_N n < 2 ^ 64)%Z /\ v = (signed_value neg n mod 2 ^ 64)%Z.
Proof.
  intros text v. change (2 ^ 64)%Z with two64. pose proof (read_u_spec (two64 - 1) text v ltac:(unfold two64; lia)) as R.
  replace (two64 - 1 + 1)%Z with two64 in R by (unfold two64; lia).
  assert (E : (exists neg n, leading_int text neg n /\ (Z.of_N n < two64)%Z /\ v = (signed_value neg n mod two64)%Z) <->
    read_u64 text = RdOk v).
  { unfold read_u64. rewrite R. split; intros (neg & n & A & B & C); exists neg, n; (split; [exact A|split; [lia|exact C]]). }
  rewrite E. cbn [ty_ulong ty_read]. destruct (read_u64 text); cbn; split; congruence.
Qed.
Print Assumptions C45_ulong_partial.
Theorem C45_unsigned_refuted : ty_read ty_uint (lit "-1") = RdOk (VInt 4294967295) /\ leading_int (lit "-1") true 1%N.
Proof.
  split; [vm_compute; reflexivity|]. exists [], (lit "-"), (lit "1"), []. repeat split. constructor.
Qed.
Print Assumptions C45_unsigned_refuted.
Example C45_nonvacuous : (exists f, newFormat Glibc (lit "%0") = Ok f /\ fmt_str (addI f (-42) 6 "000" "000") false = Ok (lit "   -42")) /\
  settled demo /\ names demo (lit "--count") o_count /\ o_kind o_count = KScalar ty_int 0 small /\ small (VInt (-42)) = true /\ (- 2 ^ 31 <= -42 < 2 ^ 31)%Z /\
  leading_int (lit " +12abc") false 12%N.
Proof.
  split; [eexists; split; vm_compute; reflexivity|]. split; [apply demo_settled|]. split; [apply demo_count|].
  split; [reflexivity|]. split; [vm_compute; reflexivity|]. split; [lia|].
  exists (lit " "), (lit "+"), (lit "12"), (lit "abc"). split; [reflexivity|]. split; [repeat constructor|].
  split; [right; reflexivity|]. split; vm_compute; reflexivity.
Qed.

(* ---- C46 ---- *)
Theorem C46_bool_partial : forall text b, ty_read ty_bool text = RdOk (VBool b) <->
  (b = true /\ begins text "t" "T") \/ (b = false /\ begins text "f" "F") \/
  (exists neg n, leading_int text neg n /\ (- 2 ^ 31 <= signed_value neg n < 2 ^ 31)%Z /\ b = negb (n =? 0)%N).
Proof.
  intros text b. setoid_rewrite <- in_i32_range. rewrite <- c46. cbn [ty_bool ty_read]. destruct (read_bool text); cbn; split; congruence.
Qed.
Print Assumptions C46_bool_partial.
Theorem C46_empty_refuted : forall b, ty_read ty_bool [] <> RdOk (VBool b) /\ ty_read ty_bool [] = RdFail (Some (VBool false)).
Proof. intros b. split; [discriminate|reflexivity]. Qed.
Print Assumptions C46_empty_refuted.
Example C46_nonvacuous : ty_read ty_bool (lit "tea") = RdOk (VBool true) /\ ty_read ty_bool (lit "False") = RdOk (VBool false) /\
  ty_read ty_bool (lit " 12x") = RdOk (VBool true) /\ ty_read ty_bool (lit "-0") = RdOk (VBool false) /\
  ty_read ty_bool (lit "yes") = RdFail None.
Proof. repeat split; vm_compute; reflexivity. Qed.

(* ---- C47 ---- *)
Theorem C47_getPosArg_partial : forall s i, (Z.of_nat (length (getPosArgs s)) < 2 ^ 63)%Z -> (- 2 ^ 31 <= i < 2 ^ 31)%Z ->
  ((0 <= i < Z.of_nat (length (getPosArgs s)))%Z -> exists t, nth_error (getPosArgs s) (Z.to_nat i) = Some t /\ getPosArg s i = Ok t) /\
  ((i < 0 \/ i > Z.of_nat (length (getPosArgs s)))%Z -> getPosArg s i = Ok []) /\
  (i = Z.of_nat (length (getPosArgs s)) -> getPosArg s i = UB).
Proof. intros s i H I. apply c47; [exact H|apply in_i32_range; exact I]. Qed.
Print Assumptions C47_getPosArg_partial.
Theorem C47_getPosArg_refuted : settled demo /\ numPosArgs demo = 0%Z /\ getPosArg demo 0 = UB.
Proof. split; [apply demo_settled|]. split; vm_compute; reflexivity. Qed.
Print Assumptions C47_getPosArg_refuted.
Example C47_nonvacuous : exists s, parse_list demo [lit "a"; lit "b"] = Ok (true, s) /\ numPosArgs s = 2%Z /\
  getPosArg s 1 = Ok (lit "b") /\ getPosArg s (-1) = Ok [] /\ getPosArg s 3 = Ok [].
Proof.
  destruct (parse_defined demo [lit "a"; lit "b"]) as (b & s' & P).
  assert (Q : match parse_list demo [lit "a"; lit "b"] with
    Ok (b, s') => Some (b, numPosArgs s', getPosArg s' 1, getPosArg s' (-1), getPosArg s' 3) | _ => None end =
    Some (true, 2%Z, Ok (lit "b"), Ok [], Ok [])) by (vm_compute; reflexivity).
  rewrite P in Q. injection Q as -> A B C D. exists s'. auto.
Qed.

(* ---- C48 ---- *)
(* after a line that stopped at an option of signed type, its value missing or
   rejected, every token of every later line is taken for a positional argument *)
Theorem C48_stuck_refuted : forall s ts is rest b s1, settled s -> reads s ts is rest -> ending s rest -> stalls s rest ->
  parse_list s ts = Ok (b, s1) ->
  forall ts', exists s2, parse_list s1 ts' = Ok (true, s2) /\ getPosArgs s2 = getPosArgs s1 ++ ts' /\
    mem s2 = mem s1 /\ vmem s2 = vmem s1 /\ present s2 = present s1.
Proof. exact c48_stuck. Qed.
Print Assumptions C48_stuck_refuted.
(* so two programs with the same options, variables and arguments differ *)
Theorem C48_independent_refuted : exists s1 s2 t1 t2, reach s1 /\ reach s2 /\ alike s1 s2 /\
  parse_list s1 [lit "--loud"] = Ok (true, t1) /\ parse_list s2 [lit "--loud"] = Ok (true, t2) /\
  mem t1 2 = VBool true /\ mem t2 2 = VBool false /\ getPosArgs t1 = [] /\ getPosArgs t2 = [lit "--loud"].
Proof.
  destruct (wfs_waiting_stuck demo_stuck [lit "--loud"] eq_refl) as (s' & P & A & M & _).
  assert (RD : reads demo [lit "--loud"] [Flag (lit "--loud") o_loud] []).
  { apply R_flag; [apply demo_loud|exists 2; reflexivity|apply R_end]. }
  destruct (C33_understood_exactly demo _ _ demo_settled RD) as (t & P1 & A1 & _).
  exists demo, demo_stuck, t, s'. split; [apply demo_reach|]. split; [apply demo_stuck_reach|].
  split; [constructor; reflexivity|]. split; [exact P1|]. split; [exact P|].
  split; [rewrite (af_mem _ _ _ A1); reflexivity|]. split; [rewrite M; reflexivity|].
  split; [unfold getPosArgs; rewrite (af_pos _ _ _ A1); reflexivity|exact A].
Qed.
Print Assumptions C48_independent_refuted.
(* when no earlier line stalled like that, the outcome is determined *)
Theorem C48_independent_partial : forall s1 s2 ts, settled s1 -> settled s2 -> alike s1 s2 ->
  exists b s1' s2' msg is, parse_list s1 ts = Ok (b, s1') /\ parse_list s2 ts = Ok (b, s2') /\ alike s1' s2' /\
    cerr s1' = cerr s1 ++ msg /\ cerr s2' = cerr s2 ++ msg /\
    (forall id, present s1' id = present s1 id || existsb (mentions id) is) /\
    (forall id, present s2' id = present s2 id || existsb (mentions id) is).
Proof. exact c48. Qed.
Print Assumptions C48_independent_partial.
(* two histories: a fresh program, and one that failed on an unknown option *)
Example C48_nonvacuous : exists s2, parse_list demo [lit "-z"] = Ok (false, s2) /\ settled s2 /\ alike demo s2 /\
  (exists o, names demo (lit "--count") o /\ o_signed o = true).
Proof.
  destruct (parse_defined demo [lit "-z"]) as (b & s2 & P).
  assert (Z : reads demo [lit "-z"] [] [lit "-z"]) by apply R_end.
  destruct C36_nonvacuous as (_ & L & NH & NN).
  destruct (C36_unknown_option demo [lit "-z"] [] (lit "-z") [] demo_settled Z L NH NN) as (s' & h & said & _ & P' & A & _).
  rewrite P in P'. injection P' as -> ->. exists s'. split; [exact P|].
  split; [eapply ST_list; [apply demo_settled| |exact P]|].
  - exists [], [lit "-z"]. split; [apply R_end|]. split; [apply E_unknown; assumption|].
    intros (tok & o & N & _ & _ & [X|(text & r & X & _)]); [injection X as <-; exact (NN o N)|discriminate].
  - split; [|exists o_count; split; [apply demo_count|reflexivity]].
    constructor; symmetry; apply A.
Qed.

(* ---- C49 ---- *)
Theorem C49_key_value_partial : forall s l t, kv_text l t -> Forall plain_kv l ->
  parseKeyValue s t = parse_list s (kv_tokens_of l).
Proof. exact parseKeyValue_ok. Qed.
Print Assumptions C49_key_value_partial.
(* an object built for key=value input parses strings that way *)
Theorem C49_kvp_object_partial : forall im s l t, is_kvp s = true -> kv_text l t -> Forall plain_kv l ->
  parse_string im s t = parse_list s (kv_tokens_of l).
Proof. intros im s l t K T F. unfold parse_string. rewrite K. apply parseKeyValue_ok; assumption. Qed.
Print Assumptions C49_kvp_object_partial.
(* an empty value becomes the key; a run of spaces in a value becomes one *)
Theorem C49_key_value_refuted : forall s,
  parseKeyValue s (lit "name=") = parse_list s [lit "--name"; lit "name"] /\
  parseKeyValue s (lit "name=a  b") = parse_list s [lit "--name"; lit "a b"].
Proof. intros s. split; reflexivity. Qed.
Print Assumptions C49_key_value_refuted.
Example C49_nonvacuous : kv_text [(lit "count", lit "5"); (lit "name", lit "a b")] (lit "count=5, name=a b ") /\
  Forall plain_kv [(lit "count", lit "5"); (lit "name", lit "a b")] /\
  kv_tokens_of [(lit "count", lit "5"); (lit "name", lit "a b")] = [lit "--count"; lit "5"; lit "--name"; lit "a b"].
Proof.
  assert (SP : forall n, spaces (repeat " "%char n)) by (intros n c H; apply repeat_spec in H; exact H).
  split; [|split; [|reflexivity]].
  - apply (KV_more [] (lit "count") (lit "5") [] _ (lit " name=a b ")); [apply (SP 0)|apply (SP 0)|].
    apply (KV_one (lit " ") (lit "name") (lit "a b") (lit " ")); apply (SP 1).
  - assert (DS : forall t, forallb (fun p => negb (str_eqb (firstn 2 (skipn p t)) (lit "  "))) (seq 0 (length t)) = true ->
      forall a b, t <> a ++ " "%char :: " "%char :: b).
    { intros t H a b ->. rewrite forallb_forall in H. specialize (H (length a)).
      rewrite skipn_app, skipn_all, Nat.sub_diag in H. cbn in H. discriminate H.
      apply in_seq. rewrite app_length. cbn. lia. }
    constructor; [|constructor; [|constructor]]; unfold plain_kv; cbn [fst snd]; (split; [discriminate|]);
      (split; [intros H; vm_compute in H; repeat (destruct H as [H|H]; [discriminate|]); exact H|]);
      (split; [intros H; vm_compute in H; repeat (destruct H as [H|H]; [discriminate|]); exact H|]);
      (split; [discriminate|]); (split; [vm_compute; discriminate|]); apply DS; vm_compute; reflexivity.
Qed.

(* ---- C50 ---- *)
Theorem C50_only_accepted : forall s ts s', settled s -> parse_list s ts = Ok (true, s') ->
  (forall a, mem s' a = mem s a \/
     exists o, registered s o /\
       ((exists t test, o_kind o = KScalar t a test /\ test (mem s' a) = true) \/
        (o_kind o = KPresence a /\ mem s' a = VBool true))) /\
  (forall a, exists l, vmem s' a = vmem s a ++ l /\
     forall v, In v l -> exists o t test, registered s o /\ o_kind o = KVector t a test /\ test v = true).
Proof. exact c50. Qed.
Print Assumptions C50_only_accepted.
Example C50_nonvacuous : settled demo /\ (exists s', parse_list demo line1 = Ok (true, s')) /\ small (VInt (-3)) = true /\ small (VInt 250) = false.
Proof.
  split; [apply demo_settled|]. split; [destruct C33_nonvacuous as (_ & _ & s' & P & _); eauto|]. split; vm_compute; reflexivity.
Qed.

(* ---- C51 ---- *)
Theorem C51_help_sorted : forall s, reach s ->
  exists l, StronglySorted (fun a b => str_compare (o_long a) (o_long b) = Lt) l /\
    (forall o, In o l <-> findOpt_long s (o_long o) = Some o) /\
    (forall n, (exists o, findOpt_long s n = Some o) <-> In n (map o_long l)) /\
    ((forall o, In o l -> (Z.of_nat (length (o_long o)) < two31)%Z) ->
     printHelp s = Ok (concat (map (fun i => i ++ ["010"%char]) (info_list s)) ++
                       concat (map (if is_kvp s then kvp_line else plain_line) l))).
Proof. exact c51. Qed.
Print Assumptions C51_help_sorted.
Example C51_nonvacuous : reach demo /\ printHelp demo = Ok (lit "demo program" ++ ["010"%char] ++
  lit "   --count                -c     how many" ++ ["010"%char] ++ lit "   --list                 -i     numbers" ++ ["010"%char] ++
  lit "   --loud                 -l     be loud" ++ ["010"%char] ++ lit "   --name                 -n     a name" ++ ["010"%char]).
Proof. split; [apply demo_reach|]. vm_compute. reflexivity. Qed.

(* ---- C52 ---- *)
Theorem C52_list : forall s ts b s', parse_list s ts = Ok (b, s') -> untouched s s'.
Proof. exact c52. Qed.
Print Assumptions C52_list.
Theorem C52_string : forall im s t b s', parse_string im s t = Ok (b, s') -> untouched s s'.
Proof. exact c52_string. Qed.
Print Assumptions C52_string.
Theorem C52_argv : forall s n v b s', parse_argv s n v = Ok (b, s') -> untouched s s'.
Proof. exact c52_argv. Qed.
Print Assumptions C52_argv.
Theorem C52_key_value : forall s t b s', parseKeyValue s t = Ok (b, s') -> untouched s s'.
Proof. exact c52_kv. Qed.
Print Assumptions C52_key_value.
Example C52_nonvacuous : exists b s', parse_list demo [lit "--list"; lit "4"; lit "--count"; lit "x"] = Ok (b, s') /\ b = false /\
  vmem s' 0 = [VInt 5; VInt 4] /\ mem s' 0 = VInt 0 /\ mem s' 3 = VInt 99.
Proof.
  destruct (parse_defined demo [lit "--list"; lit "4"; lit "--count"; lit "x"]) as (b & s' & P).
  assert (Q : match parse_list demo [lit "--list"; lit "4"; lit "--count"; lit "x"] with
    Ok (b, s') => Some (b, vmem s' 0, mem s' 0, mem s' 3) | _ => None end = Some (false, [VInt 5; VInt 4], VInt 0, VInt 99))
    by (vm_compute; reflexivity).
  rewrite P in Q. injection Q as -> A B C. exists false, s'. auto 6.
Qed.

(* ---- C53 ---- *)
Theorem C53_registration : forall r k def doc err s, makes r k def doc err ->
  (exists o, findOpt_long (rg_add r s) (rg_long r) = Some o /\ findOpt_ab (rg_add r s) (rg_ab r) = Some o /\
     o_kind o = k /\ o_default o = def /\ o_doc o = doc /\ o_err o = err /\ o_long o = rg_long r /\ o_ab o = rg_ab r) /\
  (forall n, n <> rg_long r -> findOpt_long (rg_add r s) n = findOpt_long s n) /\
  (forall c, c <> rg_ab r -> findOpt_ab (rg_add r s) c = findOpt_ab s c).
Proof. intros. eapply makes_find. eassumption. Qed.
Print Assumptions C53_registration.
(* the option found under either name after two registrations *)
Theorem C53_second_replaces_first : forall r1 r2 k def doc err s, is_reg r1 -> makes r2 k def doc err ->
  (rg_long r1 = rg_long r2 -> exists o, findOpt_long (rg_add r2 (rg_add r1 s)) (rg_long r1) = Some o /\
     o_kind o = k /\ o_default o = def /\ o_doc o = doc /\ o_err o = err) /\
  (rg_ab r1 = rg_ab r2 -> exists o, findOpt_ab (rg_add r2 (rg_add r1 s)) (rg_ab r1) = Some o /\
     o_kind o = k /\ o_default o = def /\ o_doc o = doc /\ o_err o = err) /\
  (forall n, n <> rg_long r1 -> n <> rg_long r2 -> findOpt_long (rg_add r2 (rg_add r1 s)) n = findOpt_long s n) /\
  (forall c, c <> rg_ab r1 -> c <> rg_ab r2 -> findOpt_ab (rg_add r2 (rg_add r1 s)) c = findOpt_ab s c).
Proof.
  intros r1 r2 k def doc err s R1 M2. destruct (makes_find r2 k def doc err (rg_add r1 s) M2) as ((o & A & B & C) & D & E).
  assert (M1 : exists k1 d1 doc1 err1, makes r1 k1 d1 doc1 err1) by (destruct R1; do 4 eexists; constructor).
  destruct M1 as (k1 & d1 & doc1 & err1 & M1). destruct (makes_find r1 k1 d1 doc1 err1 s M1) as (_ & D1 & E1).
  split; [intros ->; exists o; tauto|]. split; [intros ->; exists o; tauto|].
  split; [intros n N1 N2; rewrite D, D1 by assumption; reflexivity|intros c N1 N2; rewrite E, E1 by assumption; reflexivity].
Qed.
Print Assumptions C53_second_replaces_first.
Example C53_nonvacuous : is_reg r_count /\ makes (mkReg (lit "count") "k" (fun s => addP s 9 (lit "count") "k" (lit "d"))) (KPresence 9) true (lit "d") [] /\
  rg_long r_count = lit "count".
Proof. split; [constructor|]. split; [constructor|reflexivity]. Qed.
