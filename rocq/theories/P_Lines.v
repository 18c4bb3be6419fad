(* P_Lines.v -- property theorems about whole command lines (C102 - C105): any
   string, where parse is defined, order and spelling of options. *)
From Coq Require Import Permutation.
From Verif Require Import Base M_Stream M_StreamIn M_Split M_Format M_Options S_Num S_Split S_Options
  L_Options L_OptionsI L_OptionsT C_Options C_OptionsP P_Options.

(* ---- C102: every string has exactly one reading as tokens, and parse uses it ---- *)
Theorem C102_every_string : forall im s l, is_kvp s = false -> defined_on im l ->
  exists ts, command_line ts l /\ (forall ts', command_line ts' l -> ts' = ts) /\ parse_string im s l = parse_list s ts.
Proof.
  intros im s l K D. destruct (command_exists (length l) l (le_n _)) as (ts & H). exists ts. split; [exact H|].
  split; [intros ts' H'; exact (command_unique ts' ts l H' H)|apply parse_string_command; assumption].
Qed.
Print Assumptions C102_every_string.
Ltac noquote := let H := fresh in intros H; vm_compute in H; repeat (destruct H as [H|H]; [discriminate|]); exact H.
Ltac run := split; [noquote|repeat constructor; discriminate].
(* four tokens; the last quotation is not closed *)
Example C102_nonvacuous : command_line [lit "abc d"; lit "e"; []; lit "xy z"] (lit " ab""c d""e """" x""y z") /\
  buildTokenList Strict (lit " ab""c d""e """" x""y z") = Ok [lit "abc d"; lit "e"; []; lit "xy z"] /\
  command_line [] (lit " """) /\ is_kvp demo = false.
Proof.
  split; [|split; [vm_compute; reflexivity|split; [apply (CL_lone (lit " ")); repeat constructor|reflexivity]]].
  apply (CL_quoted (lit " ") (lit "ab") (lit "c d") _ (lit "e """" x""y z")); [repeat constructor|run|noquote|].
  apply (CL_word [] (lit "e") (lit " """" x""y z")); [constructor|run|discriminate|right; eexists _, _; split; reflexivity|].
  apply (CL_quoted (lit " ") [] [] _ (lit " x""y z")); [repeat constructor|run|noquote|].
  apply (CL_open (lit " ") (lit "x") (lit "y z")); [repeat constructor|run|noquote|discriminate].
Qed.

(* ---- C103: where parse is defined ---- *)
Theorem C103_defined_partial : forall im s,
  (forall ts, exists b s', parse_list s ts = Ok (b, s')) /\
  (is_kvp s = false -> forall l, defined_on im l -> exists b s', parse_string im s l = Ok (b, s')) /\
  (is_kvp s = false -> forall argc argv, (argc <= Z.of_nat (length argv))%Z -> exists b s', parse_argv s argc argv = Ok (b, s')).
Proof.
  intros im s. split; [apply parse_defined|]. split.
  - intros K l D. destruct (C102_every_string im s l K D) as (ts & _ & _ & ->). apply parse_defined.
  - intros K argc argv L. destruct (Z.ltb_spec argc 2) as [A|A].
    + unfold parse_argv, buildTokenList_argv. destruct (Z.ltb_spec argc 2); [|lia]. cbn [obind]. rewrite K. apply parse_defined.
    + destruct argv as [|prog argv]; [cbn in L; lia|]. cbn [length] in L.
      set (k := Z.to_nat (argc - 1)). assert (Hk : k <= length argv) by (unfold k; lia).
      assert (E := argv_tokens prog (firstn k argv) (skipn k argv)). rewrite firstn_skipn, firstn_length_le in E by exact Hk.
      replace (Z.of_nat (S k)) with argc in E by (unfold k; lia). unfold parse_argv. rewrite E. cbn [obind]. rewrite K. apply parse_defined.
Qed.
Print Assumptions C103_defined_partial.
(* key=value texts: exactly what each does *)
Theorem C103_key_value_partial : forall s t,
  (t = [] -> parseKeyValue s t = Ok (false, s)) /\
  (~ spaces t -> (forall p, In p (kv_cut t) -> ~ spaces p) ->
     parseKeyValue s t = parse_list s (kv_tokens_of (map kv_pair (kv_cut t)))) /\
  (t <> [] -> spaces t \/ (exists p, In p (kv_cut t) /\ spaces p) -> parseKeyValue s t = UB).
Proof.
  intros s t. split; [intros ->; reflexivity|]. split; [apply kv_exact|].
  intros N [B|(p & Hp & B)]; [apply kv_blank; assumption|eapply kv_blank_piece; eassumption].
Qed.
Print Assumptions C103_key_value_partial.
Theorem C103_kvp_arguments_partial : forall s prog ts more, is_kvp s = true ->
  ((forall p, In p ts -> ~ spaces p) ->
     parse_argv s (Z.of_nat (S (length ts))) (prog :: ts ++ more) = parse_list s (kv_tokens_of (map kv_pair ts))) /\
  ((exists p, In p ts /\ spaces p) -> parse_argv s (Z.of_nat (S (length ts))) (prog :: ts ++ more) = UB).
Proof.
  intros s prog ts more K. unfold parse_argv. rewrite argv_tokens. cbn [obind]. rewrite K. unfold parseKeyValue_list. split.
  - intros H. rewrite kv_tokens_all; [reflexivity|]. apply Forall_forall. intros x Hx W. apply (H x Hx), words_nil_spaces, W.
  - intros (p & Hp & B). rewrite (kv_tokens_ub ts p Hp) by (apply words_nil_spaces, B). reflexivity.
Qed.
Print Assumptions C103_kvp_arguments_partial.
(* two commas together, or a text of spaces, are undefined behaviour *)
Theorem C103_key_value_refuted : forall s, parseKeyValue s (lit "a=1,,b=2") = UB /\ parseKeyValue s (lit " ") = UB.
Proof. intros s. split; reflexivity. Qed.
Print Assumptions C103_key_value_refuted.
Example C103_nonvacuous : let t := lit " count = 5 ,name=x=  y z, " in
  ~ spaces t /\ (forall p, In p (kv_cut t) -> ~ spaces p) /\
  kv_tokens_of (map kv_pair (kv_cut t)) = [lit "--count "; lit " 5"; lit "--name"; lit " y z"] /\
  (3 <= Z.of_nat (length [lit "prog"; lit "--count"; lit "5"]))%Z.
Proof.
  cbv zeta. split; [intros H; specialize (H "c"%char ltac:(vm_compute; tauto)); discriminate|]. split; [|split; [vm_compute; reflexivity|cbn; lia]].
  intros p Hp H. vm_compute in Hp. destruct Hp as [<-|[<-|[]]].
  - specialize (H "c"%char ltac:(cbn; tauto)). discriminate.
  - specialize (H "n"%char ltac:(cbn; tauto)). discriminate.
Qed.

(* ---- C104: the order of options does not matter ---- *)
(* no variable is stored to twice, no vector gets two values *)
Definition each_once (is : list item) : Prop :=
  forall a, length (flat_map (stored a) is) <= 1 /\ length (flat_map (appended a) is) <= 1.
Lemma perm_short {A} (l1 l2 : list A) : Permutation l1 l2 -> length l1 <= 1 -> l1 = l2.
Proof.
  intros P H. destruct l1 as [|x [|y l]]; [apply Permutation_nil in P; congruence| |cbn in H; lia].
  apply Permutation_length_1_inv in P. congruence.
Qed.
Lemma existsb_perm {A} (f : A -> bool) l1 l2 : Permutation l1 l2 -> existsb f l1 = existsb f l2.
Proof.
  induction 1 as [|x l1 l2 P IH|x y l|l1 l2 l3 P1 IH1 P2 IH2]; cbn; [reflexivity|rewrite IH; reflexivity| |congruence].
  destruct (f x), (f y); reflexivity.
Qed.
Theorem C104_order : forall s ts1 ts2 is1 is2, settled s -> reads s ts1 is1 [] -> reads s ts2 is2 [] ->
  Permutation is1 is2 -> each_once is1 -> flat_map word is1 = flat_map word is2 ->
  exists s1 s2, parse_list s ts1 = Ok (true, s1) /\ parse_list s ts2 = Ok (true, s2) /\
    (forall a, mem s1 a = mem s2 a) /\ (forall a, vmem s1 a = vmem s2 a) /\ getPosArgs s1 = getPosArgs s2 /\
    (forall n, isPresent_long s1 n = isPresent_long s2 n) /\ (forall c, isPresent_ab s1 c = isPresent_ab s2 c).
Proof.
  intros s ts1 ts2 is1 is2 H R1 R2 P O W.
  destruct (C33_understood_exactly s ts1 is1 H R1) as (s1 & P1 & A1 & _).
  destruct (C33_understood_exactly s ts2 is2 H R2) as (s2 & P2 & A2 & _).
  exists s1, s2. split; [exact P1|]. split; [exact P2|].
  assert (PR : forall id, present s1 id = present s2 id).
  { intros id. rewrite (af_present _ _ _ A1), (af_present _ _ _ A2). f_equal. apply existsb_perm, P. }
  split; [|split; [|split; [|split]]].
  - intros a. rewrite (af_mem _ _ _ A1), (af_mem _ _ _ A2). f_equal. apply perm_short; [apply Permutation_flat_map, P|apply O].
  - intros a. rewrite (af_vec _ _ _ A1), (af_vec _ _ _ A2). f_equal. apply perm_short; [apply Permutation_flat_map, P|apply O].
  - unfold getPosArgs. rewrite (af_pos _ _ _ A1), (af_pos _ _ _ A2), W. reflexivity.
  - intros n. unfold isPresent_long, findOpt_long. rewrite (af_long _ _ _ A1), (af_long _ _ _ A2).
    destruct (smap_find str_compare n (long_map s)); [apply PR|reflexivity].
  - intros c. unfold isPresent_ab, findOpt_ab. rewrite (af_ab _ _ _ A1), (af_ab _ _ _ A2).
    destruct (smap_find char_compare c (ab_map s)); [apply PR|reflexivity].
Qed.
Print Assumptions C104_order.
(* line1 with its options in another order *)
Definition line2 := [lit "-n"; lit "-x"; lit "file"; lit "--loud"; lit "--list"; lit "4"; lit "--count"; lit "-3"; lit "end"].
Definition items2 := [Given (lit "-n") o_name (lit "-x") (VStr (lit "-x")); Pos (lit "file"); Flag (lit "--loud") o_loud;
  Given (lit "--list") o_list (lit "4") (VInt 4); Given (lit "--count") o_count (lit "-3") (VInt (-3)); Pos (lit "end")].
Definition line3 := [lit "file"; lit "--count"; lit "-3"; lit "end"; lit "-n"; lit "-x"; lit "--list"; lit "4"; lit "--loud"].
Definition items3 := [Pos (lit "file"); Given (lit "--count") o_count (lit "-3") (VInt (-3)); Pos (lit "end");
  Given (lit "-n") o_name (lit "-x") (VStr (lit "-x")); Given (lit "--list") o_list (lit "4") (VInt 4); Flag (lit "--loud") o_loud].
Ltac readit := repeat first
  [ apply R_end
  | apply R_flag; [apply demo_loud|exists 2; reflexivity|]
  | apply R_given; [first [apply demo_count|apply demo_name|apply demo_list]|split; vm_compute; reflexivity
      |first [nolook|intros _; right; reflexivity|intros _; left; reflexivity]|]
  | apply R_pos; [nolook|] ].
Example C104_nonvacuous : reads demo line2 items2 [] /\ reads demo line3 items3 [] /\ Permutation items2 items3 /\
  each_once items2 /\ flat_map word items2 = flat_map word items3.
Proof.
  split; [unfold line2, items2; readit|]. split; [unfold line3, items3; readit|]. split; [|split; [|reflexivity]].
  - unfold items2, items3.
    match goal with |- Permutation [?n; ?f; ?l; ?i; ?c; ?e] _ =>
      apply (Permutation_trans (l' := [f; n; l; i; c; e])); [apply perm_swap|]; apply perm_skip;
      change (Permutation ([n; l; i] ++ [c; e]) ([c; e] ++ [n; i; l])) end.
    apply (Permutation_trans (Permutation_app_comm _ _)). apply Permutation_app_head. apply perm_skip. apply perm_swap.
  - intros a. destruct a as [|[|[|a]]]; cbn; lia.
Qed.

(* ---- C105: long and short names are interchangeable ---- *)
Lemma reads_respell s tok1 tok2 o post : names s tok1 o -> names s tok2 o -> forall pre is,
  reads s (pre ++ tok1 :: post) is (tok1 :: post) -> reads s (pre ++ tok2 :: post) is (tok2 :: post).
Proof.
  intros N1 N2. assert (L2 := names_looks _ _ _ N2).
  assert (G : forall ts is rest, reads s ts is rest -> rest = tok1 :: post -> forall pre, ts = pre ++ tok1 :: post ->
    reads s (pre ++ tok2 :: post) is (tok2 :: post)).
  { assert (LEN : forall ts is rest, reads s ts is rest -> length rest <= length ts).
    { intros ts is rest H. apply reads_tokens in H. subst. rewrite app_length. lia. }
    induction 1 as [ts|w ts is rest W H IH|tok o' ts is rest N F H IH|tok o' text v ts is rest N A G H IH|tok o' t ts is rest N F G T H IH];
      intros ER pre E.
    - subst ts. destruct pre as [|p pre]; [apply R_end|]. apply (f_equal (@length str)) in E. cbn in E. rewrite app_length in E. cbn in E. lia.
    - destruct pre as [|p pre]; cbn [app] in E; injection E as -> ->.
      + apply LEN in H. rewrite ER in H. cbn in H. lia.
      + apply R_pos; [exact W|]. apply IH; [exact ER|reflexivity].
    - destruct pre as [|p pre]; cbn [app] in E; injection E as -> ->.
      + apply LEN in H. rewrite ER in H. cbn in H. lia.
      + apply R_flag; [exact N|exact F|]. apply IH; [exact ER|reflexivity].
    - destruct pre as [|p [|p2 pre]]; cbn [app] in E.
      + injection E as -> E. apply LEN in H. rewrite ER in H. apply (f_equal (@length str)) in E. cbn in E, H. lia.
      + injection E as -> E1 E2. subst text ts. apply LEN in H. rewrite ER in H. cbn in H. lia.
      + injection E as -> -> ->. cbn [app]. apply R_given; [exact N|exact A|exact G|]. apply IH; [exact ER|reflexivity].
    - destruct pre as [|p pre]; cbn [app] in E.
      + injection E as -> E. apply LEN in H. rewrite ER in H. apply (f_equal (@length str)) in E. cbn in E, H. lia.
      + injection E as -> E. specialize (IH ER pre E). cbn [app].
        destruct pre as [|p2 pre]; cbn [app] in *; [apply R_bare; assumption|injection E as -> E; apply R_bare; assumption]. }
  intros pre is H. eapply G; eauto.
Qed.
Theorem C105_names_interchangeable : forall s pre tok1 tok2 o post is, settled s ->
  names s tok1 o -> names s tok2 o -> reads s (pre ++ tok1 :: post) is (tok1 :: post) ->
  parse_list s (pre ++ tok1 :: post) = parse_list s (pre ++ tok2 :: post).
Proof.
  intros s pre tok1 tok2 o post is H N1 N2 R. assert (R2 := reads_respell s tok1 tok2 o post N1 N2 pre is R).
  destruct (settled_ok s H) as (RC & W). assert (FU := inv_flags_unsigned s (reach_inv s RC)).
  destruct (loop_reads s _ _ _ FU R s (same_maps_refl s) W) as (E1 & W1).
  destruct (loop_reads s _ _ _ FU R2 s (same_maps_refl s) W) as (E2 & _).
  assert (M := apply_items_maps is s).
  unfold parse_list. rewrite E1, E2.
  rewrite (step_named _ tok1 o post W1 (names_same _ _ _ _ M N1)), (step_named _ tok2 o post W1 (names_same _ _ _ _ M N2)). reflexivity.
Qed.
Print Assumptions C105_names_interchangeable.
(* --count and -c (and -countless) after a bare --list, a rejected value following *)
Example C105_nonvacuous : names demo (lit "--count") o_count /\ names demo (lit "-c") o_count /\ names demo (lit "-countless") o_count /\
  reads demo ([lit "file"; lit "--list"] ++ lit "--count" :: [lit "250"]) [Pos (lit "file"); Bare (lit "--list") o_list] (lit "--count" :: [lit "250"]).
Proof.
  split; [apply demo_count|]. split; [apply (N_short demo "c" []); [discriminate|discriminate|reflexivity]|].
  split; [apply (N_short demo "c" (lit "ountless")); [discriminate|discriminate|reflexivity]|].
  apply R_pos; [nolook|]. apply R_bare; [apply demo_list|noflag|intros [H|H]; discriminate|right; eexists _, _; reflexivity|]. apply R_end.
Qed.
