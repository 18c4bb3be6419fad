(* P_YamlExample.v -- C132: the example program PropertyTreeYamlExample, for
   every command line and every file. *)
From Verif Require Import Base M_Split M_Format M_Options M_PropertyTree M_OptionsExample M_YamlExample.
From Verif Require Import S_Options S_PropertyTree S_Dump S_OptionsExample L_Field L_Options C_Options C_OptionsP P_Options P_PropertyTree P_Dump P_OptionsExample C_PropertyTree.

Definition nothing : st := newOptions false (fun _ => VInt 0) (fun _ => []).
Lemma nothing_reach : reach nothing. Proof. constructor. Qed.
Lemma nothing_names t o : ~ names nothing t o.
Proof. intros H. destruct H as [n o Hn Hh F|c r o Hc Hh F]; discriminate. Qed.
Lemma nothing_argv argv : parse_argv nothing (Z.of_nat (length argv)) argv = parse_list nothing (tl argv).
Proof.
  destruct argv as [|prog ts].
  - rewrite C44_no_arguments by (cbn; lia). reflexivity.
  - pose proof (C44_argv nothing prog ts []) as E. rewrite app_nil_r in E. exact E.
Qed.
Lemma words_read ws rest : Forall (fun w => ~ looks_like_option w) ws -> reads nothing (ws ++ rest) (map Pos ws) rest.
Proof. induction 1; cbn; [apply R_end|apply R_pos; assumption]. Qed.
Lemma words_parse ws : Forall (fun w => ~ looks_like_option w) ws ->
  exists s, parse_list nothing ws = Ok (true, s) /\ pos_arg_vec s = ws /\ cerr s = [].
Proof.
  intros F. pose proof (words_read ws [] F) as R. rewrite app_nil_r in R.
  destruct (c33 nothing ws _ nothing_reach eq_refl R) as (s & P & A & E & _). exists s. split; [exact P|]. split; [|exact E].
  rewrite (af_pos _ _ _ A). cbn. clear. induction ws; cbn; congruence.
Qed.

(* A file name, and further words but no options: the program loads that file.
   If the file can be read to the end, it prints its content, as C110
   describes, and ends with 0; otherwise it is terminated by the exception. *)
Theorem C132_prints_file : forall nk load prog f ws,
  (Z.of_nat (length ws) < 2 ^ 31 - 2)%Z -> Forall (fun w => ~ looks_like_option w) (f :: ws) ->
  (forall d, load f = Loaded d -> readable nk d ->
     exists t, yx_main nk load (prog :: f :: ws) = Ok (Ended (mkRun 0 t (lines [[]; []; []; lit "READY?"; []; []]))) /\
       shown nk [] (loaded nk [Loaded d]) t) /\
  (forall d, load f = Loaded d -> ~ readable nk d ->
     exists e, yx_main nk load (prog :: f :: ws) = Ok (Terminated e [] []) /\ (e = yamlInvalidNode \/ e = yamlBadConversion)) /\
  (forall why, load f = LoadBadFile why -> yx_main nk load (prog :: f :: ws) = Ok (Terminated (fileNotFound why) [] [])) /\
  (forall e, load f = LoadOther e -> yx_main nk load (prog :: f :: ws) = Ok (Terminated e [] [])).
Proof.
  intros nk load prog f ws B F. destruct (words_parse (f :: ws) F) as (s & P & V & E).
  assert (N : (numPosArgs s =? 0)%Z = false).
  { unfold numPosArgs. rewrite V. cbn [length]. rewrite to_i32_small by (unfold two31; lia). apply Z.eqb_neq. lia. }
  assert (G : getPosArg s 0 = Ok f).
  { unfold getPosArg. rewrite V. change (to_u64 0) with 0%Z. destruct (Z.ltb_spec (Z.of_nat (length (f :: ws))) 0); [lia|reflexivity]. }
  assert (M : yx_main nk load (prog :: f :: ws) =
    match readFile nk new_tree (load f) with
    | (_, Some e) => Ok (Terminated e [] [])
    | (h, None) => do t <- dump h; Ok (Ended (mkRun 0 t (lines [[]; []; []; lit "READY?"; []; []])))
    end).
  { unfold yx_main. fold nothing. rewrite nothing_argv. cbn [tl]. rewrite P. cbn [obind negb orb]. rewrite N, G. cbn [obind]. rewrite E. reflexivity. }
  rewrite M. split; [|split; [|split]].
  - intros d L R. destruct (C83_readFile_result_partial nk [] d) as [A _]. cbn zeta in A. change (tree nk []) with new_tree in A.
    destruct (C110_dump_exact nk [Loaded d]) as (t & D & SH). exists t. split; [|exact SH].
    apply A in R. rewrite L. change (tree nk [Loaded d]) with (fst (readFile nk new_tree (Loaded d))) in D.
    destruct (readFile nk new_tree (Loaded d)) as [h o]. cbn [fst snd] in *. subst o. rewrite D. reflexivity.
  - intros d L R. destruct (C83_readFile_result_partial nk [] d) as [A X]. cbn zeta in A, X. change (tree nk []) with new_tree in A, X.
    rewrite L. destruct (readFile nk new_tree (Loaded d)) as [h [e|]]; cbn [fst snd] in *; [|destruct R; apply A; reflexivity].
    exists e. split; [reflexivity|apply X; reflexivity].
  - intros why ->. reflexivity.
  - intros e ->. reflexivity.
Qed.
Print Assumptions C132_prints_file.

(* No argument: a message and -1; the file system is not looked at.  The same
   with any option, for the program has none. *)
Theorem C132_no_file : forall nk load argv, length argv <= 1 ->
  yx_main nk load argv = Ok (Ended (mkRun (-1) [] (lines [lit "Missing input file name."]))).
Proof.
  intros nk load argv L. unfold yx_main. fold nothing. rewrite nothing_argv.
  destruct argv as [|p [|x r]]; [reflexivity|reflexivity|cbn in L; lia].
Qed.
Print Assumptions C132_no_file.
Theorem C132_option : forall nk load prog ws tok rest, Forall (fun w => ~ looks_like_option w) ws -> looks_like_option tok ->
  ~ In "000"%char tok ->
  (asks_help tok -> yx_main nk load (prog :: ws ++ tok :: rest) = Ok (Ended (mkRun (-1) [] (lines [lit "Missing input file name."])))) /\
  (~ asks_help tok -> yx_main nk load (prog :: ws ++ tok :: rest) =
     Ok (Ended (mkRun (-1) [] (lines [lit "Command option [[" ++ tok ++ lit "]] is unknown."; lit "Missing input file name."])))).
Proof.
  intros nk load prog ws tok rest F L Z. pose proof (words_read ws (tok :: rest) F) as R.
  assert (M : forall s, parse_list nothing (ws ++ tok :: rest) = Ok (false, s) ->
    yx_main nk load (prog :: ws ++ tok :: rest) = Ok (Ended (mkRun (-1) [] (cerr s ++ lit "Missing input file name." ++ ["010"%char])))).
  { intros s P. unfold yx_main. fold nothing. rewrite nothing_argv. cbn [tl]. rewrite P. reflexivity. }
  split; intros H.
  - destruct (c38 _ _ _ _ _ nothing_reach eq_refl R H) as (s' & help & PH & P & A & E & _).
    cbn in PH. injection PH as <-. rewrite (M s' P), E. reflexivity.
  - destruct (c36 _ _ _ _ _ nothing_reach eq_refl R L H) as (s' & help & PH & P & A & E & _); [intros o; apply nothing_names|].
    cbn in PH. injection PH as <-. rewrite (M s' P), E. rewrite c_str_all.
    + unfold lines. cbn [flat_map cerr nothing newOptions app]. rewrite ?app_nil_r. repeat rewrite <- app_assoc. reflexivity.
    + rewrite !in_app_iff. intros [X|[X|X]]; [|contradiction|]; vm_compute in X; repeat (destruct X as [X|X]; [discriminate|]); exact X.
Qed.
Print Assumptions C132_option.
Example C132_nonvacuous : Forall (fun w => ~ looks_like_option w) [lit "a.yaml"; lit "b"] /\ readable None demo_doc /\
  looks_like_option (lit "-v") /\ ~ asks_help (lit "-v") /\
  yx_main None (fun f => if str_eqb f (lit "a.yaml") then Loaded demo_doc else LoadBadFile f) [lit "p"; lit "a.yaml"; lit "b"] =
  Ok (Ended (mkRun 0 (lines [lit "<<<DICTIONARY>>>"; lit "a:  "; lit "<<<DICTIONARY>>>"; lit "  b:  7"; lit "c:  5"])
    (lines [[]; []; []; lit "READY?"; []; []]))).
Proof.
  split; [repeat constructor; no_option|]. split; [apply L_PropertyTreeP.readable_iff; reflexivity|].
  split; [left; exists "v"%char, []; split; [reflexivity|discriminate]|]. split; [intros [E|(r & E)]; discriminate|].
  vm_compute. reflexivity.
Qed.
