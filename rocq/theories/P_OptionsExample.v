(* P_OptionsExample.v -- C131: the example program OptionsExample, for every
   command line.  argv is what main gets, argc its length, so below 2^31; m is
   what main's variables hold before anything is assigned to them. *)
From Verif Require Import Base M_Stream M_StreamIn M_Split M_Format M_Options M_OptionsExample.
From Verif Require Import S_Num S_Options S_OptionsExample L_Options C_Options C_OptionsP P_Options C_OptionsExample.

Lemma after_missing m ts is tok o : line ts is [tok] -> In o xs -> ~ is_flag o -> called (o_long o) (o_ab o) tok ->
  exists its s1, parse_list (ex_options m) ts = Ok (true, s1) /\ after (ex_options m) s1 its /\ Forall2 corr is its /\
    cerr s1 = [] /\ waiting_for_signed s1 = o_signed o.
Proof.
  intros L I F K. destruct (line_reads m ts is [tok] L) as (its & R & C).
  destruct (last_missing (ex_options m) ts its tok o) as (s1 & P & A & E & W);
    [apply settled_reach, x_settled|reflexivity|exact R|apply x_names; auto|exact F|].
  exists its, s1. auto.
Qed.
Lemma report_dec dec : (forall z, dec z = put_int z) -> forall argv is, report dec argv is = report put_int argv is.
Proof.
  intros D argv is. unfold report, values. rewrite D.
  assert (N : forall f g l k, (forall k w, f k w = g k w) -> numbered f k l = numbered g k l).
  { intros f g. induction l as [|x l IH]; intros k E; [reflexivity|]. cbn. rewrite E, (IH (k + 1)%Z E). reflexivity. }
  rewrite (N _ (fun k a => lit "ARG[" ++ put_int k ++ lit "] = [" ++ a ++ lit "]") argv 0%Z) by (intros; rewrite D; reflexivity).
  rewrite (N _ (fun k w => tab ++ put_int k ++ tab ++ w) (words_of is) 0%Z) by (intros; rewrite D; reflexivity). reflexivity.
Qed.

(* A line that is understood, or understood up to a last option other than
   intarg that lacks its value: the program reports what the line says, then 3
   and "this is a test", and ends with 0. *)
Theorem C131_report_partial : forall dec version gitid im m argv is, (forall z, int_numeral_of z (dec z)) ->
  (Z.of_nat (length argv) < 2 ^ 31)%Z ->
  line (tl argv) is [] \/
  (exists tok, line (tl argv) is [tok] /\
    (called (lit "boolarg") "b" tok \/ called (lit "strarg") "s" tok \/ called (lit "strvecarg") "l" tok)) ->
  ex_main version gitid im m argv =
  Ok (mkRun 0 (lines (report dec argv is ++ values dec 3 (bool_of is) (has_pres is) (lit "this is a test")))
              (lines (notes version gitid is))).
Proof.
  intros dec version gitid im m argv is D B H. pose proof (dec_put dec D) as DP. rewrite (report_dec dec DP).
  assert (X : exists its s1, parse_list (ex_options m) (tl argv) = Ok (true, s1) /\ after (ex_options m) s1 its /\ Forall2 corr is its /\
    cerr s1 = [] /\ waiting_for_signed s1 = false).
  { destruct H as [L|(tok & L & [K|[K|K]])].
    - destruct (line_reads m _ _ _ L) as (its & R & C).
      destruct (c33 (ex_options m) (tl argv) its (settled_reach _ (x_settled m)) eq_refl R) as (s1 & P & A & E & W).
      exists its, s1. auto.
    - apply (after_missing m _ is tok x_bool L); [cbn; tauto|intros (a & E); discriminate|exact K].
    - apply (after_missing m _ is tok x_str L); [cbn; tauto|intros (a & E); discriminate|exact K].
    - apply (after_missing m _ is tok x_vec L); [cbn; tauto|intros (a & E); discriminate|exact K]. }
  destruct X as (its & s1 & P & A & C & E & W).
  assert (WL : length (words_of is) <= length argv).
  { assert (T : length (tl argv) <= length argv) by (destruct argv; cbn; lia).
    destruct H as [L|(tok & L & _)]; apply words_short in L; lia. }
  destruct (ex_run version gitid im m argv is its s1) as (i & t & R & Q); auto.
  rewrite W in Q. destruct Q as [-> ->]. rewrite R. unfold values. rewrite DP. reflexivity.
Qed.
Print Assumptions C131_report_partial.

(* But "-i" as the last argument makes the second parse, of "-i 3 -s ...", set
   nothing: the program reports the old values again. *)
Theorem C131_stuck_refuted : forall dec version gitid im m argv is tok, (forall z, int_numeral_of z (dec z)) ->
  (Z.of_nat (length argv) < 2 ^ 31)%Z -> line (tl argv) is [tok] -> called (lit "intarg") "i" tok ->
  ex_main version gitid im m argv =
  Ok (mkRun 0 (lines (report dec argv is ++ values dec (int_of is) (bool_of is) (has_pres is) (str_of is)))
              (lines (notes version gitid is))).
Proof.
  intros dec version gitid im m argv is tok D B L K. pose proof (dec_put dec D) as DP. rewrite (report_dec dec DP).
  destruct (after_missing m _ is tok x_int L) as (its & s1 & P & A & C & E & W); [cbn; tauto|intros (a & E); discriminate|exact K|].
  assert (WL : length (words_of is) <= length argv).
  { assert (T : length (tl argv) <= length argv) by (destruct argv; cbn; lia). apply words_short in L. lia. }
  destruct (ex_run version gitid im m argv is its s1) as (i & t & R & Q); auto.
  rewrite W in Q. destruct Q as [-> ->]. rewrite R. unfold values. rewrite DP. reflexivity.
Qed.
Print Assumptions C131_stuck_refuted.

Lemma x_usage m : printHelp (ex_options m) = Ok (lines usage).
Proof. vm_compute. reflexivity. Qed.
Lemma c_str_all t : ~ In "000"%char t -> c_str t = t.
Proof.
  induction t as [|c t IH]; intros N; [reflexivity|]. cbn [c_str]. destruct (Ascii.eqb_spec c "000"%char) as [->|D].
  - destruct N. left. reflexivity.
  - rewrite IH; [reflexivity|]. intros I. apply N. right. exact I.
Qed.
Lemma main_false version gitid im m argv s' : parse_list (ex_options m) (tl argv) = Ok (false, s') ->
  ex_main version gitid im m argv = Ok (mkRun (-1) [] (cerr s')).
Proof. intros P. unfold ex_main. rewrite x_argv, P. reflexivity. Qed.

(* Lines that are not understood: nothing is reported, the reason is printed on
   stderr, and the program ends with -1. *)
Theorem C131_help_partial : forall version gitid im m argv is tok rest,
  line (tl argv) is (tok :: rest) -> asks_help tok ->
  ex_main version gitid im m argv = Ok (mkRun (-1) [] (lines usage)).
Proof.
  intros version gitid im m argv is tok rest L H. destruct (line_reads m _ _ _ L) as (its & R & C).
  destruct (c38 _ _ _ _ _ (settled_reach _ (x_settled m)) eq_refl R H) as (s' & help & PH & P & A & E & _).
  rewrite x_usage in PH. assert (EH : help = lines usage) by congruence. subst help. rewrite (main_false _ _ _ _ _ _ P), E. reflexivity.
Qed.
Print Assumptions C131_help_partial.
Theorem C131_unknown_partial : forall version gitid im m argv is tok rest,
  line (tl argv) is (tok :: rest) -> looks_like_option tok -> ~ asks_help tok -> ~ value_option tok ->
  ~ called (lit "presarg") "p" tok -> ~ In "000"%char tok ->
  ex_main version gitid im m argv =
  Ok (mkRun (-1) [] (lines ((lit "Command option [[" ++ tok ++ lit "]] is unknown.") :: usage))).
Proof.
  intros version gitid im m argv is tok rest L LK NH NV NP Z. destruct (line_reads m _ _ _ L) as (its & R & C).
  destruct (c36 _ _ _ _ _ (settled_reach _ (x_settled m)) eq_refl R LK NH) as (s' & help & PH & P & A & E & _).
  { intros o N. apply x_names in N as [I K]. unfold xs in I. cbn [In] in I. unfold value_option in NV.
    destruct I as [<-|[<-|[<-|[<-|[<-|[]]]]]]; cbn [o_long o_ab x_bool x_int x_pres x_str x_vec] in K; tauto. }
  rewrite x_usage in PH. assert (EH : help = lines usage) by congruence. subst help. rewrite (main_false _ _ _ _ _ _ P), E. change (cerr (ex_options m)) with (@nil ascii). rewrite c_str_all.
  { change (lines (?a :: usage)) with ((a ++ ["010"%char]) ++ lines usage). repeat rewrite <- app_assoc. reflexivity. }
  rewrite !in_app_iff. intros [H|[H|H]]; [|contradiction|]; vm_compute in H; repeat (destruct H as [H|H]; [discriminate|]); exact H.
Qed.
Print Assumptions C131_unknown_partial.
(* the value is not an integer from -5 to 5; the value is not a truth value *)
Theorem C131_rejected_partial : forall version gitid im m argv is tok text rest,
  line (tl argv) is (tok :: text :: rest) -> ~ In "000"%char text ->
  (called (lit "intarg") "i" tok -> ~ (exists z, int_text text z /\ -5 <= z <= 5)%Z ->
   ex_main version gitid im m argv =
   Ok (mkRun (-1) [] (lines [lit "intarg unacceptable value """ ++ text ++ lit """ Please pick something from -5 to 5."]))) /\
  (called (lit "boolarg") "b" tok -> ~ looks_like_option text -> ~ (exists b, bool_text text b) ->
   ex_main version gitid im m argv = Ok (mkRun (-1) [] (lines [lit "boolarg unacceptable value """ ++ text ++ lit """ "]))).
Proof.
  intros version gitid im m argv is tok text rest L Z. destruct (line_reads m _ _ _ L) as (its & R & C).
  assert (N : forall a b, ~ In "000"%char a -> ~ In "000"%char b -> ~ In "000"%char (a ++ text ++ b)).
  { intros a b Na Nb. rewrite !in_app_iff. tauto. }
  split.
  - intros K NI.
    destruct (c37 (ex_options m) _ _ _ x_int text rest (settled_reach _ (x_settled m)) eq_refl R) as (s1 & s' & A & P & _ & _ & _ & _ & _ & E & _);
      [apply x_names; split; [cbn; tauto|exact K]|intros (a & X); discriminate|intros _; right; reflexivity| |].
    { intros v [A T]. destruct (x_ty_int _ _ A) as (z & ->). apply x_test in T. apply NI. exists z. split; [apply x_int_text; assumption|exact T]. }
    rewrite (main_false _ _ _ _ _ _ P), E. cbn [o_long o_err x_int]. rewrite c_str_all.
    + cbn [cerr]. unfold lines. cbn [flat_map]. rewrite app_nil_r. reflexivity.
    + rewrite app_assoc. apply N; intros H; vm_compute in H; repeat (destruct H as [H|H]; [discriminate|]); exact H.
  - intros K NL NB.
    destruct (c37 (ex_options m) _ _ _ x_bool text rest (settled_reach _ (x_settled m)) eq_refl R) as (s1 & s' & A & P & _ & _ & _ & _ & _ & E & _);
      [apply x_names; split; [cbn; tauto|exact K]|intros (a & X); discriminate|intros X; contradiction| |].
    { intros v [A _]. destruct (x_ty_bool _ _ A) as (b & ->). apply NB. exists b. apply x_bool_text, A. }
    rewrite (main_false _ _ _ _ _ _ P), E. cbn [o_long o_err x_bool]. rewrite app_nil_r, c_str_all.
    + unfold lines. cbn [flat_map]. rewrite app_nil_r. reflexivity.
    + rewrite app_assoc. apply N; intros H; vm_compute in H; repeat (destruct H as [H|H]; [discriminate|]); exact H.
Qed.
Print Assumptions C131_rejected_partial.

(* Every line is of one of these kinds, and whatever is reported for intarg is
   from -5 to 5. *)
Theorem C131_every_line_partial : forall ts, exists is rest, line ts is rest /\ (-5 <= int_of is <= 5)%Z /\
  (rest = [] \/
   (exists tok, rest = [tok] /\ value_option tok) \/
   (exists tok r, rest = tok :: r /\ asks_help tok) \/
   (exists tok r, rest = tok :: r /\ looks_like_option tok /\ ~ asks_help tok /\ ~ value_option tok /\ ~ called (lit "presarg") "p" tok) \/
   (exists tok text r, rest = tok :: text :: r /\ called (lit "intarg") "i" tok /\ ~ (exists z, int_text text z /\ -5 <= z <= 5)%Z) \/
   (exists tok text r, rest = tok :: text :: r /\ called (lit "boolarg") "b" tok /\ ~ looks_like_option text /\ ~ (exists b, bool_text text b))).
Proof.
  intros ts. destruct (parse_total (ex_options (fun _ => VInt 0)) ts) as (its & rest & R & E).
  destruct (reads_line _ _ _ _ R) as (is & L & C). exists is, rest. split; [exact L|]. split.
  { unfold int_of. assert (F : Forall (fun z => -5 <= z <= 5)%Z (flat_map (fun i => match i with Intarg z => [z] | _ => [] end) is)).
    { clear - L. induction L; cbn [flat_map app]; try constructor; auto.
      destruct H0 as [(_ & ->)|[(_ & ->)|(_ & ->)]]; exact IHL. }
    generalize dependent (flat_map (fun i => match i with Intarg z => [z] | _ => [] end) is). intros l F.
    clear - F. induction F as [|z l H F IH]; [cbn; lia|]. destruct l; [exact H|exact IH]. }
  assert (V : forall tok o, names (ex_options (fun _ => VInt 0)) tok o -> ~ is_flag o ->
    (o = x_bool \/ o = x_str \/ o = x_vec \/ o = x_int) /\ called (o_long o) (o_ab o) tok).
  { intros tok o N F. apply x_names in N as [I K]. split; [|exact K]. unfold xs in I. cbn [In] in I.
    destruct I as [<-|[<-|[<-|[<-|[<-|[]]]]]]; try tauto. destruct F. exists 2. reflexivity. }
  destruct E as [|tok o N F|tok r H|tok r LK NH N|tok o text r N F G NA].
  - left. reflexivity.
  - right; left. exists tok. split; [reflexivity|]. destruct (V tok o N F) as [[->|[->|[->| ->]]] K]; unfold value_option; cbn in K; tauto.
  - right; right; left. eauto.
  - do 3 right; left. exists tok, r. split; [reflexivity|]. split; [exact LK|]. split; [exact NH|].
    assert (Q : forall o, In o xs -> ~ called (o_long o) (o_ab o) tok) by (intros o I K; apply (N o), x_names; auto).
    unfold value_option. split.
    + intros [K|[K|[K|K]]]; [apply (Q x_bool)|apply (Q x_str)|apply (Q x_vec)|apply (Q x_int)]; auto; cbn; tauto.
    + intros K. apply (Q x_pres); auto; cbn; tauto.
  - do 4 right. destruct (V tok o N F) as [[->|[->|[->| ->]]] K].
    + right. exists tok, text, r. split; [reflexivity|]. split; [exact K|]. split.
      * intros X. destruct (G X); discriminate.
      * intros (b & B). apply (NA (VBool b)). split; [apply x_bool_text, B|reflexivity].
    + exfalso. apply (NA (VStr text)). split; reflexivity.
    + exfalso. apply (NA (VStr text)). split; reflexivity.
    + left. exists tok, text, r. split; [reflexivity|]. split; [exact K|]. intros (z & I & B).
      apply (NA (VInt z)). split; [apply x_int_text; assumption|apply x_test, B].
Qed.
Print Assumptions C131_every_line_partial.
Ltac no_option := intros [(? & ? & H & _)|(? & ? & H)]; discriminate.
Lemma int_text_intro (w sign ds rest : str) (neg : bool) (n : N) (z : Z) : blank w -> (if neg then sign = lit "-" else sign = [] \/ sign = lit "+") ->
  value false 10 ds = Some n -> match rest with c :: _ => digit_byte c = false | [] => True end -> z = signed_value neg n ->
  int_text (w ++ sign ++ ds ++ rest) z.
Proof. intros W S V R E. exists neg, n. split; [|exact E]. exists w, sign, ds, rest. auto. Qed.
(* OptionsExample -i -4 file --strvecarg x -p -s -ly -b True *)
Definition argv1 := [lit "OptionsExample"; lit "-i"; lit "-4"; lit "file"; lit "--strvecarg"; lit "x"; lit "-p"; lit "-s";
  lit "-ly"; lit "z"; lit "-b"; lit "True"].
Definition said1 := [Intarg (-4); Word (lit "file"); Strvecarg (Some (lit "x")); Presarg; Strarg None; Strvecarg (Some (lit "z"));
  Boolarg (Some true)].
Lemma argv1_line : line (tl argv1) said1 [].
Proof.
  cbn [tl argv1]. apply X_int; [right; exists []; reflexivity|exact (int_text_intro [] (lit "-") (lit "4") [] true 4%N (-4)%Z (Forall_nil _) eq_refl eq_refl I eq_refl)|lia|].
  apply X_word; [no_option|]. apply X_vec; [left; reflexivity|no_option|]. apply X_pres; [right; exists []; reflexivity|].
  apply X_bare; [left; exists "l"%char, (lit "y"); split; [reflexivity|discriminate]|right; left; split; [right; exists []; reflexivity|reflexivity]|].
  apply X_vec; [right; exists (lit "y"); reflexivity|no_option|].
  apply X_bool; [right; exists []; reflexivity|no_option|left; split; [reflexivity|exists (lit "rue"); right; reflexivity]|apply X_end].
Qed.
Example C131_nonvacuous : (forall z, int_numeral_of z (put_int z)) /\ line (tl argv1) said1 [] /\
  forall m, ex_main (lit "8.0") (lit "abc") Glibc m argv1 = Ok (mkRun 0 (lines
    ([lit "intarg = -4"; lit "boolarg = 1"; lit "pres_arg = 1"; lit "str_arg = []"; lit "strvecarg s = ";
     tab ++ lit "[x]"; tab ++ lit "[z]"; lit "ARG[0] = [OptionsExample]"; lit "ARG[1] = [-i]"; lit "ARG[2] = [-4]";
     lit "ARG[3] = [file]"; lit "ARG[4] = [--strvecarg]"; lit "ARG[5] = [x]"; lit "ARG[6] = [-p]"; lit "ARG[7] = [-s]";
     lit "ARG[8] = [-ly]"; lit "ARG[9] = [z]"; lit "ARG[10] = [-b]"; lit "ARG[11] = [True]"; lit "posargs = ";
     tab ++ lit "0" ++ tab ++ lit "file";
     lit "intarg = 3"; lit "boolarg = 1"; lit "pres_arg = 1"; lit "str_arg = [this is a test]"; lit "strvecarg s = "]))
    (lines [lit "SoDaUtils version [8.0]"; lit "SoDaUtils git id [abc]"; lit "An intarg option was present"])).
Proof.
  split; [exact L_Num.put_int_spec|]. split; [exact argv1_line|]. intros m.
  rewrite (C131_report_partial put_int (lit "8.0") (lit "abc") Glibc m argv1 said1 L_Num.put_int_spec);
    [vm_compute; reflexivity|vm_compute; reflexivity|left; exact argv1_line].
Qed.
(* OptionsExample -s first -i: the second report does not say 3 *)
Example C131_stuck_nonvacuous : line [lit "-s"; lit "first"; lit "-i"] [Strarg (Some (lit "first"))] [lit "-i"] /\
  called (lit "intarg") "i" (lit "-i") /\
  forall m, exists out err, ex_main [] [] Glibc m [lit "OptionsExample"; lit "-s"; lit "first"; lit "-i"] =
    Ok (mkRun 0 (out ++ lines [lit "intarg = 0"; lit "boolarg = 0"; lit "pres_arg = 0"; lit "str_arg = [first]"; lit "strvecarg s = "]) err).
Proof.
  assert (L : line [lit "-s"; lit "first"; lit "-i"] [Strarg (Some (lit "first"))] [lit "-i"]).
  { apply X_str; [right; exists []; reflexivity|no_option|apply X_end]. }
  assert (K : called (lit "intarg") "i" (lit "-i")) by (right; exists []; reflexivity).
  split; [exact L|]. split; [exact K|]. intros m.
  set (argv := [lit "OptionsExample"; lit "-s"; lit "first"; lit "-i"]).
  exists (lines (report put_int argv [Strarg (Some (lit "first"))])), (lines (notes [] [] [Strarg (Some (lit "first"))])).
  rewrite (C131_stuck_refuted put_int [] [] Glibc m argv _ (lit "-i") L_Num.put_int_spec eq_refl L K), app_lines. reflexivity.
Qed.
(* -h; -x; -i 7; -b yes *)
Example C131_bad_nonvacuous : asks_help (lit "-h") /\
  (looks_like_option (lit "-x") /\ ~ asks_help (lit "-x") /\ ~ value_option (lit "-x") /\ ~ called (lit "presarg") "p" (lit "-x")) /\
  ~ (exists z, int_text (lit "7") z /\ -5 <= z <= 5)%Z /\ (~ looks_like_option (lit "yes") /\ ~ (exists b, bool_text (lit "yes") b)).
Proof.
  assert (NC : forall long c, c <> "x"%char -> ~ called long c (lit "-x")).
  { intros long c N [E|(r & E)]; [discriminate|]. injection E as E _. congruence. }
  split; [right; exists []; reflexivity|]. split; [|split; [|split]].
  - split; [left; exists "x"%char, []; split; [reflexivity|discriminate]|]. split; [intros [E|(r & E)]; discriminate|].
    split; [intros [K|[K|[K|K]]]; revert K; apply NC; discriminate|apply NC; discriminate].
  - intros (z & T & B). apply x_int_text in T; [|exact B]. vm_compute in T. injection T as <-. lia.
  - no_option.
  - intros (b & T). apply x_bool_text in T. vm_compute in T. discriminate.
Qed.
