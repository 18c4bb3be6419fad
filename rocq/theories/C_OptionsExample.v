(* C_OptionsExample.v -- from the lines of the example program to the parser *)
From Verif Require Import Base M_Stream M_StreamIn M_Split M_Format M_Options M_OptionsExample.
From Verif Require Import S_Num S_Split S_Options S_OptionsExample L_Num L_Map L_Options L_OptionsI C_Options C_OptionsP P_Options L_Field L_ExchangeK.

Definition x_pres := mkOpt 0 (lit "presarg") "p" [] [] false true (KPresence 2).
Definition x_bool := mkOpt 1 (lit "boolarg") "b" (lit "<true/false/zero/non-zero>") [] false true (KScalar ty_bool 1 ex_any).
Definition x_str := mkOpt 2 (lit "strarg") "s" (lit "<string>") [] false true (KScalar ty_string 3 ex_any).
Definition x_vec := mkOpt 3 (lit "strvecarg") "l" (lit "<string>") [] false true (KVector ty_string 0 ex_any).
Definition x_int := mkOpt 4 (lit "intarg") "i" (lit "An integer argument between -5 and 5 inclusive")
  (lit "Please pick something from -5 to 5.") true false (KScalar ty_int 0 ex_test).
Definition xs := [x_bool; x_int; x_pres; x_str; x_vec].
Lemma x_long m : long_map (ex_options m) = map (fun o => (o_long o, o)) xs.
Proof. reflexivity. Qed.
Lemma x_ab m : ab_map (ex_options m) = map (fun o => (o_ab o, o)) [x_bool; x_int; x_vec; x_pres; x_str].
Proof. reflexivity. Qed.
Lemma x_settled m : settled (ex_options m).
Proof.
  assert (A1 : forall s t v ln ab doc test err, settled s -> settled (add_nodef s t v ln ab doc test err)).
  { intros. apply (ST_reg s (mkReg ln ab (fun s => add_nodef s t v ln ab doc test err))); [assumption|constructor]. }
  assert (A2 : forall s t v ln ab doc test err, settled s -> settled (addV s t v ln ab doc test err)).
  { intros. apply (ST_reg s (mkReg ln ab (fun s => addV s t v ln ab doc test err))); [assumption|constructor]. }
  assert (A3 : forall s t v ln ab d doc test err, settled s -> settled (add_def s t v ln ab d doc test err)).
  { intros. apply (ST_reg s (mkReg ln ab (fun s => add_def s t v ln ab d doc test err))); [assumption|constructor]. }
  assert (A4 : forall s v ln ab doc, settled s -> settled (addP s v ln ab doc)).
  { intros. apply (ST_reg s (mkReg ln ab (fun s => addP s v ln ab doc))); [assumption|constructor]. }
  unfold ex_options. cbv zeta. apply ST_info, ST_info, A1, A2, A3, A3, A4, ST_new.
Qed.
Definition keys_long := [lit "boolarg"; lit "intarg"; lit "presarg"; lit "strarg"; lit "strvecarg"].
Definition keys_ab := ["b"; "i"; "l"; "p"; "s"]%char.
Lemma find_keys_long {A} (a b c d e : A) k v : In (k, v) (combine keys_long [a; b; c; d; e]) ->
  smap_find str_compare k (combine keys_long [a; b; c; d; e]) = Some v.
Proof. intros I. cbn in I. destruct I as [E|[E|[E|[E|[E|[]]]]]]; injection E as <- <-; vm_compute; reflexivity. Qed.
Lemma find_keys_ab {A} (a b c d e : A) k v : In (k, v) (combine keys_ab [a; b; c; d; e]) ->
  smap_find char_compare k (combine keys_ab [a; b; c; d; e]) = Some v.
Proof. intros I. cbn in I. destruct I as [E|[E|[E|[E|[E|[]]]]]]; injection E as <- <-; vm_compute; reflexivity. Qed.
Lemma x_find_long m o : In o xs -> findOpt_long (ex_options m) (o_long o) = Some o.
Proof.
  intros I. unfold findOpt_long. rewrite x_long. apply (find_keys_long x_bool x_int x_pres x_str x_vec).
  exact (in_map (fun o => (o_long o, o)) xs o I).
Qed.
Lemma x_find_ab m o : In o xs -> findOpt_ab (ex_options m) (o_ab o) = Some o.
Proof.
  intros I. unfold findOpt_ab. rewrite x_ab. apply (find_keys_ab x_bool x_int x_vec x_pres x_str).
  apply (in_map (fun o => (o_ab o, o)) [x_bool; x_int; x_vec; x_pres; x_str] o).
  unfold xs in I. cbn [In] in *. tauto.
Qed.
Lemma x_found_long m n o : findOpt_long (ex_options m) n = Some o -> In o xs /\ n = o_long o.
Proof.
  unfold findOpt_long. rewrite x_long. intros F. apply (find_some_in str_compare scmp_eq) in F.
  apply in_map_iff in F as (o' & E & I). injection E as E1 E2. subst. split; [exact I|reflexivity].
Qed.
Lemma x_found_ab m c o : findOpt_ab (ex_options m) c = Some o -> In o xs /\ c = o_ab o.
Proof.
  unfold findOpt_ab. rewrite x_ab. intros F. apply (find_some_in char_compare ccmp_eq) in F.
  apply in_map_iff in F as (o' & E & I). injection E as E1 E2. subst. split; [|reflexivity]. unfold xs. cbn [In] in *. tauto.
Qed.
Lemma x_long_ok o : In o xs -> o_long o <> [] /\ o_long o <> lit "help" /\ o_ab o <> "-"%char /\ o_ab o <> "h"%char.
Proof.
  intros I. unfold xs in I. cbn [In] in I. destruct I as [<-|[<-|[<-|[<-|[<-|[]]]]]]; repeat split; discriminate.
Qed.
Lemma x_names m t o : names (ex_options m) t o <-> In o xs /\ called (o_long o) (o_ab o) t.
Proof.
  pose proof (x_found_long m) as FL. pose proof (x_found_ab m) as FA. pose proof (x_find_long m) as XL. pose proof (x_find_ab m) as XA.
  generalize dependent (ex_options m). intros s FL FA XL XA. split.
  - intros H. destruct H as [n o Hn Hh F|c r o Hc Hh F].
    + apply FL in F as [I ->]. split; [exact I|]. left. reflexivity.
    + apply FA in F as [I ->]. split; [exact I|]. right. exists r. reflexivity.
  - intros [I K]. destruct (x_long_ok o I) as (A & B & C & D). destruct K as [->|(r & ->)].
    + apply N_long; auto.
    + apply N_short; auto.
Qed.

Definition corr (i : ex_item) (it : item) : Prop :=
  match i, it with
  | Word w, Pos w' => w = w'
  | Presarg, Flag _ o => o = x_pres
  | Boolarg (Some b), Given _ o _ v => o = x_bool /\ v = VBool b
  | Strarg (Some t), Given _ o _ v => o = x_str /\ v = VStr t
  | Strvecarg (Some t), Given _ o _ v => o = x_vec /\ v = VStr t
  | Intarg z, Given _ o _ v => o = x_int /\ v = VInt z
  | Boolarg None, Bare _ o => o = x_bool
  | Strarg None, Bare _ o => o = x_str
  | Strvecarg None, Bare _ o => o = x_vec
  | _, _ => False
  end.
Lemma x_int_text text z : (-5 <= z <= 5)%Z -> (int_text text z <-> ty_read ty_int text = RdOk (VInt z)).
Proof.
  intros B. rewrite C45_int_partial. split; intros (neg & n & A & C); exists neg, n; (split; [exact A|]); [split; [exact C|lia]|tauto].
Qed.
Lemma x_bool_text text b : bool_text text b <-> ty_read ty_bool text = RdOk (VBool b).
Proof.
  rewrite C46_bool_partial. unfold bool_text, int_text.
  assert (E : forall neg n, (signed_value neg n =? 0)%Z = (n =? 0)%N).
  { intros [] [|p]; reflexivity. }
  split; (intros [H|[H|H]]; [tauto|tauto|right; right]).
  - destruct H as (z & (neg & n & A & ->) & B & ->). exists neg, n. rewrite E. auto.
  - destruct H as (neg & n & A & B & ->). exists (signed_value neg n). rewrite E. eauto 6.
Qed.
Lemma x_ty_int text v : ty_read ty_int text = RdOk v -> exists z, v = VInt z.
Proof. cbn [ty_int ty_read]. destruct (read_i32 text); cbn; intros H; inversion H. eauto. Qed.
Lemma x_ty_bool text v : ty_read ty_bool text = RdOk v -> exists b, v = VBool b.
Proof. cbn [ty_bool ty_read]. destruct (read_bool text); cbn; intros H; inversion H. eauto. Qed.
Lemma x_test z : ex_test (VInt z) = true <-> (-5 <= z <= 5)%Z.
Proof. unfold ex_test. rewrite andb_true_iff, !Z.leb_le. reflexivity. Qed.

Lemma line_reads m ts is rest : line ts is rest -> exists its, reads (ex_options m) ts its rest /\ Forall2 corr is its.
Proof.
  assert (N : forall t o, In o xs -> called (o_long o) (o_ab o) t -> names (ex_options m) t o) by (intros; apply x_names; auto).
  induction 1 as [ts|w ts is rest L H (its & R & C)|t ts is rest K H (its & R & C)|t v b ts is rest K L B H (its & R & C)
    |t v ts is rest K L H (its & R & C)|t v ts is rest K L H (its & R & C)|t v z ts is rest K B V H (its & R & C)
    |t v ts i is rest L K H (its & R & C)].
  - exists []. split; constructor.
  - exists (Pos w :: its). split; [apply R_pos; assumption|]. constructor; [reflexivity|exact C].
  - exists (Flag t x_pres :: its). split; [|constructor; [reflexivity|exact C]].
    apply R_flag; [apply N; [cbn; tauto|exact K]|exists 2; reflexivity|exact R].
  - exists (Given t x_bool v (VBool b) :: its). split; [|constructor; [split; reflexivity|exact C]].
    apply R_given; [apply N; [cbn; tauto|exact K]|split; [apply x_bool_text; exact B|reflexivity]|intros; contradiction|exact R].
  - exists (Given t x_str v (VStr v) :: its). split; [|constructor; [split; reflexivity|exact C]].
    apply R_given; [apply N; [cbn; tauto|exact K]|split; reflexivity|intros; contradiction|exact R].
  - exists (Given t x_vec v (VStr v) :: its). split; [|constructor; [split; reflexivity|exact C]].
    apply R_given; [apply N; [cbn; tauto|exact K]|split; reflexivity|intros; contradiction|exact R].
  - exists (Given t x_int v (VInt z) :: its). split; [|constructor; [split; reflexivity|exact C]].
    apply R_given; [apply N; [cbn; tauto|exact K]|split; [apply x_int_text; assumption|apply x_test; exact V]|intros _; right; reflexivity|exact R].
  - assert (G : forall o, In o [x_bool; x_str; x_vec] -> called (o_long o) (o_ab o) t -> reads (ex_options m) (t :: v :: ts) (Bare t o :: its) rest).
    { intros o I KO. apply R_bare; [apply N; [cbn in *; tauto|exact KO]| | |exact L|exact R].
      - intros (a & E). cbn in I. repeat (destruct I as [<-|I]; [discriminate|]). exact I.
      - intros [E|E]; cbn in I; (repeat (destruct I as [<-|I]; [discriminate|]); exact I). }
    destruct K as [(K & ->)|[(K & ->)|(K & ->)]]; [exists (Bare t x_bool :: its)|exists (Bare t x_str :: its)|exists (Bare t x_vec :: its)];
      (split; [apply G; [cbn; tauto|exact K]|constructor; [reflexivity|exact C]]).
Qed.
Lemma reads_line m ts its rest : reads (ex_options m) ts its rest -> exists is, line ts is rest /\ Forall2 corr is its.
Proof.
  induction 1 as [ts|w ts its rest L H (is & R & C)|t o ts its rest K F H (is & R & C)
    |t o text v ts its rest K A G H (is & R & C)|t o t' ts its rest K NF NG L H (is & R & C)].
  - exists []. split; constructor.
  - exists (Word w :: is). split; [apply X_word; assumption|constructor; [reflexivity|exact C]].
  - apply x_names in K as [I K]. exists (Presarg :: is). cbn in I. destruct F as (a & F).
    repeat (destruct I as [<-|I]; [first [discriminate|split; [apply X_pres; assumption|constructor; [reflexivity|exact C]]]|]). destruct I.
  - apply x_names in K as [I K]. cbn in I. unfold accepts in A.
    destruct I as [<-|[<-|[<-|[<-|[<-|[]]]]]]; cbn [o_kind x_bool x_int x_pres x_str x_vec] in A.
    + destruct A as [A _]. destruct (x_ty_bool _ _ A) as (b & ->). exists (Boolarg (Some b) :: is).
      split; [|constructor; [split; reflexivity|exact C]]. apply X_bool; [exact K|intros X; destruct (G X); discriminate|apply x_bool_text; exact A|exact R].
    + destruct A as [A T]. destruct (x_ty_int _ _ A) as (z & ->). apply x_test in T. exists (Intarg z :: is).
      split; [|constructor; [split; reflexivity|exact C]]. apply (X_int t text); [exact K|apply x_int_text; assumption|exact T|exact R].
    + destruct A.
    + destruct A as [A _]. cbn in A. injection A as <-. exists (Strarg (Some text) :: is).
      split; [|constructor; [split; reflexivity|exact C]]. apply X_str; [exact K|intros X; destruct (G X); discriminate|exact R].
    + destruct A as [A _]. cbn in A. injection A as <-. exists (Strvecarg (Some text) :: is).
      split; [|constructor; [split; reflexivity|exact C]]. apply X_vec; [exact K|intros X; destruct (G X); discriminate|exact R].
  - apply x_names in K as [I K]. cbn in I.
    destruct I as [<-|[<-|[<-|[<-|[<-|[]]]]]].
    + exists (Boolarg None :: is). split; [apply X_bare; [exact L|auto|exact R]|constructor; [reflexivity|exact C]].
    + exfalso. apply NG. left. reflexivity.
    + exfalso. apply NF. exists 2. reflexivity.
    + exists (Strarg None :: is). split; [apply X_bare; [exact L|auto|exact R]|constructor; [reflexivity|exact C]].
    + exists (Strvecarg None :: is). split; [apply X_bare; [exact L|auto|exact R]|constructor; [reflexivity|exact C]].
Qed.

(* ---------- what the items store ---------- *)
Ltac split_all := repeat match goal with |- _ /\ _ => split end.
Lemma stored_at is its : Forall2 corr is its ->
  flat_map (stored 0) its = map VInt (flat_map (fun i => match i with Intarg z => [z] | _ => [] end) is) /\
  flat_map (stored 1) its = map VBool (flat_map (fun i => match i with Boolarg (Some b) => [b] | _ => [] end) is) /\
  flat_map (stored 3) its = map VStr (flat_map (fun i => match i with Strarg (Some t) => [t] | _ => [] end) is) /\
  (forall b, last (flat_map (stored 2) its) (VBool b) = VBool (b || has_pres is)) /\
  flat_map (appended 0) its = map VStr (strvec_of is) /\
  flat_map word its = words_of is /\ existsb (mentions 4) its = has_int is.
Proof.
  induction 1 as [|i it is its C F (A0 & A1 & A3 & A2 & A4 & A5 & A6)].
  - repeat split. intros b. cbn. rewrite orb_false_r. reflexivity.
  - unfold strvec_of, words_of, has_int, has_pres in *. cbn [flat_map existsb]. rewrite A0, A1, A3, A4, A5, A6.
    setoid_rewrite last_app_d.
    destruct i as [w| |[b|]|[t|]|[t|]|z], it as [w'|tok o|tok o text v|tok o]; cbn [corr] in C; try contradiction;
      first [subst w' | subst o | destruct C as [-> ->]]; split_all; try reflexivity; try (intros b'; cbn [stored o_kind x_pres x_bool x_str x_vec x_int Nat.eqb last orb];
      rewrite A2, ?orb_true_r; reflexivity).
Qed.
Lemma last_map {A B} (f : A -> B) l d : last (map f l) (f d) = f (last l d).
Proof. induction l as [|a [|b l] IH]; [reflexivity|reflexivity|exact IH]. Qed.

Definition holds (s : st) (i : Z) (b p : bool) (t : str) : Prop :=
  mem s 0 = VInt i /\ mem s 1 = VBool b /\ mem s 2 = VBool p /\ mem s 3 = VStr t.
Lemma holds_start m : holds (ex_options m) 0 false false [].
Proof. repeat split. Qed.
Lemma holds_after s s' is its i b p t : holds s i b p t -> after s s' its -> Forall2 corr is its ->
  holds s' (last (flat_map (fun i => match i with Intarg z => [z] | _ => [] end) is) i)
    (last (flat_map (fun i => match i with Boolarg (Some b) => [b] | _ => [] end) is) b)
    (p || has_pres is)
    (last (flat_map (fun i => match i with Strarg (Some t) => [t] | _ => [] end) is) t).
Proof.
  intros (H0 & H1 & H2 & H3) A C. destruct (stored_at is its C) as (A0 & A1 & A3 & A2 & _).
  unfold holds. rewrite !(af_mem _ _ _ A), H0, H1, H2, H3, A0, A1, A2, A3, !last_map. auto.
Qed.
Lemma ex_values_lines s i b p t : holds s i b p t -> ex_values s = lines (values put_int i b p t).
Proof.
  intros (H0 & H1 & H2 & H3). unfold ex_values, values, lines. rewrite H0, H1, H2, H3. cbn [ex_put flat_map].
  unfold bit. repeat rewrite <- app_assoc. rewrite app_nil_r. reflexivity.
Qed.
Lemma ex_vec_lines s l : vmem s 0 = map VStr l -> ex_vec s = lines (map (fun t => tab ++ lit "[" ++ t ++ lit "]") l).
Proof.
  intros E. unfold ex_vec, lines, tab. rewrite E. clear E. induction l as [|t l IH]; [reflexivity|]. cbn [map flat_map ex_put].
  rewrite IH. repeat rewrite <- app_assoc. reflexivity.
Qed.
Lemma ex_args_lines argv : forall k, ex_args k argv =
  lines (numbered (fun k a => lit "ARG[" ++ put_int k ++ lit "] = [" ++ a ++ lit "]") k argv).
Proof.
  unfold lines. induction argv as [|a r IH]; intros k; [reflexivity|]. cbn [ex_args numbered flat_map]. rewrite IH.
  repeat rewrite <- app_assoc. reflexivity.
Qed.
Lemma ex_posargs_lines s l : forall pre, pos_arg_vec s = pre ++ l -> (Z.of_nat (length (pos_arg_vec s)) < two31)%Z ->
  ex_posargs s (length l) (Z.of_nat (length pre)) =
  Ok (lines (numbered (fun k w => tab ++ put_int k ++ tab ++ w) (Z.of_nat (length pre)) l)).
Proof.
  induction l as [|w l IH]; intros pre E B; [reflexivity|]. cbn [length ex_posargs numbered].
  assert (G : getPosArg s (Z.of_nat (length pre)) = Ok w).
  { unfold getPosArg. assert (L : (Z.of_nat (length pre) < Z.of_nat (length (pos_arg_vec s)))%Z).
    { rewrite E, app_length. cbn [length]. lia. }
    rewrite to_u64_id by (unfold two31, two64 in *; lia). destruct (Z.ltb_spec (Z.of_nat (length (pos_arg_vec s))) (Z.of_nat (length pre))); [lia|].
    rewrite Nat2Z.id, E, nth_error_app2, Nat.sub_diag by lia. reflexivity. }
  rewrite G. cbn [obind].
  specialize (IH (pre ++ [w])). rewrite <- app_assoc in IH. specialize (IH E B).
  rewrite app_length in IH. cbn [length] in IH. replace (Z.of_nat (length pre + 1)) with (Z.of_nat (length pre) + 1)%Z in IH by lia.
  rewrite IH. cbn [obind]. unfold lines, tab. cbn [flat_map]. repeat rewrite <- app_assoc. reflexivity.
Qed.
Lemma words_short ts is rest : line ts is rest -> length (words_of is) <= length ts.
Proof.
  unfold words_of. induction 1; cbn [flat_map app length]; try lia; repeat (rewrite app_length; cbn [length]); try lia.
  destruct H0 as [(_ & ->)|[(_ & ->)|(_ & ->)]]; cbn [app length] in *; lia.
Qed.
Lemma dec_put dec : (forall z, int_numeral_of z (dec z)) -> forall z, dec z = put_int z.
Proof.
  intros D z. destruct (D z) as [(P & N)|(P & t & E & N)], (put_int_spec z) as [(P' & N')|(P' & t' & E' & N')]; try lia.
  - eapply numeral_of_unique; [|exact N|exact N']. lia.
  - rewrite E, E'. f_equal. eapply numeral_of_unique; [|exact N|exact N']. lia.
Qed.

(* ---------- the second command ---------- *)
Definition line2 := [lit "-i"; lit "3"; lit "-s"; lit "this is a test"].
Definition items2 := [Intarg 3; Strarg (Some (lit "this is a test"))].
Lemma line2_typed : typed_line line2 (lit "-i 3 -s ""this is a test""").
Proof.
  assert (NQ : forall t, existsb (Ascii.eqb """"%char) t = false -> no_quote t).
  { intros t E I. assert (X : existsb (Ascii.eqb """"%char) t = true) by (apply existsb_exists; exists """"%char; split; [exact I|reflexivity]). congruence. }
  assert (NS : forall t, forallb (fun c => negb (space_byte c)) t = true -> Forall (fun c => ~ space c) t).
  { intros t E. apply Forall_forall. intros c I. rewrite forallb_forall in E. specialize (E c I). unfold space. rewrite white_eq. destruct (space_byte c); [discriminate|discriminate]. }
  apply (TL_plain [] (lit "-i") " "%char [lit "3"; lit "-s"; lit "this is a test"] (lit "3 -s ""this is a test"""));
    [constructor|discriminate|apply NQ; reflexivity|apply NS; reflexivity|reflexivity|].
  apply (TL_plain [] (lit "3") " "%char [lit "-s"; lit "this is a test"] (lit "-s ""this is a test"""));
    [constructor|discriminate|apply NQ; reflexivity|apply NS; reflexivity|reflexivity|].
  apply (TL_plain [] (lit "-s") " "%char [lit "this is a test"] (lit """this is a test"""));
    [constructor|discriminate|apply NQ; reflexivity|apply NS; reflexivity|reflexivity|].
  apply (TL_quoted [] (lit "this is a test") [] []); [constructor|apply NQ; reflexivity|apply TL_end; constructor].
Qed.
Lemma line2_line : line line2 items2 [].
Proof.
  apply X_int; [right; exists []; reflexivity| |lia|].
  - exists false, 3%N. split; [|reflexivity]. exists [], [], (lit "3"), []. repeat split. constructor. left. reflexivity.
  - apply X_str; [right; exists []; reflexivity|intros [(? & ? & H & _)|(? & ? & H)]; discriminate|apply X_end].
Qed.

(* ---------- the program ---------- *)
Lemma x_argv m argv : parse_argv (ex_options m) (Z.of_nat (length argv)) argv = parse_list (ex_options m) (tl argv).
Proof.
  assert (K : is_kvp (ex_options m) = false) by reflexivity. destruct argv as [|prog ts].
  - rewrite C44_no_arguments by (cbn; lia). rewrite K. reflexivity.
  - pose proof (C44_argv (ex_options m) prog ts []) as E. rewrite app_nil_r, K in E. exact E.
Qed.
Lemma x_find_int m : findOpt_long (ex_options m) (lit "intarg") = Some x_int.
Proof. apply (x_find_long m x_int). cbn; tauto. Qed.
Lemma x_absent m : present (ex_options m) 4 = false.
Proof. reflexivity. Qed.
Lemma x_present m s' its is : after (ex_options m) s' its -> Forall2 corr is its -> isPresent_long s' (lit "intarg") = has_int is.
Proof.
  pose proof (x_find_int m) as X. pose proof (x_absent m) as Y. generalize dependent (ex_options m). intros s X Y A C.
  destruct (stored_at is its C) as (_ & _ & _ & _ & _ & _ & P). rewrite <- P.
  unfold isPresent_long, findOpt_long. rewrite (af_long _ _ _ A). unfold findOpt_long in X. rewrite X.
  cbn [o_id x_int]. rewrite (af_present _ _ _ A), Y. reflexivity.
Qed.
Lemma app_lines a b : lines (a ++ b) = lines a ++ lines b.
Proof. apply flat_map_app. Qed.

Lemma ex_run version gitid im m argv is its s1 : (Z.of_nat (length argv) < two31)%Z ->
  length (words_of is) <= length argv ->
  parse_list (ex_options m) (tl argv) = Ok (true, s1) -> after (ex_options m) s1 its -> Forall2 corr is its -> cerr s1 = [] ->
  exists i t, ex_main version gitid im m argv =
    Ok (mkRun 0 (lines (report put_int argv is ++ values put_int i (bool_of is) (has_pres is) t)) (lines (notes version gitid is))) /\
    (if waiting_for_signed s1 then i = int_of is /\ t = str_of is else i = 3%Z /\ t = lit "this is a test").
Proof.
  intros B W P A C E.
  pose proof (holds_after _ _ _ _ _ _ _ _ (holds_start m) A C) as H1. fold (int_of is) (bool_of is) (str_of is) in H1. cbn [orb] in H1.
  destruct (stored_at is its C) as (_ & _ & _ & _ & AV & AW & _).
  pose proof (af_pos _ _ _ A) as PV. rewrite AW in PV. change (pos_arg_vec (ex_options m)) with (@nil str) in PV. cbn [app] in PV.
  pose proof (af_vec _ _ _ A 0) as VV. rewrite AV in VV. change (vmem (ex_options m) 0) with (@nil val) in VV. cbn [app] in VV.
  pose proof (x_present m s1 its is A C) as PR.
  unfold ex_main. rewrite x_argv, P. cbn [obind negb].
  set (s3 := print_err _ (_ ++ lit " intarg option was present" ++ _)).
  assert (F : frame s1 s3) by (constructor; reflexivity).
  assert (M3 : mem s3 = mem s1) by reflexivity. assert (V3 : vmem s3 = vmem s1) by reflexivity.
  assert (P3 : pos_arg_vec s3 = words_of is) by exact PV.
  assert (W3 : waiting_for_signed s3 = waiting_for_signed s1) by reflexivity.
  assert (C3 : cerr s3 = lines (notes version gitid is)).
  { subst s3. cbn [print_err cerr]. rewrite E. change (isPresent_long _ (lit "intarg")) with (isPresent_long s1 (lit "intarg")). rewrite PR.
    unfold notes, lines. cbn [flat_map app]. repeat rewrite <- app_assoc. rewrite ?app_nil_r. reflexivity. }
  assert (K3 : is_kvp s3 = false) by (change (is_kvp s3) with (is_kvp s1); rewrite (af_kvp _ _ _ A); reflexivity).
  assert (SM : same_maps (ex_options m) s3).
  { split; [exact (af_long _ _ _ A)|exact (af_ab _ _ _ A)]. }
  assert (I3 : inv s3).
  { apply (inv_frame (ex_options m)); [|apply reach_inv, settled_reach, x_settled]. constructor; [exact (af_long _ _ _ A)|exact (af_ab _ _ _ A)|exact (af_info _ _ _ A)|exact (af_kvp _ _ _ A)|exact (af_next _ _ _ A)]. }
  assert (H3 : holds s3 (int_of is) (bool_of is) (has_pres is) (str_of is)) by exact H1.
  assert (PA : ex_posargs s3 (Z.to_nat (numPosArgs s3)) 0 = Ok (lines (numbered (fun k w => tab ++ put_int k ++ tab ++ w) 0 (words_of is)))).
  { unfold numPosArgs. rewrite P3. rewrite to_i32_small by (unfold two31 in *; lia). rewrite Nat2Z.id.
    apply (ex_posargs_lines s3 (words_of is) []); [exact P3|]. rewrite P3. unfold two31 in *. lia. }
  rewrite PA. cbn [obind].
  assert (O : ex_values s3 ++ ex_vec s3 ++ ex_args 0 argv = lines (values put_int (int_of is) (bool_of is) (has_pres is) (str_of is) ++
    map (fun t => tab ++ lit "[" ++ t ++ lit "]") (strvec_of is) ++
    numbered (fun k a => lit "ARG[" ++ put_int k ++ lit "] = [" ++ a ++ lit "]") 0 argv)).
  { rewrite (ex_values_lines s3 _ _ _ _ H3), (ex_vec_lines s3 (strvec_of is)), ex_args_lines, !app_lines; [reflexivity|]. rewrite V3. exact VV. }
  change (ex_values (print_err _ _) ++ ex_vec (print_err _ _) ++ ex_args 0 argv) with (ex_values s3 ++ ex_vec s3 ++ ex_args 0 argv).
  rewrite O.
  assert (PS : parse_string im s3 (lit "-i 3 -s ""this is a test""") = parse_list s3 line2).
  { apply C43_mixed_tokens; [exact K3|exact line2_typed|]. destruct im; [reflexivity|exact I]. }
  rewrite PS.
  assert (RP : forall v, (lines (values put_int (int_of is) (bool_of is) (has_pres is) (str_of is) ++
    map (fun t => tab ++ lit "[" ++ t ++ lit "]") (strvec_of is) ++
    numbered (fun k a => lit "ARG[" ++ put_int k ++ lit "] = [" ++ a ++ lit "]") 0 argv) ++
    lit "posargs = " ++ ["010"%char] ++ lines (numbered (fun k w => tab ++ put_int k ++ tab ++ w) 0 (words_of is))) ++ lines v =
    lines (report put_int argv is ++ v)).
  { intros v. unfold report. rewrite !app_lines. repeat rewrite <- app_assoc. reflexivity. }
  destruct (waiting_for_signed s1) eqn:WS.
  - destruct (wfs_waiting_stuck s3 line2) as (s4 & P4 & _ & M4 & _ & _ & _ & _ & E4); [congruence|].
    exists (int_of is), (str_of is). split; [|auto]. rewrite P4. cbn [obind negb].
    assert (H4 : holds s4 (int_of is) (bool_of is) (has_pres is) (str_of is)) by (unfold holds; rewrite M4; exact H3).
    rewrite (ex_values_lines s4 _ _ _ _ H4), RP, E4, C3. reflexivity.
  - destruct (line_reads m _ _ _ line2_line) as (its2 & R2 & C2).
    destruct (parse_reads s3 line2 its2 [] I3) as (s4 & A4 & E4 & _ & _ & L4); [congruence|exact (reads_alike _ _ _ _ _ SM R2)|].
    exists 3%Z, (lit "this is a test"). split; [|auto]. unfold parse_list at 1. rewrite L4. cbn [parse_loop obind negb].
    pose proof (holds_after _ _ _ _ _ _ _ _ H3 A4 C2) as H4. cbn [items2 flat_map app last has_pres existsb] in H4. rewrite orb_false_r in H4.
    rewrite (ex_values_lines s4 _ _ _ _ H4), RP, E4, C3. reflexivity.
Qed.
