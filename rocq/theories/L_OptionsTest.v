(* L_OptionsTest.v -- lemmas about parsing with general test functions *)
From Verif Require Import Base M_StreamIn M_Options M_OptionsTest S_Options S_OptionsTest L_Map L_Options L_OptionsI C_Options.

Section T.
Variable T : nat -> tester.

Lemma tstep_pos s t ts : waiting_for_signed s = false -> ~ looks_like_option t ->
  parse_loop_t T s None (t :: ts) = parse_loop_t T (push_pos s t) None ts.
Proof. intros W N. cbn [parse_loop_t]. rewrite isSwitch_no by assumption. reflexivity. Qed.

Lemma tstep_help s t ts : waiting_for_signed s = false -> asks_help t ->
  parse_loop_t T s None (t :: ts) = (s, LHelp).
Proof.
  intros W H. pose proof (asks_help_looks _ H) as L. cbn [parse_loop_t].
  destruct (isSwitch_cases s t W) as [[_ N]|[(E & _ & c & r & -> & N)|(E & _ & c & r & ->)]]; [contradiction|..];
    rewrite E; cbn [Nat.eqb nth].
  - destruct H as [H|(r' & H)].
    + cbv in H. injection H as -> _. contradiction.
    + injection H as -> _. reflexivity.
  - destruct H as [H|(r' & H)]; [|discriminate]. rewrite H. reflexivity.
Qed.

Lemma tstep_named s t o ts : waiting_for_signed s = false -> names s t o ->
  parse_loop_t T s None (t :: ts) =
  if isPresentOpt o then parse_loop_t T (opt_setPresent (arm s o) o) None ts
  else parse_loop_t T (arm s o) (Some o) ts.
Proof.
  intros W H. pose proof (names_looks _ _ _ H) as L. pose proof (names_nohelp _ _ _ H) as NH.
  apply names_iff in H; [|assumption..]. cbn [parse_loop_t].
  destruct (isSwitch_cases s t W) as [[_ N]|[(E & _ & c & r & -> & N)|(E & _ & c & r & ->)]]; [contradiction|..];
    rewrite E; cbn [Nat.eqb nth].
  - destruct (Ascii.eqb_spec c "h"%char) as [->|Nh]; [elim NH; right; eauto|].
    cbn in H. destruct (Ascii.eqb_spec c "-"%char); [contradiction|]. rewrite H. unfold arm. destruct (isPresentOpt o); reflexivity.
  - destruct (str_eqb_spec ("-"%char :: "-"%char :: c :: r) (lit "--help")) as [E2|Nh]; [elim NH; left; exact E2|].
    cbn in H. cbn [skipn]. rewrite H. destruct (isPresentOpt o); reflexivity.
Qed.

Lemma tstep_unknown s t ts : waiting_for_signed s = false -> looks_like_option t -> ~ asks_help t ->
  (forall o, ~ names s t o) -> parse_loop_t T s None (t :: ts) = (s, LThrow (badOptionName t)).
Proof.
  intros W L NH H. assert (TN : tok_opt s t = None).
  { destruct (tok_opt s t) as [o|] eqn:E; [|reflexivity]. elim (H o). apply names_iff; assumption. }
  cbn [parse_loop_t].
  destruct (isSwitch_cases s t W) as [[_ N]|[(E & _ & c & r & -> & N)|(E & _ & c & r & ->)]]; [contradiction|..];
    rewrite E; cbn [Nat.eqb nth].
  - destruct (Ascii.eqb_spec c "h"%char) as [->|Nh]; [elim NH; right; eauto|].
    cbn in TN. destruct (Ascii.eqb_spec c "-"%char); [contradiction|]. rewrite TN. reflexivity.
  - destruct (str_eqb_spec ("-"%char :: "-"%char :: c :: r) (lit "--help")) as [E2|Nh]; [elim NH; left; exact E2|].
    cbn in TN. cbn [skipn]. rewrite TN. reflexivity.
Qed.

Lemma tstep_value s o t ts : waiting_for_signed s = false -> (looks_like_option t -> greedy o) ->
  parse_loop_t T (arm s o) (Some o) (t :: ts) =
  match opt_setVal_t T (arm s o) o t with
  | (s1, Some e) => (s1, LThrow e)
  | (s1, None) => parse_loop_t T (set_wfs s1 false) None ts
  end.
Proof.
  intros W G. cbn [parse_loop_t].
  assert (E : (if o_default o then isSwitch (arm s o) t else 0) = 0).
  { destruct (o_default o) eqn:D; [|reflexivity].
    destruct (o_signed o) eqn:SG.
    - unfold isSwitch. rewrite (wfs_arm s o W), SG. reflexivity.
    - apply isSwitch_no; [rewrite (wfs_arm s o W); exact SG|]. intros L. destruct (G L); congruence. }
  rewrite E. reflexivity.
Qed.

Lemma tstep_bare s o t ts : waiting_for_signed s = false -> ~ greedy o -> looks_like_option t ->
  parse_loop_t T (arm s o) (Some o) (t :: ts) = parse_loop_t T (set_wfs (opt_setPresent s o) false) None (t :: ts).
Proof.
  intros W G L. assert (SG : o_signed o = false) by (destruct (o_signed o) eqn:E; [elim G; right; exact E|reflexivity]).
  assert (D : o_default o = true) by (destruct (o_default o) eqn:E; [reflexivity|elim G; left; exact E]).
  unfold arm. rewrite SG. cbn [parse_loop_t]. rewrite D, SG.
  assert (E : isSwitch (set_wfs (opt_setPresent s o) false) t = isSwitch s t).
  { unfold isSwitch. cbn [waiting_for_signed set_wfs]. rewrite W. reflexivity. }
  rewrite E. pose proof (isSwitch_yes s t W L) as NZ.
  destruct (Nat.eqb_spec (isSwitch s t) 0); [contradiction|]. reflexivity.
Qed.

Lemma set_wfs_same s b : waiting_for_signed s = b -> set_wfs s b = s.
Proof. intros <-. destruct s; reflexivity. Qed.
Lemma view_arm s o : view_of (arm s o) = view_of s.
Proof. unfold arm. destruct (o_signed o); reflexivity. Qed.
Lemma view_arm_mem s o a v : view_of (set_mem (arm s o) a v) = view_of (set_mem s a v).
Proof. unfold arm. destruct (o_signed o); reflexivity. Qed.
Lemma store_fields s i : same_maps s (store s i) /\ waiting_for_signed (store s i) = waiting_for_signed s /\
  next_id (store s i) = next_id s /\ cerr (store s i) = cerr s.
Proof. destruct i as [w|t o|t o x v|t o]; cbn [store]; try destruct (o_kind o); repeat split. Qed.
Lemma unarm s o f : waiting_for_signed s = false -> (forall b, set_wfs (f (set_wfs s b)) false = set_wfs (f s) false) ->
  waiting_for_signed (f s) = false -> set_wfs (f (arm s o)) false = f s.
Proof. intros W H W'. unfold arm. destruct (o_signed o); [rewrite H|]; apply set_wfs_same; exact W'. Qed.

(* one value token *)
Lemma setVal_accept s o text v : waiting_for_signed s = false -> judged T s o text v Accept -> forall tok,
  exists s1, opt_setVal_t T (arm s o) o text = (s1, None) /\ set_wfs s1 false = store s (Given tok o text v).
Proof.
  intros W J tok. unfold judged in J. change sight with view_of in J. unfold opt_setVal_t. cbn [store]. destruct (o_kind o) as [t a k|t a k|a]; [..|destruct J].
  - destruct J as [-> J]. cbv zeta. rewrite view_arm_mem, J. eexists. split; [reflexivity|].
    unfold arm. destruct (o_signed o); destruct s; cbn in *; subst; reflexivity.
  - destruct J as [-> J]. rewrite view_arm, J. eexists. split; [reflexivity|].
    unfold arm. destruct (o_signed o); destruct s; cbn in *; subst; reflexivity.
Qed.

(* the state in which a value token that is not accepted leaves the program,
   and the exception *)
Definition spoilt (s : st) (o : opt) (text : str) : st :=
  match leaves o text, o_kind o with Some v, KScalar _ a _ => set_mem (arm s o) a v | _, _ => arm s o end.
Lemma setVal_not s o text : ~ is_flag o -> (forall v, ~ judged T s o text v Accept) ->
  (exists v e, judged T s o text v (Raise e) /\ opt_setVal_t T (arm s o) o text = (spoilt s o text, Some e)) \/
  ((forall v e, ~ judged T s o text v (Raise e)) /\
   opt_setVal_t T (arm s o) o text = (spoilt s o text, Some (badOptValue (o_long o) text (o_err o)))).
Proof.
  intros NF NA. unfold judged, is_flag, opt_setVal_t, spoilt, leaves in *. change sight with view_of in *.
  destruct (o_kind o) as [t a k|t a k|a]; [..|elim NF; eauto].
  - destruct (ty_read t text) as [v|[v|]] eqn:R.
    + cbv zeta. rewrite view_arm_mem. destruct (T (o_id o) (view_of (set_mem s a v)) v) as [| |e] eqn:V.
      * elim (NA v). auto.
      * right. split; [|reflexivity]. intros v' e [[= ->] X]. congruence.
      * left. exists v, e. auto.
    + right. split; [intros ? ? [X _]; discriminate|reflexivity].
    + right. split; [intros ? ? [X _]; discriminate|reflexivity].
  - destruct (ty_read t text) as [v|l] eqn:R.
    + rewrite view_arm. destruct (T (o_id o) (view_of s) v) as [| |e] eqn:V.
      * elim (NA v). auto.
      * right. split; [|reflexivity]. intros v' e [[= ->] X]. congruence.
      * left. exists v, e. auto.
    + right. split; [intros ? ? [X _]; discriminate|reflexivity].
Qed.

Lemma judged_flag s o text v d : judged T s o text v d -> ~ is_flag o.
Proof. unfold judged, is_flag. destruct (o_kind o); try (intros _ [x H]; discriminate). tauto. Qed.

Lemma flags_same s s' : same_maps s s' -> flags_unsigned s -> flags_unsigned s'.
Proof. intros M F t o N. apply (F t o). eapply names_same; [apply same_maps_sym, M|exact N]. Qed.

(* running the loop over understood items *)
Lemma tloop_reads s ts is s' rest : reads_t T s ts is s' rest -> flags_unsigned s -> waiting_for_signed s = false ->
  parse_loop_t T s None ts = parse_loop_t T s' None rest /\ waiting_for_signed s' = false /\ same_maps s s' /\
  next_id s' = next_id s /\ cerr s' = cerr s /\ s' = fold_left store is s.
Proof.
  induction 1 as [s ts|s w ts is s' rest N H IH|s tok o ts is s' rest N F H IH
    |s tok o text v ts is s' rest N A G H IH|s tok o t ts is s' rest N F G L H IH]; intros FU W.
  - repeat split; auto.
  - rewrite tstep_pos by assumption.
    destruct (store_fields s (Pos w)) as (M & W1 & N1 & C1). rewrite W in W1.
    destruct (IH (flags_same _ _ M FU) W1) as (A & B & C & D & Q & X).
    split; [exact A|]. split; [exact B|]. split; [exact (same_maps_trans _ _ _ M C)|]. split; [congruence|]. split; [congruence|exact X].
  - assert (SG : o_signed o = false) by (eapply FU; eassumption).
    rewrite (tstep_named s tok o ts W N), (proj2 (isPresentOpt_iff o) F).
    assert (E : opt_setPresent (arm s o) o = store s (Flag tok o)).
    { unfold arm. rewrite SG. cbn [store]. unfold opt_setPresent. destruct F as [a ->]. reflexivity. }
    destruct (store_fields s (Flag tok o)) as (M & W1 & N1 & C1). rewrite E. rewrite W in W1.
    destruct (IH (flags_same _ _ M FU) W1) as (A & B & C & D & Q & X).
    split; [exact A|]. split; [exact B|]. split; [exact (same_maps_trans _ _ _ M C)|]. split; [congruence|]. split; [congruence|exact X].
  - rewrite (tstep_named s tok o _ W N). rewrite (isPresentOpt_false o (judged_flag _ _ _ _ _ A)), tstep_value by assumption.
    destruct (setVal_accept s o text v W A tok) as (s1 & -> & E). rewrite E.
    destruct (store_fields s (Given tok o text v)) as (M & W1 & N1 & C1). rewrite W in W1.
    destruct (IH (flags_same _ _ M FU) W1) as (A' & B & C & D & Q & X).
    split; [exact A'|]. split; [exact B|]. split; [exact (same_maps_trans _ _ _ M C)|]. split; [congruence|]. split; [congruence|exact X].
  - rewrite (tstep_named s tok o _ W N). rewrite (isPresentOpt_false o F), tstep_bare by assumption.
    assert (E : set_wfs (opt_setPresent s o) false = store s (Bare tok o)).
    { cbn [store]. unfold opt_setPresent. destruct (o_kind o) eqn:K; [| |elim F; exists val_p; exact K]; (destruct s; cbn in *; subst; reflexivity). }
    rewrite E. destruct (store_fields s (Bare tok o)) as (M & W1 & N1 & C1). rewrite W in W1.
    destruct (IH (flags_same _ _ M FU) W1) as (A & B & C & D & Q & X).
    split; [exact A|]. split; [exact B|]. split; [exact (same_maps_trans _ _ _ M C)|]. split; [congruence|]. split; [congruence|exact X].
Qed.

Lemma judged_dec s o text : ~ is_flag o -> (exists v, judged T s o text v Accept) \/ (forall v, ~ judged T s o text v Accept).
Proof.
  intros NF. unfold judged, is_flag in *. change sight with view_of in *. destruct (o_kind o) as [t a k|t a k|a]; [..|elim NF; eauto].
  - destruct (ty_read t text) as [v|l]; [|right; intros v [H _]; discriminate].
    destruct (T (o_id o) (view_of (set_mem s a v)) v) eqn:E; [left; eauto|right; intros v' [[= ->] H]; congruence..].
  - destruct (ty_read t text) as [v|l]; [|right; intros v [H _]; discriminate].
    destruct (T (o_id o) (view_of s) v) eqn:E; [left; eauto|right; intros v' [[= ->] H]; congruence..].
Qed.

(* every line is some items and one of the endings *)
Lemma treads_total : forall n ts s, length ts <= n -> exists is s' rest, reads_t T s ts is s' rest /\ ending_t T s' rest.
Proof.
  induction n as [|n IH]; intros ts s L.
  - destruct ts; [|cbn in L; lia]. exists [], s, []. split; constructor.
  - destruct ts as [|t ts]; [exists [], s, []; split; constructor|]. cbn in L.
    destruct (looks_dec t) as [Lk|NL].
    2:{ destruct (IH ts (store s (Pos t)) ltac:(lia)) as (is & s' & rest & R & E). exists (Pos t :: is), s', rest. split; [apply T_pos; assumption|exact E]. }
    destruct (asks_help_dec t) as [Hp|NH]; [exists [], s, (t :: ts); split; [apply T_end|apply Et_help; exact Hp]|].
    destruct (tok_opt s t) as [o|] eqn:TO.
    2:{ exists [], s, (t :: ts). split; [apply T_end|]. apply Et_unknown; auto. intros o N. apply names_iff in N; [congruence|assumption..]. }
    assert (N : names s t o) by (apply names_iff; assumption).
    destruct (is_flag_dec o) as [F|NF].
    { destruct (IH ts (store s (Flag t o)) ltac:(lia)) as (is & s' & rest & R & E). exists (Flag t o :: is), s', rest. split; [apply T_flag; assumption|exact E]. }
    destruct ts as [|text ts]; [exists [], s, [t]; split; [apply T_end|apply (Et_missing T s t o); assumption]|].
    destruct (looks_dec text) as [Lt|NLt]; [destruct (greedy_dec o) as [G|NG]|].
    2:{ destruct (IH (text :: ts) (store s (Bare t o)) ltac:(lia)) as (is & s' & rest & R & E).
        exists (Bare t o :: is), s', rest. split; [apply T_bare; assumption|exact E]. }
    all: destruct (judged_dec s o text NF) as [[v A]|NA];
      [destruct (IH ts (store s (Given t o text v)) ltac:(cbn in L; lia)) as (is & s' & rest & R & E);
        exists (Given t o text v :: is), s', rest; split; [apply T_given; auto; try contradiction|exact E]
      |exists [], s, (t :: text :: ts); split; [apply T_end|apply (Et_rejected T s t o); auto; try contradiction]].
Qed.

(* the ending *)
Lemma tloop_rejected s tok o text rest : waiting_for_signed s = false -> names s tok o -> ~ is_flag o ->
  (looks_like_option text -> greedy o) ->
  parse_loop_t T s None (tok :: text :: rest) =
  match opt_setVal_t T (arm s o) o text with
  | (s1, Some e) => (s1, LThrow e)
  | (s1, None) => parse_loop_t T (set_wfs s1 false) None rest
  end.
Proof. intros W N NF G. rewrite (tstep_named s tok o _ W N), (isPresentOpt_false o NF). apply tstep_value; assumption. Qed.

(* all endings at once *)
Definition family (e : exn) : Prop := ex_class e = BadOptValue \/ ex_class e = BadOptionName.
Lemma tparse_ending s ts is s1 rest : flags_unsigned s -> waiting_for_signed s = false ->
  reads_t T s ts is s1 rest -> ending_t T s1 rest ->
  (rest = [] /\ parse_list_t T s ts = Ok (Returned true, s1)) \/
  (exists tok o, rest = [tok] /\ names s1 tok o /\ ~ is_flag o /\ parse_list_t T s ts = Ok (Returned true, arm s1 o)) \/
  (exists tok r t, rest = tok :: r /\ (asks_help tok \/ looks_like_option tok /\ ~ asks_help tok /\ forall o, ~ names s1 tok o) /\
     parse_list_t T s ts = Ok (Returned false, print_err s1 t)) \/
  (exists tok o text r v e, rest = tok :: text :: r /\ names s1 tok o /\ ~ is_flag o /\ judged T s1 o text v (Raise e) /\
     exists p t, parse_list_t T s ts = Ok (p, print_err (spoilt s1 o text) t) /\
       (family e -> p = Returned false) /\ (~ family e -> p = Escaped e /\ t = [])) \/
  (exists tok o text r t, rest = tok :: text :: r /\ names s1 tok o /\ ~ is_flag o /\
     (forall v e, ~ judged T s1 o text v (Raise e)) /\ (forall v, ~ judged T s1 o text v Accept) /\
     parse_list_t T s ts = Ok (Returned false, print_err (spoilt s1 o text) t)).
Proof.
  intros FU W R E. destruct (tloop_reads _ _ _ _ _ R FU W) as (A & B & C & _). unfold parse_list_t. rewrite A.
  destruct E as [|tok o N NF|tok r H|tok r L NH U|tok o text r N NF G NA].
  - left. split; reflexivity.
  - right; left. exists tok, o. rewrite (tstep_named s1 tok o [] B N), (isPresentOpt_false o NF). repeat split; auto.
  - right; right; left. rewrite (tstep_help s1 tok r B H), printHelp_ok. cbn. do 3 eexists. split; [reflexivity|]. split; [left; exact H|reflexivity].
  - right; right; left. rewrite (tstep_unknown s1 tok r B L NH U). cbn. rewrite printHelp_ok. cbn. unfold print_err. cbn. rewrite <- app_assoc.
    do 3 eexists. split; [reflexivity|]. split; [right; auto|reflexivity].
  - right; right; right. rewrite (tloop_rejected s1 tok o text r B N NF G).
    destruct (setVal_not s1 o text NF NA) as [(v & e & J & ->)|[NJ ->]].
    + left. exists tok, o, text, r, v, e. repeat (split; [assumption||reflexivity|]).
      destruct (ex_class e) eqn:CE; try (rewrite printHelp_ok; cbn [obind]).
      all: first [ exists (Escaped e), []; split;
                   [unfold print_err; rewrite app_nil_r; destruct (spoilt s1 o text); reflexivity
                   |split; [intros [X|X]; congruence|auto]]
                 | eexists _, _; split; [unfold print_err; cbn; rewrite <- ?app_assoc; reflexivity|split; [reflexivity|intros X; destruct X; unfold family; auto]]].
    + right. exists tok, o, text, r. eexists. repeat (split; [assumption||reflexivity|]). reflexivity.
Qed.

Lemma spoilt_fields s o text : same_maps s (spoilt s o text) /\ next_id (spoilt s o text) = next_id s /\
  waiting_for_signed (spoilt s o text) = waiting_for_signed (arm s o).
Proof. unfold spoilt, arm. destruct (leaves o text), (o_kind o), (o_signed o); repeat split. Qed.

Lemma ready_inv s : ready T s -> inv s /\ waiting_for_signed s = false.
Proof.
  induction 1 as [kvp m vm|s i R IH|s r R IH G|s m vm R IH|s ts is s1 rest p s' R IH L E NS P].
  - split; [apply inv_new|reflexivity].
  - destruct IH as [I W]. split; [eapply inv_tables; [..|exact I]; reflexivity|exact W].
  - destruct IH as [I W]. split; [apply inv_reg; assumption|]. destruct G; exact W.
  - destruct IH as [I W]. split; [eapply inv_tables; [..|exact I]; reflexivity|exact W].
  - destruct IH as [I W]. pose proof (inv_flags_unsigned s I) as FU.
    destruct (tloop_reads _ _ _ _ _ L FU W) as (_ & B & [C1 C2] & D & _).
    assert (K : forall x, same_maps s1 x -> next_id x = next_id s1 -> waiting_for_signed x = false -> inv x /\ waiting_for_signed x = false).
    { intros x [X1 X2] X3 X4. split; [|exact X4]. eapply inv_tables; [..|exact I]; congruence. }
    destruct (tparse_ending s ts is s1 rest FU W L E)
      as [(_ & Q)|[(tok & o & Er & N & NF & Q)|[(tok & r & t & Er & _ & Q)|[(tok & o & text & r & v & e & Er & N & NF & J & p' & t & Q & _)|(tok & o & text & r & t & Er & N & NF & _ & NA & Q)]]]];
      rewrite Q in P; injection P as <- <-; apply K.
    1-3: repeat split; auto.
    + apply arm_maps.
    + unfold arm. destruct (o_signed o); reflexivity.
    + rewrite wfs_arm by exact B. destruct (o_signed o) eqn:SG; [|reflexivity]. destruct NS. exists tok, o. auto.
    + repeat split.
    + reflexivity.
    + exact B.
    + apply spoilt_fields.
    + apply spoilt_fields.
    + change (waiting_for_signed (spoilt s1 o text) = false). rewrite (proj2 (proj2 (spoilt_fields s1 o text))), wfs_arm by exact B.
      destruct (o_signed o) eqn:SG; [|reflexivity]. destruct NS. exists tok, o. repeat (split; [assumption|]). right. exists text, r. split; [exact Er|].
      intros v' J'. unfold judged in J, J'. change sight with view_of in J, J'. destruct (o_kind o); [..|exact J]; destruct J as [J1 J2], J' as [J3 J4]; rewrite J1 in J3; injection J3 as <-; congruence.
    + apply spoilt_fields.
    + apply spoilt_fields.
    + change (waiting_for_signed (spoilt s1 o text) = false). rewrite (proj2 (proj2 (spoilt_fields s1 o text))), wfs_arm by exact B.
      destruct (o_signed o) eqn:SG; [|reflexivity]. destruct NS. exists tok, o. repeat (split; [assumption|]). right. exists text, r. auto.
Qed.

(* exceptions replaced by refusals *)
Lemma setVal_refusing s o text s1 x : opt_setVal_t T s o text = (s1, x) ->
  exists y, opt_setVal_t (refusing T) s o text = (s1, y) /\
    (y = x \/ (exists e, x = Some e) /\ y = Some (badOptValue (o_long o) text (o_err o))).
Proof.
  unfold opt_setVal_t, refusing. destruct (o_kind o) as [t a k|t a k|a].
  - destruct (ty_read t text) as [v|[v|]]; [|intros [= <- <-]; eauto..]. cbv zeta.
    destruct (T (o_id o) (view_of (set_mem s a v)) v); intros [= <- <-]; eauto 7.
  - destruct (ty_read t text) as [v|l]; [|intros [= <- <-]; eauto].
    destruct (T (o_id o) (view_of s) v); intros [= <- <-]; eauto 7.
  - intros [= <- <-]; eauto.
Qed.
Lemma loop_refusing : forall ts s arg s1 r, parse_loop_t T s arg ts = (s1, r) ->
  exists r', parse_loop_t (refusing T) s arg ts = (s1, r') /\
    (r' = r \/ (exists e, r = LThrow e) /\ exists a b c, r' = LThrow (badOptValue a b c)).
Proof.
  induction ts as [|t ts IH]; intros s arg s1 r; cbn [parse_loop_t]; [intros [= <- <-]; eauto|]. cbv zeta.
  destruct (Nat.eqb _ 0).
  - destruct arg as [o|]; [|apply IH]. destruct (opt_setVal_t T s o t) as [s2 x] eqn:SV.
    destruct (setVal_refusing _ _ _ _ _ SV) as (y & -> & [->|[[e ->] ->]]).
    + destruct x as [e|]; [intros [= <- <-]; eauto|apply IH].
    + intros [= <- <-]. eexists. split; [reflexivity|]. right. eauto 6.
  - match goal with |- context [if ?h then _ else _] => destruct h end; [intros [= <- <-]; eauto|].
    match goal with |- context [match ?h with Some _ => _ | None => _ end = (s1, r)] => destruct h as [o|] end; [|intros [= <- <-]; eauto].
    destruct (isPresentOpt o); apply IH.
Qed.
End T.

(* tests that are predicates on values *)
Definition agrees (T : nat -> tester) (o : opt) : Prop :=
  match o_kind o with
  | KScalar _ _ test | KVector _ _ test => forall w v, T (o_id o) w v = if test v then Accept else Refuse
  | KPresence _ => True
  end.
Lemma setVal_agrees T s o text : agrees T o -> opt_setVal_t T s o text = opt_setVal s o text.
Proof.
  unfold agrees, opt_setVal_t, opt_setVal. destruct (o_kind o) as [t a k|t a k|a]; intros H; [..|reflexivity];
    destruct (ty_read t text); try reflexivity; rewrite H; destruct (k v); reflexivity.
Qed.
Lemma loop_agrees T s0 : (forall o, registered s0 o -> agrees T o) -> forall ts s arg, same_maps s0 s ->
  (forall o, arg = Some o -> registered s0 o) -> parse_loop_t T s arg ts = parse_loop s arg ts.
Proof.
  intros H. induction ts as [|t ts IH]; intros s arg M HA; [reflexivity|]. cbn [parse_loop_t parse_loop]. cbv zeta.
  destruct (Nat.eqb _ 0).
  - destruct arg as [o|]; [|apply IH; [exact M|discriminate]]. rewrite setVal_agrees by (apply H, HA; reflexivity).
    pose proof (setVal_fields s o t) as F. destruct (opt_setVal s o t) as [s1 [e|]]; [reflexivity|]. apply IH; [|discriminate].
    eapply same_maps_trans; [exact M|]. apply F.
  - match goal with |- context [if ?h then _ else _] => destruct h end; [reflexivity|].
    match goal with |- context [findOpt_ab ?x _] => set (s1 := x) in * end.
    assert (M1 : same_maps s0 s1).
    { unfold s1. destruct arg as [o|]; [|exact M]. eapply same_maps_trans; [exact M|]. apply (setPresent_fields s o). }
    match goal with |- context [match ?h with Some _ => _ | None => (s1, _) end] => destruct h as [o|] eqn:F end; [|reflexivity].
    assert (RG : registered s0 o).
    { destruct M1 as [M1 M2]. unfold registered, findOpt_long, findOpt_ab in *. rewrite M1, M2 in F. match type of F with context [if ?c then _ else _] => destruct c end; eauto. }
    set (s2 := if o_signed o then set_wfs s1 true else s1). assert (M2 : same_maps s0 s2).
    { unfold s2. destruct (o_signed o); exact M1. }
    destruct (isPresentOpt o).
    + apply IH; [|discriminate]. eapply same_maps_trans; [exact M2|]. apply setPresent_fields.
    + apply IH; [exact M2|]. intros o' [= <-]. exact RG.
Qed.

Lemma after_store s i : match i with Flag _ o => is_flag o | Given _ o _ _ | Bare _ o => ~ is_flag o | Pos _ => True end -> after s (store s i) [i].
Proof.
  destruct i as [w|tok o|tok o text v|tok o]; cbn [store]; intros H.
  - constructor; cbn; intros; rewrite ?app_nil_r, ?orb_false_r; reflexivity.
  - destruct H as [a Ha]. rewrite Ha. constructor; cbn; intros; rewrite ?Ha, ?app_nil_r, ?orb_false_r; try reflexivity;
      unfold upd; try (destruct (Nat.eqb_spec a0 a); reflexivity);
      destruct (Nat.eqb id (o_id o)); rewrite ?orb_true_r, ?orb_false_r; reflexivity.
  - unfold is_flag in H. destruct (o_kind o) as [t a test|t a test|a] eqn:K; [..|elim H; eauto].
    + constructor; cbn; intros; rewrite ?K, ?app_nil_r, ?orb_false_r; cbn; try reflexivity;
        unfold upd; try (destruct (Nat.eqb_spec a0 a); reflexivity);
        destruct (Nat.eqb id (o_id o)); rewrite ?orb_true_r, ?orb_false_r; reflexivity.
    + constructor; cbn; intros; rewrite ?K, ?app_nil_r, ?orb_false_r; cbn; try reflexivity;
        unfold upd; try (destruct (Nat.eqb_spec a0 a); subst; rewrite ?app_nil_r; reflexivity);
        destruct (Nat.eqb id (o_id o)); rewrite ?orb_true_r, ?orb_false_r; reflexivity.
  - constructor; cbn; intros; rewrite ?app_nil_r, ?orb_false_r; try reflexivity;
      unfold upd; destruct (Nat.eqb id (o_id o)); rewrite ?orb_true_r, ?orb_false_r; reflexivity.
Qed.
Lemma treads_after T s ts is s' rest : reads_t T s ts is s' rest -> after s s' is.
Proof.
  induction 1 as [s ts|s w ts is s' rest N H IH|s tok o ts is s' rest N F H IH
    |s tok o text v ts is s' rest N A G H IH|s tok o t ts is s' rest N F G L H IH].
  - apply after_refl.
  - change (Pos w :: is) with ([Pos w] ++ is). eapply after_trans; [apply after_store; exact I|exact IH].
  - change (Flag tok o :: is) with ([Flag tok o] ++ is). eapply after_trans; [apply after_store; exact F|exact IH].
  - change (Given tok o text v :: is) with ([Given tok o text v] ++ is).
    eapply after_trans; [apply after_store; eapply judged_flag; exact A|exact IH].
  - change (Bare tok o :: is) with ([Bare tok o] ++ is). eapply after_trans; [apply after_store; exact F|exact IH].
Qed.

(* what the parser throws by itself *)
Lemma refusing_class T : forall ts s arg s1 e, parse_loop_t (refusing T) s arg ts = (s1, LThrow e) -> family e.
Proof.
  assert (SV : forall s o t s1 e, opt_setVal_t (refusing T) s o t = (s1, Some e) -> family e).
  { intros s o t s1 e. unfold opt_setVal_t, refusing. destruct (o_kind o) as [y a k|y a k|a].
    - destruct (ty_read y t) as [v|[v|]]; [|intros [= <- <-]; left; reflexivity..]. cbv zeta.
      destruct (T (o_id o) (view_of (set_mem s a v)) v); intros [= <- <-]; left; reflexivity.
    - destruct (ty_read y t) as [v|l]; [|intros [= <- <-]; left; reflexivity].
      destruct (T (o_id o) (view_of s) v); intros [= <- <-]; left; reflexivity.
    - discriminate. }
  induction ts as [|t ts IH]; intros s arg s1 e; cbn [parse_loop_t]; [discriminate|]. cbv zeta.
  destruct (Nat.eqb _ 0).
  - destruct arg as [o|]; [|apply IH]. destruct (opt_setVal_t (refusing T) s o t) as [s2 [x|]] eqn:E; [|apply IH].
    intros [= <- <-]. eapply SV; exact E.
  - match goal with |- context [if ?h then _ else _] => destruct h end; [discriminate|].
    match goal with |- context [match ?h with Some _ => _ | None => _ end = (s1, _)] => destruct h as [o|] end; [|intros [= <- <-]; right; reflexivity].
    destruct (isPresentOpt o); apply IH.
Qed.
Lemma loop_throws : forall ts s arg s1 e, parse_loop s arg ts = (s1, LThrow e) -> ex_class e = BadOptValue \/ ex_class e = BadOptionName.
Proof.
  assert (SV : forall s o t s1 e, opt_setVal s o t = (s1, Some e) -> ex_class e = BadOptValue \/ ex_class e = BadOptionName).
  { intros s o t s1 e. unfold opt_setVal. destruct (o_kind o) as [y a k|y a k|a]; [..|discriminate].
    - destruct (ty_read y t) as [v|[v|]]; [cbv zeta; destruct (k v); [discriminate|]|..]; intros [= <- <-]; left; reflexivity.
    - destruct (ty_read y t) as [v|l]; [destruct (k v); [discriminate|]|]; intros [= <- <-]; left; reflexivity. }
  induction ts as [|t ts IH]; intros s arg s1 e; cbn [parse_loop]; [discriminate|]. cbv zeta.
  destruct (Nat.eqb _ 0).
  - destruct arg as [o|]; [|apply IH]. destruct (opt_setVal s o t) as [s2 [x|]] eqn:E; [|apply IH].
    intros [= <- <-]. eapply SV; exact E.
  - match goal with |- context [if ?h then _ else _] => destruct h end; [discriminate|].
    match goal with |- context [match ?h with Some _ => _ | None => _ end = (s1, _)] => destruct h as [o|] end; [|intros [= <- <-]; right; reflexivity].
    destruct (isPresentOpt o); apply IH.
Qed.
