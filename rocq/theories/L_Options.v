(* L_Options.v -- lemmas about the token loop of Options::parse. *)
From Verif Require Import Base M_StreamIn M_Format M_Options S_Options L_Map.

Lemma ccmp_eq a b : char_compare a b = Eq <-> a = b.
Proof.
  unfold char_compare. rewrite N.compare_eq_iff. split; [|congruence].
  intros H. rewrite <- (ascii_N_embedding a), <- (ascii_N_embedding b), H. reflexivity.
Qed.

(* ---------- shapes of tokens ---------- *)
Lemma looks_dec t : {looks_like_option t} + {~ looks_like_option t}.
Proof.
  destruct t as [|a [|b r]].
  - right. intros [(c & r & H & _)|(c & r & H)]; discriminate.
  - right. intros [(c & r & H & _)|(c & r & H)]; discriminate.
  - destruct (ascii_dec a "-"%char) as [->|Ha].
    2:{ right. intros [(c & r0 & H & _)|(c & r0 & H)]; injection H; intros; contradiction. }
    destruct (ascii_dec b "-"%char) as [->|Hb].
    + destruct r as [|c r].
      * right. intros [(c & r0 & H & N)|(c & r0 & H)]; [injection H; intros; subst; contradiction|discriminate].
      * left. right. eauto.
    + left. left. eauto.
Qed.

Lemma asks_help_dec t : {asks_help t} + {~ asks_help t}.
Proof.
  destruct (list_eq_dec ascii_dec t (lit "--help")) as [->|N]; [left; left; reflexivity|].
  destruct t as [|a [|b r]].
  - right. intros [H|(r & H)]; [contradiction|discriminate].
  - right. intros [H|(r & H)]; [contradiction|discriminate].
  - destruct (ascii_dec a "-"%char) as [->|Ha], (ascii_dec b "h"%char) as [->|Hb];
      try (right; intros [H|(r' & H)]; [contradiction|injection H; intros; contradiction]).
    left. right. eauto.
Qed.

Lemma asks_help_looks t : asks_help t -> looks_like_option t.
Proof.
  intros [->|(r & ->)]; [right; cbv; eauto|left]. exists "h"%char, r. split; [reflexivity|discriminate].
Qed.

Lemma names_looks s t o : names s t o -> looks_like_option t.
Proof.
  intros [n o' H _ _|c r o' H _ _].
  - destruct n as [|c n]; [contradiction|]. right. exists c, n. reflexivity.
  - left. eauto.
Qed.
Lemma names_nohelp s t o : names s t o -> ~ asks_help t.
Proof.
  intros [n o' H N _|c r o' H N _] [E|(r' & E)].
  - apply N. change (lit "--help") with (lit "--" ++ lit "help") in E. apply app_inv_head in E. exact E.
  - cbv in E. discriminate.
  - cbv in E. injection E as -> _. contradiction.
  - injection E as -> _. contradiction.
Qed.

(* the option a token stands for *)
Definition tok_opt (s : st) (t : str) : option opt :=
  match t with
  | a :: b :: r => if Ascii.eqb b "-"%char then findOpt_long s r else findOpt_ab s b
  | _ => None
  end.

Lemma names_iff s t o : looks_like_option t -> ~ asks_help t -> (names s t o <-> tok_opt s t = Some o).
Proof.
  intros L NH. split.
  - intros [n o' H N F|c r o' H N F]; cbn.
    + exact F.
    + destruct (Ascii.eqb_spec c "-"%char); [contradiction|exact F].
  - destruct L as [(c & r & -> & N)|(c & r & ->)]; cbn.
    + destruct (Ascii.eqb_spec c "-"%char); [contradiction|]. intros F. apply N_short; auto.
      intros ->. apply NH. right. eauto.
    + intros F. apply (N_long s (c :: r) o); [discriminate| |exact F].
      intros E. apply NH. left. rewrite E. reflexivity.
Qed.
Lemma names_fun s t o o' : names s t o -> names s t o' -> o = o'.
Proof.
  intros A B. pose proof (names_looks _ _ _ A) as L. pose proof (names_nohelp _ _ _ A) as H.
  apply (names_iff s t o L H) in A. apply (names_iff s t o' L H) in B. congruence.
Qed.

Lemma isSwitch_cases s t : waiting_for_signed s = false ->
  (isSwitch s t = 0 /\ ~ looks_like_option t) \/
  (isSwitch s t = 1 /\ looks_like_option t /\ exists c r, t = "-"%char :: c :: r /\ c <> "-"%char) \/
  (isSwitch s t = 2 /\ looks_like_option t /\ exists c r, t = "-"%char :: "-"%char :: c :: r).
Proof.
  intros W. unfold isSwitch. rewrite W.
  destruct t as [|a [|b r]]; cbn [length Nat.ltb Nat.leb nth].
  - left. split; [reflexivity|]. intros [(c & r & H & _)|(c & r & H)]; discriminate.
  - left. split; [reflexivity|]. intros [(c & r & H & _)|(c & r & H)]; discriminate.
  - destruct (Ascii.eqb_spec a "-"%char) as [->|Ha]; cbn [negb].
    2:{ left. split; [reflexivity|]. intros [(c & r0 & H & _)|(c & r0 & H)]; injection H; intros; contradiction. }
    destruct (Ascii.eqb_spec b "-"%char) as [->|Hb].
    + destruct r as [|c r]; cbn [length Nat.ltb Nat.leb].
      * left. split; [reflexivity|].
        intros [(c & r0 & H & N)|(c & r0 & H)]; [injection H; intros; subst; contradiction|discriminate].
      * right. right. split; [reflexivity|]. split; [right; eauto|eauto].
    + right. left. split; [reflexivity|]. split; [left; eauto|eauto].
Qed.
Lemma isSwitch_no s t : waiting_for_signed s = false -> ~ looks_like_option t -> isSwitch s t = 0.
Proof. intros W N. destruct (isSwitch_cases s t W) as [[E _]|[(_ & L & _)|(_ & L & _)]]; [exact E|contradiction..]. Qed.
Lemma isSwitch_yes s t : waiting_for_signed s = false -> looks_like_option t -> isSwitch s t <> 0.
Proof. intros W N. destruct (isSwitch_cases s t W) as [[_ E]|[(E & L & _)|(E & L & _)]]; [contradiction|rewrite E; discriminate..]. Qed.

(* ---------- single steps of the loop ---------- *)
Lemma step_pos s t ts : waiting_for_signed s = false -> ~ looks_like_option t ->
  parse_loop s None (t :: ts) = parse_loop (push_pos s t) None ts.
Proof. intros W N. cbn [parse_loop]. rewrite isSwitch_no by assumption. reflexivity. Qed.

Definition arm (s : st) (o : opt) : st := if o_signed o then set_wfs s true else s.

Lemma step_help s t ts : waiting_for_signed s = false -> asks_help t ->
  parse_loop s None (t :: ts) = (s, LHelp).
Proof.
  intros W H. pose proof (asks_help_looks _ H) as L. cbn [parse_loop].
  destruct (isSwitch_cases s t W) as [[_ N]|[(E & _ & c & r & -> & N)|(E & _ & c & r & ->)]]; [contradiction|..];
    rewrite E; cbn [Nat.eqb nth].
  - destruct H as [H|(r' & H)].
    + cbv in H. injection H as -> _. contradiction.
    + injection H as -> _. reflexivity.
  - destruct H as [H|(r' & H)]; [|discriminate]. rewrite H. reflexivity.
Qed.

Lemma step_named s t o ts : waiting_for_signed s = false -> names s t o ->
  parse_loop s None (t :: ts) =
  if isPresentOpt o then parse_loop (opt_setPresent (arm s o) o) None ts
  else parse_loop (arm s o) (Some o) ts.
Proof.
  intros W H. pose proof (names_looks _ _ _ H) as L. pose proof (names_nohelp _ _ _ H) as NH.
  apply names_iff in H; [|assumption..]. cbn [parse_loop].
  destruct (isSwitch_cases s t W) as [[_ N]|[(E & _ & c & r & -> & N)|(E & _ & c & r & ->)]]; [contradiction|..];
    rewrite E; cbn [Nat.eqb nth].
  - destruct (Ascii.eqb_spec c "h"%char) as [->|Nh]; [elim NH; right; eauto|].
    cbn in H. destruct (Ascii.eqb_spec c "-"%char); [contradiction|]. rewrite H. unfold arm. destruct (isPresentOpt o); reflexivity.
  - destruct (str_eqb_spec ("-"%char :: "-"%char :: c :: r) (lit "--help")) as [E2|Nh]; [elim NH; left; exact E2|].
    cbn in H. cbn [skipn]. rewrite H. destruct (isPresentOpt o); reflexivity.
Qed.

Lemma step_unknown s t ts : waiting_for_signed s = false -> looks_like_option t -> ~ asks_help t ->
  (forall o, ~ names s t o) -> parse_loop s None (t :: ts) = (s, LThrow (badOptionName t)).
Proof.
  intros W L NH H. assert (T : tok_opt s t = None).
  { destruct (tok_opt s t) as [o|] eqn:E; [|reflexivity]. elim (H o). apply names_iff; assumption. }
  cbn [parse_loop].
  destruct (isSwitch_cases s t W) as [[_ N]|[(E & _ & c & r & -> & N)|(E & _ & c & r & ->)]]; [contradiction|..];
    rewrite E; cbn [Nat.eqb nth].
  - destruct (Ascii.eqb_spec c "h"%char) as [->|Nh]; [elim NH; right; eauto|].
    cbn in T. destruct (Ascii.eqb_spec c "-"%char); [contradiction|]. rewrite T. reflexivity.
  - destruct (str_eqb_spec ("-"%char :: "-"%char :: c :: r) (lit "--help")) as [E2|Nh]; [elim NH; left; exact E2|].
    cbn in T. cbn [skipn]. rewrite T. reflexivity.
Qed.

Lemma wfs_arm s o : waiting_for_signed s = false -> waiting_for_signed (arm s o) = o_signed o.
Proof. intros W. unfold arm. destruct (o_signed o); [reflexivity|exact W]. Qed.

(* the value token *)
Lemma step_value s o t ts : waiting_for_signed s = false -> (looks_like_option t -> greedy o) ->
  parse_loop (arm s o) (Some o) (t :: ts) =
  match opt_setVal (arm s o) o t with
  | (s1, Some e) => (s1, LThrow e)
  | (s1, None) => parse_loop (set_wfs s1 false) None ts
  end.
Proof.
  intros W G. cbn [parse_loop].
  assert (E : (if o_default o then isSwitch (arm s o) t else 0) = 0).
  { destruct (o_default o) eqn:D; [|reflexivity].
    destruct (o_signed o) eqn:SG.
    - unfold isSwitch. rewrite (wfs_arm s o W), SG. reflexivity.
    - apply isSwitch_no; [rewrite (wfs_arm s o W); exact SG|]. intros L. destruct (G L); congruence. }
  rewrite E. reflexivity.
Qed.

(* an option left at its default *)
Lemma step_bare s o t ts : waiting_for_signed s = false -> ~ greedy o -> looks_like_option t ->
  parse_loop (arm s o) (Some o) (t :: ts) = parse_loop (set_wfs (opt_setPresent s o) false) None (t :: ts).
Proof.
  intros W G L. assert (SG : o_signed o = false) by (destruct (o_signed o) eqn:E; [elim G; right; exact E|reflexivity]).
  assert (D : o_default o = true) by (destruct (o_default o) eqn:E; [reflexivity|elim G; left; exact E]).
  unfold arm. rewrite SG. cbn [parse_loop]. rewrite D, SG.
  assert (E : isSwitch (set_wfs (opt_setPresent s o) false) t = isSwitch s t).
  { unfold isSwitch. cbn [waiting_for_signed set_wfs]. rewrite W. reflexivity. }
  rewrite E. pose proof (isSwitch_yes s t W L) as NZ.
  destruct (Nat.eqb_spec (isSwitch s t) 0); [contradiction|]. reflexivity.
Qed.

(* ---------- the state after some items ---------- *)
Definition apply_item (s : st) (i : item) : st :=
  match i with
  | Pos w => push_pos s w
  | Flag _ o => opt_setPresent (arm s o) o
  | Given _ o text _ => set_wfs (fst (opt_setVal (arm s o) o text)) false
  | Bare _ o => set_wfs (opt_setPresent s o) false
  end.
Definition apply_items (s : st) (is : list item) : st := fold_left apply_item is s.

Definition same_maps (s s' : st) : Prop := long_map s' = long_map s /\ ab_map s' = ab_map s.
Lemma same_maps_refl s : same_maps s s.
Proof. split; reflexivity. Qed.
Lemma names_same s s' t o : same_maps s s' -> names s t o -> names s' t o.
Proof.
  intros [A B] [n o' H N F|c r o' H N F].
  - apply N_long; auto. unfold findOpt_long. rewrite A. exact F.
  - apply N_short; auto. unfold findOpt_ab. rewrite B. exact F.
Qed.
Lemma same_maps_sym s s' : same_maps s s' -> same_maps s' s.
Proof. intros [A B]. split; congruence. Qed.
Lemma names_same_iff s s' t o : same_maps s s' -> (names s t o <-> names s' t o).
Proof. intros M. split; apply names_same; [exact M|apply same_maps_sym, M]. Qed.

Lemma setPresent_fields s o :
  same_maps s (opt_setPresent s o) /\ waiting_for_signed (opt_setPresent s o) = waiting_for_signed s.
Proof. unfold opt_setPresent. destruct (o_kind o); repeat split. Qed.
Lemma arm_maps s o : same_maps s (arm s o).
Proof. unfold arm. destruct (o_signed o); repeat split. Qed.
Lemma setVal_fields s o t :
  same_maps s (fst (opt_setVal s o t)) /\ waiting_for_signed (fst (opt_setVal s o t)) = waiting_for_signed s /\
  info_list (fst (opt_setVal s o t)) = info_list s /\ is_kvp (fst (opt_setVal s o t)) = is_kvp s /\
  next_id (fst (opt_setVal s o t)) = next_id s /\ pos_arg_vec (fst (opt_setVal s o t)) = pos_arg_vec s /\
  cerr (fst (opt_setVal s o t)) = cerr s.
Proof.
  unfold opt_setVal. destruct (o_kind o) as [ty a test|ty a test|a].
  - destruct (ty_read ty t) as [v|[v|]]; [destruct (test v)|..]; repeat split.
  - destruct (ty_read ty t) as [v|l]; [destruct (test v)|]; repeat split.
  - repeat split.
Qed.
Lemma apply_item_maps s i : same_maps s (apply_item s i).
Proof.
  destruct i as [w|tok o|tok o text v|tok o]; cbn [apply_item].
  - repeat split.
  - destruct (setPresent_fields (arm s o) o) as [[A B] _]. destruct (arm_maps s o). split; congruence.
  - destruct (setVal_fields (arm s o) o text) as [[A B] _]. destruct (arm_maps s o). split; cbn; congruence.
  - destruct (setPresent_fields s o) as [[A B] _]. split; cbn; congruence.
Qed.
Lemma same_maps_trans a b c : same_maps a b -> same_maps b c -> same_maps a c.
Proof. intros [A B] [C D]. split; congruence. Qed.
Lemma apply_items_maps is : forall s, same_maps s (apply_items s is).
Proof.
  induction is as [|i is IH]; intros s; cbn; [apply same_maps_refl|].
  eapply same_maps_trans; [apply apply_item_maps|apply IH].
Qed.


(* flags never are of signed type: they are made by addP.  A state invariant. *)
Definition flags_unsigned (s : st) : Prop :=
  forall t o, names s t o -> is_flag o -> o_signed o = false.

Lemma accepts_setVal s o text v : accepts o text v ->
  snd (opt_setVal s o text) = None /\ ~ is_flag o.
Proof.
  unfold accepts, opt_setVal, is_flag. destruct (o_kind o) as [t a test|t a test|a]; [..|tauto].
  - intros [-> ->]. split; [reflexivity|]. intros [x H]; discriminate.
  - intros [-> ->]. split; [reflexivity|]. intros [x H]; discriminate.
Qed.
Lemma isPresentOpt_iff o : isPresentOpt o = true <-> is_flag o.
Proof. unfold isPresentOpt, is_flag. destruct (o_kind o); split; try discriminate; eauto; intros [a H]; discriminate. Qed.
Lemma isPresentOpt_false o : ~ is_flag o -> isPresentOpt o = false.
Proof. intros H. destruct (isPresentOpt o) eqn:E; [apply isPresentOpt_iff in E; contradiction|reflexivity]. Qed.

(* running the loop over understood items *)
Lemma loop_reads s ts is rest : flags_unsigned s -> reads s ts is rest ->
  forall s0, same_maps s s0 -> waiting_for_signed s0 = false ->
  parse_loop s0 None ts = parse_loop (apply_items s0 is) None rest /\
  waiting_for_signed (apply_items s0 is) = false.
Proof.
  intros FU H. induction H as [ts|w ts is rest N H IH|tok o ts is rest N F H IH
    |tok o text v ts is rest N A G H IH|tok o t ts is rest N F G L H IH]; intros s0 M W; cbn [apply_items fold_left].
  - split; [reflexivity|exact W].
  - rewrite step_pos by assumption. apply IH; [exact M|exact W].
  - assert (SG : o_signed o = false) by (eapply FU; eassumption).
    rewrite (step_named s0 tok o ts W (names_same _ _ _ _ M N)).
    rewrite (proj2 (isPresentOpt_iff o) F). apply IH.
    + eapply same_maps_trans; [exact M|]. apply (apply_item_maps s0 (Flag tok o)).
    + cbn [apply_item]. rewrite (proj2 (setPresent_fields _ _)), wfs_arm by exact W. exact SG.
  - rewrite (step_named s0 tok o _ W (names_same _ _ _ _ M N)).
    destruct (accepts_setVal (arm s0 o) o text v A) as [E NF].
    rewrite (isPresentOpt_false o NF), step_value by assumption.
    destruct (opt_setVal (arm s0 o) o text) as [s1 e] eqn:SV. cbn [snd] in E. subst e.
    cbn [apply_item]. rewrite SV. cbn [fst]. apply IH; [|reflexivity].
    eapply same_maps_trans; [exact M|]. pose proof (apply_item_maps s0 (Given tok o text v)) as P.
    cbn [apply_item] in P. rewrite SV in P. exact P.
  - rewrite (step_named s0 tok o _ W (names_same _ _ _ _ M N)).
    rewrite (isPresentOpt_false o F), step_bare by assumption. apply IH; [|reflexivity].
    eapply same_maps_trans; [exact M|]. apply (apply_item_maps s0 (Bare tok o)).
Qed.

(* every line is some items and one of the five endings *)
Lemma accepts_dec o text : ~ is_flag o -> (exists v, accepts o text v) \/ (forall v, ~ accepts o text v).
Proof.
  intros NF. unfold accepts, is_flag in *. destruct (o_kind o) as [t a test|t a test|a]; [..|elim NF; eauto].
  - destruct (ty_read t text) as [v|l]; [|right; intros v [H _]; discriminate].
    destruct (test v) eqn:T; [left; eauto|right; intros v' [[= ->] H]; congruence].
  - destruct (ty_read t text) as [v|l]; [|right; intros v [H _]; discriminate].
    destruct (test v) eqn:T; [left; eauto|right; intros v' [[= ->] H]; congruence].
Qed.
Lemma greedy_dec o : {greedy o} + {~ greedy o}.
Proof.
  unfold greedy. destruct (o_default o), (o_signed o); auto; right; intros [H|H]; discriminate.
Qed.
Lemma is_flag_dec o : {is_flag o} + {~ is_flag o}.
Proof. unfold is_flag. destruct (o_kind o); [right|right|left]; eauto; intros [a H]; discriminate. Qed.

Lemma reads_total s : forall n ts, length ts <= n -> exists is rest, reads s ts is rest /\ ending s rest.
Proof.
  induction n as [|n IH]; intros ts Hn.
  { destruct ts; [|cbn in Hn; lia]. exists [], []. split; constructor. }
  destruct ts as [|t ts]; [exists [], []; split; constructor|]. cbn in Hn.
  destruct (looks_dec t) as [L|L].
  2:{ destruct (IH ts ltac:(lia)) as (is & rest & R & E). exists (Pos t :: is), rest. split; [constructor; assumption|exact E]. }
  destruct (asks_help_dec t) as [HP|HP].
  { exists [], (t :: ts). split; [constructor|apply E_help; exact HP]. }
  destruct (tok_opt s t) as [o|] eqn:T.
  2:{ exists [], (t :: ts). split; [constructor|]. apply E_unknown; auto.
      intros o H. apply names_iff in H; [congruence|assumption..]. }
  apply names_iff in T; [|assumption..].
  destruct (is_flag_dec o) as [F|F].
  { destruct (IH ts ltac:(lia)) as (is & rest & R & E). exists (Flag t o :: is), rest. split; [constructor; assumption|exact E]. }
  destruct ts as [|x ts].
  { exists [], [t]. split; [constructor|]. eapply E_missing; eassumption. }
  cbn in Hn. destruct (greedy_dec o) as [G|G]; [|destruct (looks_dec x) as [Lx|Lx]].
  - destruct (accepts_dec o x F) as [(v & A)|NA].
    + destruct (IH ts ltac:(lia)) as (is & rest & R & E). exists (Given t o x v :: is), rest. split; [constructor; auto|exact E].
    + exists [], (t :: x :: ts). split; [constructor|]. eapply E_rejected; eauto.
  - destruct (IH (x :: ts) ltac:(cbn; lia)) as (is & rest & R & E).
    exists (Bare t o :: is), rest. split; [apply R_bare; auto|exact E].
  - destruct (accepts_dec o x F) as [(v & A)|NA].
    + destruct (IH ts ltac:(lia)) as (is & rest & R & E). exists (Given t o x v :: is), rest.
      split; [constructor; auto; contradiction|exact E].
    + exists [], (t :: x :: ts). split; [constructor|]. eapply E_rejected; eauto. contradiction.
Qed.

(* ---------- the effect of the items ---------- *)
Definition item_ok (i : item) : Prop :=
  match i with
  | Pos _ => True
  | Flag _ o => is_flag o
  | Given _ o text v => accepts o text v
  | Bare _ o => ~ is_flag o
  end.
Lemma reads_ok s ts is rest : reads s ts is rest -> Forall item_ok is.
Proof. induction 1; [constructor|..]; (constructor; [cbn; auto|assumption]). Qed.

Lemma after_refl s : after s s [].
Proof. constructor; cbn; intros; rewrite ?app_nil_r, ?orb_false_r; reflexivity. Qed.

Lemma last_app_d {A} (a b : list A) d : last (a ++ b) d = last b (last a d).
Proof.
  revert d. induction a as [|x a IH]; intros d; [reflexivity|].
  destruct a as [|y a].
  - cbn. destruct b as [|z b]; [reflexivity|].
    assert (E : forall (l : list A) x d d', last (x :: l) d = last (x :: l) d').
    { clear. induction l as [|y l IH]; intros x d d'; [reflexivity|]. change (last (y :: l) d = last (y :: l) d'). apply IH. }
    apply E.
  - change (last ((y :: a) ++ b) d = last b (last (y :: a) d)). apply IH.
Qed.

Lemma after_trans s s1 s2 a b : after s s1 a -> after s1 s2 b -> after s s2 (a ++ b).
Proof.
  intros [A1 A2 A3 A4 A5 A6 A7 A8 A9] [B1 B2 B3 B4 B5 B6 B7 B8 B9].
  constructor; intros; rewrite ?flat_map_app, ?existsb_app; try congruence.
  - rewrite last_app_d, B1, A1. reflexivity.
  - rewrite B2, A2, app_assoc. reflexivity.
  - rewrite B3, A3, app_assoc. reflexivity.
  - rewrite B4, A4, orb_assoc. reflexivity.
Qed.

Lemma arm_fields s o : exists b, arm s o = set_wfs s b \/ arm s o = s.
Proof. exists true. unfold arm. destruct (o_signed o); auto. Qed.

Lemma after_item s i : item_ok i -> after s (apply_item s i) [i].
Proof.
  destruct i as [w|tok o|tok o text v|tok o]; cbn [item_ok apply_item]; intros H.
  - constructor; cbn; intros; rewrite ?app_nil_r, ?orb_false_r; reflexivity.
  - destruct H as [a Ha]. unfold opt_setPresent. rewrite Ha. unfold arm.
    constructor; cbn; intros; rewrite ?Ha, ?app_nil_r, ?orb_false_r; destruct (o_signed o); cbn; try reflexivity;
      unfold upd; try (destruct (Nat.eqb_spec a0 a); reflexivity);
      destruct (Nat.eqb id (o_id o)); rewrite ?orb_true_r, ?orb_false_r; reflexivity.
  - unfold accepts in H. unfold opt_setVal. destruct (o_kind o) as [t a test|t a test|a] eqn:K; [..|tauto];
      destruct H as [-> ->]; unfold arm.
    + constructor; cbn; intros; rewrite ?K, ?app_nil_r, ?orb_false_r; destruct (o_signed o); cbn; try reflexivity;
        unfold upd; try (destruct (Nat.eqb_spec a0 a); reflexivity);
        destruct (Nat.eqb id (o_id o)); rewrite ?orb_true_r, ?orb_false_r; reflexivity.
    + constructor; cbn; intros; rewrite ?K, ?app_nil_r, ?orb_false_r; destruct (o_signed o); cbn; try reflexivity;
        unfold upd; try (destruct (Nat.eqb_spec a0 a); subst; rewrite ?app_nil_r; reflexivity);
        destruct (Nat.eqb id (o_id o)); rewrite ?orb_true_r, ?orb_false_r; reflexivity.
  - unfold is_flag in H. unfold opt_setPresent. destruct (o_kind o) as [t a test|t a test|a] eqn:K; [..|elim H; eauto];
      constructor; cbn; intros; rewrite ?app_nil_r, ?orb_false_r; try reflexivity;
      unfold upd; destruct (Nat.eqb id (o_id o)); rewrite ?orb_true_r, ?orb_false_r; reflexivity.
Qed.

Lemma apply_item_cerr s i : cerr (apply_item s i) = cerr s.
Proof.
  destruct i as [w|tok o|tok o text v|tok o]; cbn [apply_item].
  - reflexivity.
  - unfold opt_setPresent, arm. destruct (o_kind o), (o_signed o); reflexivity.
  - cbn [cerr set_wfs]. destruct (setVal_fields (arm s o) o text) as (_ & _ & _ & _ & _ & _ & ->).
    unfold arm. destruct (o_signed o); reflexivity.
  - unfold opt_setPresent. destruct (o_kind o); reflexivity.
Qed.

Lemma after_items is : Forall item_ok is -> forall s, after s (apply_items s is) is /\ cerr (apply_items s is) = cerr s.
Proof.
  induction is as [|i is IH]; intros H s; [split; [apply after_refl|reflexivity]|].
  inversion H as [|? ? Hi His]; subst. destruct (IH His (apply_item s i)) as [A C]. split.
  - apply (after_trans s (apply_item s i) _ [i] is); [apply after_item; exact Hi|exact A].
  - cbn. unfold apply_items in C. rewrite C. apply apply_item_cerr.
Qed.
