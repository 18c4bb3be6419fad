(* L_OptionsI.v -- frame and invariants of Options objects. *)
From Verif Require Import Base M_StreamIn M_Stream M_Split M_Format M_Options S_Options L_Map L_Options.
From Coq Require Import Sorted.

(* ---------- what no call to parse changes ---------- *)
Record frame (s s' : st) : Prop := mkFrame {
  fr_long : long_map s' = long_map s; fr_ab : ab_map s' = ab_map s;
  fr_info : info_list s' = info_list s; fr_kvp : is_kvp s' = is_kvp s;
  fr_next : next_id s' = next_id s }.
Lemma frame_refl s : frame s s.
Proof. constructor; reflexivity. Qed.
Lemma frame_trans a b c : frame a b -> frame b c -> frame a c.
Proof. intros [? ? ? ? ?] [? ? ? ? ?]. constructor; congruence. Qed.

Lemma frame_setPresent s o : frame s (opt_setPresent s o).
Proof. unfold opt_setPresent. destruct (o_kind o); constructor; reflexivity. Qed.
Lemma frame_setVal s o t : frame s (fst (opt_setVal s o t)).
Proof. destruct (setVal_fields s o t) as ([A B] & _ & C & D & E & _). constructor; assumption. Qed.
Lemma frame_wfs s b : frame s (set_wfs s b).
Proof. constructor; reflexivity. Qed.
Lemma frame_print s t : frame s (print_err s t).
Proof. constructor; reflexivity. Qed.

(* a registered option, as seen from any state with the same tables *)
Lemma findOpt_long_frame s s' n : frame s s' -> findOpt_long s' n = findOpt_long s n.
Proof. intros F. unfold findOpt_long. rewrite (fr_long _ _ F). reflexivity. Qed.
Lemma findOpt_ab_frame s s' n : frame s s' -> findOpt_ab s' n = findOpt_ab s n.
Proof. intros F. unfold findOpt_ab. rewrite (fr_ab _ _ F). reflexivity. Qed.
Lemma registered_frame s s' o : frame s s' -> (registered s' o <-> registered s o).
Proof.
  intros F. unfold registered. split; intros [[n H]|[n H]].
  - left. exists n. rewrite <- (findOpt_long_frame s s' n F). exact H.
  - right. exists n. rewrite <- (findOpt_ab_frame s s' n F). exact H.
  - left. exists n. rewrite (findOpt_long_frame s s' n F). exact H.
  - right. exists n. rewrite (findOpt_ab_frame s s' n F). exact H.
Qed.
Lemma frame_same_maps s s' : frame s s' -> same_maps s s'.
Proof. intros [A B _ _ _]. split; assumption. Qed.

(* A predicate on states kept by every elementary step of the loop is kept by
   the loop.  P is relative to the tables of the starting state. *)
Section LoopInv.
  Variable P : st -> Prop.
  Variable okopt : opt -> Prop.
  Variable s0 : st.
  Variable toks : list str.
  Hypothesis Ppos : forall s t, P s -> P (push_pos s t).
  Hypothesis Pwfs : forall s b, P s -> P (set_wfs s b).
  Hypothesis Ppres : forall s o, okopt o -> P s -> P (opt_setPresent s o).
  Hypothesis Pval : forall s o t, okopt o -> P s -> P (fst (opt_setVal s o t)).
  Hypothesis okfound : forall t o, In t toks -> names s0 t o -> okopt o.

  Lemma loop_inv : forall ts s arg, incl ts toks ->
    same_maps s0 s -> P s -> (forall o, arg = Some o -> okopt o) ->
    P (fst (parse_loop s arg ts)).
  Proof.
    induction ts as [|t ts IH]; intros s arg I M HP HA; [exact HP|].
    assert (It : In t toks) by (apply I; left; reflexivity).
    assert (Its : incl ts toks) by (intros x Hx; apply I; right; exact Hx).
    cbn [parse_loop].
    set (sw := match arg with None => isSwitch s t | Some o => if o_default o then isSwitch s t else 0 end).
    destruct (Nat.eqb_spec sw 0) as [E|E].
    - destruct arg as [o|].
      + pose proof (Pval s o t (HA o eq_refl) HP) as HP1. pose proof (frame_setVal s o t) as F1.
        destruct (opt_setVal s o t) as [s1 [e|]]; cbn [fst] in *; [exact HP1|].
        apply IH; auto; [|discriminate]. destruct F1. destruct M. split; cbn; congruence.
      + apply IH; auto; discriminate.
    - assert (W : waiting_for_signed s = false /\ isSwitch s t <> 0 /\ sw = isSwitch s t).
      { unfold sw in *. destruct arg as [o|]; [destruct (o_default o); [|contradiction]|];
          (split; [|split; [exact E|reflexivity]]); unfold isSwitch in E;
          destruct (waiting_for_signed s); [contradiction|reflexivity|contradiction|reflexivity]. }
      destruct W as (W & NZ & Esw). rewrite Esw in *. clear sw Esw.
      set (s1 := match arg with Some o => set_wfs (opt_setPresent s o) (o_signed o) | None => s end).
      assert (HP1 : P s1) by (unfold s1; destruct arg as [o|]; [apply Pwfs, Ppres; auto|exact HP]).
      assert (M1 : same_maps s0 s1).
      { unfold s1. destruct arg as [o|]; [|exact M]. destruct (frame_setPresent s o). destruct M. split; cbn; congruence. }
      match goal with |- context [if ?h then (s1, LHelp) else _] => destruct h eqn:Eh end; [exact HP1|].
      match goal with |- context [match ?h with None => _ | Some _ => _ end] => destruct h as [o|] eqn:Ef end; [|exact HP1].
      assert (OK : okopt o).
      { apply (okfound t); [exact It|]. apply (names_same s1); [apply same_maps_sym, M1|].
        destruct (isSwitch_cases s t W) as [[X _]|[(X & L & c & r & -> & N)|(X & L & c & r & ->)]]; [contradiction|..];
          rewrite X in *; cbn [Nat.eqb nth skipn] in *.
        - apply N_short; auto. intros ->. discriminate.
        - apply (N_long s1 (c :: r)); [discriminate| |exact Ef]. intros X2. rewrite X2 in Eh. discriminate. }
      assert (HP2 : P (if o_signed o then set_wfs s1 true else s1)) by (destruct (o_signed o); [apply Pwfs|]; exact HP1).
      assert (M2 : same_maps s0 (if o_signed o then set_wfs s1 true else s1)) by (destruct (o_signed o); exact M1).
      destruct (isPresentOpt o).
      + apply IH; auto; [|discriminate]. destruct (frame_setPresent (if o_signed o then set_wfs s1 true else s1) o).
        destruct M2. split; congruence.
      + apply IH; auto. intros o' [= <-]. exact OK.
  Qed.
End LoopInv.

Lemma loop_frame s ts : frame s (fst (parse_loop s None ts)).
Proof.
  apply (loop_inv (frame s) (fun _ => True) s ts); auto.
  - intros s1 t F. eapply frame_trans; [exact F|]. constructor; reflexivity.
  - intros s1 b F. eapply frame_trans; [exact F|apply frame_wfs].
  - intros s1 o _ F. eapply frame_trans; [exact F|apply frame_setPresent].
  - intros s1 o t _ F. eapply frame_trans; [exact F|apply frame_setVal].
  - intros x Hx; exact Hx.
  - apply same_maps_refl.
  - apply frame_refl.
Qed.

(* parse_list: the result of the loop, with text printed *)
Lemma parse_list_loop s ts b s' : parse_list s ts = Ok (b, s') ->
  exists txt, s' = print_err (fst (parse_loop s None ts)) txt \/ s' = fst (parse_loop s None ts).
Proof.
  unfold parse_list. destruct (parse_loop s None ts) as [s1 [| |e]]; cbn [fst].
  - intros [= _ <-]. exists []. right. reflexivity.
  - destruct (printHelp s1) as [h|e|]; cbn [obind]; try discriminate. intros [= _ <-]. exists h. left. reflexivity.
  - destruct (ex_class e);
    try (intros [= _ <-]; eexists; left; reflexivity).
    destruct (printHelp _) as [h|e'|]; cbn [obind]; try discriminate. intros [= _ <-].
    exists ((c_str (ex_what e) ++ endl) ++ h). left. unfold print_err. cbn [long_map ab_map info_list pos_arg_vec is_kvp waiting_for_signed next_id present mem vmem cerr]. rewrite <- app_assoc. reflexivity.
Qed.
Lemma parse_list_frame s ts b s' : parse_list s ts = Ok (b, s') -> frame s s'.
Proof.
  intros H. apply parse_list_loop in H as [txt [-> | ->]].
  - eapply frame_trans; [apply loop_frame|apply frame_print].
  - apply loop_frame.
Qed.
Lemma parseKeyValue_list_frame s l b s' : parseKeyValue_list s l = Ok (b, s') -> frame s s'.
Proof.
  unfold parseKeyValue_list. destruct (kv_tokens l); cbn [obind]; try discriminate. apply parse_list_frame.
Qed.
Lemma parseKeyValue_frame s t b s' : parseKeyValue s t = Ok (b, s') -> frame s s'.
Proof.
  unfold parseKeyValue. destruct t as [|c t]; [intros [= _ <-]; apply frame_refl|].
  destruct (split (c :: t) (lit ",") false) as [[|x l]| |]; cbn [obind]; try discriminate.
  - intros [= _ <-]. apply frame_refl.
  - apply parseKeyValue_list_frame.
Qed.
Lemma parse_string_frame im s t b s' : parse_string im s t = Ok (b, s') -> frame s s'.
Proof.
  unfold parse_string. destruct (is_kvp s); [apply parseKeyValue_frame|].
  destruct (buildTokenList im t); cbn [obind]; try discriminate. apply parse_list_frame.
Qed.
Lemma parse_argv_frame s n v b s' : parse_argv s n v = Ok (b, s') -> frame s s'.
Proof.
  unfold parse_argv. destruct (buildTokenList_argv n v); cbn [obind]; try discriminate.
  destruct (is_kvp s); [apply parseKeyValue_list_frame|apply parse_list_frame].
Qed.

(* ---------- invariants ---------- *)
Definition kind_ok (o : opt) : Prop :=
  match o_kind o with
  | KScalar t _ _ => o_signed o = ty_signed t
  | KVector _ _ _ => o_signed o = false /\ o_default o = true
  | KPresence _ => o_signed o = false
  end.
Record inv (s : st) : Prop := mkInv {
  inv_long : forall n o, findOpt_long s n = Some o -> o_long o = n;
  inv_ab : forall c o, findOpt_ab s c = Some o -> o_ab o = c;
  inv_id : forall o, registered s o -> o_id o < next_id s;
  inv_uniq : forall o o', registered s o -> registered s o' -> o_id o = o_id o' -> o = o';
  inv_kind : forall o, registered s o -> kind_ok o;
  inv_sorted : ksorted str_compare (long_map s) }.

Lemma inv_frame s s' : frame s s' -> inv s -> inv s'.
Proof.
  intros F [A B C D E G]. constructor.
  - intros n o. rewrite (findOpt_long_frame s s' n F). apply A.
  - intros n o. rewrite (findOpt_ab_frame s s' n F). apply B.
  - intros o H. rewrite (fr_next _ _ F). apply C. apply (registered_frame s s' o F), H.
  - intros o o' H H'. apply D; apply (registered_frame s s' _ F); assumption.
  - intros o H. apply E. apply (registered_frame s s' o F), H.
  - rewrite (fr_long _ _ F). exact G.
Qed.

Lemma find_reg_long s k sgn def doc err ln ab n :
  findOpt_long (registerOpt s k sgn def doc err ln ab) n =
  if str_eqb n ln then Some (mkOpt (next_id s) ln ab doc err sgn def k) else findOpt_long s n.
Proof.
  unfold findOpt_long, registerOpt. cbn [long_map]. destruct (str_eqb_spec n ln) as [->|N].
  - apply find_insert_same. exact scmp_eq.
  - apply find_insert_other; [exact scmp_eq|exact N].
Qed.
Lemma find_reg_ab s k sgn def doc err ln ab c :
  findOpt_ab (registerOpt s k sgn def doc err ln ab) c =
  if Ascii.eqb c ab then Some (mkOpt (next_id s) ln ab doc err sgn def k) else findOpt_ab s c.
Proof.
  unfold findOpt_ab, registerOpt. cbn [ab_map]. destruct (Ascii.eqb_spec c ab) as [->|N].
  - apply find_insert_same. exact ccmp_eq.
  - apply find_insert_other; [exact ccmp_eq|exact N].
Qed.
Lemma registered_reg s k sgn def doc err ln ab o :
  registered (registerOpt s k sgn def doc err ln ab) o ->
  o = mkOpt (next_id s) ln ab doc err sgn def k \/ registered s o.
Proof.
  intros [[n H]|[n H]].
  - rewrite find_reg_long in H. destruct (str_eqb n ln); [left; congruence|right; left; eauto].
  - rewrite find_reg_ab in H. destruct (Ascii.eqb n ab); [left; congruence|right; right; eauto].
Qed.

Lemma inv_register s k sgn def doc err ln ab : kind_ok (mkOpt 0 [] nul [] [] sgn def k) ->
  inv s -> inv (registerOpt s k sgn def doc err ln ab).
Proof.
  intros HK [A B C D E G]. constructor.
  - intros n o. rewrite find_reg_long. destruct (str_eqb_spec n ln) as [->|N]; [intros [= <-]; reflexivity|apply A].
  - intros n o. rewrite find_reg_ab. destruct (Ascii.eqb_spec n ab) as [->|N]; [intros [= <-]; reflexivity|apply B].
  - intros o H. cbn [next_id registerOpt]. apply registered_reg in H as [->|H]; [cbn; lia|]. apply C in H. lia.
  - intros o o' H H' I. apply registered_reg in H as [->|H], H' as [->|H'].
    + reflexivity.
    + apply C in H'. cbn in I. lia.
    + apply C in H. cbn in I. lia.
    + apply D; assumption.
  - intros o H. apply registered_reg in H as [->|H]; [exact HK|apply E; assumption].
  - cbn [long_map registerOpt]. apply ksorted_insert; [exact scmp_eq|exact (fun a b => scmp_opp a b)|exact (fun a b c => scmp_trans a b c)|exact G].
Qed.

Lemma inv_reg s r : is_reg r -> inv s -> inv (rg_add r s).
Proof.
  intros [t v ln ab d doc test err|t v ln ab doc test err|v ln ab doc|t v ln ab doc test err] I; cbn [rg_add];
    unfold add_def, add_nodef, addP, addV; (apply inv_register; [cbn; auto|]);
    first [exact I|eapply inv_frame; [|exact I]; constructor; reflexivity].
Qed.

Lemma inv_new kvp m vm : inv (newOptions kvp m vm).
Proof.
  constructor; unfold registered, findOpt_long, findOpt_ab; cbn; try discriminate.
  - intros o [[n H]|[n H]]; discriminate.
  - intros o o' [[n H]|[n H]]; discriminate.
  - intros o [[n H]|[n H]]; discriminate.
  - constructor.
Qed.

(* addInfo changes only the info lines *)
Lemma inv_tables s s' : long_map s' = long_map s -> ab_map s' = ab_map s -> next_id s' = next_id s -> inv s -> inv s'.
Proof.
  intros L M N [A B C D E G].
  assert (FL : forall n, findOpt_long s' n = findOpt_long s n) by (intros; unfold findOpt_long; rewrite L; reflexivity).
  assert (FA : forall n, findOpt_ab s' n = findOpt_ab s n) by (intros; unfold findOpt_ab; rewrite M; reflexivity).
  assert (R : forall o, registered s' o -> registered s o).
  { intros o [[n H]|[n H]]; [left|right]; exists n; congruence. }
  constructor; intros; rewrite ?N, ?L; auto.
  - apply A. rewrite <- FL. assumption.
  - apply B. rewrite <- FA. assumption.
Qed.

Lemma reach_inv s : reach s -> inv s.
Proof.
  induction 1 as [kvp m vm|s i H IH|s r H IH R|s m vm H IH|s ts b s' H IH P|im s t b s' H IH P|s n v b s' H IH P|s t b s' H IH P].
  - apply inv_new.
  - eapply inv_tables; [..|exact IH]; reflexivity.
  - apply inv_reg; assumption.
  - eapply inv_tables; [..|exact IH]; reflexivity.
  - eapply inv_frame; [eapply parse_list_frame; eassumption|exact IH].
  - eapply inv_frame; [eapply parse_string_frame; eassumption|exact IH].
  - eapply inv_frame; [eapply parse_argv_frame; eassumption|exact IH].
  - eapply inv_frame; [eapply parseKeyValue_frame; eassumption|exact IH].
Qed.

Lemma names_registered s t o : names s t o -> registered s o.
Proof. intros [n o' _ _ F|c r o' _ _ F]; [left|right]; eauto. Qed.
Lemma inv_flags_unsigned s : inv s -> flags_unsigned s.
Proof.
  intros I t o N [a K]. pose proof (inv_kind s I o (names_registered _ _ _ N)) as H. unfold kind_ok in H. rewrite K in H. exact H.
Qed.
