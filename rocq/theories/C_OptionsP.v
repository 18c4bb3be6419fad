(* C_OptionsP.v -- the remaining Options properties: histories, presence,
   vectors, conversions, registration, string and key=value front ends. *)
From Verif Require Import Base M_StreamIn M_Stream M_Split M_Format M_Options S_Options S_Num L_Map L_Num
  L_Options L_OptionsI L_OptionsT L_StreamIn C_Options.
From Coq Require Import Sorted.

(* ---------- the reading of a line is unique and covers it ---------- *)
Lemma reads_tokens s ts is rest : reads s ts is rest -> ts = flat_map item_tokens is ++ rest.
Proof. induction 1; cbn; congruence. Qed.
Lemma accepts_fun o t v v' : accepts o t v -> accepts o t v' -> v = v'.
Proof. unfold accepts. destruct (o_kind o); try tauto; intros [A _] [B _]; congruence. Qed.
Lemma accepts_noflag o t v : accepts o t v -> ~ is_flag o.
Proof. intros A [a K]. unfold accepts in A. rewrite K in A. exact A. Qed.

Lemma ending_not_pos s w ts : ~ looks_like_option w -> ~ ending s (w :: ts).
Proof.
  intros N E. inversion E; subst; try (eapply N, names_looks; eassumption); try contradiction.
  apply N, asks_help_looks. assumption.
Qed.
Lemma ending_not_flag s t o ts : names s t o -> is_flag o -> ~ ending s (t :: ts).
Proof.
  intros N F E. inversion E; subst.
  - assert (o = o0) by (eapply names_fun; eassumption). subst. contradiction.
  - eapply names_nohelp; eassumption.
  - match goal with H : forall o, ~ names _ _ o |- _ => eapply H; eassumption end.
  - assert (o = o0) by (eapply names_fun; eassumption). subst. contradiction.
Qed.
Lemma ending_not_value s t o x ts : names s t o -> (exists v, accepts o x v) -> ~ ending s (t :: x :: ts).
Proof.
  intros N (v & A) E. inversion E; subst.
  - eapply names_nohelp; eassumption.
  - match goal with H : forall o, ~ names _ _ o |- _ => eapply H; eassumption end.
  - assert (o = o0) by (eapply names_fun; eassumption). subst.
    match goal with H : forall v, ~ accepts _ _ v |- _ => eapply H; eassumption end.
Qed.
Lemma ending_not_bare s t o x ts : names s t o -> ~ greedy o -> looks_like_option x -> ~ ending s (t :: x :: ts).
Proof.
  intros N G L E. inversion E; subst.
  - eapply names_nohelp; eassumption.
  - match goal with H : forall o, ~ names _ _ o |- _ => eapply H; eassumption end.
  - assert (o = o0) by (eapply names_fun; eassumption). subst. auto.
Qed.

Lemma reads_unique s ts is rest : reads s ts is rest -> ending s rest ->
  forall is' rest', reads s ts is' rest' -> ending s rest' -> is' = is /\ rest' = rest.
Proof.
  induction 1 as [ts|w ts is rest N H IH|tok o ts is rest N F H IH
    |tok o text v ts is rest N A G H IH|tok o t ts is rest N F G L H IH]; intros E is' rest' H' E'.
  - inversion H' as [|? ? ? ? N|? ? ? ? ? N F|? ? ? ? ? ? ? N A G|? ? ? ? ? ? N F G L]; subst; [auto|..]; exfalso.
    + eapply ending_not_pos; eassumption.
    + eapply ending_not_flag; eassumption.
    + eapply ending_not_value; eauto.
    + eapply ending_not_bare; eauto.
  - inversion H' as [|? ? ? ? N' H2|? ? ? ? ? N' F' H2|? ? ? ? ? ? ? N' A' G' H2|? ? ? ? ? ? N' F' G' L' H2]; subst.
    + exfalso. eapply ending_not_pos; eassumption.
    + destruct (IH E _ _ H2 E') as [-> ->]. auto.
    + elim N. eapply names_looks; eassumption.
    + elim N. eapply names_looks; eassumption.
    + elim N. eapply names_looks; eassumption.
  - inversion H' as [|? ? ? ? N' H2|? ? ? ? ? N' F' H2|? ? ? ? ? ? ? N' A' G' H2|? ? ? ? ? ? N' F' G' L' H2]; subst.
    + exfalso. eapply ending_not_flag; eassumption.
    + elim N'. eapply names_looks; eassumption.
    + rewrite (names_fun _ _ _ _ N' N) in *. destruct (IH E _ _ H2 E') as [-> ->]. auto.
    + rewrite (names_fun _ _ _ _ N' N) in *. elim (accepts_noflag _ _ _ A'). exact F.
    + rewrite (names_fun _ _ _ _ N' N) in *. contradiction.
  - inversion H' as [|? ? ? ? N' H2|? ? ? ? ? N' F' H2|? ? ? ? ? ? ? N' A' G' H2|? ? ? ? ? ? N' F' G' L' H2]; subst.
    + exfalso. eapply ending_not_value; eauto.
    + elim N'. eapply names_looks; eassumption.
    + rewrite (names_fun _ _ _ _ N' N) in *. elim (accepts_noflag _ _ _ A). exact F'.
    + rewrite (names_fun _ _ _ _ N' N) in *. rewrite (accepts_fun _ _ _ _ A' A).
      destruct (IH E _ _ H2 E') as [-> ->]. auto.
    + rewrite (names_fun _ _ _ _ N' N) in *. elim G'. auto.
  - inversion H' as [|? ? ? ? N' H2|? ? ? ? ? N' F' H2|? ? ? ? ? ? ? N' A' G' H2|? ? ? ? ? ? N' F' G' L' H2]; subst.
    + exfalso. eapply ending_not_bare; eauto.
    + elim N'. eapply names_looks; eassumption.
    + rewrite (names_fun _ _ _ _ N' N) in *. contradiction.
    + rewrite (names_fun _ _ _ _ N' N) in *. elim G. auto.
    + rewrite (names_fun _ _ _ _ N' N) in *. destruct (IH E _ _ H2 E') as [-> ->]. auto.
Qed.

Lemma reading_exists_unique s ts : exists is rest, reads s ts is rest /\ ending s rest /\
  ts = flat_map item_tokens is ++ rest /\
  forall is' rest', reads s ts is' rest' -> ending s rest' -> is' = is /\ rest' = rest.
Proof.
  destruct (parse_total s ts) as (is & rest & R & E). exists is, rest.
  split; [exact R|]. split; [exact E|]. split; [eapply reads_tokens, R|]. intros. eapply reads_unique; eassumption.
Qed.

(* ---------- settled programs ---------- *)
Lemma not_waiting s ts b s' : reach s -> waiting_for_signed s = false -> calm s ts ->
  parse_list s ts = Ok (b, s') -> waiting_for_signed s' = false.
Proof.
  intros R W (is & rest & RD & E & NS) P.
  destruct E as [|tok o N F|tok rest H|tok rest L NH N|tok o text rest N F G NA].
  - destruct (c33 s ts is R W RD) as (s2 & P2 & _ & _ & W2). rewrite P in P2. injection P2 as _ <-. exact W2.
  - destruct (last_missing s ts is tok o R W RD N F) as (s2 & P2 & _ & _ & W2). rewrite P in P2. injection P2 as _ <-.
    rewrite W2. destruct (o_signed o) eqn:SG; [|reflexivity]. elim NS. exists tok, o. auto.
  - destruct (c38 s ts is tok rest R W RD H) as (s2 & h & _ & P2 & _ & _ & W2). rewrite P in P2. injection P2 as _ <-. exact W2.
  - destruct (c36 s ts is tok rest R W RD L NH N) as (s2 & h & _ & P2 & _ & _ & W2). rewrite P in P2. injection P2 as _ <-. exact W2.
  - destruct (c37 s ts is tok o text rest R W RD N F G NA) as (s1 & s2 & _ & P2 & _ & _ & _ & _ & _ & _ & W2).
    rewrite P in P2. injection P2 as _ <-.
    rewrite W2. destruct (o_signed o) eqn:SG; [|reflexivity]. elim NS. exists tok, o. repeat split; auto. right. eauto.
Qed.
Lemma stalled_waiting s ts is rest b s' : reach s -> waiting_for_signed s = false ->
  reads s ts is rest -> ending s rest -> stalls s rest ->
  parse_list s ts = Ok (b, s') -> waiting_for_signed s' = true.
Proof.
  intros R W RD E (tok & o & N & F & SG & C) P.
  destruct C as [->|(text & r & -> & NA)].
  - destruct (last_missing s ts is tok o R W RD N F) as (s2 & P2 & _ & _ & W2). rewrite P in P2. injection P2 as _ <-. congruence.
  - destruct (c37 s ts is tok o text r R W RD N F (fun _ => or_intror SG) NA) as (s1 & s2 & _ & P2 & _ & _ & _ & _ & _ & _ & W2).
    rewrite P in P2. injection P2 as _ <-. congruence.
Qed.

Lemma settled_ok s : settled s -> reach s /\ waiting_for_signed s = false.
Proof.
  induction 1 as [kvp m vm|s i H [R W]|s r H [R W] G|s m vm H [R W]|s ts b s' H [R W] C P|im s ts t b s' H [R W] K T C P
    |s prog ts b s' H [R W] K C P|s t b s' H [R W] C P].
  - split; [constructor|reflexivity].
  - split; [constructor; exact R|exact W].
  - split; [constructor; assumption|]. destruct G; exact W.
  - split; [apply RC_mem; exact R|exact W].
  - split; [eapply RC_list; eassumption|eapply not_waiting; eassumption].
  - split; [eapply RC_string; eassumption|].
    apply (parse_string_command_ok im s ts t b s' K T) in P. eapply not_waiting; eassumption.
  - split; [eapply RC_argv; eassumption|]. unfold parse_argv in P.
    pose proof (argv_tokens prog ts []) as A. rewrite app_nil_r in A. rewrite A in P. cbn [obind] in P. rewrite K in P.
    eapply not_waiting; eassumption.
  - split; [eapply RC_kv; eassumption|]. destruct t as [|c t]; [injection P as _ <-; exact W|].
    apply kv_ok in P; [|discriminate]. eapply not_waiting; eassumption.
Qed.
Lemma settled_reach s : settled s -> reach s.
Proof. intros H. apply settled_ok, H. Qed.
Lemma settled_calm s : settled s -> waiting_for_signed s = false.
Proof. intros H. apply settled_ok, H. Qed.

(* ---------- C34 ---------- *)
Lemma c34 s ts s' : settled s -> parse_list s ts = Ok (true, s') ->
  exists is rest, reads s ts is rest /\ ending s rest /\ ts = flat_map item_tokens is ++ rest /\
    getPosArgs s' = getPosArgs s ++ flat_map word is /\
    (rest = [] \/ exists tok o, rest = [tok] /\ names s tok o /\ ~ is_flag o).
Proof.
  intros H P. destruct (settled_ok s H) as [R W].
  destruct (parse_true_inv s ts s' R W P) as (is & rest & RD & A & _ & C). exists is, rest.
  split; [exact RD|]. split; [|split; [eapply reads_tokens, RD|split; [apply A|]]].
  - destruct C as [[-> _]|(tok & o & -> & N & F & _)]; [apply E_done|eapply E_missing; eassumption].
  - destruct C as [[-> _]|(tok & o & -> & N & F & _)]; [left; reflexivity|right; exists tok, o; auto].
Qed.

(* ---------- C35 ---------- *)
Lemma reads_registered s ts is rest : reads s ts is rest -> forall i o, In i is -> item_opt i = Some o -> registered s o.
Proof.
  induction 1; intros i o' Hin Hi; [destruct Hin|..]; destruct Hin as [<-|Hin];
    try (eapply IHreads; eassumption); cbn in Hi; try discriminate; injection Hi as <-; eapply names_registered; eassumption.
Qed.
Lemma mentions_iff s ts is rest o : inv s -> registered s o -> reads s ts is rest ->
  (existsb (mentions (o_id o)) is = true <-> exists i, In i is /\ item_opt i = Some o).
Proof.
  intros I RG RD. rewrite existsb_exists. split; intros (i & Hi & M); exists i; split; auto.
  - pose proof (reads_registered s ts is rest RD i) as RR.
    destruct i as [w|tok o'|tok o' text v|tok o']; cbn in M |- *; [discriminate|..];
      apply Nat.eqb_eq in M; f_equal; symmetry; apply (inv_uniq s I); auto.
  - destruct i as [w|tok o'|tok o' text v|tok o']; cbn in M |- *; [discriminate|..]; injection M as ->; apply Nat.eqb_refl.
Qed.
Lemma c35_line s ts is s' : settled s -> reads s ts is [] -> parse_list s ts = Ok (true, s') ->
  forall n c o, findOpt_long s n = Some o -> findOpt_ab s c = Some o ->
    isPresent_long s' n = isPresent_ab s' c /\
    (isPresent_long s' n = true <-> isPresent_long s n = true \/ exists i, In i is /\ item_opt i = Some o).
Proof.
  intros H RD P n c o FL FA. destruct (settled_ok s H) as [R W].
  destruct (c33 s ts is R W RD) as (s2 & P2 & A & _ & _). rewrite P in P2. injection P2 as <-.
  pose proof (parse_list_frame s ts true s' P) as F. unfold isPresent_long, isPresent_ab.
  rewrite (findOpt_long_frame s s' n F), (findOpt_ab_frame s s' c F), FL, FA. split; [reflexivity|].
  rewrite (af_present _ _ _ A), orb_true_iff.
  rewrite (mentions_iff s ts is [] o (reach_inv s R)); [reflexivity|left; eauto|exact RD].
Qed.
Lemma settled_line s ts is s' : settled s -> reads s ts is [] -> parse_list s ts = Ok (true, s') -> settled s'.
Proof.
  intros H RD P. eapply ST_list; [exact H| |exact P]. exists is, []. split; [exact RD|]. split; [constructor|].
  intros (tok & o & _ & _ & _ & [X|(text & r & X & _)]); discriminate.
Qed.
Lemma c35_history s ls s' : settled s -> understood s ls s' ->
  forall n c o, findOpt_long s n = Some o -> findOpt_ab s c = Some o ->
    isPresent_long s' n = isPresent_ab s' c /\
    (isPresent_long s' n = true <->
     isPresent_long s n = true \/ exists is i, In is ls /\ In i is /\ item_opt i = Some o).
Proof.
  intros H U. induction U as [s|s ts is s1 l s2 RD P U IH]; intros n c o FL FA.
  - unfold isPresent_long, isPresent_ab. rewrite FL, FA. split; [reflexivity|]. split; [auto|]. intros [X|(is & i & [] & _)]. exact X.
  - pose proof (parse_list_frame s ts true s1 P) as F.
    destruct (c35_line s ts is s1 H RD P n c o FL FA) as [_ E1].
    destruct (IH (settled_line s ts is s1 H RD P) n c o) as [E2 E3].
    { rewrite (findOpt_long_frame s s1 n F). exact FL. }
    { rewrite (findOpt_ab_frame s s1 c F). exact FA. }
    split; [exact E2|]. rewrite E3, E1. clear. split.
    + intros [[X|(i & A & B)]|(is' & i & A & B & C)]; [auto|right|right].
      * exists is, i. cbn. auto.
      * exists is', i. cbn. auto.
    + intros [X|(is' & i & [<-|A] & B & C)]; [auto|left; right; eauto|right; eauto].
Qed.
Lemma present_after_reg s r : is_reg r -> isPresent_long (rg_add r s) (rg_long r) = false /\ isPresent_ab (rg_add r s) (rg_ab r) = false.
Proof.
  assert (E : forall s k sgn def doc err ln ab,
    isPresent_long (registerOpt s k sgn def doc err ln ab) ln = false /\
    isPresent_ab (registerOpt s k sgn def doc err ln ab) ab = false).
  { clear. intros s k sgn def doc err ln ab. unfold isPresent_long, isPresent_ab. rewrite find_reg_long, find_reg_ab.
    destruct (str_eqb_spec ln ln); [|contradiction]. rewrite Ascii.eqb_refl. cbn [o_id present registerOpt].
    unfold upd. rewrite Nat.eqb_refl. auto. }
  intros [t v ln ab d doc test err|t v ln ab doc test err|v ln ab doc|t v ln ab doc test err]; apply E.
Qed.

Lemma find_after_reg s r : is_reg r ->
  (forall n, n <> rg_long r -> findOpt_long (rg_add r s) n = findOpt_long s n) /\
  (forall c, c <> rg_ab r -> findOpt_ab (rg_add r s) c = findOpt_ab s c).
Proof.
  assert (E : forall s0 k sgn def doc err ln ab, long_map s0 = long_map s -> ab_map s0 = ab_map s ->
    (forall n, n <> ln -> findOpt_long (registerOpt s0 k sgn def doc err ln ab) n = findOpt_long s n) /\
    (forall c, c <> ab -> findOpt_ab (registerOpt s0 k sgn def doc err ln ab) c = findOpt_ab s c)).
  { intros s0 k sgn def doc err ln ab A B. split; intros n N.
    - rewrite find_reg_long. destruct (str_eqb_spec n ln); [contradiction|]. unfold findOpt_long. rewrite A. reflexivity.
    - rewrite find_reg_ab. destruct (Ascii.eqb_spec n ab); [contradiction|]. unfold findOpt_ab. rewrite B. reflexivity. }
  intros [t v ln ab d doc test err|t v ln ab doc test err|v ln ab doc|t v ln ab doc test err]; apply E; reflexivity.
Qed.
Lemma program_finds rs s : program rs s ->
  (forall n, ~ In n (map rg_long rs) -> findOpt_long s n = None) /\
  (forall c, ~ In c (map rg_ab rs) -> findOpt_ab s c = None).
Proof.
  assert (K : forall s s' rs, long_map s' = long_map s -> ab_map s' = ab_map s ->
    (forall n, ~ In n (map rg_long rs) -> findOpt_long s n = None) /\
    (forall c, ~ In c (map rg_ab rs) -> findOpt_ab s c = None) ->
    (forall n, ~ In n (map rg_long rs) -> findOpt_long s' n = None) /\
    (forall c, ~ In c (map rg_ab rs) -> findOpt_ab s' c = None)).
  { clear. intros s s' rs A B [L M]. unfold findOpt_long, findOpt_ab in *. rewrite A, B. auto. }
  induction 1 as [kvp m vm|rs s i H IH|rs s r H IH R|rs s m vm H IH|rs s ts b s' H IH P|rs im s t b s' H IH P|rs s n v b s' H IH P|rs s t b s' H IH P].
  - split; intros; reflexivity.
  - eapply K; [..|exact IH]; reflexivity.
  - destruct (find_after_reg s r R) as [A B]. destruct IH as [L M]. rewrite !map_app. cbn [map].
    split; intros n N; rewrite in_app_iff in N; cbn [In] in N.
    + rewrite A by (intros ->; tauto). apply L. tauto.
    + rewrite B by (intros ->; tauto). apply M. tauto.
  - eapply K; [..|exact IH]; reflexivity.
  - apply parse_list_frame in P. eapply K; [apply P|apply P|exact IH].
  - apply parse_string_frame in P. eapply K; [apply P|apply P|exact IH].
  - apply parse_argv_frame in P. eapply K; [apply P|apply P|exact IH].
  - apply parseKeyValue_frame in P. eapply K; [apply P|apply P|exact IH].
Qed.
Lemma unknown_absent rs s : program rs s ->
  (forall n, ~ In n (map rg_long rs) -> isPresent_long s n = false) /\
  (forall c, ~ In c (map rg_ab rs) -> isPresent_ab s c = false).
Proof.
  intros H. destruct (program_finds rs s H) as [A B]. unfold isPresent_long, isPresent_ab.
  split; intros n N; [rewrite (A n N)|rewrite (B n N)]; reflexivity.
Qed.

(* ---------- C39 ---------- *)
Lemma loop_untouched s ts (o : opt) : reach s -> registered s o -> (forall t, In t ts -> ~ names s t o) ->
  (forall a, target o a -> (forall o', registered s o' -> target o' a -> o' = o) ->
     mem (fst (parse_loop s None ts)) a = mem s a) /\
  (forall a, vec_target o a -> (forall o', registered s o' -> vec_target o' a -> o' = o) ->
     vmem (fst (parse_loop s None ts)) a = vmem s a) /\
  present (fst (parse_loop s None ts)) (o_id o) = present s (o_id o).
Proof.
  intros R RG NN. pose proof (reach_inv s R) as I.
  assert (OK : forall t o', In t ts -> names s t o' -> registered s o' /\ o' <> o).
  { intros t o' Ht N. split; [eapply names_registered, N|]. intros ->. eapply NN; eassumption. }
  assert (J : forall P : st -> Prop,
    (forall s t, P s -> P (push_pos s t)) -> (forall s b, P s -> P (set_wfs s b)) ->
    (forall s0 o', registered s o' /\ o' <> o -> P s0 -> P (opt_setPresent s0 o')) ->
    (forall s0 o' t, registered s o' /\ o' <> o -> P s0 -> P (fst (opt_setVal s0 o' t))) ->
    P s -> P (fst (parse_loop s None ts))).
  { intros P A B C D E. apply (loop_inv P (fun o' => registered s o' /\ o' <> o) s ts); auto.
    - intros x Hx. exact Hx.
    - apply same_maps_refl.
    - discriminate. }
  repeat split.
  - intros a T U. apply (J (fun s0 => mem s0 a = mem s a)); auto.
    + intros s0 o' [RO NE] E. unfold opt_setPresent. destruct (o_kind o') as [| |b] eqn:K; cbn; auto.
      unfold upd. destruct (Nat.eqb_spec a b); auto. subst b. elim NE. apply U; [exact RO|]. unfold target. rewrite K. reflexivity.
    + intros s0 o' t [RO NE] E. unfold opt_setVal.
      assert (X : forall b, a = b -> ~ target o' b).
      { intros b -> TT. apply NE, U; assumption. }
      unfold target in X. destruct (o_kind o') as [ty b test|ty b test|b] eqn:K.
      * assert (AB : a <> b) by (intros Q; exact (X b Q eq_refl)).
        destruct (ty_read ty t) as [v|[v|]]; [destruct (test v)|..]; cbn; auto; unfold upd;
          destruct (Nat.eqb_spec a b); auto; contradiction.
      * destruct (ty_read ty t) as [v|]; [destruct (test v)|]; cbn; auto.
      * assert (AB : a <> b) by (intros Q; exact (X b Q eq_refl)).
        cbn. unfold upd. destruct (Nat.eqb_spec a b); auto; contradiction.
  - intros a T U. apply (J (fun s0 => vmem s0 a = vmem s a)); auto.
    + intros s0 o' [RO NE] E. unfold opt_setPresent. destruct (o_kind o') as [| |b] eqn:K; cbn; auto.
    + intros s0 o' t [RO NE] E. unfold opt_setVal.
      assert (X : forall b, a = b -> ~ vec_target o' b).
      { intros b -> TT. apply NE, U; assumption. }
      unfold vec_target in X. destruct (o_kind o') as [ty b test|ty b test|b] eqn:K.
      * destruct (ty_read ty t) as [v|[v|]]; [destruct (test v)|..]; cbn; auto.
      * assert (AB : a <> b) by (intros Q; exact (X b Q eq_refl)).
        destruct (ty_read ty t) as [v|]; [destruct (test v)|]; cbn; auto; unfold upd;
          destruct (Nat.eqb_spec a b); auto; contradiction.
      * cbn. auto.
  - assert (ID : forall o', registered s o' /\ o' <> o -> Nat.eqb (o_id o) (o_id o') = false).
    { intros o' [RO NE]. apply Nat.eqb_neq. intros E. apply NE. apply (inv_uniq s I); auto. }
    apply (J (fun s0 => present s0 (o_id o) = present s (o_id o))); auto.
    + intros s0 o' H E. unfold opt_setPresent. destruct (o_kind o') as [| |b]; cbn; unfold upd; rewrite (ID o' H); exact E.
    + intros s0 o' t H E. unfold opt_setVal. destruct (o_kind o') as [ty b test|ty b test|b].
      * destruct (ty_read ty t) as [v|[v|]]; [destruct (test v)|..]; cbn; unfold upd; rewrite ?(ID o' H); exact E.
      * destruct (ty_read ty t) as [v|]; [destruct (test v)|]; cbn; unfold upd; rewrite ?(ID o' H); exact E.
      * cbn. unfold upd. rewrite (ID o' H). exact E.
Qed.
Lemma parse_list_obs s ts b s' : parse_list s ts = Ok (b, s') ->
  mem s' = mem (fst (parse_loop s None ts)) /\ vmem s' = vmem (fst (parse_loop s None ts)) /\
  present s' = present (fst (parse_loop s None ts)) /\ pos_arg_vec s' = pos_arg_vec (fst (parse_loop s None ts)).
Proof. intros H. apply parse_list_loop in H as [txt [-> | ->]]; repeat split. Qed.
Lemma c39_untouched s ts b s' o : reach s -> registered s o -> parse_list s ts = Ok (b, s') ->
  (forall t, In t ts -> ~ names s t o) ->
  (forall a, target o a -> (forall o', registered s o' -> target o' a -> o' = o) -> mem s' a = mem s a) /\
  (forall a, vec_target o a -> (forall o', registered s o' -> vec_target o' a -> o' = o) -> vmem s' a = vmem s a) /\
  (forall n, findOpt_long s n = Some o -> isPresent_long s' n = isPresent_long s n) /\
  (forall c, findOpt_ab s c = Some o -> isPresent_ab s' c = isPresent_ab s c).
Proof.
  intros R RG P NN. destruct (loop_untouched s ts o R RG NN) as (A & B & C).
  destruct (parse_list_obs s ts b s' P) as (-> & -> & E & _). pose proof (parse_list_frame s ts b s' P) as F.
  repeat split; auto.
  - intros n FL. unfold isPresent_long. rewrite (findOpt_long_frame s s' n F), FL, E. exact C.
  - intros c FL. unfold isPresent_ab. rewrite (findOpt_ab_frame s s' c F), FL, E. exact C.
Qed.

(* ---------- C40 ---------- *)
Lemma loop_vec_prefix s ts a : exists l, vmem (fst (parse_loop s None ts)) a = vmem s a ++ l.
Proof.
  apply (loop_inv (fun s0 => exists l, vmem s0 a = vmem s a ++ l) (fun _ => True) s ts); auto.
  - intros s0 o _ E. unfold opt_setPresent. destruct (o_kind o); exact E.
  - intros s0 o t _ (l & E). unfold opt_setVal. destruct (o_kind o) as [ty b test|ty b test|b].
    + destruct (ty_read ty t) as [v|[v|]]; [destruct (test v)|..]; cbn; eauto.
    + destruct (ty_read ty t) as [v|]; [destruct (test v)|]; cbn; eauto. unfold upd.
      destruct (Nat.eqb_spec a b) as [<-|]; [|eauto]. rewrite E, <- app_assoc. eauto.
    + cbn. eauto.
  - intros x Hx; exact Hx.
  - apply same_maps_refl.
  - exists []. rewrite app_nil_r. reflexivity.
Qed.
Lemma c40_prefix s ts b s' a : parse_list s ts = Ok (b, s') -> exists l, vmem s' a = vmem s a ++ l.
Proof. intros P. destruct (parse_list_obs s ts b s' P) as (_ & -> & _). apply loop_vec_prefix. Qed.
Lemma c40 s tok o text v t a test ts b s' : settled s -> names s tok o -> o_kind o = KVector t a test ->
  ~ looks_like_option text -> ty_read t text = RdOk v -> test v = true ->
  parse_list s (tok :: text :: ts) = Ok (b, s') ->
  exists s1, parse_list s [tok; text] = Ok (true, s1) /\ settled s1 /\
    vmem s1 a = vmem s a ++ [v] /\ (forall a', a' <> a -> vmem s1 a' = vmem s a') /\ mem s1 = mem s /\
    pos_arg_vec s1 = pos_arg_vec s /\ parse_list s1 ts = Ok (b, s').
Proof.
  intros H N K L RD T P. destruct (settled_ok s H) as [R W].
  set (s1 := set_wfs (set_present (push_vec s a v) (o_id o)) false).
  pose proof (inv_kind s (reach_inv s R) o (names_registered _ _ _ N)) as KO. unfold kind_ok in KO. rewrite K in KO.
  destruct KO as [SG DF].
  assert (E : forall r, parse_loop s None (tok :: text :: r) = parse_loop s1 None r).
  { intros r. rewrite (step_named s tok o _ W N). unfold isPresentOpt. rewrite K.
    rewrite step_value by (assumption || (intros; contradiction)). unfold opt_setVal. rewrite K, RD, T.
    unfold arm. rewrite SG. reflexivity. }
  assert (RD1 : reads s [tok; text] [Given tok o text v] []).
  { apply R_given; [exact N| |contradiction|apply R_end]. unfold accepts. rewrite K. auto. }
  assert (P1 : parse_list s [tok; text] = Ok (true, s1)).
  { unfold parse_list. rewrite E. reflexivity. }
  exists s1. split; [exact P1|]. split; [eapply settled_line; eassumption|].
  unfold s1 at 1 2 3 4. cbn [vmem mem pos_arg_vec set_wfs set_present push_vec].
  split; [unfold upd; rewrite Nat.eqb_refl; reflexivity|].
  split; [intros a' Ha; unfold upd; destruct (Nat.eqb_spec a' a); [contradiction|reflexivity]|].
  split; [reflexivity|]. split; [reflexivity|]. revert P. unfold parse_list. rewrite E. auto.
Qed.

(* ---------- C41 ---------- *)
Lemma put_int_neg_looks z : (z < 0)%Z -> looks_like_option (put_int z).
Proof.
  intros H. destruct (put_int_spec z) as [(P & _)|(_ & t & E & V & _)]; [lia|]. rewrite E. left.
  unfold value in V. destruct t as [|c t]; [discriminate|]. exists c, t. split; [reflexivity|].
  apply value_digits in V. cbn in V. apply andb_true_iff in V as [D _]. destruct (digit_not c D) as (_ & Q & _).
  apply Ascii.eqb_neq. exact Q.
Qed.
Lemma c41_scalar s tok o a test t (rd : ty_signed t = true) text v ts is :
  settled s -> names s tok o -> o_kind o = KScalar t a test ->
  ty_read t text = RdOk v -> test v = true -> reads s ts is [] ->
  exists s', parse_list s (tok :: text :: ts) = Ok (true, s') /\ after s s' (Given tok o text v :: is).
Proof.
  intros H N K RD T RS. destruct (settled_ok s H) as [R W].
  pose proof (inv_kind s (reach_inv s R) o (names_registered _ _ _ N)) as KO. unfold kind_ok in KO. rewrite K, rd in KO.
  destruct (c33 s (tok :: text :: ts) (Given tok o text v :: is) R W) as (s' & P & A & _).
  - apply R_given; [exact N| |intros _; right; exact KO|exact RS]. unfold accepts. rewrite K. auto.
  - eauto.
Qed.
Lemma c41_vector s tok o a test t text ts :
  settled s -> names s tok o -> o_kind o = KVector t a test -> looks_like_option text ->
  exists s1, after s s1 [Bare tok o] /\ waiting_for_signed s1 = false /\ cerr s1 = cerr s /\
    parse_list s (tok :: text :: ts) = parse_list s1 (text :: ts).
Proof.
  intros H N K L. destruct (settled_ok s H) as [R W].
  pose proof (inv_kind s (reach_inv s R) o (names_registered _ _ _ N)) as KO. unfold kind_ok in KO. rewrite K in KO.
  destruct KO as [SG DF]. exists (apply_item s (Bare tok o)).
  assert (NF : ~ is_flag o) by (intros [b X]; congruence).
  split; [apply after_item; exact NF|]. split; [reflexivity|]. split; [apply apply_item_cerr|].
  unfold parse_list. rewrite (step_named s tok o _ W N), (isPresentOpt_false o NF), step_bare; auto.
  unfold greedy. rewrite SG, DF. intros [X|X]; discriminate.
Qed.

Lemma c41_unsigned s tok o a test t text ts : ty_signed t = false -> o_default o = true ->
  settled s -> names s tok o -> o_kind o = KScalar t a test -> looks_like_option text ->
  exists s1, after s s1 [Bare tok o] /\ waiting_for_signed s1 = false /\ cerr s1 = cerr s /\
    parse_list s (tok :: text :: ts) = parse_list s1 (text :: ts).
Proof.
  intros U DF H N K L. destruct (settled_ok s H) as [R W].
  pose proof (inv_kind s (reach_inv s R) o (names_registered _ _ _ N)) as KO. unfold kind_ok in KO. rewrite K, U in KO.
  exists (apply_item s (Bare tok o)).
  assert (NF : ~ is_flag o) by (intros [b X]; congruence).
  split; [apply after_item; exact NF|]. split; [cbn; auto|]. split; [apply apply_item_cerr|].
  unfold parse_list. rewrite (step_named s tok o _ W N), (isPresentOpt_false o NF), step_bare; auto.
  unfold greedy. rewrite DF. intros [X|X]; congruence.
Qed.

(* ---------- C48 ---------- *)
Lemma reads_alike s1 s2 ts is rest : same_maps s1 s2 -> reads s1 ts is rest -> reads s2 ts is rest.
Proof.
  intros M. induction 1.
  - apply R_end.
  - apply R_pos; assumption.
  - apply R_flag; auto. eapply names_same; eassumption.
  - apply R_given; auto. eapply names_same; eassumption.
  - apply R_bare; auto. eapply names_same; eassumption.
Qed.
Lemma alike_maps s1 s2 : alike s1 s2 -> same_maps s1 s2.
Proof. intros [A B _ _ _ _ _]. split; congruence. Qed.
Lemma after_alike s1 s2 s1' s2' is : alike s1 s2 -> after s1 s1' is -> after s2 s2' is -> alike s1' s2'.
Proof.
  intros [A1 A2 A3 A4 A5 A6 A7] [B1 B2 B3 B4 B5 B6 B7 B8 B9] [C1 C2 C3 C4 C5 C6 C7 C8 C9].
  constructor; congruence.
Qed.
Lemma help_alike s1 s2 : alike s1 s2 -> printHelp s1 = printHelp s2.
Proof. intros [A1 A2 A3 A4 A5 A6 A7]. unfold printHelp. rewrite A1, A3, A4. reflexivity. Qed.

Lemma c48 s1 s2 ts : settled s1 -> settled s2 -> alike s1 s2 ->
  exists b s1' s2' msg is, parse_list s1 ts = Ok (b, s1') /\ parse_list s2 ts = Ok (b, s2') /\ alike s1' s2' /\
    cerr s1' = cerr s1 ++ msg /\ cerr s2' = cerr s2 ++ msg /\
    (forall id, present s1' id = present s1 id || existsb (mentions id) is) /\
    (forall id, present s2' id = present s2 id || existsb (mentions id) is).
Proof.
  intros H1 H2 AL. destruct (settled_ok s1 H1) as [R1 W1]. destruct (settled_ok s2 H2) as [R2 W2].
  pose proof (alike_maps _ _ AL) as M. destruct (parse_total s1 ts) as (is & rest & RD1 & E).
  pose proof (reads_alike _ _ _ _ _ M RD1) as RD2.
  destruct E as [|tok o N F|tok rest H|tok rest L NH N|tok o text rest N F G NA].
  - destruct (c33 s1 ts is R1 W1 RD1) as (t1 & P1 & A1 & C1 & _). destruct (c33 s2 ts is R2 W2 RD2) as (t2 & P2 & A2 & C2 & _).
    exists true, t1, t2, [], is. rewrite !app_nil_r. repeat (split; [eassumption || eapply after_alike; eassumption|]).
    split; [apply A1|apply A2].
  - destruct (last_missing s1 ts is tok o R1 W1 RD1 N F) as (t1 & P1 & A1 & C1 & _).
    destruct (last_missing s2 ts is tok o R2 W2 RD2 (names_same _ _ _ _ M N) F) as (t2 & P2 & A2 & C2 & _).
    exists true, t1, t2, [], is. rewrite !app_nil_r. repeat (split; [eassumption || eapply after_alike; eassumption|]).
    split; [apply A1|apply A2].
  - destruct (c38 s1 ts is tok rest R1 W1 RD1 H) as (t1 & h1 & Q1 & P1 & A1 & C1 & _).
    destruct (c38 s2 ts is tok rest R2 W2 RD2 H) as (t2 & h2 & Q2 & P2 & A2 & C2 & _).
    rewrite (help_alike _ _ AL) in Q1. rewrite Q1 in Q2. injection Q2 as <-.
    exists false, t1, t2, h1, is. repeat (split; [eassumption || eapply after_alike; eassumption|]).
    split; [apply A1|apply A2].
  - destruct (c36 s1 ts is tok rest R1 W1 RD1 L NH N) as (t1 & h1 & Q1 & P1 & A1 & C1 & _).
    destruct (c36 s2 ts is tok rest R2 W2 RD2 L NH) as (t2 & h2 & Q2 & P2 & A2 & C2 & _).
    { intros o Ho. apply (N o). eapply names_same; [apply same_maps_sym, M|exact Ho]. }
    rewrite (help_alike _ _ AL) in Q1. rewrite Q1 in Q2. injection Q2 as <-.
    eexists false, t1, t2, _, is. repeat (split; [eassumption || eapply after_alike; eassumption|]).
    split; [apply A1|apply A2].
  - destruct (c37 s1 ts is tok o text rest R1 W1 RD1 N F G NA) as (u1 & t1 & A1 & P1 & X1 & Y1 & V1 & Z1 & Q1 & C1 & _).
    destruct (c37 s2 ts is tok o text rest R2 W2 RD2 (names_same _ _ _ _ M N) F G NA) as (u2 & t2 & A2 & P2 & X2 & Y2 & V2 & Z2 & Q2 & C2 & _).
    eexists false, t1, t2, _, is. split; [exact P1|]. split; [exact P2|].
    pose proof (after_alike _ _ _ _ _ AL A1 A2) as AU.
    split; [|split; [exact C1|split; [exact C2|]]].
    + pose proof (parse_list_frame _ _ _ _ P1) as F1. pose proof (parse_list_frame _ _ _ _ P2) as F2.
      pose proof (al_mem _ _ AU) as MU. pose proof (al_vmem _ _ AU) as VU.
      destruct F1, F2, AL, AU. constructor; try congruence.
        intros a. destruct (leaves o text) as [v|] eqn:LV.
        -- assert (TD : target o a \/ ~ target o a).
           { unfold target. destruct (o_kind o); [destruct (Nat.eq_dec a val_p); auto|auto|destruct (Nat.eq_dec a val_p); auto]. }
           destruct TD as [T|T].
           ++ rewrite (Y1 a v T eq_refl), (Y2 a v T eq_refl). reflexivity.
           ++ rewrite (X1 a), (X2 a) by auto. apply MU.
        -- rewrite (X1 a), (X2 a) by auto. apply MU.
    + split; intros id; [rewrite Z1; apply A1|rewrite Z2; apply A2].
Qed.

(* after a stalled line every later line is swallowed *)
Lemma c48_stuck s ts is rest b s1 : settled s -> reads s ts is rest -> ending s rest -> stalls s rest ->
  parse_list s ts = Ok (b, s1) ->
  forall ts', exists s2, parse_list s1 ts' = Ok (true, s2) /\ pos_arg_vec s2 = pos_arg_vec s1 ++ ts' /\
    mem s2 = mem s1 /\ vmem s2 = vmem s1 /\ present s2 = present s1.
Proof.
  intros H RD E S0 P ts'. destruct (settled_ok s H) as [R W].
  pose proof (stalled_waiting s ts is rest b s1 R W RD E S0 P) as W1.
  destruct (wfs_waiting_stuck s1 ts' W1) as (s2 & P2 & A & B & C & D & _). exists s2. auto.
Qed.

(* ---------- C50 ---------- *)
Lemma in_last {A} (l : list A) d : last l d = d \/ In (last l d) l.
Proof.
  destruct l as [|x l]; [left; reflexivity|right]. revert x. induction l as [|y l IH]; intros x; [left; reflexivity|].
  change (last (x :: y :: l) d) with (last (y :: l) d). right. apply IH.
Qed.
Lemma c50 s ts s' : settled s -> parse_list s ts = Ok (true, s') ->
  (forall a, mem s' a = mem s a \/
     exists o, registered s o /\
       ((exists t test, o_kind o = KScalar t a test /\ test (mem s' a) = true) \/
        (o_kind o = KPresence a /\ mem s' a = VBool true))) /\
  (forall a, exists l, vmem s' a = vmem s a ++ l /\
     forall v, In v l -> exists o t test, registered s o /\ o_kind o = KVector t a test /\ test v = true).
Proof.
  intros H P. destruct (settled_ok s H) as [R W].
  destruct (parse_true_inv s ts s' R W P) as (is & rest & RD & A & _). pose proof (reads_ok _ _ _ _ RD) as OK.
  rewrite Forall_forall in OK. pose proof (reads_registered s ts is rest RD) as RG. split.
  - intros a. rewrite (af_mem _ _ _ A). destruct (in_last (flat_map (stored a) is) (mem s a)) as [E|E]; [left; exact E|right].
    apply in_flat_map in E as (i & Hi & E). specialize (OK i Hi). specialize (RG i).
    destruct i as [w|tok o|tok o text v|tok o]; cbn in E, OK; try contradiction.
    + exists o. split; [apply RG; auto|]. destruct (o_kind o) as [| |b] eqn:K; try contradiction.
      destruct (Nat.eqb_spec a b); [|contradiction]. subst b. destruct E as [E|[]]. right. auto.
    + exists o. split; [apply RG; auto|]. unfold accepts in OK. destruct (o_kind o) as [t b test| |] eqn:K; try contradiction.
      destruct (Nat.eqb_spec a b); [|contradiction]. subst b. destruct E as [E|[]]. left. exists t, test.
      rewrite <- E. split; [reflexivity|apply OK].
  - intros a. exists (flat_map (appended a) is). split; [apply A|]. intros v Hv.
    apply in_flat_map in Hv as (i & Hi & E). specialize (OK i Hi). specialize (RG i).
    destruct i as [w|tok o|tok o text v'|tok o]; cbn in E, OK; try contradiction.
    unfold accepts in OK. destruct (o_kind o) as [|t b test|] eqn:K; try contradiction.
    destruct (Nat.eqb_spec a b); [|contradiction]. subst b. destruct E as [->|[]].
    exists o, t, test. split; [apply RG; auto|]. split; [exact K|apply OK].
Qed.

(* ---------- C52 ---------- *)
Lemma untouched_refl s : untouched s s.
Proof. constructor; auto. Qed.
Lemma c52 s ts b s' : parse_list s ts = Ok (b, s') -> untouched s s'.
Proof.
  intros P. destruct (parse_list_obs s ts b s' P) as (EM & EV & _). pose proof (parse_list_frame s ts b s' P) as F.
  assert (J : forall Q : st -> Prop,
    (forall s t, Q s -> Q (push_pos s t)) -> (forall s b, Q s -> Q (set_wfs s b)) ->
    (forall s0 o', registered s o' -> Q s0 -> Q (opt_setPresent s0 o')) ->
    (forall s0 o' t, registered s o' -> Q s0 -> Q (fst (opt_setVal s0 o' t))) ->
    Q s -> Q (fst (parse_loop s None ts))).
  { intros Q A B C D E. apply (loop_inv Q (registered s) s ts); auto.
    - intros t o _ N. eapply names_registered, N.
    - intros x Hx. exact Hx.
    - apply same_maps_refl.
    - discriminate. }
  constructor.
  - intros a NT. rewrite EM. apply (J (fun s0 => mem s0 a = mem s a)); auto.
    + intros s0 o RO E. specialize (NT o RO). unfold target in NT. unfold opt_setPresent.
      destruct (o_kind o) as [| |b']; cbn; auto. unfold upd. destruct (Nat.eqb_spec a b'); [contradiction|exact E].
    + intros s0 o t RO E. specialize (NT o RO). unfold target in NT. unfold opt_setVal.
      destruct (o_kind o) as [ty b' test|ty b' test|b'].
      * destruct (ty_read ty t) as [v|[v|]]; [destruct (test v)|..]; cbn; auto; unfold upd;
          destruct (Nat.eqb_spec a b'); auto; contradiction.
      * destruct (ty_read ty t) as [v|]; [destruct (test v)|]; cbn; auto.
      * cbn. unfold upd. destruct (Nat.eqb_spec a b'); auto; contradiction.
  - intros a NT. rewrite EV. apply (J (fun s0 => vmem s0 a = vmem s a)); auto.
    + intros s0 o RO E. unfold opt_setPresent. destruct (o_kind o); exact E.
    + intros s0 o t RO E. specialize (NT o RO). unfold vec_target in NT. unfold opt_setVal.
      destruct (o_kind o) as [ty b' test|ty b' test|b'].
      * destruct (ty_read ty t) as [v|[v|]]; [destruct (test v)|..]; cbn; auto.
      * destruct (ty_read ty t) as [v|]; [destruct (test v)|]; cbn; auto; unfold upd;
          destruct (Nat.eqb_spec a b'); auto; contradiction.
      * cbn. auto.
  - intros n. apply findOpt_long_frame, F.
  - intros n. apply findOpt_ab_frame, F.
Qed.
Lemma c52_kvlist s l b s' : parseKeyValue_list s l = Ok (b, s') -> untouched s s'.
Proof. unfold parseKeyValue_list. destruct (kv_tokens l); cbn [obind]; try discriminate. apply c52. Qed.
Lemma c52_kv s t b s' : parseKeyValue s t = Ok (b, s') -> untouched s s'.
Proof.
  unfold parseKeyValue. destruct t as [|c t]; [intros [= _ <-]; apply untouched_refl|].
  destruct (split (c :: t) (lit ",") false) as [[|x l]| |]; cbn [obind]; try discriminate.
  - intros [= _ <-]. apply untouched_refl.
  - apply c52_kvlist.
Qed.
Lemma c52_string im s t b s' : parse_string im s t = Ok (b, s') -> untouched s s'.
Proof.
  unfold parse_string. destruct (is_kvp s); [apply c52_kv|].
  destruct (buildTokenList im t); cbn [obind]; try discriminate. apply c52.
Qed.
Lemma c52_argv s n v b s' : parse_argv s n v = Ok (b, s') -> untouched s s'.
Proof.
  unfold parse_argv. destruct (buildTokenList_argv n v); cbn [obind]; try discriminate.
  destruct (is_kvp s); [apply c52_kvlist|apply c52].
Qed.

(* ---------- C53 ---------- *)
Lemma makes_find r k def doc err s : makes r k def doc err ->
  (exists o, findOpt_long (rg_add r s) (rg_long r) = Some o /\ findOpt_ab (rg_add r s) (rg_ab r) = Some o /\
     o_kind o = k /\ o_default o = def /\ o_doc o = doc /\ o_err o = err /\ o_long o = rg_long r /\ o_ab o = rg_ab r) /\
  (forall n, n <> rg_long r -> findOpt_long (rg_add r s) n = findOpt_long s n) /\
  (forall c, c <> rg_ab r -> findOpt_ab (rg_add r s) c = findOpt_ab s c).
Proof.
  assert (E : forall s1 k sgn def doc err ln ab,
    (exists o, findOpt_long (registerOpt s1 k sgn def doc err ln ab) ln = Some o /\
       findOpt_ab (registerOpt s1 k sgn def doc err ln ab) ab = Some o /\
       o_kind o = k /\ o_default o = def /\ o_doc o = doc /\ o_err o = err /\ o_long o = ln /\ o_ab o = ab) /\
    (forall n, n <> ln -> findOpt_long (registerOpt s1 k sgn def doc err ln ab) n = findOpt_long s1 n) /\
    (forall c, c <> ab -> findOpt_ab (registerOpt s1 k sgn def doc err ln ab) c = findOpt_ab s1 c)).
  { clear. intros s1 k sgn def doc err ln ab. split; [|split].
    - eexists. rewrite find_reg_long, find_reg_ab, Ascii.eqb_refl. destruct (str_eqb_spec ln ln); [|contradiction].
      repeat split.
    - intros n N. rewrite find_reg_long. destruct (str_eqb_spec n ln); [contradiction|reflexivity].
    - intros c N. rewrite find_reg_ab. destruct (Ascii.eqb_spec c ab); [contradiction|reflexivity]. }
  intros [t v ln ab d doc' test err'|t v ln ab doc' test err'|v ln ab doc'|t v ln ab doc' test err'];
    cbn [rg_add rg_long rg_ab]; unfold add_def, add_nodef, addP, addV;
    match goal with |- context [registerOpt ?s1 ?k ?sg ?d ?dc ?er ?l ?a] => exact (E s1 k sg d dc er l a) end.
Qed.

(* ---------- C45, C46 ---------- *)
Lemma repeat_blank n : blank (repeat " "%char n).
Proof. apply Forall_forall. intros x Hx. apply repeat_spec in Hx. subst x. reflexivity. Qed.
Lemma addI_text_leading v w : exists b, blank b /\ addI_text v w nul nul = b ++ put_int v.
Proof.
  unfold addI_text. cbn [is_nul nul]. change (is_nul nul) with true. cbv iota.
  destruct (w =? 0)%Z; [exists []; split; [constructor|reflexivity]|].
  eexists. split; [|reflexivity]. apply repeat_blank.
Qed.
Lemma read_put_i32 b v : blank b -> in_i32 v = true -> read_i32 (b ++ put_int v) = RdOk v.
Proof.
  intros B I. apply read_i32_spec. exists (v <? 0)%Z, (Z.to_N (Z.abs v)).
  split; [apply put_int_leading; exact B|]. split; [symmetry; apply put_int_value|exact I].
Qed.
Lemma read_put_i64 b v : blank b -> in_i64 v = true -> read_i64 (b ++ put_int v) = RdOk v.
Proof.
  intros B I. apply read_i64_spec. exists (v <? 0)%Z, (Z.to_N (Z.abs v)).
  split; [apply put_int_leading; exact B|]. split; [symmetry; apply put_int_value|exact I].
Qed.

Lemma up_space c : space_byte (to_upper c) = space_byte c.
Proof. destruct c as [[][][][][][][][]]; reflexivity. Qed.
Lemma up_digit c : digit_byte c = true -> to_upper c = c.
Proof. destruct c as [[][][][][][][][]]; cbv; intros; try discriminate; reflexivity. Qed.
Lemma up_digit_byte c : digit_byte (to_upper c) = digit_byte c.
Proof. destruct c as [[][][][][][][][]]; reflexivity. Qed.
Lemma up_minus c : Ascii.eqb (to_upper c) "-"%char = Ascii.eqb c "-"%char.
Proof. destruct c as [[][][][][][][][]]; reflexivity. Qed.
Lemma up_plus c : Ascii.eqb (to_upper c) "+"%char = Ascii.eqb c "+"%char.
Proof. destruct c as [[][][][][][][][]]; reflexivity. Qed.
Lemma up_skip s : skip_ws (map to_upper s) = map to_upper (skip_ws s).
Proof. induction s as [|c s IH]; [reflexivity|]. cbn. rewrite up_space. destruct (space_byte c); [exact IH|reflexivity]. Qed.
Lemma up_span s : fst (span_digits (map to_upper s)) = fst (span_digits s).
Proof.
  induction s as [|c s IH]; [reflexivity|]. cbn. rewrite up_digit_byte. destruct (digit_byte c) eqn:D; [|reflexivity].
  destruct (span_digits (map to_upper s)), (span_digits s). cbn in *. rewrite (up_digit c D), IH. reflexivity.
Qed.
Lemma up_leading s neg n : leading_int (map to_upper s) neg n <-> leading_int s neg n.
Proof.
  rewrite !leading_int_iff, up_skip. destruct (skip_ws s) as [|c t]; [reflexivity|].
  cbn [map take_sign]. rewrite up_minus, up_plus.
  destruct (Ascii.eqb c "-"%char); cbn [fst snd]; [rewrite up_span; reflexivity|].
  destruct (Ascii.eqb c "+"%char); cbn [fst snd]; [rewrite up_span; reflexivity|].
  change (to_upper c :: map to_upper t) with (map to_upper (c :: t)). rewrite up_span. reflexivity.
Qed.
Lemma up_T c : Ascii.eqb (to_upper c) "T"%char = true <-> c = "t"%char \/ c = "T"%char.
Proof. split; [destruct c as [[][][][][][][][]]; cbv; intros; try discriminate; auto|intros [-> | ->]; reflexivity]. Qed.
Lemma up_F c : Ascii.eqb (to_upper c) "F"%char = true <-> c = "f"%char \/ c = "F"%char.
Proof. split; [destruct c as [[][][][][][][][]]; cbv; intros; try discriminate; auto|intros [-> | ->]; reflexivity]. Qed.

Lemma c46 text b : read_bool text = RdOk b <->
  (b = true /\ begins text "t" "T") \/ (b = false /\ begins text "f" "F") \/
  (exists neg n, leading_int text neg n /\ in_i32 (signed_value neg n) = true /\ b = negb (n =? 0)%N).
Proof.
  assert (NL : forall c r neg n, leading_int (c :: r) neg n -> ~ In c (lit "tTfF")).
  { intros c r neg n H. apply leading_int_iff in H as [_ H]. intros X. cbn in X.
    destruct X as [<-|[<-|[<-|[<-|[]]]]]; cbn in H; discriminate. }
  assert (ZV : forall neg n, negb (signed_value neg n =? 0)%Z = negb (n =? 0)%N).
  { intros neg n. unfold signed_value. destruct neg, (N.eqb_spec n 0), (Z.eqb_spec (Z.of_N n) 0); try lia;
      destruct (Z.eqb_spec (- Z.of_N n) 0); try lia; reflexivity. }
  unfold read_bool. destruct text as [|c r].
  - cbn. split; [discriminate|]. intros [[_ (r & [X|X])]|[[_ (r & [X|X])]|(neg & n & H & _)]]; try discriminate.
    apply leading_int_iff in H as [_ H]. discriminate.
  - cbn [map hd].
    assert (ET : str_eqb (to_upper c :: map to_upper r) (lit "TRUE") || Ascii.eqb (to_upper c) "T"%char = Ascii.eqb (to_upper c) "T"%char).
    { cbn [str_eqb lit String.list_ascii_of_string]. destruct (Ascii.eqb (to_upper c) "T"%char); [apply orb_true_r|reflexivity]. }
    assert (EF : str_eqb (to_upper c :: map to_upper r) (lit "FALSE") || Ascii.eqb (to_upper c) "F"%char = Ascii.eqb (to_upper c) "F"%char).
    { cbn [str_eqb lit String.list_ascii_of_string]. destruct (Ascii.eqb (to_upper c) "F"%char); [apply orb_true_r|reflexivity]. }
    rewrite ET, EF. clear ET EF.
    destruct (Ascii.eqb (to_upper c) "T"%char) eqn:T; [|destruct (Ascii.eqb (to_upper c) "F"%char) eqn:F].
    + apply up_T in T. split.
      * intros [= <-]. left. split; [reflexivity|]. exists r. destruct T as [-> | ->]; auto.
      * intros [[-> _]|[[_ (r' & X)]|(neg & n & H & _)]]; [reflexivity|..].
        -- destruct T as [-> | ->], X as [X|X]; discriminate.
        -- apply NL in H. elim H. cbn. destruct T as [-> | ->]; auto.
    + apply up_F in F. split.
      * intros [= <-]. right. left. split; [reflexivity|]. exists r. destruct F as [-> | ->]; auto.
      * intros [[_ (r' & X)]|[[-> _]|(neg & n & H & _)]]; [|reflexivity|].
        -- destruct F as [-> | ->], X as [X|X]; discriminate.
        -- apply NL in H. elim H. cbn. destruct F as [-> | ->]; auto 6.
    + assert (NT : ~ begins (c :: r) "t" "T").
      { intros (r' & X). assert (Y : c = "t"%char \/ c = "T"%char) by (destruct X as [X|X]; injection X; auto).
        apply up_T in Y. congruence. }
      assert (NF : ~ begins (c :: r) "f" "F").
      { intros (r' & X). assert (Y : c = "f"%char \/ c = "F"%char) by (destruct X as [X|X]; injection X; auto).
        apply up_F in Y. congruence. }
      change (to_upper c :: map to_upper r) with (map to_upper (c :: r)).
      destruct (read_i32 (map to_upper (c :: r))) as [foo|l] eqn:RI.
      * apply read_i32_spec in RI as (neg & n & H & -> & I). apply (up_leading (c :: r)) in H. rewrite ZV. split.
        -- intros [= <-]. right. right. exists neg, n. auto.
        -- intros [[_ X]|[[_ X]|(neg' & n' & H' & _ & ->)]]; [contradiction..|].
           destruct (leading_int_fun _ _ _ _ _ H H') as [_ <-]. reflexivity.
      * split; [discriminate|]. intros [[_ X]|[[_ X]|(neg & n & H & I & _)]]; [contradiction..|].
        apply up_leading in H. assert (X : read_i32 (map to_upper (c :: r)) = RdOk (signed_value neg n)).
        { apply read_i32_spec. eauto. }
        congruence.
Qed.

(* ---------- C47 ---------- *)
Lemma c47 s i : (Z.of_nat (length (pos_arg_vec s)) < two63)%Z -> in_i32 i = true ->
  ((0 <= i < Z.of_nat (length (getPosArgs s)))%Z -> exists t, nth_error (getPosArgs s) (Z.to_nat i) = Some t /\ getPosArg s i = Ok t) /\
  ((i < 0 \/ i > Z.of_nat (length (getPosArgs s)))%Z -> getPosArg s i = Ok []) /\
  (i = Z.of_nat (length (getPosArgs s)) -> getPosArg s i = UB).
Proof.
  unfold getPosArg, getPosArgs, in_i32, to_u64, two31, two63, two64. intros H I.
  set (n := length (pos_arg_vec s)) in *. assert (I' : (-2147483648 <= i < 2147483648)%Z) by lia. repeat split.
  - intros [A B]. rewrite Z.mod_small by lia. destruct (Z.ltb_spec (Z.of_nat n) i); [lia|].
    destruct (nth_error (pos_arg_vec s) (Z.to_nat i)) as [t|] eqn:E; [eauto|].
    apply nth_error_None in E. fold n in E. lia.
  - intros C. destruct (Z.ltb_spec (Z.of_nat n) (i mod 18446744073709551616)) as [L|L]; [reflexivity|]. exfalso.
    destruct C as [C|C].
    + assert (E : (i mod 18446744073709551616 = i + 18446744073709551616)%Z).
      { symmetry. apply Z.mod_unique with (-1)%Z; lia. }
      lia.
    + rewrite Z.mod_small in L by lia. lia.
  - intros ->. rewrite Z.mod_small by lia. destruct (Z.ltb_spec (Z.of_nat n) (Z.of_nat n)); [lia|].
    rewrite Nat2Z.id. assert (E : nth_error (pos_arg_vec s) n = None) by (apply nth_error_None; unfold n; lia).
    rewrite E. reflexivity.
Qed.
