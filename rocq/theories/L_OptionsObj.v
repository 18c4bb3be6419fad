(* L_OptionsObj.v -- lemmas for P_OptionsObj. *)
From Verif Require Import Base M_Options S_Options L_Map L_Options L_OptionsI C_OptionsP M_OptionsObj S_OptionsObj.

(* ---- what a parse call can do to the presence marks ---- *)
Definition keeps (s s' : st) : Prop :=
  frame s s' /\ forall id, (forall o, registered s o -> o_id o <> id) -> present s' id = present s id.

Lemma list_keeps s ts b s' : parse_list s ts = Ok (b, s') -> keeps s s'.
Proof.
  intros P. split; [exact (parse_list_frame s ts b s' P)|].
  destruct (parse_list_obs s ts b s' P) as (_ & _ & EP & _).
  intros id NO. rewrite EP.
  apply (loop_inv (fun s0 => present s0 id = present s id) (registered s) s ts); auto.
  - intros s0 o RO E. specialize (NO o RO). unfold opt_setPresent.
    destruct (o_kind o); cbn; unfold upd; destruct (Nat.eqb_spec id (o_id o)); auto; congruence.
  - intros s0 o t RO E. specialize (NO o RO). unfold opt_setVal.
    destruct (o_kind o) as [ty a test|ty a test|a].
    + destruct (ty_read ty t) as [v|[v|]]; [destruct (test v)|..]; cbn; auto; unfold upd;
        destruct (Nat.eqb_spec id (o_id o)); auto; congruence.
    + destruct (ty_read ty t) as [v|]; [destruct (test v)|]; cbn; auto; unfold upd;
        destruct (Nat.eqb_spec id (o_id o)); auto; congruence.
    + cbn. unfold upd. destruct (Nat.eqb_spec id (o_id o)); auto; congruence.
  - intros t o _ N. eapply names_registered, N.
  - intros x Hx. exact Hx.
  - apply same_maps_refl.
  - discriminate.
Qed.
Lemma keeps_refl s : keeps s s.
Proof. split; [apply frame_refl|reflexivity]. Qed.
Lemma kvlist_keeps s l b s' : parseKeyValue_list s l = Ok (b, s') -> keeps s s'.
Proof. unfold parseKeyValue_list. destruct (kv_tokens l); cbn [obind]; try discriminate. apply list_keeps. Qed.
Lemma kv_keeps s t b s' : parseKeyValue s t = Ok (b, s') -> keeps s s'.
Proof.
  unfold parseKeyValue. destruct t as [|c t]; [intros [= _ <-]; apply keeps_refl|].
  destruct (M_Split.split (c :: t) (lit ",") false) as [[|x l]| |]; cbn [obind]; try discriminate.
  - intros [= _ <-]. apply keeps_refl.
  - apply kvlist_keeps.
Qed.
Lemma parses_keeps s b s' : parses s b s' -> keeps s s'.
Proof.
  intros [ts b0 s0 P|im t b0 s0 P|n v b0 s0 P|t b0 s0 P].
  - eapply list_keeps, P.
  - revert P. unfold parse_string. destruct (is_kvp s); [apply kv_keeps|].
    destruct (buildTokenList im t); cbn [obind]; try discriminate. apply list_keeps.
  - revert P. unfold parse_argv. destruct (buildTokenList_argv n v); cbn [obind]; try discriminate.
    destruct (is_kvp s); [apply kvlist_keeps|apply list_keeps].
  - eapply kv_keeps, P.
Qed.

(* ---- registrations ---- *)
Lemma reg_registers r s o : is_reg r -> registered (rg_add r s) o -> registered s o \/ o_id o = next_id s.
Proof.
  intros R.
  assert (G : forall s1 k sgn def doc err ln ab, long_map s1 = long_map s -> ab_map s1 = ab_map s -> next_id s1 = next_id s ->
      registered (registerOpt s1 k sgn def doc err ln ab) o -> registered s o \/ o_id o = next_id s).
  { clear. intros s1 k sgn def doc err ln ab L A N [[n E]|[c E]].
    - unfold findOpt_long, registerOpt in E. cbn in E.
      destruct (list_eq_dec ascii_dec n ln) as [->|D].
      + rewrite (find_insert_same _ scmp_eq) in E. injection E as <-. right. exact N.
      + rewrite (find_insert_other _ scmp_eq) in E by exact D. left. left. exists n.
        unfold findOpt_long. rewrite <- L. exact E.
    - unfold findOpt_ab, registerOpt in E. cbn in E.
      destruct (ascii_dec c ab) as [->|D].
      + rewrite (find_insert_same _ ccmp_eq) in E. injection E as <-. right. exact N.
      + rewrite (find_insert_other _ ccmp_eq) in E by exact D. left. right. exists c.
        unfold findOpt_ab. rewrite <- A. exact E. }
  destruct R; cbn [rg_add]; intros E; (eapply G; [| | |exact E]; reflexivity).
Qed.
Lemma reg_one r s o o' : is_reg r -> registered (rg_add r s) o -> registered (rg_add r s) o' ->
  o_id o = next_id s -> o_id o' = next_id s -> (forall x, registered s x -> o_id x < next_id s) -> o = o'.
Proof.
  intros R.
  assert (G : forall s1 k sgn def doc err ln ab, long_map s1 = long_map s -> ab_map s1 = ab_map s -> next_id s1 = next_id s ->
      forall x, registered (registerOpt s1 k sgn def doc err ln ab) x -> o_id x = next_id s ->
      (forall y, registered s y -> o_id y < next_id s) -> x = mkOpt (next_id s) ln ab doc err sgn def k).
  { clear. intros s1 k sgn def doc err ln ab L A N x [[n E]|[c E]] X B.
    - unfold findOpt_long, registerOpt in E. cbn in E.
      destruct (list_eq_dec ascii_dec n ln) as [->|D].
      + rewrite (find_insert_same _ scmp_eq) in E. injection E as <-. rewrite N. reflexivity.
      + rewrite (find_insert_other _ scmp_eq) in E by exact D. rewrite L in E.
        specialize (B x (or_introl (ex_intro _ n E))). lia.
    - unfold findOpt_ab, registerOpt in E. cbn in E.
      destruct (ascii_dec c ab) as [->|D].
      + rewrite (find_insert_same _ ccmp_eq) in E. injection E as <-. rewrite N. reflexivity.
      + rewrite (find_insert_other _ ccmp_eq) in E by exact D. rewrite A in E.
        specialize (B x (or_intror (ex_intro _ c E))). lia. }
  destruct R; cbn [rg_add]; intros H H' X X' B.
  - unfold add_def in H, H'. rewrite (fun a b c => G _ _ _ _ _ _ _ _ a b c o H X B), (fun a b c => G _ _ _ _ _ _ _ _ a b c o' H' X' B); reflexivity.
  - unfold add_nodef in H, H'. rewrite (fun a b c => G _ _ _ _ _ _ _ _ a b c o H X B), (fun a b c => G _ _ _ _ _ _ _ _ a b c o' H' X' B); reflexivity.
  - unfold addP in H, H'. rewrite (fun a b c => G _ _ _ _ _ _ _ _ a b c o H X B), (fun a b c => G _ _ _ _ _ _ _ _ a b c o' H' X' B); reflexivity.
  - unfold addV in H, H'. rewrite (fun a b c => G _ _ _ _ _ _ _ _ a b c o H X B), (fun a b c => G _ _ _ _ _ _ _ _ a b c o' H' X' B); reflexivity.
Qed.
Lemma reg_keeps r s : is_reg r -> next_id (rg_add r s) = S (next_id s) /\
  forall id, id <> next_id s -> present (rg_add r s) id = present s id.
Proof.
  intros R. destruct R; (split; [reflexivity|]); intros id N; cbn; unfold upd; destruct (Nat.eqb_spec id (next_id s)); congruence.
Qed.

(* ---- worlds ---- *)
Lemma nth_set l i q j : nth_error (set_part l i q) j =
  if Nat.eqb j i then (if Nat.ltb i (length l) then Some q else None) else nth_error l j.
Proof.
  revert i j. induction l as [|x m IH]; intros i j.
  - cbn. destruct (Nat.eqb j i); destruct j; reflexivity.
  - destruct i as [|i], j as [|j]; cbn; try reflexivity. apply IH.
Qed.
Lemma view_some w i s : view w i = Some s -> exists q, nth_error (w_parts w) i = Some q /\ s = view_part w q.
Proof. unfold view. destruct (nth_error (w_parts w) i) as [q|]; cbn; [|discriminate]. intros [= <-]. eauto. Qed.
Lemma back_other w i s j : i <> j -> nth_error (w_parts (back w i s)) j = nth_error (w_parts w) j.
Proof. intros N. cbn. rewrite nth_set. destruct (Nat.eqb_spec j i); [congruence|reflexivity]. Qed.
Lemma back_same w i s s0 : view w i = Some s0 -> nth_error (w_parts (back w i s)) i = Some (part_of s).
Proof.
  intros V. destruct (view_some _ _ _ V) as [q [E _]]. cbn. rewrite nth_set, Nat.eqb_refl.
  assert (i < length (w_parts w)) by (apply nth_error_Some; congruence).
  destruct (Nat.ltb_spec i (length (w_parts w))); [reflexivity|lia].
Qed.

Definition in_part (q : part) (o : opt) : Prop :=
  (exists n, smap_find str_compare n (q_long q) = Some o) \/ (exists c, smap_find char_compare c (q_ab q) = Some o).
Lemma in_part_view w q o : registered (view_part w q) o <-> in_part q o.
Proof. reflexivity. Qed.
Lemma in_part_of s o : in_part (part_of s) o <-> registered s o.
Proof. reflexivity. Qed.

(* identities are below the counter; without copies no two objects share one *)
Record wok (copies : bool) (w : world) : Prop := {
  wk_fresh : forall i q o, nth_error (w_parts w) i = Some q -> in_part q o -> o_id o < w_next w;
  wk_inj : forall i j q q' o o', nth_error (w_parts w) i = Some q -> nth_error (w_parts w) j = Some q' ->
    in_part q o -> in_part q' o' -> o_id o = o_id o' -> o = o';
  wk_apart : copies = false -> forall i j q q' o o', i <> j -> nth_error (w_parts w) i = Some q ->
    nth_error (w_parts w) j = Some q' -> in_part q o -> in_part q' o' -> o_id o <> o_id o' }.

Lemma calls_ids w i w' : calls w i w' -> exists s s', view w i = Some s /\ w' = back w i s' /\
  next_id s <= next_id s' /\
  (forall o, registered s' o -> registered s o \/ (o_id o = next_id s /\ next_id s' = S (next_id s))) /\
  (forall o o', registered s' o -> registered s' o' -> o_id o = next_id s -> o_id o' = next_id s ->
     (forall x, registered s x -> o_id x < next_id s) -> o = o') /\
  (forall id, (forall o, registered s o -> o_id o <> id) -> id <> next_id s -> present s' id = present s id).
Proof.
  intros [s t V|s r V R|s b s' V P].
  - exists s, (addInfo s t). split; [exact V|]. split; [reflexivity|]. split; [cbn; lia|].
    split; [intros o H; left; exact H|]. split; [|reflexivity].
    intros o o' H _ X _ B. specialize (B o H). lia.
  - exists s, (rg_add r s). destruct (reg_keeps r s R) as [N K]. split; [exact V|]. split; [reflexivity|]. split; [lia|].
    split; [intros o RO; destruct (reg_registers r s o R RO); auto|]. split; [|auto].
    intros o o' H H' X X' B. apply (reg_one r s o o' R H H'); auto.
  - exists s, s'. destruct (parses_keeps s b s' P) as [F K]. split; [exact V|]. split; [reflexivity|].
    assert (A : forall o, registered s' o -> registered s o)
      by (intros o [[n E]|[c E]]; [left; exists n; rewrite <- (findOpt_long_frame s s' n F)|right; exists c; rewrite <- (findOpt_ab_frame s s' c F)]; exact E).
    split; [rewrite (fr_next _ _ F); lia|]. split; [auto|]. split; [|auto].
    intros o o' H _ X _ B. specialize (B o (A o H)). lia.
Qed.

Lemma history_ok copies w : history copies w -> wok copies w.
Proof.
  induction 1 as [m vm|w kvp H IH|w m vm H IH|w i w' H IH C|w j q E H IH N|w i j q E H IH N].
  - constructor; cbn; intros; destruct i; discriminate.
  - assert (A : forall i q o, nth_error (w_parts (w_new w kvp)) i = Some q -> in_part q o -> nth_error (w_parts w) i = Some q).
    { intros i q o Hi Hq. cbn in Hi. destruct (Nat.lt_ge_cases i (length (w_parts w))) as [L|L].
      - rewrite nth_error_app1 in Hi by lia. exact Hi.
      - rewrite nth_error_app2 in Hi by lia. destruct (i - length (w_parts w)) as [|k]; cbn in Hi.
        + injection Hi as <-. destruct Hq as [[n X]|[c X]]; discriminate.
        + destruct k; discriminate. }
    constructor.
    + intros i q o Hi Hq. cbn. eapply (wk_fresh _ _ IH); eauto.
    + intros i j q q' o o' Hi Hj Hq Hq'. eapply (wk_inj _ _ IH i j); eauto.
    + intros NC i j q q' o o' D Hi Hj Hq Hq'. eapply (wk_apart _ _ IH NC i j); eauto.
  - constructor; [apply (wk_fresh _ _ IH)|apply (wk_inj _ _ IH)|apply (wk_apart _ _ IH)].
  - destruct (calls_ids _ _ _ C) as (s & s' & V & -> & LE & RG & NEW0 & _).
    destruct (view_some _ _ _ V) as [q0 [E0 Es]].
    assert (NX : next_id s = w_next w) by (rewrite Es; reflexivity).
    assert (RS : forall o, registered s o -> in_part q0 o) by (intros o; rewrite Es; exact (fun x => x)).
    assert (NEW : forall o o', registered s' o -> registered s' o' -> o_id o = next_id s -> o_id o' = next_id s -> o = o').
    { intros o o' Ho Ho' X X'. apply NEW0; auto. intros x Hx. rewrite NX. apply (wk_fresh _ _ IH i q0 x E0), RS, Hx. }
    assert (NW : w_next (back w i s') = next_id s') by reflexivity.
    assert (A : forall k q o, nth_error (w_parts (back w i s')) k = Some q -> in_part q o ->
      (exists q1, nth_error (w_parts w) k = Some q1 /\ in_part q1 o) \/ (k = i /\ o_id o = w_next w /\ next_id s' = S (w_next w))).
    { intros k q o Hk Hq. destruct (Nat.eq_dec i k) as [<-|D].
      - rewrite (back_same w i s' s V) in Hk. injection Hk as <-. rewrite in_part_of in Hq.
        destruct (RG o Hq) as [X|[X Y]]; [left; exists q0; split; [exact E0|apply RS, X]|right; rewrite <- NX; auto].
      - rewrite (back_other w i s' k D) in Hk. left. eauto. }
    constructor.
    + intros k q o Hk Hq. rewrite NW. destruct (A k q o Hk Hq) as [(q1 & H1 & H2)|(-> & X & Y)]; [|lia].
      pose proof (wk_fresh _ _ IH k q1 o H1 H2). lia.
    + intros k j q q' o o' Hk Hj Hq Hq' EQ.
      destruct (A k q o Hk Hq) as [(q1 & H1 & H2)|(-> & X & Y)];
        destruct (A j q' o' Hj Hq') as [(q2 & G1 & G2)|(-> & X' & Y')].
      * apply (wk_inj _ _ IH k j q1 q2); auto.
      * pose proof (wk_fresh _ _ IH k q1 o H1 H2). lia.
      * pose proof (wk_fresh _ _ IH j q2 o' G1 G2). lia.
      * rewrite (back_same w i s' s V) in Hk, Hj. injection Hk as <-. injection Hj as <-.
        apply (NEW o o' Hq Hq'); rewrite NX; assumption.
    + intros NC k j q q' o o' D Hk Hj Hq Hq'.
      destruct (A k q o Hk Hq) as [(q1 & H1 & H2)|(-> & X & Y)];
        destruct (A j q' o' Hj Hq') as [(q2 & G1 & G2)|(-> & X' & Y')].
      * apply (wk_apart _ _ IH NC k j q1 q2); auto.
      * pose proof (wk_fresh _ _ IH k q1 o H1 H2). lia.
      * pose proof (wk_fresh _ _ IH j q2 o' G1 G2). lia.
      * congruence.
  - assert (A : forall i q0 o, nth_error (w_parts (w_copy w q)) i = Some q0 -> in_part q0 o -> exists k q1, nth_error (w_parts w) k = Some q1 /\ in_part q1 o).
    { intros i q0 o Hi Hq. cbn in Hi. destruct (Nat.lt_ge_cases i (length (w_parts w))) as [L|L].
      - rewrite nth_error_app1 in Hi by lia. eauto.
      - rewrite nth_error_app2 in Hi by lia. destruct (i - length (w_parts w)) as [|k]; cbn in Hi.
        + injection Hi as <-. eauto.
        + destruct k; discriminate. }
    constructor; [| |congruence].
    + intros i q0 o Hi Hq. cbn. destruct (A i q0 o Hi Hq) as (k & q1 & H1 & H2). eapply (wk_fresh _ _ IH); eauto.
    + intros i i' q1 q2 o o' Hi Hi' Hq Hq'. destruct (A i q1 o Hi Hq) as (k & p1 & H1 & H2).
      destruct (A i' q2 o' Hi' Hq') as (k' & p2 & G1 & G2). eapply (wk_inj _ _ IH k k'); eauto.
  - assert (A : forall k q0, nth_error (w_parts (w_assign w i q)) k = Some q0 -> exists k', nth_error (w_parts w) k' = Some q0).
    { intros k q0 Hk. cbn in Hk. rewrite nth_set in Hk.
      destruct (Nat.eqb k i); [destruct (Nat.ltb i _); [|discriminate]; injection Hk as <-|]; eauto. }
    constructor; [| |congruence].
    + intros k q0 o Hk Hq. destruct (A k q0 Hk) as [k' Hk']. cbn. eapply (wk_fresh _ _ IH); eauto.
    + intros k k2 q1 q2 o o' Hk Hk2 Hq Hq'. destruct (A k q1 Hk) as [k' Hk']. destruct (A k2 q2 Hk2) as [k2' Hk2'].
      eapply (wk_inj _ _ IH k' k2'); eauto.
Qed.

Lemma frame_step copies w i w' j s si : history copies w -> calls w i w' -> i <> j ->
  view w j = Some s -> view w i = Some si ->
  exists s', view w' j = Some s' /\ part_of s' = part_of s /\
    forall o, registered s o -> ~ registered si o -> present s' (o_id o) = present s (o_id o).
Proof.
  intros H C D V Vi0. destruct (calls_ids _ _ _ C) as (si' & s1 & Vi & -> & _ & _ & _ & K).
  rewrite Vi0 in Vi. injection Vi as <-.
  destruct (view_some _ _ _ V) as [q [E ->]]. destruct (view_some _ _ _ Vi0) as [qi [Ei Es]].
  pose proof (history_ok _ _ H) as OK.
  exists (view_part (back w i s1) q). split; [unfold view; rewrite (back_other w i s1 j D), E; reflexivity|].
  split; [reflexivity|]. intros o RO NE.
  pose proof (wk_fresh _ _ OK j q o E RO) as FR.
  change (present s1 (o_id o) = w_present w (o_id o)).
  rewrite K; [rewrite Es; reflexivity| |rewrite Es; cbn; lia].
  intros o' RO' EQ. apply NE. rewrite Es in RO'. rewrite Es.
  rewrite (wk_inj _ _ OK j i q qi o o' E Ei RO RO' (eq_sym EQ)). exact RO'.
Qed.

Lemma apart w i j si sj o : history false w -> i <> j -> view w i = Some si -> view w j = Some sj ->
  registered sj o -> ~ registered si o.
Proof.
  intros H D Vi Vj Rj Ri. destruct (view_some _ _ _ Vi) as [qi [Ei ->]]. destruct (view_some _ _ _ Vj) as [qj [Ej ->]].
  exact (wk_apart _ _ (history_ok _ _ H) eq_refl i j qi qj o o D Ei Ej Ri Rj eq_refl).
Qed.

(* parse calls on i or k keep both tables *)
Lemma parses_tables i k w w' : parses_on i k w w' -> forall j s, view w j = Some s ->
  exists s', view w' j = Some s' /\ long_map s' = long_map s /\ ab_map s' = ab_map s.
Proof.
  induction 1 as [w|w j0 s0 b s1 w' J V P H IH]; intros j s Vj; [exists s; auto|].
  destruct (parses_keeps _ _ _ P) as [F _].
  destruct (Nat.eq_dec j0 j) as [<-|D].
  - rewrite V in Vj. injection Vj as <-.
    destruct (IH j0 (view_part (back w j0 s1) (part_of s1))) as (s' & A & B & C).
    { unfold view. rewrite (back_same w j0 s1 s0 V). reflexivity. }
    exists s'. cbn in B, C. rewrite (fr_long _ _ F) in B. rewrite (fr_ab _ _ F) in C. auto.
  - destruct (view_some _ _ _ Vj) as [q [E ->]].
    destruct (IH j (view_part (back w j0 s1) q)) as (s' & A & B & C).
    { unfold view. rewrite (back_other w j0 s1 j D), E. reflexivity. }
    exists s'. auto.
Qed.
