(* L_MailBox.v *)
From Verif Require Import Base M_MailBox S_MailBox L_Map.
From Coq Require Import Sorted.

Section L.
Context {M : Type}.
Notation mbox := (mbox M). Notation world := (world M). Notation call := (call M). Notation mret := (mret M).
Implicit Types (mb : mbox) (w : world) (c : call) (r : mret).

Definition wf mb : Prop :=
  ksorted Z.compare (mb_queues mb) /\
  (forall k, In k (map fst (mb_queues mb)) -> (0 <= k < mb_counter mb)%Z) /\
  (0 <= mb_counter mb <= two31 - 1)%Z.

Definition waiting w b i := q_find i (mb_queues (w b)).

Lemma put_all_keys omit (m : option M) qs : map fst (put_all omit m qs) = map fst qs.
Proof. unfold put_all. rewrite map_map. apply map_ext. intros [k q]. destruct (k =? omit)%Z; reflexivity. Qed.
Lemma find_put_all omit (m : option M) qs i :
  q_find i (put_all omit m qs) = option_map (fun q => if (i =? omit)%Z then q else q ++ [m]) (q_find i qs).
Proof.
  unfold q_find. induction qs as [|[k q] qs IH]; [reflexivity|]. cbn.
  destruct (Z.compare i k) eqn:E.
  - apply Zcmp_eq in E. subst k. destruct (i =? omit)%Z; cbn; rewrite Z.compare_refl; reflexivity.
  - destruct (k =? omit)%Z; cbn; rewrite E; exact IH.
  - destruct (k =? omit)%Z; cbn; rewrite E; exact IH.
Qed.

Lemma find_key i mb q : q_find i (mb_queues mb) = Some q -> In i (map fst (mb_queues mb)).
Proof. intros H. apply (find_some_in _ Zcmp_eq) in H. apply (in_map fst) in H. exact H. Qed.

Lemma upd_same w b x : upd w b x b = x.
Proof. unfold upd. rewrite Nat.eqb_refl. reflexivity. Qed.
Lemma upd_other w b x b' : b' <> b -> upd w b x b' = w b'.
Proof. unfold upd. destruct (Nat.eqb_spec b' b); congruence. Qed.

(* ---- well-formedness ---- *)
Lemma exec1_wf names self mb c mb' r : wf mb -> exec1 names self mb c = (mb', r) -> r <> MUB -> wf mb'.
Proof.
  intros WF0 H Hub. pose proof WF0 as (W1 & W2 & W3).
  assert (QS : forall i q q0, q_find i (mb_queues mb) = Some q0 -> wf (set_queues mb (q_set i q (mb_queues mb)))).
  { intros i q q0 F. split; [|split]; cbn.
    - apply ksorted_insert; auto using Zcmp_eq, Zcmp_opp. apply Zcmp_trans.
    - intros k Hk. apply (keys_insert _ Zcmp_eq) in Hk. destruct Hk as [->|Hk]; [|auto].
      apply W2. eapply find_key; eauto.
    - exact W3. }
  assert (UN : forall i r0, unsubscribe mb i = (mb', r0) -> wf mb').
  { intros i r0. unfold unsubscribe, getQueue. destruct (q_find i (mb_queues mb)) eqn:F; cbn; intros [= <- _].
    - split; [|split]; cbn; auto.
      + apply ksorted_erase; exact W1.
      + intros k Hk. apply in_map_iff in Hk. destruct Hk as (p & <- & Hp). apply in_erase in Hp.
        apply W2, in_map, Hp.
    - exact WF0. }
  destruct c as [|s|m s|s| |s|i| |s]; cbn in H.
  - unfold subscribe in H. destruct (Z.ltb_spec (mb_counter mb) (two31 - 1)); injection H as <- <-; [|congruence].
    split; [|split]; cbn [mb_queues mb_counter].
    + apply ksorted_insert; auto using Zcmp_eq, Zcmp_opp. apply Zcmp_trans.
    + intros k Hk. apply (keys_insert _ Zcmp_eq) in Hk. destruct Hk as [->|Hk]; [lia|].
      specialize (W2 _ Hk). lia.
    + lia.
  - unfold get in H. destruct (getIndex names self s) as [i| |]; cbn in H; try (injection H as <- <-; exact WF0; fail).
    unfold getQueue in H. destruct (q_find i (mb_queues mb)) as [[|x q]|] eqn:F; cbn in H; injection H as <- <-;
      try (exact WF0; fail). eapply QS; eauto.
  - unfold put in H.
    destruct (match s with Some _ => getIndex names self s | None => Ok (mb_counter mb) end) as [o| |]; cbn in H;
      injection H as <- <-; try (exact WF0; fail).
    split; [|split]; cbn; unfold ksorted; rewrite ?put_all_keys; auto.
  - unfold readyCount in H. destruct (getIndex names self s) as [i| |]; cbn in H; try (injection H as <- <-; exact WF0; fail).
    unfold getQueue in H. destruct (q_find i (mb_queues mb)); cbn in H; injection H as <- <-; exact WF0.
  - injection H as <- <-. exact WF0.
  - unfold clear in H. destruct (getIndex names self s) as [i| |]; cbn in H; try (injection H as <- <-; exact WF0; fail).
    unfold getQueue in H. destruct (q_find i (mb_queues mb)) eqn:F; cbn in H; injection H as <- <-;
      try (exact WF0; fail). eapply QS; eauto.
  - eapply UN; eauto.
  - injection H as <- <-. exact WF0.
  - unfold drop in H. destruct (unsubscribe mb (sub_idx s)) as [mb1 r1] eqn:U. injection H as <- _. eapply UN; eauto.
Qed.

Definition wfw w := forall b, wf (w b).

Lemma exec_wf w b c w' r : wfw w -> exec w b c = (w', r) -> r <> MUB -> wfw w'.
Proof.
  unfold exec. destruct (exec1 _ b (w b) c) as [mb r1] eqn:E. intros W [= <- <-] N b'.
  destruct (Nat.eq_dec b' b) as [->|D]; [rewrite upd_same|rewrite upd_other by exact D; apply W].
  eapply exec1_wf; eauto.
Qed.
Lemma run_wf h : forall w w' rs, wfw w -> run w h = (w', rs) -> no_ub rs -> wfw w'.
Proof.
  induction h as [|[b c] h IH]; intros w w' rs W H N; cbn in H; [injection H as <- <-; exact W|].
  destruct (exec w b c) as [w1 r] eqn:E. destruct (run w1 h) as [w2 rs'] eqn:R. injection H as <- <-.
  eapply (IH w1 w2 rs'); [|exact R|].
  - eapply exec_wf; eauto. apply N. left; reflexivity.
  - intros x Hx. apply N. right; exact Hx.
Qed.
Lemma fresh_wf names : wfw (fresh names).
Proof. intros b. repeat split; cbn; try constructor; try tauto; unfold two31; try lia; destruct H. Qed.

(* ---- conservation ---- *)
Lemma nonnull_app (a b : list (option M)) : nonnull (a ++ b) = nonnull a ++ nonnull b.
Proof. unfold nonnull. apply flat_map_app. Qed.

Lemma exec_other w b c w' r b' : exec w b c = (w', r) -> b' <> b -> w' b' = w b'.
Proof.
  unfold exec. destruct (exec1 _ b (w b) c) as [mb r1]. intros [= <- <-] D. apply upd_other, D.
Qed.

Lemma getIndex_ok names self s i : getIndex names self s = Ok i -> exists s0, s = Some s0 /\ sub_mbox s0 = self /\ sub_idx s0 = i.
Proof.
  destruct s as [s|]; cbn; [|discriminate]. destruct (Nat.eqb_spec (sub_mbox s) self); [|discriminate].
  intros [= <-]. eauto.
Qed.

Lemma step_conserve w b i q b' c w' r :
  wfw w -> exec w b' c = (w', r) -> r <> MUB -> waiting w b i = Some q -> discards b i (b', c) = false ->
  exists q', waiting w' b i = Some q' /\
    nonnull (got_by b i (b', c, r)) ++ nonnull q' = nonnull q ++ nonnull (sent_to b i (b', c, r)).
Proof.
  intros W H N F D.
  destruct (Nat.eq_dec b' b) as [->|Nb].
  2:{ assert (w' b = w b) by (eapply exec_other; eauto). exists q. unfold waiting. rewrite H0. split; [exact F|].
      assert (got_by b i (b', c, r) = []) as ->.
      { cbn. destruct c as [|[s|]| | | | | | |]; auto. destruct r as [[]| | |]; auto.
        destruct (Nat.eqb_spec b' b); [contradiction|reflexivity]. }
      assert (sent_to b i (b', c, r) = []) as ->.
      { cbn. destruct c as [| |m [s|]| | | | | |]; auto; destruct r; auto;
          destruct (Nat.eqb_spec b' b); [contradiction|reflexivity|contradiction|reflexivity]. }
      cbn. rewrite app_nil_r. reflexivity. }
  unfold exec in H. destruct (exec1 (names_of w) b (w b) c) as [mb' r1] eqn:E. injection H as <- <-.
  unfold waiting in *. rewrite upd_same. specialize (W b) as (W1 & W2 & W3).
  assert (Ki : (0 <= i < mb_counter (w b))%Z) by (apply W2; eapply find_key; eauto).
  destruct c as [|s|m s|s| |s|j| |s]; cbn in E; cbn [discards] in D.
  - (* subscribe *)
    unfold subscribe in E. destruct (Z.ltb_spec (mb_counter (w b)) (two31 - 1)); injection E as <- <-; [|congruence].
    exists q. cbn. split; [|rewrite app_nil_r; reflexivity].
    unfold q_find, q_set. rewrite (find_insert_other _ Zcmp_eq) by lia. exact F.
  - (* get *)
    unfold get in E. destruct (getIndex _ b s) as [k| |] eqn:GI; cbn in E.
    + apply getIndex_ok in GI. destruct GI as (s0 & -> & Hs & Hk). subst k.
      unfold getQueue in E. destruct (q_find (sub_idx s0) (mb_queues (w b))) as [[|x q0]|] eqn:F0; cbn in E; injection E as <- <-.
      * exists q. split; [exact F|]. cbn. rewrite Nat.eqb_refl. cbn. destruct (sub_idx s0 =? i)%Z; cbn; rewrite app_nil_r; reflexivity.
      * cbn. rewrite Nat.eqb_refl. cbn. destruct (Z.eqb_spec (sub_idx s0) i) as [Ei|Ei].
        -- subst i. rewrite F in F0. injection F0 as ->. exists q0. split; [apply (find_insert_same _ Zcmp_eq)|].
           rewrite app_nil_r. destruct x; reflexivity.
        -- exists q. split; [|cbn; rewrite app_nil_r; reflexivity]. unfold q_find, q_set.
           rewrite (find_insert_other _ Zcmp_eq) by auto. exact F.
      * exists q. split; [exact F|]. cbn. rewrite app_nil_r; reflexivity.
    + injection E as <- <-. exists q. split; [exact F|]. cbn. destruct s; cbn; rewrite app_nil_r; reflexivity.
    + injection E as <- <-. congruence.
  - (* put *)
    unfold put in E. destruct s as [s|].
    + destruct (getIndex _ b (Some s)) as [k| |] eqn:GI; cbn in E; injection E as <- <-.
      * apply getIndex_ok in GI. destruct GI as (s0 & [= <-] & Hs & Hk).
        cbn. rewrite Nat.eqb_refl, find_put_all, F. cbn. eexists. split; [reflexivity|].
        rewrite Hk, (Z.eqb_sym i k). destruct (k =? i)%Z; cbn; [rewrite app_nil_r; reflexivity|].
        rewrite nonnull_app. reflexivity.
      * exists q. split; [exact F|]. cbn. rewrite app_nil_r; reflexivity.
      * congruence.
    + cbn in E. injection E as <- <-. cbn. rewrite Nat.eqb_refl, find_put_all, F. cbn.
      eexists. split; [reflexivity|]. destruct (Z.eqb_spec i (mb_counter (w b))); [lia|].
      rewrite nonnull_app. reflexivity.
  - unfold readyCount in E. destruct (getIndex _ b s) as [k| |]; cbn in E;
      [unfold getQueue in E; destruct (q_find k _); cbn in E| |]; injection E as <- <-;
      exists q; (split; [exact F|]); cbn; rewrite app_nil_r; reflexivity.
  - injection E as <- <-. exists q. split; [exact F|]. cbn. rewrite app_nil_r; reflexivity.
  - unfold clear in E. destruct (getIndex _ b s) as [k| |] eqn:GI; cbn in E.
    + apply getIndex_ok in GI. destruct GI as (s0 & -> & Hs & Hk). rewrite Nat.eqb_refl in D. cbn in D.
      unfold getQueue in E. destruct (q_find k _); cbn in E; injection E as <- <-;
      exists q; (split; [|cbn; rewrite app_nil_r; reflexivity]); auto. cbn. unfold q_find, q_set.
      rewrite (find_insert_other _ Zcmp_eq) by lia. exact F.
    + injection E as <- <-. exists q. split; [exact F|]. cbn. rewrite app_nil_r; reflexivity.
    + injection E as <- <-. congruence.
  - rewrite Nat.eqb_refl in D. cbn in D. unfold unsubscribe in E.
    unfold getQueue in E. destruct (q_find j _); cbn in E; injection E as <- <-;
    exists q; (split; [|cbn; rewrite app_nil_r; reflexivity]); auto. cbn. unfold q_find, q_erase.
    rewrite (find_erase_other _ Zcmp_eq) by lia. exact F.
  - injection E as <- <-. exists q. split; [exact F|]. cbn. rewrite app_nil_r; reflexivity.
  - rewrite Nat.eqb_refl in D. cbn in D. unfold drop, unsubscribe, getQueue in E.
    destruct (q_find (sub_idx s) _); cbn in E; injection E as <- <-;
    exists q; (split; [|cbn; rewrite app_nil_r; reflexivity]); auto. cbn. unfold q_find, q_erase.
    rewrite (find_erase_other _ Zcmp_eq) by lia. exact F.
Qed.

Lemma run_length h : forall w, length (snd (run w h)) = length h.
Proof.
  induction h as [|[b c] h IH]; intros w; cbn; [reflexivity|].
  destruct (exec w b c) as [w1 r]. specialize (IH w1). destruct (run w1 h). cbn in *. lia.
Qed.

Lemma run_conserve h : forall w w' rs b i q,
  wfw w -> run w h = (w', rs) -> no_ub rs -> waiting w b i = Some q ->
  (forall e, In e h -> discards b i e = false) ->
  exists q', waiting w' b i = Some q' /\
    nonnull (flat_map (got_by b i) (combine h rs)) ++ nonnull q' =
    nonnull q ++ nonnull (flat_map (sent_to b i) (combine h rs)).
Proof.
  induction h as [|[b' c] h IH]; intros w w' rs b i q W H N F D; cbn in H.
  - injection H as <- <-. exists q. split; [exact F|]. cbn. rewrite app_nil_r. reflexivity.
  - destruct (exec w b' c) as [w1 r] eqn:E. destruct (run w1 h) as [w2 rs'] eqn:R. injection H as <- <-.
    assert (Nr : r <> MUB) by (apply N; left; reflexivity).
    destruct (step_conserve w b i q b' c w1 r W E Nr F) as (q1 & F1 & E1); [apply D; left; reflexivity|].
    destruct (IH w1 w2 rs' b i q1) as (q2 & F2 & E2); auto.
    { eapply exec_wf; eauto. }
    { intros x Hx. apply N. right; exact Hx. }
    { intros e He. apply D. right; exact He. }
    exists q2. split; [exact F2|]. cbn [combine flat_map]. rewrite !nonnull_app, <- app_assoc, E2, !app_assoc, E1. reflexivity.
Qed.

(* ---- draining ---- *)
Lemma get_waiting w b s q : sub_mbox s = b -> waiting w b (sub_idx s) = Some q ->
  exec w b (CGet (Some s)) =
  match q with
  | [] => (upd w b (w b), MOk (RMsg None))
  | m :: q' => (upd w b (set_queues (w b) (q_set (sub_idx s) q' (mb_queues (w b)))), MOk (RMsg m))
  end.
Proof.
  intros Hs F. unfold exec, exec1, get. cbn. rewrite Hs, Nat.eqb_refl. cbn.
  unfold getQueue, waiting in *. rewrite F. cbn. destruct q; reflexivity.
Qed.

Lemma drain n : forall w b s q, sub_mbox s = b -> waiting w b (sub_idx s) = Some q ->
  snd (run w (repeat (b, CGet (Some s)) n)) =
  map (fun m => MOk (RMsg m)) (firstn n q ++ repeat None (n - length q)) /\
  waiting (fst (run w (repeat (b, CGet (Some s)) n))) b (sub_idx s) = Some (skipn n q).
Proof.
  induction n as [|n IH]; intros w b s q Hs F; cbn [repeat run].
  - cbn. split; [|exact F]. destruct (length q); reflexivity.
  - rewrite (get_waiting w b s q Hs F). destruct q as [|m q].
    + assert (F1 : waiting (upd w b (w b)) b (sub_idx s) = Some []) by (unfold waiting in *; rewrite upd_same; exact F).
      destruct (IH _ b s [] Hs F1) as [A B]. destruct (run (upd w b (w b)) _) as [w2 rs]. cbn in *.
      rewrite A, Nat.sub_0_r. rewrite skipn_nil in B. rewrite firstn_nil. auto.
    + set (w1 := upd w b _).
      assert (F1 : waiting w1 b (sub_idx s) = Some q).
      { unfold waiting, w1. rewrite upd_same. cbn. apply (find_insert_same _ Zcmp_eq). }
      destruct (IH _ b s q Hs F1) as [A B]. destruct (run w1 _) as [w2 rs]. cbn in *. rewrite A. auto.
Qed.

(* ---- identities ---- *)
Lemma exec_counter w b c w' r b' : exec w b c = (w', r) -> r <> MUB ->
  mb_counter (w' b') = (mb_counter (w b') + Z.of_nat (length (new_ids b' (b, c, r))))%Z /\
  (forall i, In i (new_ids b' (b, c, r)) -> i = mb_counter (w b')).
Proof.
  intros H N. destruct (Nat.eq_dec b' b) as [->|Nb].
  2:{ rewrite (exec_other _ _ _ _ _ _ H Nb).
      assert (new_ids b' (b, c, r) = []) as ->.
      { cbn. destruct c; auto. destruct r as [[]| | |]; auto. destruct (Nat.eqb_spec b b'); congruence. }
      cbn. split; [lia|tauto]. }
  unfold exec in H. destruct (exec1 _ b (w b) c) as [mb' r1] eqn:E. injection H as <- <-. rewrite upd_same.
  destruct c as [|s|m s|s| |s|j| |s]; cbn in E.
  - unfold subscribe in E. destruct (mb_counter (w b) <? two31 - 1)%Z; injection E as <- <-; [|congruence].
    cbn. rewrite Nat.eqb_refl. cbn. split; [lia|]. intros i [<-|[]]. reflexivity.
  - assert (mb_counter mb' = mb_counter (w b)).
    { unfold get in E. destruct (getIndex _ b s) as [k| |]; cbn in E; [unfold getQueue in E; destruct (q_find k _) as [[|]|]; cbn in E| |];
      injection E as <- _; reflexivity. }
    cbn. split; [lia|tauto].
  - assert (mb_counter mb' = mb_counter (w b)).
    { unfold put in E. destruct (match s with Some _ => _ | None => _ end); cbn in E; injection E as <- _; reflexivity. }
    cbn. split; [lia|tauto].
  - assert (mb_counter mb' = mb_counter (w b)).
    { unfold readyCount in E. destruct (getIndex _ b s) as [k| |]; cbn in E; [unfold getQueue in E; destruct (q_find k _); cbn in E| |];
      injection E as <- _; reflexivity. }
    cbn. split; [lia|tauto].
  - injection E as <- <-. cbn. split; [lia|tauto].
  - assert (mb_counter mb' = mb_counter (w b)).
    { unfold clear in E. destruct (getIndex _ b s) as [k| |]; cbn in E; [unfold getQueue in E; destruct (q_find k _); cbn in E| |];
      injection E as <- _; reflexivity. }
    cbn. split; [lia|tauto].
  - assert (mb_counter mb' = mb_counter (w b)).
    { unfold unsubscribe, getQueue in E. destruct (q_find j _); cbn in E; injection E as <- _; reflexivity. }
    cbn. split; [lia|tauto].
  - injection E as <- <-. cbn. split; [lia|tauto].
  - assert (mb_counter mb' = mb_counter (w b)).
    { unfold drop, unsubscribe, getQueue in E. destruct (q_find _ _); cbn in E; injection E as <- _; reflexivity. }
    cbn. split; [lia|tauto].
Qed.

Lemma run_ids h : forall w w' rs b, run w h = (w', rs) -> no_ub rs ->
  flat_map (new_ids b) (combine h rs) =
  map (fun n => mb_counter (w b) + Z.of_nat n)%Z (seq 0 (length (flat_map (new_ids b) (combine h rs)))).
Proof.
  induction h as [|[b' c] h IH]; intros w w' rs b H N; cbn in H.
  - injection H as <- <-. reflexivity.
  - destruct (exec w b' c) as [w1 r] eqn:E. destruct (run w1 h) as [w2 rs'] eqn:R. injection H as <- <-.
    assert (Nr : r <> MUB) by (apply N; left; reflexivity).
    destruct (exec_counter _ _ _ _ _ b E Nr) as [C I]. specialize (IH w1 w2 rs' b R).
    assert (N' : no_ub rs') by (intros x Hx; apply N; right; exact Hx). specialize (IH N').
    cbn [combine flat_map]. rewrite IH at 1. rewrite app_length.
    assert (L : length (new_ids b (b', c, r)) = 0 \/ new_ids b (b', c, r) = [mb_counter (w b)]).
    { destruct (new_ids b (b', c, r)) as [|x [|y l]] eqn:L; [auto| |].
      - right. f_equal. apply I. left; reflexivity.
      - exfalso. cbn in L. destruct c; try discriminate. destruct r as [[]| | |]; try discriminate.
        destruct (Nat.eqb b' b); discriminate. }
    destruct L as [L|L].
    + destruct (new_ids b (b', c, r)); [|discriminate]. cbn in *. rewrite C. apply map_ext. intros; lia.
    + rewrite L in *. cbn [length Nat.add seq map app]. f_equal; [lia|].
      rewrite <- seq_shift, map_map. apply map_ext. intros n. cbn in C. lia.
Qed.

(* ---- ownership ---- *)
Definition live w (s : sub) := exists q, waiting w (sub_mbox s) (sub_idx s) = Some q.

Definition sub_eqb (a b : sub) := Nat.eqb (sub_mbox a) (sub_mbox b) && (sub_idx a =? sub_idx b)%Z.
Lemma live_step w b c w' r s : wfw w -> exec w b c = (w', r) -> r <> MUB -> live w s ->
  discards (sub_mbox s) (sub_idx s) (b, c) = false -> live w' s.
Proof.
  intros W E N [q F] D. destruct (step_conserve w (sub_mbox s) (sub_idx s) q b c w' r W E N F D) as (q' & F' & _).
  exists q'. exact F'.
Qed.

Lemma owner_safe h : forall w w' rs own, wfw w -> run w h = (w', rs) -> no_ub rs ->
  (forall s, In s own -> live w s) ->
  owner_ok own (combine h rs) -> forall r, In r rs -> r <> MTerminate.
Proof.
  induction h as [|[b c] h IH]; intros w w' rs own W H N L O; cbn in H.
  - injection H as <- <-. intros r [].
  - destruct (exec w b c) as [w1 r1] eqn:E. destruct (run w1 h) as [w2 rs'] eqn:R. injection H as <- <-.
    assert (Nr : r1 <> MUB) by (apply N; left; reflexivity).
    assert (N' : no_ub rs') by (intros x Hx; apply N; right; exact Hx).
    assert (W1 : wfw w1) by (eapply exec_wf; eauto).
    assert (NT : (forall s, c <> CDrop s) -> r1 <> MTerminate).
    { intros ND. unfold exec in E. destruct (exec1 _ b (w b) c) as [mb' r0] eqn:E1. injection E as _ <-.
      destruct c as [|s|m s|s| |s|j| |s]; cbn in E1; try (destruct (ND s); reflexivity);
        unfold subscribe, get, put, readyCount, minReadyCount, clear, unsubscribe, subscriberCount in E1;
        repeat match type of E1 with
        | context [if ?x then _ else _] => destruct x
        | context [of_outcome _ ?x _] => destruct x as [a| |]; cbn in E1
        | context [let '(_, _) := ?x in _] => destruct x
        | context [match ?x with [] => _ | _ => _ end] => destruct x
        end; injection E1 as _ <-; discriminate. }
    assert (LS : forall own', (forall s, In s own' -> In s own /\ discards (sub_mbox s) (sub_idx s) (b, c) = false) ->
                 forall s, In s own' -> live w1 s).
    { intros own' Ho s Hs. destruct (Ho s Hs). apply (live_step w b c w1 r1); auto. }
    cbn [combine owner_ok] in O.
    intros r [<-|Hr].
    + destruct c; try (apply NT; discriminate).
      (* drop of an owned, hence live subscription *)
      destruct O as (Io & Hb & _). destruct (L _ Io) as [q F]. subst b.
      unfold exec, exec1, drop, unsubscribe, getQueue in E. unfold waiting in F. rewrite F in E. cbn in E.
      injection E as _ <-. discriminate.
    + destruct c as [|s|m s|s| |s|j| |s].
      * (* subscribe *)
        assert (LI : forall s0, In s0 own -> live w1 s0) by (apply LS; intros s0 Hs0; split; [exact Hs0|reflexivity]).
        destruct r1 as [[|s|m0|n]|e| |]; try (apply (IH w1 w2 rs' own); auto; fail).
        apply (IH w1 w2 rs' (s :: own)); auto. intros s0 [<-|Hs0].
        -- unfold exec, exec1, subscribe in E. destruct (mb_counter (w b) <? two31 - 1)%Z; injection E as <- E2; [|discriminate E2].
           rewrite <- E2. exists []. unfold waiting. cbn. rewrite upd_same. cbn. apply (find_insert_same _ Zcmp_eq).
        -- apply LI; exact Hs0.
      * apply (IH w1 w2 rs' own); auto; apply LS; intros; split; auto; reflexivity.
      * apply (IH w1 w2 rs' own); auto; apply LS; intros; split; auto; reflexivity.
      * apply (IH w1 w2 rs' own); auto; apply LS; intros; split; auto; reflexivity.
      * apply (IH w1 w2 rs' own); auto; apply LS; intros; split; auto; reflexivity.
      * (* clear keeps the queue alive *)
        apply (IH w1 w2 rs' own); auto.
        intros s0 Hs0. destruct (L _ Hs0) as [q F].
        destruct (discards (sub_mbox s0) (sub_idx s0) (b, (CClear s : call))) eqn:D; [|eapply live_step; [exact W|exact E|exact Nr|exists q; exact F|exact D]].
        cbn in D. destruct s as [s|]; [|discriminate]. apply andb_prop in D. destruct D as [D1 D2].
        apply Nat.eqb_eq in D1. apply Z.eqb_eq in D2. subst b.
        unfold exec, exec1, clear in E. cbn in E.
        destruct (Nat.eqb (sub_mbox s) (sub_mbox s0)); cbn in E.
        -- unfold getQueue in E. unfold waiting in F. rewrite D2, F in E. cbn in E. injection E as <- _.
           exists []. unfold waiting. rewrite upd_same. cbn. apply (find_insert_same _ Zcmp_eq).
        -- injection E as <- _. exists q. unfold waiting. rewrite upd_same. exact F.
      * destruct O.
      * apply (IH w1 w2 rs' own); auto; apply LS; intros; split; auto; reflexivity.
      * destruct O as (Io & Hb & O). eapply (IH w1 w2 rs' _); [exact W1|exact R|exact N'| |exact O|exact Hr].
        intros s0 Hs0. apply filter_In in Hs0. destruct Hs0 as [Hs0 D].
        eapply live_step; [exact W|exact E|exact Nr|apply L, Hs0|]. cbn. rewrite Hb in D. rewrite (Nat.eqb_sym b). rewrite (Z.eqb_sym (sub_idx s)).
        destruct (Nat.eqb (sub_mbox s0) b && (sub_idx s0 =? sub_idx s)%Z); [discriminate D|reflexivity].
Qed.
End L.
