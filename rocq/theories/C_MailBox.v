(* C_MailBox.v -- the properties, from the lemmas of L_MailBox *)
From Verif Require Import Base M_MailBox S_MailBox L_Map L_MailBox.
From Coq Require Import Permutation Sorted FinFun.

Section C.
Context {M : Type}.
Notation mbox := (mbox M). Notation world := (world M). Notation call := (call M). Notation mret := (mret M).
Implicit Types (mb : mbox) (w : world) (c : call) (r : mret) (h : list (nat * call)) (rs : list mret).

Lemma run_app h1 : forall h2 w, run w (h1 ++ h2) =
  (fst (run (fst (run w h1)) h2), snd (run w h1) ++ snd (run (fst (run w h1)) h2)).
Proof.
  induction h1 as [|[b c] h1 IH]; intros h2 w; cbn.
  - destruct (run w h2); reflexivity.
  - destruct (exec w b c) as [w1 r]. rewrite IH. destruct (run w1 h1) as [w2 rs2]. reflexivity.
Qed.
Lemma reach_wf names h rs w : reach names h rs w -> wfw w.
Proof. intros [R N]. eapply run_wf; [apply fresh_wf|exact R|exact N]. Qed.

Lemma pending_waiting w s q : waiting w (sub_mbox s) (sub_idx s) = Some q -> pending w s q.
Proof.
  intros F. split.
  - intros n. unfold future. destruct (drain n w (sub_mbox s) s q eq_refl F) as [A _]. exact A.
  - unfold answer, exec, exec1, readyCount. cbn. rewrite Nat.eqb_refl. cbn. unfold getQueue.
    unfold waiting in F. rewrite F. reflexivity.
Qed.

Lemma alive_iff w s n : answer w (sub_mbox s) (CReadyCount (Some s)) = MOk (RNum n) <->
  exists q, waiting w (sub_mbox s) (sub_idx s) = Some q /\ n = to_u32 (Z.of_nat (length q)).
Proof.
  split.
  - unfold answer, exec, exec1, readyCount. cbn. rewrite Nat.eqb_refl. cbn. unfold getQueue, waiting.
    destruct (q_find _ _) as [q|]; cbn; [|discriminate]. intros [= <-]. eauto.
  - intros (q & F & ->). apply (pending_waiting w s q F).
Qed.

Lemma dead_future w s : waiting w (sub_mbox s) (sub_idx s) = None ->
  forall n, future w s n = repeat (MThrow (missingSubscriber (mb_name (w (sub_mbox s))) (lit "get()") (sub_idx s))) n.
Proof.
  unfold future. intros F n. revert w F. induction n as [|n IH]; intros w F; [reflexivity|]. cbn [repeat run].
  assert (E : exec w (sub_mbox s) (CGet (Some s)) =
    (upd w (sub_mbox s) (w (sub_mbox s)), MThrow (missingSubscriber (mb_name (w (sub_mbox s))) (lit "get()") (sub_idx s)))).
  { unfold exec, exec1, get. cbn. rewrite Nat.eqb_refl. cbn. unfold getQueue, waiting in *. rewrite F. reflexivity. }
  rewrite E. specialize (IH (upd w (sub_mbox s) (w (sub_mbox s)))). unfold waiting in IH. rewrite upd_same in IH.
  specialize (IH F). destruct (run _ _) as [w2 rs]. cbn in *. rewrite IH. reflexivity.
Qed.

Lemma future_eq w w' s : waiting w' (sub_mbox s) (sub_idx s) = waiting w (sub_mbox s) (sub_idx s) ->
  mb_name (w' (sub_mbox s)) = mb_name (w (sub_mbox s)) -> forall n, future w' s n = future w s n.
Proof.
  intros E En n. destruct (waiting w (sub_mbox s) (sub_idx s)) as [q|] eqn:F.
  - destruct (pending_waiting _ _ _ F) as [-> _]. destruct (pending_waiting _ _ _ E) as [-> _]. reflexivity.
  - rewrite (dead_future _ _ F), (dead_future _ _ E), En. reflexivity.
Qed.

Lemma exec1_name names self mb c : mb_name (fst (exec1 names self mb c)) = mb_name mb.
Proof.
  assert (U : forall i, mb_name (fst (unsubscribe mb i)) = mb_name mb).
  { intros i. unfold unsubscribe. destruct (getQueue mb i); reflexivity. }
  destruct c as [|s|m s|s| |s|i| |s]; cbn; auto.
  - unfold subscribe. destruct (_ <? _)%Z; reflexivity.
  - unfold get. destruct (getIndex _ _ _); cbn; auto. destruct (getQueue _ _) as [[|]| |]; reflexivity.
  - unfold put. destruct (match s with None => _ | _ => _ end); reflexivity.
  - unfold readyCount. destruct (getIndex _ _ _); cbn; auto. destruct (getQueue _ _); reflexivity.
  - unfold clear. destruct (getIndex _ _ _); cbn; auto. destruct (getQueue _ _); reflexivity.
  - unfold drop. specialize (U (sub_idx s)). destruct (unsubscribe _ _); exact U.
Qed.
Lemma exec_name w b c b' : mb_name (fst (exec w b c) b') = mb_name (w b').
Proof.
  unfold exec. pose proof (exec1_name (names_of w) b (w b) c) as E. destruct (exec1 _ _ _ _) as [mb r]. cbn in *.
  destruct (Nat.eq_dec b' b) as [->|D]; [rewrite upd_same; exact E|rewrite upd_other by exact D; reflexivity].
Qed.

(* ---- C54 ---- *)
Lemma c54 names h1 rs1 w1 b c r w2 s h2 rs2 w :
  reach names h1 rs1 w1 -> exec w1 b c = (w2, r) -> r <> MUB -> starts b s c r ->
  run w2 h2 = (w, rs2) -> no_ub rs2 ->
  (forall e, In e h2 -> discards b (sub_idx s) e = false) ->
  sub_mbox s = b /\
  exists q, pending w s q /\
    nonnull (flat_map (got_by b (sub_idx s)) (combine h2 rs2)) ++ nonnull q =
    nonnull (flat_map (sent_to b (sub_idx s)) (combine h2 rs2)).
Proof.
  intros R E Nr St R2 N2 D.
  assert (W : wfw w1) by (eapply reach_wf; eauto).
  assert (W2 : wfw w2) by (eapply exec_wf; eauto).
  assert (S : sub_mbox s = b /\ waiting w2 b (sub_idx s) = Some []).
  { destruct St as [[-> ->]|[-> ->]].
    - unfold exec, exec1, subscribe in E. destruct (_ <? _)%Z; [|discriminate E]. injection E as <- <-. cbn.
      split; [reflexivity|]. unfold waiting. rewrite upd_same. apply (find_insert_same _ Zcmp_eq).
    - unfold exec, exec1, clear in E. destruct (getIndex _ b (Some s)) as [i| |] eqn:G; cbn in E; try discriminate E.
      destruct (getIndex_ok _ _ _ _ G) as (s0 & [= <-] & Hs & <-). split; [exact Hs|].
      destruct (getQueue (w1 b) (sub_idx s)); cbn in E; try discriminate E. injection E as <-.
      unfold waiting. rewrite upd_same. apply (find_insert_same _ Zcmp_eq). }
  destruct S as [Hs F]. split; [exact Hs|].
  destruct (run_conserve h2 w2 w rs2 b (sub_idx s) [] W2 R2 N2 F D) as (q & Fq & Eq).
  exists q. split; [|exact Eq]. apply pending_waiting. rewrite Hs. exact Fq.
Qed.

(* ---- C55 ---- *)
Lemma c55 names h rs w b m o w' : reach names h rs w -> exec w b (CPut m o) = (w', MOk RUnit) ->
  forall s n, sub_mbox s = b -> answer w b (CReadyCount (Some s)) = MOk (RNum n) ->
  exists q, pending w s q /\ pending w' s (if match o with Some s' => sub_idx s' =? sub_idx s | None => false end
                                           then q else q ++ [m])%Z.
Proof.
  intros R E s n <- A. apply alive_iff in A. destruct A as (q & F & _). exists q. split; [apply pending_waiting, F|].
  apply pending_waiting. pose proof (reach_wf _ _ _ _ R (sub_mbox s)) as (_ & W2 & _).
  assert (Ki : (0 <= sub_idx s < mb_counter (w (sub_mbox s)))%Z) by (apply W2; eapply find_key; exact F).
  unfold exec, exec1, put in E. destruct o as [s'|].
  - destruct (getIndex _ _ (Some s')) as [i| |] eqn:G; cbn in E; try discriminate E. injection E as <-.
    destruct (getIndex_ok _ _ _ _ G) as (s0 & [= <-] & _ & <-).
    unfold waiting in *. rewrite upd_same. cbn. rewrite find_put_all, F. cbn. rewrite (Z.eqb_sym (sub_idx s')).
    destruct (_ =? _)%Z; reflexivity.
  - cbn in E. injection E as <-. unfold waiting in *. rewrite upd_same. cbn. rewrite find_put_all, F. cbn.
    destruct (Z.eqb_spec (sub_idx s) (mb_counter (w (sub_mbox s)))); [lia|reflexivity].
Qed.
(* put never refuses a valid sender, and reaches nobody in other mailboxes *)
Lemma c55_accepts w b m o : (forall s, o = Some s -> sub_mbox s = b) ->
  exists w', exec w b (CPut m o) = (w', MOk RUnit) /\ forall s, sub_mbox s <> b -> forall n, future w' s n = future w s n.
Proof.
  intros H. unfold exec, exec1, put. destruct o as [s|]; cbn.
  - rewrite (H s eq_refl), Nat.eqb_refl. cbn. eexists. split; [reflexivity|]. intros s' Hs' n.
    apply future_eq; unfold waiting; rewrite upd_other by exact Hs'; reflexivity.
  - eexists. split; [reflexivity|]. intros s' Hs' n.
    apply future_eq; unfold waiting; rewrite upd_other by exact Hs'; reflexivity.
Qed.

(* ---- queue lengths are bounded by the number of puts ---- *)
Lemma exec_queues w b' c w' r : wfw w -> exec w b' c = (w', r) ->
  forall b i q', waiting w' b i = Some q' ->
  q' = [] \/ exists q, waiting w b i = Some q /\
     (incl q' q /\ length q' <= length q \/ exists m o, c = CPut m o /\ b' = b /\ q' = q ++ [m]).
Proof.
  intros W E b i q' F. destruct (Nat.eq_dec b b') as [->|Nb].
  2:{ right. exists q'. unfold waiting in *. rewrite (exec_other _ _ _ _ _ _ E Nb) in F. split; [exact F|]. left.
      split; [apply incl_refl|lia]. }
  unfold exec in E. destruct (exec1 (names_of w) b' (w b') c) as [mb' r1] eqn:E1. injection E as <- <-.
  unfold waiting in *. rewrite upd_same in F.
  set (G := q' = [] \/ exists q, q_find i (mb_queues (w b')) = Some q /\
    (incl q' q /\ length q' <= length q \/ exists m o, c = CPut m o /\ b' = b' /\ q' = q ++ [m])).
  change G.
  assert (ID : mb' = w b' -> G).
  { intros ->. right. exists q'. split; [exact F|]. left. split; [apply incl_refl|lia]. }
  assert (SET : forall j qj, mb_queues mb' = q_set j qj (mb_queues (w b')) ->
            (qj = [] \/ exists q0, q_find j (mb_queues (w b')) = Some q0 /\ incl qj q0 /\ length qj <= length q0) -> G).
  { intros j qj Hq Hj. rewrite Hq in F. destruct (Z.eq_dec i j) as [->|D].
    - unfold q_find, q_set in F. rewrite (find_insert_same _ Zcmp_eq) in F. injection F as <-.
      destruct Hj as [->|(q0 & F0 & I & Ln)]; [left; reflexivity|right; exists q0; auto].
    - unfold q_find, q_set in F. rewrite (find_insert_other _ Zcmp_eq) in F by exact D.
      right. exists q'. split; [exact F|]. left. split; [apply incl_refl|lia]. }
  assert (UN : forall j r0, unsubscribe (w b') j = (mb', r0) -> G).
  { intros j r0. unfold unsubscribe, getQueue. destruct (q_find j _); cbn; intros [= <- _]; [|apply ID; reflexivity].
    cbn in F. unfold q_find, q_erase in F. destruct (Z.eq_dec i j) as [->|D].
    - rewrite (find_erase_same _ Zcmp_eq) in F; [discriminate|].
      eapply ksorted_nodup; [apply Zcmp_eq|apply W].
    - rewrite (find_erase_other _ Zcmp_eq) in F by exact D. right. exists q'. split; [exact F|]. left. split; [apply incl_refl|lia]. }
  destruct c as [|s|m s|s| |s|j| |s]; cbn in E1.
  - unfold subscribe in E1. destruct (_ <? _)%Z; injection E1 as <- _; apply (SET (mb_counter (w b')) [] eq_refl); left; reflexivity.
  - unfold get in E1. destruct (getIndex _ _ s) as [j| |]; cbn in E1; [|injection E1 as <- _; apply ID; reflexivity..].
    unfold getQueue in E1. destruct (q_find j (mb_queues (w b'))) as [[|x q0]|] eqn:Fj; cbn in E1; injection E1 as <- _.
    + apply ID; reflexivity.
    + apply (SET j q0 eq_refl). right. exists (x :: q0). split; [exact Fj|]. split; [apply incl_tl, incl_refl|cbn; lia].
    + apply ID; reflexivity.
  - unfold put in E1. destruct (match s with None => _ | _ => _ end) as [o| |] eqn:Eo; cbn in E1; injection E1 as <- _;
      [|apply ID; reflexivity..].
    cbn in F. rewrite find_put_all in F. destruct (q_find i (mb_queues (w b'))) as [q|] eqn:Fi; [|discriminate F].
    cbn in F. injection F as <-. right. exists q. split; [first [exact Fi | reflexivity]|].
    destruct (i =? o)%Z; [left; split; [apply incl_refl|lia]|right; exists m, s; auto].
  - apply ID. unfold readyCount in E1. destruct (getIndex _ _ s); cbn in E1; [destruct (getQueue _ _); cbn in E1| |];
      injection E1 as <- _; reflexivity.
  - apply ID. injection E1 as <- _. reflexivity.
  - unfold clear in E1. destruct (getIndex _ _ s) as [j| |]; cbn in E1; [|injection E1 as <- _; apply ID; reflexivity..].
    destruct (getQueue _ j); cbn in E1; injection E1 as <- _; [|apply ID; reflexivity..].
    eapply SET; [reflexivity|]. left; reflexivity.
  - eapply UN; eauto.
  - apply ID. injection E1 as <- _. reflexivity.
  - unfold drop in E1. destruct (unsubscribe (w b') (sub_idx s)) as [mb1 r0] eqn:U. injection E1 as <- _. eapply UN; eauto.
Qed.

Lemma run_queues h : forall w w' rs b n (P : option M -> Prop), wfw w -> run w h = (w', rs) -> no_ub rs ->
  (forall i q, waiting w b i = Some q -> length q <= n /\ forall x, In x q -> P x) ->
  forall i q, waiting w' b i = Some q -> length q <= n + length h /\
     forall x, In x q -> P x \/ exists o, In (b, CPut x o) h.
Proof.
  induction h as [|[b' c] h IH]; intros w w' rs b n P W H N HP i q F; cbn in H.
  - injection H as <- <-. destruct (HP i q F). split; [cbn; lia|auto].
  - destruct (exec w b' c) as [w1 r] eqn:E. destruct (run w1 h) as [w2 rs'] eqn:R. injection H as <- <-.
    assert (Nr : r <> MUB) by (apply N; left; reflexivity).
    assert (N' : no_ub rs') by (intros x Hx; apply N; right; exact Hx).
    assert (W1 : wfw w1) by (eapply exec_wf; eauto).
    destruct (IH w1 w2 rs' b (S n) (fun x => P x \/ exists o, b' = b /\ c = CPut x o) W1 R N') with (i := i) (q := q) as [L I].
    + intros j qj Fj. destruct (exec_queues _ _ _ _ _ W E b j qj Fj) as [->|(q0 & F0 & [[I0 L0]|(m & o & -> & -> & ->)])].
      * split; [cbn; lia|intros x []].
      * destruct (HP _ _ F0) as [A B]. split; [lia|]. intros x Hx. left. apply B, I0, Hx.
      * destruct (HP _ _ F0) as [A B]. rewrite app_length. split; [cbn; lia|].
        intros x Hx. apply in_app_or in Hx. destruct Hx as [Hx|[<-|[]]]; [left; auto|right; eauto].
    + exact F.
    + split; [cbn; lia|]. intros x Hx. destruct (I x Hx) as [[Px|(o & -> & ->)]|(o & Io)]; auto.
      * right. exists o. left; reflexivity.
      * right. exists o. right; exact Io.
Qed.

Lemma reach_queues names h rs w b i q : reach names h rs w -> waiting w b i = Some q ->
  length q <= length h /\ forall x, In x q -> exists o, In (b, CPut x o) h.
Proof.
  intros [R N] F. destruct (run_queues h (fresh names) w rs b 0 (fun _ => False) (fresh_wf names) R N) with (i := i) (q := q) as [A B]; auto.
  - intros j qj Fj. cbv in Fj. discriminate Fj.
  - split; [exact A|]. intros x Hx. destruct (B x Hx) as [[]|]; assumption.
Qed.

Lemma small_u32 n : (0 <= n < two32)%Z -> to_u32 n = n.
Proof. intros H. unfold to_u32. apply Z.mod_small. unfold two32 in *. lia. Qed.

(* ---- C56 ---- *)
Lemma c56 names h rs w s n : reach names h rs w -> (Z.of_nat (length h) < two32)%Z -> puts_nonnull h ->
  answer w (sub_mbox s) (CReadyCount (Some s)) = MOk (RNum n) ->
  exists w' m, exec w (sub_mbox s) (CGet (Some s)) = (w', msg m) /\
    (m = None <-> n = 0%Z) /\
    exists q, pending w s q /\ pending w' s (tl q) /\ m = hd None q.
Proof.
  intros R Hl Hp A. apply alive_iff in A. destruct A as (q & F & ->).
  destruct (reach_queues _ _ _ _ _ _ _ R F) as [L I].
  assert (Hr := get_waiting w (sub_mbox s) s q eq_refl F). destruct q as [|m q].
  - exists (upd w (sub_mbox s) (w (sub_mbox s))), None. split; [exact Hr|]. split; [split; reflexivity|].
    exists []. split; [apply pending_waiting, F|]. split; [|reflexivity]. apply pending_waiting. unfold waiting in *. rewrite upd_same. exact F.
  - eexists _, m. split; [exact Hr|]. rewrite small_u32 by (unfold two32 in *; lia). split.
    + split; [|cbn; lia]. intros ->. destruct (I None (or_introl eq_refl)) as [o Io]. destruct (Hp _ _ Io).
    + exists (m :: q). split; [apply pending_waiting, F|]. split; [|reflexivity]. apply pending_waiting.
      unfold waiting. rewrite upd_same. apply (find_insert_same _ Zcmp_eq).
Qed.

(* ---- C57 ---- *)
Lemma c57 w b c s : of_other b c s -> forall n, future (fst (exec w b c)) s n = future w s n.
Proof.
  intros O n. apply future_eq; [|apply exec_name].
  destruct (exec w b c) as [w' r] eqn:E. cbn. unfold waiting. destruct (Nat.eq_dec (sub_mbox s) b) as [Hs|Hs].
  2:{ rewrite (exec_other _ _ _ _ _ _ E Hs). reflexivity. }
  unfold exec in E. destruct (exec1 _ _ _ c) as [mb r1] eqn:E1. injection E as <- <-. rewrite Hs, upd_same.
  assert (NE : forall s', s' <> s -> sub_mbox s' = b -> sub_idx s <> sub_idx s').
  { intros [x y] N Hb Q. apply N. destruct s. cbn in *. congruence. }
  assert (UN : forall j r0, sub_idx s <> j -> unsubscribe (w b) j = (mb, r0) -> q_find (sub_idx s) (mb_queues mb) = q_find (sub_idx s) (mb_queues (w b))).
  { intros j r0 D. unfold unsubscribe. destruct (getQueue _ _); cbn; intros [= <- _]; try reflexivity.
    cbn. apply (find_erase_other _ Zcmp_eq), D. }
  destruct c as [|[s'|]|m s'|[s'|]| |[s'|]|j| |s']; cbn in E1; cbn in O; try contradiction.
  - unfold get in E1. destruct (getIndex _ _ _) as [j| |] eqn:G; cbn in E1; [|injection E1 as <- _; reflexivity..].
    destruct (getIndex_ok _ _ _ _ G) as (s0 & [= <-] & Hb & <-).
    destruct (getQueue _ _) as [[|x q]| |]; cbn in E1; injection E1 as <- _; try reflexivity.
    cbn. apply (find_insert_other _ Zcmp_eq). apply NE; tauto.
  - unfold readyCount in E1. destruct (getIndex _ _ _) as [j| |] eqn:G; cbn in E1; [|injection E1 as <- _; reflexivity..].
    destruct (getQueue _ _); cbn in E1; injection E1 as <- _; reflexivity.
  - injection E1 as <- _; reflexivity.
  - unfold clear in E1. destruct (getIndex _ _ _) as [j| |] eqn:G; cbn in E1; [|injection E1 as <- _; reflexivity..].
    destruct (getIndex_ok _ _ _ _ G) as (s0 & [= <-] & Hb & <-).
    destruct (getQueue _ _); cbn in E1; injection E1 as <- _; try reflexivity.
    cbn. apply (find_insert_other _ Zcmp_eq). apply NE; tauto.
  - eapply UN; [|exact E1]. intros Q. apply O. destruct s. cbn in *. congruence.
  - injection E1 as <- _; reflexivity.
  - unfold drop in E1. destruct (unsubscribe _ _) as [mb1 r0] eqn:U. injection E1 as <- _. eapply UN; [|exact U]. apply NE; tauto.
Qed.

(* ---- members ---- *)
Lemma keys_erase (k : Z) (m : list (Z * list (option M))) : NoDup (map fst m) ->
  map fst (smap_erase Z.compare k m) = filter (fun j => negb (j =? k)%Z) (map fst m).
Proof.
  induction m as [|[k' v] m IH]; cbn; [reflexivity|]. intros ND. inversion ND as [|x l N1 N2]; subst.
  destruct (Z.compare k k') eqn:C.
  - apply Zcmp_eq in C. subst k'. rewrite Z.eqb_refl. cbn. clear -N1.
    induction (map fst m) as [|y l IH]; [reflexivity|]. cbn. destruct (Z.eqb_spec y k); cbn.
    + subst. destruct N1. left; reflexivity.
    + f_equal. apply IH. intros H. apply N1. right; exact H.
  - destruct (Z.eqb_spec k' k); [subst; rewrite Z.compare_refl in C; discriminate|]. cbn. rewrite IH by exact N2. reflexivity.
  - destruct (Z.eqb_spec k' k); [subst; rewrite Z.compare_refl in C; discriminate|]. cbn. rewrite IH by exact N2. reflexivity.
Qed.
Lemma keys_set_same (k : Z) v (m : list (Z * list (option M))) q : smap_find Z.compare k m = Some q ->
  ksorted Z.compare m -> map fst (smap_insert Z.compare k v m) = map fst m.
Proof.
  unfold ksorted. induction m as [|[k' v'] m IH]; cbn; [discriminate|]. intros F S. inversion S as [|? ? S1 S2]; subst.
  destruct (Z.compare k k') eqn:C.
  - apply Zcmp_eq in C. subst. reflexivity.
  - exfalso. apply (find_some_in _ Zcmp_eq) in F. apply (in_map fst) in F. cbn in F.
    rewrite Forall_forall in S2. specialize (S2 k F). unfold klt in S2. rewrite Z.compare_antisym, C in S2. discriminate.
  - cbn. f_equal. apply IH; auto.
Qed.
Lemma keys_insert_perm (k : Z) v (m : list (Z * list (option M))) : ~ In k (map fst m) ->
  Permutation (map fst (smap_insert Z.compare k v m)) (k :: map fst m).
Proof.
  induction m as [|[k' v'] m IH]; cbn; intros N; [constructor; constructor|].
  destruct (Z.compare k k') eqn:C.
  - apply Zcmp_eq in C. subst. destruct N. left; reflexivity.
  - reflexivity.
  - cbn. rewrite IH by tauto. apply perm_swap.
Qed.
Lemma filter_perm {A} (f : A -> bool) l l' : Permutation l l' -> Permutation (filter f l) (filter f l').
Proof.
  induction 1; cbn; auto.
  - destruct (f x); auto.
  - destruct (f x), (f y); auto. apply perm_swap.
  - etransitivity; eauto.
Qed.

Lemma member_exec w b' c w' r b ids : wfw w -> exec w b' c = (w', r) -> r <> MUB ->
  Permutation ids (map fst (mb_queues (w b))) ->
  Permutation (member_step b ids (b', c, r)) (map fst (mb_queues (w' b))).
Proof.
  intros W E Nr P. destruct (Nat.eq_dec b b') as [->|Nb].
  2:{ rewrite (exec_other _ _ _ _ _ _ E Nb). assert (Nat.eqb b' b = false) by (apply Nat.eqb_neq; auto).
      destruct c, r as [[]| | |]; cbn; rewrite ?H; exact P. }
  destruct (W b') as (Hs & Hb & _).
  assert (ND : NoDup (map fst (mb_queues (w b')))) by (eapply ksorted_nodup; [apply Zcmp_eq|exact Hs]).
  unfold exec in E. destruct (exec1 _ _ _ c) as [mb r1] eqn:E1. injection E as <- <-. rewrite upd_same.
  assert (UN : forall j r0, unsubscribe (w b') j = (mb, r0) ->
     (r0 = MOk RUnit /\ Permutation (filter (fun k => negb (k =? j)%Z) ids) (map fst (mb_queues mb))) \/
     ((exists e, r0 = MThrow e) /\ Permutation ids (map fst (mb_queues mb)))).
  { intros j r0. unfold unsubscribe, getQueue. destruct (q_find j _); cbn; intros [= <- <-]; [left|right].
    - split; [reflexivity|]. cbn. unfold q_erase. rewrite keys_erase by exact ND. apply filter_perm, P.
    - split; [eauto|exact P]. }
  destruct c as [|s|m s|s| |s|j| |s]; cbn in E1.
  - unfold subscribe in E1. destruct (_ <? _)%Z; injection E1 as <- <-; [|congruence]. cbn. rewrite Nat.eqb_refl.
    unfold q_set. rewrite keys_insert_perm; [rewrite P; reflexivity|]. intros H. apply Hb in H. lia.
  - cbn. unfold get in E1. destruct (getIndex _ _ s) as [j| |]; cbn in E1; [|injection E1 as <- _; exact P..].
    unfold getQueue in E1. destruct (q_find j _) as [[|x q]|] eqn:F; cbn in E1; injection E1 as <- _; try exact P.
    cbn. unfold q_set. rewrite (keys_set_same j q _ _ F Hs). exact P.
  - cbn. unfold put in E1. destruct (match s with None => _ | _ => _ end); cbn in E1; injection E1 as <- _; try exact P.
    cbn. rewrite put_all_keys. exact P.
  - cbn. unfold readyCount in E1. destruct (getIndex _ _ s) as [j| |]; cbn in E1; [|injection E1 as <- _; exact P..].
    destruct (getQueue _ _); cbn in E1; injection E1 as <- _; exact P.
  - injection E1 as <- _. exact P.
  - cbn. unfold clear in E1. destruct (getIndex _ _ s) as [j| |]; cbn in E1; [|injection E1 as <- _; exact P..].
    unfold getQueue in E1. destruct (q_find j _) eqn:F; cbn in E1; injection E1 as <- _; try exact P.
    cbn. unfold q_set. rewrite (keys_set_same j [] _ _ F Hs). exact P.
  - destruct (UN j r1 E1) as [[-> Q]|[[e ->] Q]]; cbn; rewrite ?Nat.eqb_refl; exact Q.
  - injection E1 as <- _. exact P.
  - unfold drop in E1. destruct (unsubscribe _ _) as [mb1 r0] eqn:U. injection E1 as <- <-.
    destruct (UN _ _ U) as [[-> Q]|[[e ->] Q]]; cbn; rewrite ?Nat.eqb_refl; exact Q.
Qed.

Lemma member_run h : forall w w' rs b ids, wfw w -> run w h = (w', rs) -> no_ub rs ->
  Permutation ids (map fst (mb_queues (w b))) ->
  Permutation (fold_left (member_step b) (combine h rs) ids) (map fst (mb_queues (w' b))).
Proof.
  induction h as [|[b' c] h IH]; intros w w' rs b ids W H N P; cbn in H.
  - injection H as <- <-. exact P.
  - destruct (exec w b' c) as [w1 r] eqn:E. destruct (run w1 h) as [w2 rs'] eqn:R. injection H as <- <-.
    assert (Nr : r <> MUB) by (apply N; left; reflexivity).
    assert (N' : no_ub rs') by (intros x Hx; apply N; right; exact Hx).
    cbn [combine fold_left]. eapply IH; [eapply exec_wf; eauto|exact R|exact N'|]. eapply member_exec; eauto.
Qed.
Lemma members_keys names h rs w b : reach names h rs w -> Permutation (members b (combine h rs)) (map fst (mb_queues (w b))).
Proof. intros [R N]. eapply member_run; [apply fresh_wf|exact R|exact N|constructor]. Qed.

Lemma members_alive names h rs w b i : reach names h rs w ->
  In i (members b (combine h rs)) <-> exists q, waiting w b i = Some q.
Proof.
  intros R. rewrite (members_keys _ _ _ _ b R). unfold waiting. split.
  - intros H. destruct (q_find i _) eqn:F; [eauto|]. apply (find_none _ Zcmp_eq) in F. contradiction.
  - intros [q F]. eapply find_key; eauto.
Qed.

(* ---- C58 ---- *)

Lemma c58_ready_count names h rs w s n : reach names h rs w -> (Z.of_nat (length h) < two32)%Z -> puts_nonnull h ->
  answer w (sub_mbox s) (CReadyCount (Some s)) = MOk (RNum n) ->
  (0 <= n)%Z /\ forall k, successes (future w s k) = Nat.min k (Z.to_nat n).
Proof.
  intros R Hl Hp A. apply alive_iff in A. destruct A as (q & F & ->).
  destruct (reach_queues _ _ _ _ _ _ _ R F) as [L I].
  rewrite small_u32 by (unfold two32 in *; lia). split; [lia|]. intros k. rewrite Nat2Z.id.
  destruct (pending_waiting _ _ _ F) as [-> _]. unfold successes. rewrite map_app, filter_app, app_length.
  assert (Z0 : forall j, length (filter (fun r : mret => match r with MOk (RMsg (Some _)) => true | _ => false end) (map msg (repeat None j))) = 0).
  { induction j; [reflexivity|exact IHj]. }
  rewrite Z0, Nat.add_0_r. assert (Hq : forall x, In x q -> x <> None).
  { intros x Hx ->. destruct (I _ Hx) as [o Io]. destruct (Hp _ _ Io). }
  clear -Hq. revert k. induction q as [|x q IH]; intros [|k]; cbn; auto.
  destruct x as [x|]; [|destruct (Hq None); [left; reflexivity|reflexivity]]. cbn. f_equal. apply IH. intros y Hy. apply Hq. right; exact Hy.
Qed.

Lemma nodup_counter (l : list Z) (c : Z) : NoDup l -> (forall k, In k l -> (0 <= k < c)%Z) -> (Z.of_nat (length l) <= Z.max 0 c)%Z.
Proof.
  intros ND H. assert (L : length l <= length (map Z.of_nat (seq 0 (Z.to_nat c)))).
  { apply NoDup_incl_length; [exact ND|]. intros k Hk. apply in_map_iff. exists (Z.to_nat k). specialize (H k Hk).
    split; [lia|]. apply in_seq. lia. }
  rewrite map_length, seq_length in L. lia.
Qed.

Lemma c58_subscribers names h rs w b : reach names h rs w ->
  answer w b CSubscriberCount = MOk (RNum (Z.of_nat (length (members b (combine h rs))))) /\
  NoDup (members b (combine h rs)) /\
  forall i, In i (members b (combine h rs)) <-> exists n, answer w b (CReadyCount (Some (mkSub b i))) = MOk (RNum n).
Proof.
  intros R. pose proof (members_keys _ _ _ _ b R) as P.
  destruct (reach_wf _ _ _ _ R b) as (Hs & Hb & Hc).
  assert (ND : NoDup (map fst (mb_queues (w b)))) by (eapply ksorted_nodup; [apply Zcmp_eq|exact Hs]).
  split; [|split].
  - rewrite (Permutation_length P). unfold answer, exec. cbn. rewrite map_length.
    rewrite small_u32; [reflexivity|]. pose proof (nodup_counter _ _ ND Hb) as X. rewrite map_length in X. unfold two31, two32 in *. lia.
  - rewrite P. exact ND.
  - intros i. rewrite (members_alive _ _ _ _ b i R). split.
    + intros [q F]. eexists. apply (alive_iff w (mkSub b i)). eauto.
    + intros [n A]. apply (alive_iff w (mkSub b i)) in A. destruct A as (q & F & _). eauto.
Qed.

Lemma fold_min (qs : list (Z * list (option M))) : forall acc,
  (forall k q, In (k, q) qs -> (Z.of_nat (length q) < two32)%Z) -> (0 <= acc < two32)%Z ->
  let r := fold_left (fun ret '(_, q) => let n := Z.of_nat (length (q : list (option M))) in if (ret <? n)%Z then ret else to_u32 n) qs acc in
  (r <= acc)%Z /\ (forall k q, In (k, q) qs -> (r <= Z.of_nat (length q))%Z) /\
  (r = acc \/ exists k q, In (k, q) qs /\ r = Z.of_nat (length q)).
Proof.
  cbv zeta. induction qs as [|[k q] qs IH]; intros acc Hq Ha; cbn [fold_left]; [split; [lia|split; [intros ? ? []|auto]]|].
  assert (Hk : (Z.of_nat (length q) < two32)%Z) by (apply (Hq k q); left; reflexivity).
  set (acc' := (if acc <? Z.of_nat (length q) then acc else to_u32 (Z.of_nat (length q)))%Z).
  assert (Ea : acc' = Z.min acc (Z.of_nat (length q))).
  { unfold acc'. rewrite small_u32 by lia. destruct (Z.ltb_spec acc (Z.of_nat (length q))); lia. }
  destruct (IH acc') as (A & B & C); [intros k0 q0 H0; apply (Hq k0 q0); right; exact H0|lia|].
  split; [lia|]. split.
  - intros k0 q0 [[= <- <-]|H]; [lia|exact (B k0 q0 H)].
  - destruct C as [C|(k0 & q0 & I & C)]; [|right; exists k0, q0; split; [right; exact I|exact C]]. rewrite C.
    destruct (Z.min_spec acc (Z.of_nat (length q))) as [[_ X]|[_ X]]; [left; lia|right; exists k, q; split; [left; reflexivity|lia]].
Qed.

Lemma c58_min names h rs w b : reach names h rs w -> (Z.of_nat (length h) < two32)%Z ->
  exists m, answer w b CMinReadyCount = MOk (RNum m) /\
    (members b (combine h rs) = [] -> m = (2^32 - 1)%Z) /\
    (forall i, In i (members b (combine h rs)) ->
       exists n, answer w b (CReadyCount (Some (mkSub b i))) = MOk (RNum n) /\ (m <= n)%Z) /\
    (members b (combine h rs) <> [] -> exists i, In i (members b (combine h rs)) /\ answer w b (CReadyCount (Some (mkSub b i))) = MOk (RNum m)).
Proof.
  intros R Hl. pose proof (members_keys _ _ _ _ b R) as P.
  destruct (reach_wf _ _ _ _ R b) as (Hs & Hb & Hc).
  assert (ND : NoDup (map fst (mb_queues (w b)))) by (eapply ksorted_nodup; [apply Zcmp_eq|exact Hs]).
  assert (IF : forall k q, In (k, q) (mb_queues (w b)) -> waiting w b k = Some q).
  { intros k q H. apply (in_find _ Zcmp_eq); auto. }
  assert (LN : forall k q, In (k, q) (mb_queues (w b)) -> (Z.of_nat (length q) < two32)%Z).
  { intros k q H. destruct (reach_queues _ _ _ _ _ _ _ R (IF _ _ H)). lia. }
  eexists. split; [unfold answer, exec; cbn; reflexivity|].
  destruct (fold_min (mb_queues (w b)) (two32 - 1)%Z LN) as (A & B & C); [unfold two32; lia|]. cbn zeta in A, B, C.
  set (m := fold_left _ _ _) in *. split; [|split].
  - intros E. rewrite E in P. apply Permutation_nil in P. destruct (mb_queues (w b)); [|discriminate P]. reflexivity.
  - intros i H. apply (members_alive _ _ _ _ b i R) in H. destruct H as [q F].
    exists (Z.of_nat (length q)). assert (Fi : In (i, q) (mb_queues (w b))) by (apply (find_some_in _ Zcmp_eq), F). split; [|eauto].
    apply (alive_iff w (mkSub b i)). exists q. rewrite small_u32; [auto|]. specialize (LN _ _ Fi). lia.
  - intros NE. assert (X : exists k q, In (k, q) (mb_queues (w b)) /\ m = Z.of_nat (length q)).
    { destruct C as [C|C]; [|exact C]. destruct (mb_queues (w b)) as [|[k q] t] eqn:Q.
      - destruct NE. apply Permutation_sym, Permutation_nil in P. exact P.
      - exists k, q. split; [left; reflexivity|]. specialize (B k q (or_introl eq_refl)).
        specialize (LN k q (or_introl eq_refl)). unfold two32 in *. lia. }
    destruct X as (k & q & I & E). exists k. split.
    + apply (members_alive _ _ _ _ b k R). eauto.
    + apply (alive_iff w (mkSub b k)). exists q. split; [apply IF, I|]. rewrite small_u32; [exact E|]. specialize (LN _ _ I). lia.
Qed.

(* ---- C59 ---- *)
Lemma c59 w b s c : sub_mbox s <> b ->
  (c = CGet (Some s) \/ (exists m, c = CPut m (Some s)) \/ c = CClear (Some s) \/ c = CReadyCount (Some s)) ->
  exists w' e, exec w b c = (w', MThrow e) /\ ex_class e = SubscriptionMismatch /\ (forall b', w' b' = w b').
Proof.
  intros D H. assert (G : getIndex (names_of w) b (Some s) = Throw (subscriptionMismatch (names_of w b) (names_of w (sub_mbox s)))).
  { cbn. destruct (Nat.eqb_spec (sub_mbox s) b); [contradiction|reflexivity]. }
  exists (upd w b (w b)), (subscriptionMismatch (names_of w b) (names_of w (sub_mbox s))).
  split; [|split; [reflexivity|]].
  - unfold exec. destruct H as [->|[[m ->]|[->| ->]]]; cbn [exec1];
      unfold get, put, clear, readyCount; rewrite G; reflexivity.
  - intros b'. unfold upd. destruct (Nat.eqb_spec b' b); congruence.
Qed.

(* ---- C60 ---- *)
Lemma c60 names h rs w b : reach names h rs w -> NoDup (flat_map (new_ids b) (combine h rs)).
Proof.
  intros [R N]. rewrite (run_ids h _ _ _ b R N). apply FinFun.Injective_map_NoDup; [|apply seq_NoDup].
  intros x y. lia.
Qed.

(* ---- C61 ---- *)
Lemma c61 names h rs w b m : reach names h rs w ->
  held w b m <-> exists i k, In i (members b (combine h rs)) /\
                 nth_error (future w (mkSub b i) (S k)) k = Some (msg (Some m)).
Proof.
  intros R. destruct (reach_wf _ _ _ _ R b) as (Hs & _).
  assert (ND : NoDup (map fst (mb_queues (w b)))) by (eapply ksorted_nodup; [apply Zcmp_eq|exact Hs]).
  split.
  - intros (i & q & I & Im). assert (F : waiting w b i = Some q) by (apply (in_find _ Zcmp_eq); auto).
    apply In_nth_error in Im. destruct Im as [k Hk]. exists i, k. split; [apply (members_alive _ _ _ _ b i R); eauto|].
    destruct (pending_waiting w (mkSub b i) q F) as [-> _].
    rewrite nth_error_map, nth_error_app1.
    2:{ rewrite firstn_length. assert (k < length q) by (apply nth_error_Some; congruence). lia. }
    assert (X : nth_error (firstn (S k) q) k = nth_error q k).
    { clear. revert q. induction k; intros [|x q]; cbn; auto. apply IHk. }
    rewrite X, Hk. reflexivity.
  - intros (i & k & Im & H). apply (members_alive _ _ _ _ b i R) in Im. destruct Im as [q F].
    destruct (pending_waiting w (mkSub b i) q F) as [Q _]. rewrite Q in H.
    exists i, q. split; [apply (find_some_in _ Zcmp_eq), F|]. rewrite nth_error_map in H.
    destruct (nth_error _ k) as [x|] eqn:X; [|discriminate H]. cbn in H. injection H as ->.
    apply nth_error_In, in_app_or in X. destruct X as [X|X]; [rewrite <- (firstn_skipn (S k) q); apply in_or_app; left; exact X|].
    apply repeat_spec in X. discriminate X.
Qed.
Lemma c61_released names h rs w b : reach names h rs w -> (Z.of_nat (length h) < two32)%Z ->
  (forall i, In i (members b (combine h rs)) -> answer w b (CReadyCount (Some (mkSub b i))) = MOk (RNum 0)) ->
  forall m, ~ held w b m.
Proof.
  intros R Hl A m (i & q & I & Im). destruct (reach_wf _ _ _ _ R b) as (Hs & _).
  assert (ND : NoDup (map fst (mb_queues (w b)))) by (eapply ksorted_nodup; [apply Zcmp_eq|exact Hs]).
  assert (F : waiting w b i = Some q) by (apply (in_find _ Zcmp_eq); auto).
  assert (Mi : In i (members b (combine h rs))) by (apply (members_alive _ _ _ _ b i R); eauto).
  specialize (A i Mi). apply (alive_iff w (mkSub b i)) in A. destruct A as (q' & F' & E). cbn in F'.
  rewrite F in F'. injection F' as <-. destruct (reach_queues _ _ _ _ _ _ _ R F) as [L _].
  rewrite small_u32 in E by lia. destruct q; [destruct Im|cbn in E; lia].
Qed.
Lemma c61_origin names h rs w b m : reach names h rs w -> held w b m -> exists o, In (b, CPut (Some m) o) h.
Proof.
  intros R (i & q & I & Im). destruct (reach_wf _ _ _ _ R b) as (Hs & _).
  assert (F : waiting w b i = Some q) by (apply (in_find _ Zcmp_eq); [eapply ksorted_nodup; [apply Zcmp_eq|exact Hs]|exact I]).
  destruct (reach_queues _ _ _ _ _ _ _ R F) as [_ X]. apply X, Im.
Qed.

(* ---- C63 ---- *)
Lemma c63 names h rs w : reach names h rs w -> owner_ok [] (combine h rs) -> forall r, In r rs -> r <> MTerminate.
Proof.
  intros [R N] O. eapply owner_safe; [apply fresh_wf|exact R|exact N| |exact O]. intros s [].
Qed.
Lemma c63_removes names h rs w s w' : reach names h rs w -> exec w (sub_mbox s) (CDrop s) = (w', MOk RUnit) ->
  exists e, answer w' (sub_mbox s) (CReadyCount (Some s)) = MThrow e /\ ex_class e = MissingSubscriber.
Proof.
  intros R E. destruct (reach_wf _ _ _ _ R (sub_mbox s)) as (Hs & _).
  unfold exec, exec1, drop, unsubscribe, getQueue in E. destruct (q_find (sub_idx s) _); cbn in E; [|discriminate E].
  injection E as <-. eexists. split.
  - unfold answer, exec, exec1, readyCount. cbn. rewrite Nat.eqb_refl. cbn. rewrite upd_same. unfold getQueue. cbn.
    unfold q_find, q_erase. rewrite (find_erase_same _ Zcmp_eq) by (eapply ksorted_nodup; [apply Zcmp_eq|exact Hs]). reflexivity.
  - reflexivity.
Qed.
End C.
