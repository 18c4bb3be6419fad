(* L_MailBoxMem.v *)
From Verif Require Import Base M_MailBox S_MailBox L_Map L_MailBox C_MailBox M_MailBoxMem S_MailBoxMem.
From Coq Require Import Sorted Classical_Prop.

Section L.
Context {M : Type}.
Implicit Types (w : world M) (c : call M) (r : mret M) (mb : mbox M).

(* ---- memory ---- *)
Lemma put_upto_ok n omit (m : option M) qs : forall qs', put_upto n omit m qs = (qs', true) -> qs' = put_all omit m qs.
Proof.
  revert n. induction qs as [|[k q] qs IH]; intros n qs' E; cbn in E; [injection E as <-; reflexivity|].
  cbn. destruct (k =? omit)%Z.
  - destruct (put_upto n omit m qs) as [t ok] eqn:P. injection E as <- ->. rewrite (IH _ _ P). reflexivity.
  - destruct n as [|n]; [discriminate|]. destruct (put_upto n omit m qs) as [t ok] eqn:P. injection E as <- ->.
    rewrite (IH _ _ P). reflexivity.
Qed.
Lemma put_upto_enough omit (m : option M) qs : forall n, length qs <= n -> exists qs', put_upto n omit m qs = (qs', true).
Proof.
  induction qs as [|[k q] qs IH]; intros n H; cbn in *; [eauto|].
  destruct (k =? omit)%Z.
  - destruct (IH n) as [t ->]; [lia|]. eauto.
  - destruct n as [|n]; [lia|]. destruct (IH n) as [t ->]; [lia|]. eauto.
Qed.
Lemma put_upto_find n omit (m : option M) qs : forall qs' ok, ksorted Z.compare qs -> put_upto n omit m qs = (qs', ok) ->
  exists p, forall i, q_find i qs' = option_map (fun q => if (i =? omit)%Z then q else if (i <? p)%Z then q ++ [m] else q) (q_find i qs).
Proof.
  revert n. unfold q_find. induction qs as [|[k q] qs IH]; intros n qs' ok S E; cbn in E.
  { injection E as <- _. exists 0%Z. reflexivity. }
  assert (S' : ksorted Z.compare qs) by (inversion S; auto).
  assert (HK : forall i x, smap_find Z.compare i qs = Some x -> (k < i)%Z).
  { intros i x F. apply (find_some_in _ Zcmp_eq) in F. inversion S as [|? ? HF HS]; subst.
    rewrite Forall_forall in HS. specialize (HS _ (in_map fst _ _ F)). exact HS. }
  destruct (Z.eqb_spec k omit) as [Ek|Ek].
  - destruct (put_upto n omit m qs) as [t o] eqn:P. injection E as <- _. destruct (IH _ _ _ S' P) as [p Hp].
    exists p. intros i. cbn. destruct (Z.compare i k) eqn:C; [|exact (Hp i)..].
    apply Zcmp_eq in C. subst. cbn. rewrite Z.eqb_refl. reflexivity.
  - destruct n as [|n].
    + injection E as <- _. exists k. intros i. cbn. destruct (Z.compare i k) eqn:C.
      * apply Zcmp_eq in C. subst. cbn. destruct (k =? omit)%Z; [reflexivity|]. rewrite Z.ltb_irrefl. reflexivity.
      * destruct (smap_find Z.compare i qs) eqn:F; [|reflexivity]. cbn. destruct (i =? omit)%Z; [reflexivity|].
        apply HK in F. replace (i <? k)%Z with false by lia. reflexivity.
      * destruct (smap_find Z.compare i qs) eqn:F; [|reflexivity]. cbn. destruct (i =? omit)%Z; [reflexivity|].
        apply HK in F. replace (i <? k)%Z with false by lia. reflexivity.
    + destruct (put_upto n omit m qs) as [t o] eqn:P. injection E as <- _. destruct (IH _ _ _ S' P) as [p Hp].
      exists (Z.max p (k + 1)). intros i. cbn. destruct (Z.compare i k) eqn:C.
      * apply Zcmp_eq in C. subst. cbn. replace (k =? omit)%Z with false by lia. replace (k <? Z.max p (k + 1))%Z with true by lia. reflexivity.
      * rewrite Hp. destruct (smap_find Z.compare i qs) eqn:F; [|reflexivity]. cbn. destruct (i =? omit)%Z; [reflexivity|].
        apply HK in F. replace (i <? Z.max p (k + 1))%Z with (i <? p)%Z by lia. reflexivity.
      * rewrite Hp. destruct (smap_find Z.compare i qs) eqn:F; [|reflexivity]. cbn. destruct (i =? omit)%Z; [reflexivity|].
        apply HK in F. replace (i <? Z.max p (k + 1))%Z with (i <? p)%Z by lia. reflexivity.
Qed.

Lemma frugal_done n mb x mb' r : frugal n mb x = (mb', Done r) -> x = (mb', r).
Proof. unfold frugal. destruct x as [a [v|e| |]], n; cbn; congruence. Qed.
Lemma frugal_nomem n mb x mb' : frugal n mb x = (mb', NoMemory) -> mb' = mb.
Proof. unfold frugal. destruct x as [a [v|e| |]], n; cbn; congruence. Qed.
Lemma frugal_lock n mb x mb' : frugal n mb x = (mb', SelfLock) -> False.
Proof. unfold frugal. destruct x as [a [v|e| |]], n; cbn; congruence. Qed.

Lemma mem_done n w b c w' r : exec_mem n w b c = (w', Done r) -> exec w b c = (w', r).
Proof.
  unfold exec_mem, exec. destruct (exec1_mem n (names_of w) b (w b) c) as [mb o] eqn:E. intros [= <- ->].
  assert (X : exec1 (names_of w) b (w b) c = (mb, r)); [|rewrite X; reflexivity].
  destruct c as [|s|m s|s| |s|j| |s]; cbn [exec1_mem] in E; try (apply frugal_done in E; exact E).
  - destruct n as [|[|[|n]]]; try discriminate. cbn. destruct (subscribe b (w b)). congruence.
  - cbn. unfold put. destruct (match s with None => _ | _ => _ end) as [o| |]; cbn.
    + destruct (put_upto n o m (mb_queues (w b))) as [qs ok] eqn:P. destruct ok; [|discriminate E].
      apply put_upto_ok in P. subst. congruence.
    + destruct n; congruence.
    + congruence.
  - destruct (Nat.ltb n _); [discriminate|]. cbn [exec1]. destruct (minReadyCount (w b)). cbn [fst snd] in E. congruence.
  - cbn. destruct (drop (w b) s). cbn in E. congruence.
Qed.

Lemma mem_nomem n w b c w' o : (forall m s, c <> CPut m s) -> exec_mem n w b c = (w', o) -> o = NoMemory \/ o = SelfLock -> forall b', w' b' = w b'.
Proof.
  intros NP. unfold exec_mem. destruct (exec1_mem n (names_of w) b (w b) c) as [mb o'] eqn:E. intros [= <- ->] Ho b'.
  assert (X : mb = w b); [|subst; unfold upd; destruct (Nat.eqb_spec b' b); congruence].
  destruct c as [|s|m s|s| |s|j| |s]; cbn [exec1_mem] in E;
    try (destruct Ho as [-> | ->]; [apply frugal_nomem in E; exact E|destruct (frugal_lock _ _ _ _ E)]).
  - destruct n as [|[|[|n]]]; try congruence. destruct (subscribe b (w b)). destruct Ho; congruence.
  - destruct (NP m s eq_refl).
  - destruct (Nat.ltb n _); [congruence|]. destruct Ho; congruence.
  - destruct Ho; congruence.
Qed.

Lemma mem_lock n w b c w' : exec_mem n w b c = (w', SelfLock) -> c = CSubscribe.
Proof.
  unfold exec_mem. destruct (exec1_mem n (names_of w) b (w b) c) as [mb o'] eqn:E. intros [= <- ->].
  destruct c as [|s|m s|s| |s|j| |s]; cbn [exec1_mem] in E; try (destruct (frugal_lock _ _ _ _ E)); auto.
  - destruct (match s with None => _ | _ => _ end) as [o| |]; [|destruct n; congruence|congruence].
    destruct (put_upto n o m _) as [? []]; congruence.
  - destruct (Nat.ltb n _); congruence.
  - congruence.
Qed.

Lemma mem_put n w b m o w' : wfw w -> exec_mem n w b (CPut m o) = (w', NoMemory) ->
  (exists p, forall s, sub_mbox s = b -> waiting w' b (sub_idx s) =
    option_map (fun q => if match o with Some s' => (sub_idx s' =? sub_idx s)%Z | None => false end then q
                         else if (sub_idx s <? p)%Z then q ++ [m] else q) (waiting w b (sub_idx s))) /\
  (forall b', mb_name (w' b') = mb_name (w b')) /\ (forall b', b' <> b -> w' b' = w b').
Proof.
  intros W. unfold exec_mem. destruct (exec1_mem n (names_of w) b (w b) (CPut m o)) as [mb o'] eqn:E. intros [= <- ->].
  cbn [exec1_mem] in E. destruct (W b) as (Hs & Hk & _).
  destruct (match o with None => _ | _ => _ end) as [om| |] eqn:Eo.
  - destruct (put_upto n om m (mb_queues (w b))) as [qs ok] eqn:P. injection E as <- E. split; [|split].
    + destruct (put_upto_find _ _ _ _ _ _ Hs P) as [p Hp]. exists p. intros s Hb. unfold waiting. rewrite upd_same. cbn [set_queues mb_queues].
      rewrite Hp. destruct (q_find (sub_idx s) (mb_queues (w b))) as [q|] eqn:F; [|reflexivity]. cbn.
      destruct o as [s'|].
      * apply getIndex_ok in Eo. destruct Eo as (s0 & E0 & _ & <-). injection E0 as ->. rewrite (Z.eqb_sym (sub_idx s)). reflexivity.
      * injection Eo as <-. apply find_key in F. apply Hk in F. replace (sub_idx s =? mb_counter (w b))%Z with false by lia. reflexivity.
    + intros b'. unfold upd. destruct (Nat.eqb_spec b' b); [subst; reflexivity|reflexivity].
    + intros b' D. apply upd_other, D.
  - destruct n; [|discriminate]. injection E as <-. split; [|split].
    + exists (-1)%Z. intros s Hb. unfold waiting. rewrite upd_same.
      destruct (q_find (sub_idx s) (mb_queues (w b))) as [q|] eqn:F; [|reflexivity]. cbn.
      apply find_key in F. apply Hk in F. replace (sub_idx s <? -1)%Z with false by lia. destruct o; [destruct (_ =? _)%Z|]; reflexivity.
    + intros b'. unfold upd. destruct (Nat.eqb_spec b' b); [subst; reflexivity|reflexivity].
    + intros b' D. apply upd_other, D.
  - discriminate.
Qed.

Lemma mem_enough w b c n : 3 <= n -> length (mb_queues (w b)) <= n -> exec_mem n w b c = (fst (exec w b c), Done (snd (exec w b c))).
Proof.
  intros H3 Hn. unfold exec_mem, exec.
  assert (X : exec1_mem n (names_of w) b (w b) c = (fst (exec1 (names_of w) b (w b) c), Done (snd (exec1 (names_of w) b (w b) c)))).
  2:{ rewrite X. destruct (exec1 (names_of w) b (w b) c). reflexivity. }
  assert (FR : forall mb x, frugal n mb x = (fst x, Done (snd x))).
  { intros mb [a [v|e| |]]; unfold frugal; cbn; destruct n; try reflexivity. lia. }
  destruct c as [|s|m s|s| |s|j| |s]; cbn [exec1_mem exec1]; try apply FR.
  - destruct n as [|[|[|n]]]; try lia. destruct (subscribe b (w b)). reflexivity.
  - unfold put. destruct (match s with None => _ | _ => _ end) as [o| |]; cbn.
    + destruct (put_upto_enough o m (mb_queues (w b)) n Hn) as [qs P]. rewrite P. apply put_upto_ok in P. subst. reflexivity.
    + destruct n; [lia|reflexivity].
    + reflexivity.
  - replace (Nat.ltb n _) with false by (symmetry; apply Nat.ltb_ge; exact Hn). reflexivity.
  - reflexivity.
Qed.

Lemma mem_about n w s c : alive w s -> about c s -> exec_mem n w (sub_mbox s) c = (fst (exec w (sub_mbox s) c), Done (snd (exec w (sub_mbox s) c))).
Proof.
  intros [k A] Hc. apply alive_iff in A. destruct A as (q & F & _). unfold waiting in F. unfold exec_mem, exec.
  assert (FR : forall mb x, (forall e, snd x <> MThrow e) -> @frugal M n mb x = (fst x, Done (snd x))).
  { intros mb [a [v|e| |]] N; unfold frugal; cbn in *; destruct n; try reflexivity. destruct (N e eq_refl). }
  assert (X : exec1_mem n (names_of w) (sub_mbox s) (w (sub_mbox s)) c =
     (fst (exec1 (names_of w) (sub_mbox s) (w (sub_mbox s)) c), Done (snd (exec1 (names_of w) (sub_mbox s) (w (sub_mbox s)) c)))).
  2:{ rewrite X. destruct (exec1 _ _ _ c). reflexivity. }
  destruct Hc as [->|[->|[->|[->| ->]]]]; cbn [exec1_mem exec1]; try reflexivity; apply FR; intros e.
  - unfold get. cbn. rewrite Nat.eqb_refl. cbn. unfold getQueue. rewrite F. cbn. destruct q; discriminate.
  - unfold readyCount. cbn. rewrite Nat.eqb_refl. cbn. unfold getQueue. rewrite F. discriminate.
  - unfold clear. cbn. rewrite Nat.eqb_refl. cbn. unfold getQueue. rewrite F. discriminate.
  - unfold unsubscribe. unfold getQueue. rewrite F. discriminate.
Qed.

(* ---- messages ---- *)
Lemma wf_in w b k q : wfw w -> In (k, q) (mb_queues (w b)) -> waiting w b k = Some q.
Proof.
  intros W I. apply (in_find _ Zcmp_eq); auto. eapply ksorted_nodup; [apply Zcmp_eq|apply W].
Qed.
Lemma in_wf w b k q : waiting w b k = Some q -> In (k, q) (mb_queues (w b)).
Proof. apply (find_some_in _ Zcmp_eq). Qed.

Lemma end_wf w b : wfw w -> wfw (upd w b (set_queues (w b) [])).
Proof.
  intros W b'. unfold upd. destruct (Nat.eqb_spec b' b); [subst|apply W]. destruct (W b) as (_ & _ & H).
  split; [constructor|]. split; [intros k []|exact H].
Qed.
Lemma rstep_wf (st st' : rstate M) op r : wfw (r_world st) -> rstep st op r st' -> r <> MUB -> wfw (r_world st').
Proof.
  intros W S N. destruct S; cbn in *; auto.
  - eapply exec_wf; eauto.
  - apply end_wf, W.
Qed.
Lemma rsteps_wf names tr ss st : @rsteps M names tr ss st -> wfw (r_world st) /\ forall x, In x ss -> wfw (r_world x).
Proof.
  induction 1 as [|tr ss st op r st' R [IH1 IH2] S N F]; [split; [apply fresh_wf|intros x []]|].
  split; [eapply rstep_wf; eauto|]. intros x [<-|I]; auto.
Qed.

(* nothing comes back to life *)
Lemma no_new (st st' : rstate M) op r m : wfw (r_world st) -> rstep st op r st' -> r <> MUB ->
  referenced st' m -> referenced st m \/ op = RNew m.
Proof.
  intros W S N Rf. destruct S as [w hs x|w hs x I|w l1 x l2|w hs b c w' r MC E|w hs b]; cbn in W.
  - destruct Rf as [[<-|I]|Q]; [right; reflexivity|left; left; exact I|left; right; exact Q].
  - destruct Rf as [[<-|I']|Q]; [left; left; exact I|left; left; exact I'|left; right; exact Q].
  - destruct Rf as [I|Q]; [|left; right; exact Q]. left. left. cbn in *. apply in_app_or in I. apply in_or_app. cbn. tauto.
  - left. destruct Rf as [I|(b' & k & q & I & Im)]; cbn in *.
    + apply in_app_or in I. destruct I as [I|I]; [|left; exact I]. right.
      destruct r as [[| |[m0|]|]| | |]; cbn in I; try contradiction. destruct I as [->|[]].
      cbn. unfold exec in E. destruct (exec1 _ _ _ c) as [mb r0] eqn:E1. injection E as <- ->.
      destruct c as [|s|y s|s| |s|j| |s]; cbn in E1.
      * unfold subscribe in E1. destruct (_ <? _)%Z; discriminate.
      * unfold get in E1. destruct (getIndex _ _ s) as [j| |]; cbn in E1; try discriminate.
        unfold getQueue in E1. destruct (q_find j _) as [[|z q]|] eqn:F; cbn in E1; try discriminate.
        injection E1 as _ ->. exists b, j, (Some m :: q). split; [apply in_wf, F|left; reflexivity].
      * unfold put in E1. destruct (match s with None => _ | _ => _ end); discriminate.
      * unfold readyCount in E1. destruct (getIndex _ _ s); cbn in E1; [destruct (getQueue _ _)| |]; discriminate.
      * discriminate.
      * unfold clear in E1. destruct (getIndex _ _ s); cbn in E1; [destruct (getQueue _ _)| |]; discriminate.
      * unfold unsubscribe in E1. destruct (getQueue _ _); discriminate.
      * discriminate.
      * unfold drop, unsubscribe in E1. destruct (getQueue _ _); discriminate.
    + assert (W' : wfw w') by (eapply exec_wf; eauto). apply (wf_in _ _ _ _ W') in I.
      destruct (exec_queues _ _ _ _ _ W E _ _ _ I) as [->|(q0 & F & [[Inc _]|(x & o & -> & -> & ->)])]; [destruct Im| |].
      * right. exists b', k, q0. split; [apply in_wf, F|apply Inc, Im].
      * apply in_app_or in Im. destruct Im as [Im|[->|[]]].
        -- right. exists b', k, q0. split; [apply in_wf, F|exact Im].
        -- left. exact MC.
  - left. destruct Rf as [I|(b' & k & q & I & Im)]; [left; exact I|]. right. cbn in *.
    unfold upd in I. destruct (Nat.eqb_spec b' b); [destruct I|]. exists b', k, q. auto.
Qed.

Lemma nonnull_in (l : list (option M)) m : In m (nonnull l) <-> In (Some m) l.
Proof.
  unfold nonnull. rewrite in_flat_map. split.
  - intros ([x|] & I & H); cbn in H; [destruct H as [->|[]]; exact I|destruct H].
  - intros I. exists (Some m). split; [exact I|left; reflexivity].
Qed.

(* what can destroy *)
Lemma who_destroys (st st' : rstate M) op r m : wfw (r_world st) -> rstep st op r st' -> r <> MUB ->
  destroyed_by st st' m -> op = RRelease m \/ (empties op /\ ~ In m (r_hands st)).
Proof.
  intros W S N [Rf NR]. destruct S as [w hs x|w hs x I|w l1 x l2|w hs b c w' r MC E|w hs b]; cbn in W.
  - destruct NR. destruct Rf as [I|Q]; [left; right; exact I|right; exact Q].
  - destruct NR. destruct Rf as [I'|Q]; [left; right; exact I'|right; exact Q].
  - left. destruct Rf as [I|Q]; [|destruct NR; right; exact Q]. cbn in *. apply in_app_or in I. destruct I as [I|[->|I]].
    + destruct NR. left. apply in_or_app. left; exact I.
    + reflexivity.
    + destruct NR. left. apply in_or_app. right; exact I.
  - right. destruct Rf as [I|(b' & k & q & I & Im)].
    { destruct NR. left. apply in_or_app. right; exact I. }
    split; [|intros I'; apply NR; left; apply in_or_app; right; exact I']. cbn in *.
    apply (wf_in _ _ _ _ W) in I. destruct (discards b' k (b, c)) eqn:D.
    { destruct c as [|s|y s|s| |s|j| |s]; cbn in D; try discriminate; cbn; auto. }
    destruct (step_conserve _ _ _ _ _ _ _ _ W E N I D) as (q' & F' & EQ).
    assert (X : In m (nonnull (got_by b' k (b, c, r)) ++ nonnull q')).
    { rewrite EQ. apply in_or_app. left. apply nonnull_in, Im. }
    apply in_app_or in X. destruct X as [X|X]; apply nonnull_in in X.
    + destruct NR. left. cbn. apply in_or_app. left. cbn in X.
      destruct c as [|[s|]|y s|s| |s|j| |s]; try contradiction. destruct r as [[| |x|]| | |]; try contradiction.
      destruct (_ && _); [|destruct X]. destruct X as [->|[]]. left. reflexivity.
    + destruct NR. right. cbn. exists b', k, q'. split; [apply in_wf, F'|exact X].
  - right. split; [exact I|]. intros I. apply NR. left. exact I.
Qed.

Lemma was_made names tr ss st m : @rsteps M names tr ss st ->
  (referenced st m -> In (RNew m) (map fst tr)) /\ (forall x, In x ss -> referenced x m -> In (RNew m) (map fst tr)).
Proof.
  induction 1 as [|tr ss st op r st' R [IH1 IH2] S N F].
  - split; [intros [[]|(b & k & q & [] & _)]|intros x []].
  - destruct (rsteps_wf _ _ _ _ R) as [W _]. rewrite map_app. cbn. split.
    + intros Rf. destruct (no_new _ _ _ _ _ W S N Rf) as [Rf'| ->]; [apply in_or_app; left; auto|apply in_or_app; right; left; reflexivity].
    + intros x [<-|I] Rf; apply in_or_app; left; eauto.
Qed.

Lemma gone_made names tr ss st x y after m : @rsteps M names tr ss st -> consecutive (st :: ss) x y after ->
  destroyed_by x y m -> In (RNew m) (map fst tr).
Proof.
  intros R [before E] [Rx _]. destruct (was_made _ _ _ _ m R) as [_ G].
  destruct after as [|a after]; injection E as E1 E2; apply (G x); auto; rewrite E2.
  - left; reflexivity.
  - apply in_or_app; right; right; left; reflexivity.
Qed.

Lemma gone_stays names tr ss st : @rsteps M names tr ss st -> forall x y after m, consecutive (st :: ss) x y after ->
  destroyed_by x y m -> forall z, In z (y :: after) -> ~ referenced z m.
Proof.
  induction 1 as [|tr ss st op r st' R IH S N F]; intros x y after m [before E] D.
  { destruct after as [|a [|? ?]]; discriminate. }
  destruct (rsteps_wf _ _ _ _ R) as [W _]. destruct after as [|a after]; cbn in E.
  - injection E as <- <- <-. intros z [<-|[]]. apply D.
  - injection E as <- E. assert (C : consecutive (st :: ss) x y after) by (exists before; exact E).
    specialize (IH x y after m C D). pose proof (gone_made _ _ _ _ _ _ _ _ R C D) as NM.
    assert (NS : ~ referenced st m).
    { destruct after as [|a after]; injection E as E1 E2; subst; apply IH; [left; reflexivity|right; left; reflexivity]. }
    intros z [<-|[<-|I]].
    + apply IH. left. reflexivity.
    + intros Rf. destruct (no_new _ _ _ _ _ W S N Rf) as [Rf'| ->]; [exact (NS Rf')|]. exact (F m eq_refl NM).
    + apply IH. right. exact I.
Qed.

Lemma gone_somewhere names tr ss st m : @rsteps M names tr ss st -> In (RNew m) (map fst tr) -> ~ referenced st m ->
  exists x y after, consecutive (st :: ss) x y after /\ destroyed_by x y m.
Proof.
  induction 1 as [|tr ss st op r st' R IH S N F]; [intros []|]. intros I NR.
  destruct (classic (referenced st m)) as [Rf|NRf].
  - exists st, st', []. split; [exists ss; reflexivity|split; assumption].
  - rewrite map_app in I. apply in_app_or in I. destruct I as [I|[E|[]]].
    + destruct (IH I NRf) as (x & y & a & [bf E] & D). exists x, y, (st' :: a). split; [|exact D]. exists bf. cbn. rewrite E. reflexivity.
    + cbn in E. subst op. destruct NR. inversion S; subst. left. left. reflexivity.
Qed.

Lemma obtain w b m : wfw w -> obtainable w b m <-> exists k q, In (k, q) (mb_queues (w b)) /\ In (Some m) q.
Proof.
  intros W. split.
  - intros (i & k & H). destruct (waiting w b i) as [q|] eqn:F.
    + destruct (pending_waiting w (mkSub b i) q F) as [Q _]. rewrite Q in H.
      exists i, q. split; [apply in_wf, F|]. rewrite nth_error_map in H.
      destruct (nth_error _ k) as [x|] eqn:X; [|discriminate H]. cbn in H. injection H as ->.
      apply nth_error_In, in_app_or in X. destruct X as [X|X]; [rewrite <- (firstn_skipn (S k) q); apply in_or_app; left; exact X|].
      apply repeat_spec in X. discriminate X.
    + rewrite (dead_future w (mkSub b i) F) in H. apply nth_error_In, repeat_spec in H. discriminate H.
  - intros (i & q & I & Im). assert (F : waiting w b i = Some q) by (apply wf_in; auto).
    apply In_nth_error in Im. destruct Im as [k Hk]. exists i, k.
    destruct (pending_waiting w (mkSub b i) q F) as [-> _].
    rewrite nth_error_map, nth_error_app1.
    2:{ rewrite firstn_length. assert (k < length q) by (apply nth_error_Some; congruence). lia. }
    assert (X : nth_error (firstn (S k) q) k = nth_error q k).
    { clear. revert q. induction k; intros [|x q]; cbn; auto. apply IHk. }
    rewrite X, Hk. reflexivity.
Qed.
End L.
