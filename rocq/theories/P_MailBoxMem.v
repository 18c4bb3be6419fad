(* P_MailBoxMem.v -- C117 (a mailbox when memory runs out) and C118 (the life
   of a message) for the model of include/MailBox.hxx. *)
From Verif Require Import Base M_MailBox S_MailBox L_MailBox C_MailBox M_MailBoxMem S_MailBoxMem L_MailBoxMem.

Definition nm0 (b : nat) : str := lit "cmds".
Definition A0 : sub := mkSub 0 0.
Definition B0 : sub := mkSub 0 1.
Definition hm : list (nat * call nat) := [(0, CSubscribe); (0, CSubscribe); (0, CPut (Some 7) None)].
Definition wm : world nat := fst (run (fresh nm0) hm).
Lemma reachm : reach nm0 hm (snd (run (fresh nm0) hm)) wm.
Proof.
  split; [apply surjective_pairing|]. intros r H. vm_compute in H.
  repeat (destruct H as [<-|H]; [discriminate|]). destruct H.
Qed.

(* C117.  The property is false in two ways.  A put that runs out of memory has
   sent its message to some subscribers and not to others (the witness is the
   32nd message, where libstdc++'s deque does need memory for each queue); *)
Definition h31 : list (nat * call nat) := [(0, CSubscribe); (0, CSubscribe)] ++ repeat (0, CPut (Some 7) None) 31.
Definition w31 : world nat := fst (run (fresh nm0) h31).
Lemma reach31 : reach nm0 h31 (snd (run (fresh nm0) h31)) w31.
Proof.
  split; [apply surjective_pairing|]. intros r H. vm_compute in H.
  repeat (destruct H as [<-|H]; [discriminate|]). destruct H.
Qed.
Theorem C117_put_all_or_nothing_refuted : exists h (rs : list (mret nat)) w w' m s1 s2,
  reach nm0 h rs w /\ exec_mem 1 w 0 (CPut (Some m) None) = (w', NoMemory) /\
  pending w s1 (repeat (Some 7) 31) /\ pending w' s1 (repeat (Some 7) 31 ++ [Some m]) /\
  pending w s2 (repeat (Some 7) 31) /\ pending w' s2 (repeat (Some 7) 31).
Proof.
  exists h31, (snd (run (fresh nm0) h31)), w31, (fst (exec_mem 1 w31 0 (CPut (Some 8) None))), 8, A0, B0.
  split; [exact reach31|]. split; [vm_compute; reflexivity|].
  split; [|split; [|split]]; apply pending_waiting; vm_compute; reflexivity.
Qed.
(* and a subscribe that runs out of memory hangs: it lets go of the
   Subscription it has made while it holds the mutex the Subscription's
   destructor locks. *)
Theorem C117_subscribe_hangs_refuted : forall w b, exists w' : world nat,
  exec_mem 0 w b CSubscribe = (w', NoMemory) /\ exists w1 w2,
  exec_mem 1 w b CSubscribe = (w1, SelfLock) /\ exec_mem 2 w b CSubscribe = (w2, SelfLock).
Proof. intros. eexists. split; [reflexivity|]. eexists _, _. split; reflexivity. Qed.
Print Assumptions C117_put_all_or_nothing_refuted.
Print Assumptions C117_subscribe_hangs_refuted.

(* What does hold.  A put that runs out of memory reached the subscribers below
   some number (the sender excepted) and no other; nobody loses a message *)
Theorem C117_failed_put_partial : forall (M : Type) names h (rs : list (mret M)) w n b m o w',
  reach names h rs w -> exec_mem n w b (CPut m o) = (w', NoMemory) ->
  exists p, forall s, alive w s -> exists q, pending w s q /\
    pending w' s (if Nat.eqb (sub_mbox s) b && (sub_idx s <? p)%Z &&
                     negb (match o with Some s' => (sub_idx s' =? sub_idx s)%Z | None => false end)
                  then q ++ [m] else q).
Proof.
  intros M names h rs w n b m o w' R E. destruct (mem_put _ _ _ _ _ _ (reach_wf _ _ _ _ R) E) as ((p & Hp) & Nm & Ot).
  exists p. intros s [k Al]. apply alive_iff in Al. destruct Al as (q & F & _). exists q. split; [apply pending_waiting, F|].
  apply pending_waiting. destruct (Nat.eqb_spec (sub_mbox s) b) as [Eb|Nb].
  - subst b. rewrite (Hp s eq_refl), F. cbn. destruct (match o with Some _ => _ | None => _ end), (sub_idx s <? p)%Z; reflexivity.
  - unfold waiting in *. rewrite (Ot _ Nb). exact F.
Qed.
(* any other call that runs out of memory changes nothing; only subscribe can hang *)
Theorem C117_failed_call_partial : forall (M : Type) n (w : world M) b c w' o,
  exec_mem n w b c = (w', o) -> o = NoMemory \/ o = SelfLock -> (forall m s, c <> CPut m s) ->
  (forall b', w' b' = w b') /\ (o = SelfLock -> c = CSubscribe).
Proof.
  intros M n w b c w' o E Ho NP. split; [eapply mem_nomem; eauto|]. intros ->. eapply mem_lock; eauto.
Qed.
(* a call that does not run out does what it always does, and with enough
   memory no call runs out *)
Theorem C117_otherwise_as_usual : forall (M : Type) n (w : world M) b c w' r,
  exec_mem n w b c = (w', Done r) -> exec w b c = (w', r).
Proof. intros; eapply mem_done; eauto. Qed.
Theorem C117_enough_memory : forall (M : Type) (w : world M) b c, exists N, forall n, N <= n ->
  exists w' r, exec_mem n w b c = (w', Done r).
Proof.
  intros. exists (Nat.max 3 (length (mb_queues (w b)))). intros n H. eexists _, _. apply mem_enough; lia.
Qed.
(* taking messages, counting them and giving up a subscription in use need no memory at all *)
Theorem C117_taking_needs_none : forall (M : Type) n (w : world M) s c, alive w s -> about c s ->
  exists w' r, exec_mem n w (sub_mbox s) c = (w', Done r) /\ exec w (sub_mbox s) c = (w', r).
Proof.
  intros M n w s c Al Ab. eexists _, _. split; [apply mem_about; auto|]. destruct (exec w _ c); reflexivity.
Qed.
Print Assumptions C117_failed_put_partial.
Print Assumptions C117_failed_call_partial.
Print Assumptions C117_otherwise_as_usual.
Print Assumptions C117_enough_memory.
Print Assumptions C117_taking_needs_none.
Example C117_nonvacuous :
  (exists w', exec_mem 1 wm 0 (CPut (Some 8) (Some A0)) = (w', Done (MOk RUnit))) /\
  (exists w', exec_mem 0 wm 0 (CPut (Some 8) (Some A0)) = (w', NoMemory)) /\
  (exists w', exec_mem 1 wm 0 CMinReadyCount = (w', NoMemory)) /\
  alive wm A0 /\ (exists w', exec_mem 0 wm 0 (CGet (Some A0)) = (w', Done (msg (Some 7)))) /\
  (exists w', exec_mem 0 wm 0 (CUnsubscribe 9) = (w', NoMemory)).
Proof.
  repeat split; try (eexists; vm_compute; reflexivity).
Qed.

(* ---- C118: messages ---- *)

(* a message lives as long as the program holds a pointer to it or some
   subscriber can still get it *)
Theorem C118_alive_iff_wanted : forall (M : Type) names tr ss (st : rstate M) m, rsteps names tr ss st ->
  referenced st m <-> In m (r_hands st) \/ exists b, obtainable (r_world st) b m.
Proof.
  intros M names tr ss st m R. destruct (rsteps_wf _ _ _ _ R) as [W _]. split; intros [I|[b H]]; [left; exact I| |left; exact I|].
  - right. exists b. apply obtain; auto.
  - right. exists b. apply (obtain _ _ _ W), H.
Qed.
(* it is destroyed once: after the step that destroys it nobody has it again,
   and only messages that were made are destroyed *)
Theorem C118_destroyed_once : forall (M : Type) names tr ss (st : rstate M) x y after m, rsteps names tr ss st ->
  consecutive (st :: ss) x y after -> destroyed_by x y m ->
  In (RNew m) (map fst tr) /\ forall z, In z (y :: after) -> ~ referenced z m.
Proof. intros; split; [eapply gone_made; eauto|eapply gone_stays; eauto]. Qed.
(* and it is destroyed when nobody wants it any more *)
Theorem C118_reclaimed : forall (M : Type) names tr ss (st : rstate M) m, rsteps names tr ss st ->
  In (RNew m) (map fst tr) -> ~ In m (r_hands st) -> (forall b, ~ obtainable (r_world st) b m) ->
  exists x y after, consecutive (st :: ss) x y after /\ destroyed_by x y m.
Proof.
  intros M names tr ss st m R I NH NO. eapply gone_somewhere; eauto. intros Rf.
  apply (C118_alive_iff_wanted _ _ _ _ _ _ R) in Rf. destruct Rf as [Rf|[b Rf]]; [exact (NH Rf)|exact (NO b Rf)].
Qed.
(* put, get, subscribe and the counts destroy nothing: a message dies when the
   program lets its last pointer go, or, if the program has none, when a queue is
   emptied by clear, unsubscribe, the end of a subscription or of the mailbox *)
Theorem C118_who_destroys : forall (M : Type) names tr ss (st st' : rstate M) op r m, rsteps names tr ss st ->
  rstep st op r st' -> r <> MUB -> destroyed_by st st' m ->
  op = RRelease m \/ (empties op /\ ~ In m (r_hands st)).
Proof. intros M names tr ss st st' op r m R S N D. destruct (rsteps_wf _ _ _ _ R) as [W _]. eapply who_destroys; eauto. Qed.
Print Assumptions C118_alive_iff_wanted.
Print Assumptions C118_destroyed_once.
Print Assumptions C118_reclaimed.
Print Assumptions C118_who_destroys.

(* a run: 5 is made and put, the program lets it go, one subscriber gets it and
   lets it go; then the other's queue is cleared *)
Definition st_end : rstate nat :=
  mkR (fst (run (fresh nm0) [(0, CSubscribe); (0, CSubscribe); (0, CPut (Some 5) None); (0, CGet (Some A0))])) [].
Lemma some_run : exists tr ss, rsteps nm0 tr ss st_end /\ In (RNew 5) (map fst tr).
Proof.
  eexists _, _. split.
  - eapply rs_step.
    + eapply rs_step.
      * eapply rs_step.
        -- eapply rs_step.
           ++ eapply rs_step.
              ** eapply rs_step.
                 --- eapply rs_step; [apply rs_init|apply (r_call _ _ 0 CSubscribe); [exact I|vm_compute; reflexivity]|discriminate|discriminate].
                 --- apply (r_call _ _ 0 CSubscribe); [exact I|reflexivity].
                 --- discriminate.
                 --- discriminate.
              ** apply (r_new _ _ 5).
              ** discriminate.
              ** intros m [= <-]. cbn. intros [H|[H|[]]]; discriminate.
           ++ apply (r_call _ _ 0 (CPut (Some 5) None)); [left; reflexivity|reflexivity].
           ++ discriminate.
           ++ discriminate.
        -- apply (r_release _ [] 5 []).
        -- discriminate.
        -- discriminate.
      * apply (r_call _ _ 0 (CGet (Some A0))); [exact I|vm_compute; reflexivity].
      * discriminate.
      * discriminate.
    + apply (r_release _ [] 5 []).
    + discriminate.
    + discriminate.
  - cbn. tauto.
Qed.

Lemma held5 : referenced st_end 5.
Proof. right. exists 0, 1%Z, [Some 5]. split; [right; left; reflexivity|left; reflexivity]. Qed.
Example C118_nonvacuous :
  (exists tr ss, rsteps nm0 tr ss st_end /\ In (RNew 5) (map fst tr)) /\ referenced st_end 5 /\ r_hands st_end = [] /\
  exists st', rstep st_end (RCall 0 (CClear (Some B0))) (MOk RUnit) st' /\ destroyed_by st_end st' 5.
Proof.
  split; [exact some_run|]. split; [exact held5|]. split; [reflexivity|].
  eexists. split; [apply (r_call _ _ 0 (CClear (Some B0))); [exact I|reflexivity]|]. split; [exact held5|].
  intros [[]|(b & k & q & H & Hm)]. cbn in H. destruct b as [|b]; cbn in H; [|exact H].
  destruct H as [H|[H|[]]]; injection H as <- <-; destruct Hm.
Qed.

(* C119: the destructor of a message may use the mailbox.  False: clear,
   unsubscribe and the end of a subscription destroy messages with the
   mailbox locked, so a destructor that calls the mailbox hangs. *)
Theorem C119_destructor_hangs_refuted : exists tr ss (st st' : rstate nat) uses,
  rsteps nm0 tr ss st /\ rstep st (RCall 0 (CClear (Some B0))) (MOk RUnit) st' /\
  uses 5 = [0] /\ self_locks uses st (RCall 0 (CClear (Some B0))) st'.
Proof.
  destruct some_run as (tr & ss & R & _). destruct C118_nonvacuous as (_ & _ & _ & st' & S & D).
  exists tr, ss, st_end, st', (fun _ => [0]). split; [exact R|]. split; [exact S|]. split; [reflexivity|].
  exists 5, 0. split; [exact D|]. split; left; reflexivity.
Qed.
(* what does hold: no other operation hangs, though put and get hold the lock
   too, and only a message that waited in that very mailbox, held by nobody,
   and whose destructor uses that very mailbox, hangs these *)
Theorem C119_other_operations_safe_partial : forall (M : Type) names tr ss (st st' : rstate M) op r uses,
  rsteps names tr ss st -> rstep st op r st' -> r <> MUB -> self_locks uses st op st' ->
  exists b m, (exists s, op = RCall b (CClear s) \/ (exists i, op = RCall b (CUnsubscribe i)) \/ (exists s', op = RCall b (CDrop s'))) /\
    obtainable (r_world st) b m /\ ~ In m (r_hands st) /\ In b (uses m).
Proof.
  intros M names tr ss st st' op r uses R S N (m & b & D & U & L). destruct (rsteps_wf _ _ _ _ R) as [W _].
  destruct (who_destroys _ _ _ _ _ W S N D) as [->|[E NH]]; [destruct L|].
  exists b, m.
  assert (X : exists c, op = RCall b c /\ (exists s, op = RCall b (CClear s) \/ (exists i, op = RCall b (CUnsubscribe i)) \/ (exists s', op = RCall b (CDrop s')))).
  { destruct op as [| | |b' c|]; try destruct L. destruct c; cbn in L; try contradiction; destruct L as [<-|[]]; try contradiction E;
      eexists; (split; [reflexivity|]); first [eexists; left; reflexivity | exists None; right; eauto]. }
  destruct X as (c & -> & X). split; [exact X|]. split; [|split; [exact NH|exact U]].
  apply (obtain _ _ _ W). destruct D as [[I|(b' & k & q & I & Im)] NR]; [contradiction|].
  destruct (Nat.eq_dec b' b) as [->|Nb]; [eauto|]. destruct NR. right. exists b', k, q. split; [|exact Im].
  inversion S as [| | |w hs b0 c0 w' r0 MC E1|]; subst. cbn. rewrite (exec_other _ _ _ _ _ _ E1 Nb). exact I.
Qed.
(* and these three do hang, whenever they destroy such a message *)
Theorem C119_hangs_exactly_partial : forall (M : Type) names tr ss (st st' : rstate M) op r uses,
  rsteps names tr ss st -> rstep st op r st' -> r <> MUB ->
  (self_locks uses st op st' <->
   exists b m, ((exists s, op = RCall b (CClear s)) \/ (exists i, op = RCall b (CUnsubscribe i)) \/ (exists s, op = RCall b (CDrop s))) /\
     destroyed_by st st' m /\ In b (uses m)).
Proof.
  intros M names tr ss st st' op r uses R S N. split.
  - intros (m & b & D & U & L). destruct (rsteps_wf _ _ _ _ R) as [W _].
    destruct (who_destroys _ _ _ _ _ W S N D) as [->|[E NH]]; [destruct L|]. exists b, m. split; [|auto].
    destruct op as [| | |b' c|]; try destruct L. destruct c; cbn in L; try contradiction; destruct L as [<-|[]]; try contradiction E; eauto.
  - intros (b & m & X & D & U). exists m, b. split; [exact D|]. split; [exact U|].
    destruct X as [(s & ->)|[(i & ->)|(s & ->)]]; left; reflexivity.
Qed.
Print Assumptions C119_hangs_exactly_partial.
Print Assumptions C119_destructor_hangs_refuted.
Print Assumptions C119_other_operations_safe_partial.
(* the case of the refutation meets the hypotheses; with a destructor that
   leaves mailbox 0 alone nothing hangs *)
Example C119_nonvacuous : forall st' : rstate nat,
  rstep st_end (RCall 0 (CClear (Some B0))) (MOk RUnit) st' -> ~ self_locks (fun _ => [1]) st_end (RCall 0 (CClear (Some B0))) st'.
Proof.
  intros st' S H. destruct some_run as (tr & ss & R & _).
  assert (N : MOk RUnit <> (MUB : mret nat)) by discriminate.
  destruct (C119_other_operations_safe_partial _ _ _ _ _ _ _ _ _ R S N H) as (b & m & [s [E|[[i E]|[s' E]]]] & _ & _ & [U|[]]);
    congruence.
Qed.
