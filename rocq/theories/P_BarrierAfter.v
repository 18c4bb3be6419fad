(* P_BarrierAfter.v -- C120: a barrier after one of its waiters timed out *)
From Verif Require Import Base M_Barrier S_Barrier L_Barrier L_BarrierN L_BarrierT L_BarrierR L_BarrierA C_Barrier.
Local Open Scope nat_scope.

(* C120 is false: at a barrier for two, thread 0 times out and is gone; then
   thread 1, alone, calls wait and passes, because the thread that gave up is still
   counted *)
Theorem C120_passes_alone_refuted : exists ks st, 
  execution 2 0 ks [ECall 0; ERead 0; EArrive 0; EExpire 0; EBroke 0; EThrow 0 ThrewTimeout; ERet 0 ThrewTimeout;
                    ECall 1; ERead 1; EArrive 1; EGen 1; ERet 1 Passed] st.
Proof.
  destruct (trace_sound 2 0 (arrive_sleep 0 ++ time_out 0 ++ arrive_last 1)
    [ECall 0; ERead 0; EArrive 0; EExpire 0; EBroke 0; EThrow 0 ThrewTimeout; ERet 0 ThrewTimeout;
     ECall 1; ERead 1; EArrive 1; EGen 1; ERet 1 Passed]) as (ks&st&H&_); [vm_compute; reflexivity|]. eauto.
Qed.
Print Assumptions C120_passes_alone_refuted.

(* what does hold, for any number of threads: a call made after the Timeout
   passes only if a round was completed since it looked at the barrier ... *)
Theorem C120_later_call_needs_round_partial : forall n b0 ks tr st u t a m b, execution n b0 ks tr st ->
  tr = a ++ EThrow u ThrewTimeout :: m ++ ERet t Passed :: b -> In (ECall t) m ->
  exists v, since_read t (EGen v) (a ++ EThrow u ThrewTimeout :: m).
Proof. exact later_needs_round. Qed.
(* ... a round takes n arrivals, those of calls that gave up included: also
   after the Timeout there are never fewer than n arrivals for each round, and
   once n have come after the last round the next round is under way ... *)
Theorem C120_gave_up_still_counted_partial : forall n b0 ks tr st a u b, (1 <= n < 2 ^ 32)%Z -> execution n b0 ks tr st ->
  tr = a ++ EThrow u ThrewTimeout :: b ->
  (n * Z.of_nat (count is_gen tr) <= Z.of_nat (count is_arrive tr) <= n * Z.of_nat (count is_gen tr) + n)%Z /\
  ((forall t, calls t tr = rets t tr) -> (Z.of_nat (count is_arrive tr) < n * Z.of_nat (count is_gen tr) + n)%Z).
Proof.
  intros n b0 ks tr st a u b Hn HE _. destruct (generations _ _ _ _ _ Hn HE) as [A B]. split; [exact A|].
  intros C. destruct (Z.eq_dec (Z.of_nat (count is_arrive tr)) (n * Z.of_nat (count is_gen tr) + n)) as [E|E]; [|lia].
  destruct (B E) as (t & L). rewrite C in L. lia.
Qed.
(* ... and a later call that gives up gets Corrupt, after its own timeout *)
Theorem C120_later_exception_is_corrupt_partial : forall n b0 ks tr st u t r a m b, execution n b0 ks tr st ->
  tr = a ++ ERet u ThrewTimeout :: m ++ ERet t r :: b -> r <> Passed ->
  r = ThrewCorrupt /\ since_call t (EExpire t) (a ++ ERet u ThrewTimeout :: m).
Proof.
  intros n b0 ks tr st u t r a m b HE E Hr. split.
  - pose proof (one_timeout _ _ _ _ _ HE) as O. rewrite E in O. rewrite !count_app in O. unfold count at 2 in O. cbn in O.
    rewrite filter_app, app_length in O. cbn in O. destruct r; auto; [congruence|]. cbn in O. lia.
  - eapply throws_only_own_expiry; eauto. rewrite E, <- app_assoc. reflexivity.
Qed.
Print Assumptions C120_later_call_needs_round_partial.
Print Assumptions C120_gave_up_still_counted_partial.
Print Assumptions C120_later_exception_is_corrupt_partial.
(* three waiters: one times out, a later one gets Corrupt, then a third completes the round the two had entered *)
Example C120_nonvacuous : exists ks tr st a m b, execution 3 0 ks tr st /\
  tr = a ++ EThrow 0 ThrewTimeout :: m ++ ERet 2 Passed :: b /\ In (ECall 2) m /\ In (ERet 1 ThrewCorrupt) m /\
  count is_arrive tr = 3 /\ count is_gen tr = 1.
Proof.
  destruct (exec (binit 3 0) [] [] (arrive_sleep 0 ++ time_out 0 ++ arrive_sleep 1 ++ time_out_again 1 ++ arrive_last 2)) as [[[ks tr] st]|] eqn:E.
  2: { exfalso. revert E. vm_compute. discriminate. }
  assert (Et : tr = [ECall 0; ERead 0; EArrive 0; EExpire 0; EBroke 0; EThrow 0 ThrewTimeout; ERet 0 ThrewTimeout;
     ECall 1; ERead 1; EArrive 1; EExpire 1; EThrow 1 ThrewCorrupt; ERet 1 ThrewCorrupt;
     ECall 2; ERead 2; EArrive 2; EGen 2; ERet 2 Passed]) by (revert E; vm_compute; congruence).
  exists ks, tr, st, [ECall 0; ERead 0; EArrive 0; EExpire 0; EBroke 0],
    [ERet 0 ThrewTimeout; ECall 1; ERead 1; EArrive 1; EExpire 1; EThrow 1 ThrewCorrupt; ERet 1 ThrewCorrupt; ECall 2; ERead 2; EArrive 2; EGen 2], [].
  split; [eapply exec_sound; [apply bs_nil|exact E]|]. rewrite Et. split; [reflexivity|]. cbn. intuition.
Qed.
