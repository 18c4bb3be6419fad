(* P_Barrier.v -- theorems about Barrier::wait (C64-C71, C81) *)
From Verif Require Import Base M_Barrier S_Barrier L_Barrier L_BarrierN L_BarrierT L_BarrierR C_Barrier.
Local Open Scope nat_scope.

(* ---- C64 ---- *)
(* n threads, any starting counter value, no timeout expiring: when t1 returns
   for the (rets t1 a + 1)-th time, every thread has called at least that often. *)
Theorem C64_nobody_passes_early : forall n b0 ks tr st t1 t2 a b r,
  1 <= n -> (Z.of_nat n < two32)%Z -> (0 <= b0 < two32)%Z ->
  execution (Z.of_nat n) b0 ks tr st -> only_threads n tr -> no_expiry ks -> t1 < n -> t2 < n ->
  tr = a ++ ERet t1 r :: b -> rets t1 a < calls t2 a /\ r = Passed.
Proof. exact early. Qed.
Print Assumptions C64_nobody_passes_early.
(* two threads, two rounds, the second round crossing over the first's wakeup *)
Example C64_nonvacuous : exists ks tr st, execution 2 0 ks tr st /\ only_threads 2 tr /\ no_expiry ks /\
  rets 0 tr = 2 /\ rets 1 tr = 2.
Proof.
  destruct (trace_sound 2 0 (arrive_sleep 0 ++ arrive_last 1 ++ arrive_sleep 1 ++ wake_leave 0 ++ [(KSpurious, 1); (KRun, 1); (KRun, 1)] ++ arrive_last 0 ++ wake_leave 1)
    [ECall 0; ERead 0; EArrive 0; ECall 1; ERead 1; EArrive 1; EGen 1; ERet 1 Passed; ECall 1; ERead 1; EArrive 1;
     ERet 0 Passed; ECall 0; ERead 0; EArrive 0; EGen 0; ERet 0 Passed; ERet 1 Passed]) as (ks&st&H&->); [vm_compute; reflexivity|].
  do 3 eexists. split; [exact H|]. split; [|split; [|split; vm_compute; reflexivity]].
  - intros t Hi. cbn in Hi. repeat (destruct Hi as [Hi|Hi]; [try discriminate; injection Hi; lia|]). contradiction.
  - intro Hi. cbn in Hi. repeat (destruct Hi as [Hi|Hi]; [discriminate|]). contradiction.
Qed.

(* ---- C65 ---- *)
(* no deadlock: while somebody still has a round to finish, a thread can run, or
   a thread that has calls left is outside wait and can make one *)
Theorem C65_no_deadlock : forall n b0 ks tr st R,
  1 <= n -> (Z.of_nat n < two32)%Z -> (0 <= b0 < two32)%Z ->
  execution (Z.of_nat n) b0 ks tr st -> only_threads n tr -> no_expiry ks -> at_most_calls R tr ->
  (exists t, t < n /\ rets t tr < R) ->
  (exists e st', bstep st KRun e st') \/ (exists t st', t < n /\ calls t tr < R /\ bstep st KCall [ECall t] st').
Proof. exact progress. Qed.
Print Assumptions C65_no_deadlock.
(* every execution in which each thread calls at most R times makes a bounded
   number of steps (spurious wakeups aside) ... *)
Theorem C65_bounded_work : forall n b0 ks tr st R,
  1 <= n -> (Z.of_nat n < two32)%Z -> (0 <= b0 < two32)%Z ->
  execution (Z.of_nat n) b0 ks tr st -> only_threads n tr -> no_expiry ks -> at_most_calls R tr ->
  work_steps ks <= 11 * n * R + 2 * spurious_steps ks.
Proof. exact work_bounded. Qed.
Print Assumptions C65_bounded_work.
(* ... and when it cannot go on, all waits have returned *)
Theorem C65_everybody_passes : forall n b0 ks tr st R,
  1 <= n -> (Z.of_nat n < two32)%Z -> (0 <= b0 < two32)%Z ->
  execution (Z.of_nat n) b0 ks tr st -> only_threads n tr -> no_expiry ks -> at_most_calls R tr ->
  (forall e st', ~ bstep st KRun e st') -> (forall t st', t < n -> calls t tr < R -> ~ bstep st KCall [ECall t] st') ->
  forall t, t < n -> rets t tr = R.
Proof. exact finish. Qed.
Print Assumptions C65_everybody_passes.
Example C65_nonvacuous : exists ks tr st, execution 2 0 ks tr st /\ only_threads 2 tr /\ no_expiry ks /\ at_most_calls 1 tr /\
  rets 0 tr < 1.
Proof.
  destruct (trace_sound 2 0 (arrive_sleep 0 ++ [(KSpurious, 0)]) [ECall 0; ERead 0; EArrive 0]) as (ks&st&H&->); [vm_compute; reflexivity|].
  do 3 eexists. split; [exact H|]. split; [|split; [|split]].
  - intros t Hi. cbn in Hi. repeat (destruct Hi as [Hi|Hi]; [try discriminate; injection Hi; lia|]). contradiction.
  - intro Hi. cbn in Hi. repeat (destruct Hi as [Hi|Hi]; [discriminate|]). contradiction.
  - intro t. unfold calls, count. cbn. destruct t; cbn; lia.
  - vm_compute. lia.
Qed.

(* ---- C66 ---- *)
Theorem C66_no_data_race : forall n b0 ks tr st t1 t2,
  1 <= n -> (Z.of_nat n < two32)%Z -> (0 <= b0 < two32)%Z ->
  execution (Z.of_nat n) b0 ks tr st -> only_threads n tr -> no_expiry ks ->
  reading st t1 -> writing st t2 -> False.
Proof. exact no_race. Qed.
Print Assumptions C66_no_data_race.
(* both sides of the would-be race are reachable, separately *)
Example C66_nonvacuous : (exists ks tr st, execution 2 0 ks tr st /\ no_expiry ks /\ reading st 0) /\
  (exists ks tr st, execution 2 0 ks tr st /\ no_expiry ks /\ writing st 1).
Proof.
  split.
  - exists [KCall], [ECall 0], (with_thr (binit 2 0) 0 TCalled). split; [|split; [intros [X|[]]; discriminate|reflexivity]].
    apply (bs_snoc _ [] [] _ KCall [ECall 0] _ (bs_nil _)). apply b_call. reflexivity.
  - destruct (exec (binit 2 0) [] [] (arrive_sleep 0 ++ [(KCall, 1); (KRun, 1); (KRun, 1); (KRun, 1); (KRun, 1)])) as [[[ks tr] st]|] eqn:E.
    2: { exfalso. revert E. vm_compute. discriminate. }
    exists ks, tr, st. split; [eapply exec_sound; [apply bs_nil|exact E]|].
    assert (ks = repeat KCall 1 ++ repeat KRun 5 ++ [KCall] ++ repeat KRun 4) as -> by (revert E; vm_compute; congruence).
    split; [intro Hi; cbn in Hi; repeat (destruct Hi as [Hi|Hi]; [discriminate|]); contradiction|].
    exists 0%Z. left.
    assert (Q : option_map (fun x => b_thr (snd x) 1) (exec (binit 2 0) [] [] (arrive_sleep 0 ++ [(KCall, 1); (KRun, 1); (KRun, 1); (KRun, 1); (KRun, 1)])) = Some (THold 0 HBump)) by (vm_compute; reflexivity).
    rewrite E in Q. cbn in Q. congruence.
Qed.

(* ---- C67: any number of threads, any timeouts ---- *)
Theorem C67_at_most_one_timeout : forall n b0 ks tr st, execution n b0 ks tr st ->
  count is_timeout_ret tr <= 1 /\ count is_timeout_throw tr <= 1.
Proof. intros n b0 ks tr st H. pose proof (one_timeout _ _ _ _ _ H). lia. Qed.
Print Assumptions C67_at_most_one_timeout.
Theorem C67_corrupt_only_after_timeout : forall n b0 ks tr st t tr1 tr2, execution n b0 ks tr st ->
  (tr = tr1 ++ EThrow t ThrewCorrupt :: tr2 \/ tr = tr1 ++ ERet t ThrewCorrupt :: tr2) ->
  exists t', In (EThrow t' ThrewTimeout) tr1.
Proof. exact corrupt_after_timeout. Qed.
Print Assumptions C67_corrupt_only_after_timeout.
(* a Timeout, then a Corrupt for a thread that comes later *)
Example C67_nonvacuous : exists ks tr st, execution 3 0 ks tr st /\ In (ERet 0 ThrewTimeout) tr /\ In (ERet 1 ThrewCorrupt) tr.
Proof.
  destruct (trace_sound 3 0 (arrive_sleep 0 ++ time_out 0 ++ arrive_sleep 1 ++ time_out_again 1)
    [ECall 0; ERead 0; EArrive 0; EExpire 0; EBroke 0; EThrow 0 ThrewTimeout; ERet 0 ThrewTimeout;
     ECall 1; ERead 1; EArrive 1; EExpire 1; EThrow 1 ThrewCorrupt; ERet 1 ThrewCorrupt]) as (ks&st&H&->); [vm_compute; reflexivity|].
  do 3 eexists. split; [exact H|]. cbn. tauto.
Qed.

(* ---- C68 ---- *)
(* false: two of three threads wait, one times out, the other one returns as if
   the barrier had been passed *)
Theorem C68_timeout_reported_refuted : exists ks tr st a b, execution 3 0 ks tr st /\
  tr = a ++ EThrow 0 ThrewTimeout :: b /\ In (ECall 1) a /\ ~ In (ERet 1 Passed) a /\
  In (ERet 1 Passed) b /\ ~ In (ERet 1 ThrewCorrupt) b /\ count is_gen tr = 0.
Proof.
  destruct (trace_sound 3 0 (arrive_sleep 0 ++ arrive_sleep 1 ++ time_out 0 ++ wake_leave 1)
    [ECall 0; ERead 0; EArrive 0; ECall 1; ERead 1; EArrive 1; EExpire 0; EBroke 0; EThrow 0 ThrewTimeout; ERet 0 ThrewTimeout; ERet 1 Passed]) as (ks&st&H&->); [vm_compute; reflexivity|].
  do 3 eexists. exists [ECall 0; ERead 0; EArrive 0; ECall 1; ERead 1; EArrive 1; EExpire 0; EBroke 0], [ERet 0 ThrewTimeout; ERet 1 Passed].
  split; [exact H|]. split; [reflexivity|]. cbn. intuition discriminate.
Qed.
Print Assumptions C68_timeout_reported_refuted.
(* worse: a waiter may be left asleep after the timeout, with nobody to wake it,
   because the counter comes back to the value it saw: thread 1 has not returned
   from its call, everybody else has, and nothing more happens unless somebody
   calls again or thread 1's own timeout expires *)
Theorem C68_waiter_left_behind_refuted : exists ks tr st, execution 3 0 ks tr st /\
  In (EThrow 0 ThrewTimeout) tr /\ rets 1 tr < calls 1 tr /\ (forall t, t <> 1 -> calls t tr = rets t tr) /\
  (forall e st', ~ bstep st KRun e st').
Proof.
  destruct (exec (binit 3 0) [] [] (arrive_sleep 0 ++ arrive_sleep 1 ++ time_out 0 ++ arrive_last 2 ++ repeat (KRun, 1) 3)) as [[[ks tr] st]|] eqn:E.
  2: { exfalso. revert E. vm_compute. discriminate. }
  exists ks, tr, st. split; [eapply exec_sound; [apply bs_nil|exact E]|].
  assert (Et : tr = [ECall 0; ERead 0; EArrive 0; ECall 1; ERead 1; EArrive 1; EExpire 0; EBroke 0; EThrow 0 ThrewTimeout; ERet 0 ThrewTimeout;
     ECall 2; ERead 2; EArrive 2; EGen 2; ERet 2 Passed]) by (revert E; vm_compute; congruence).
  assert (E1 : b_thr st 1 = TSleep 0 false).
  { assert (Q : option_map (fun x => b_thr (snd x) 1) (exec (binit 3 0) [] [] (arrive_sleep 0 ++ arrive_sleep 1 ++ time_out 0 ++ arrive_last 2 ++ repeat (KRun, 1) 3)) = Some (TSleep 0 false)) by (vm_compute; reflexivity).
    rewrite E in Q. cbn in Q. congruence. }
  assert (E2 : forall t, t <> 1 -> b_thr st t = TIdle).
  { intros t Ht. 
    assert (forall u, u < 3 -> u <> 1 -> option_map (fun x => b_thr (snd x) u) (exec (binit 3 0) [] [] (arrive_sleep 0 ++ arrive_sleep 1 ++ time_out 0 ++ arrive_last 2 ++ repeat (KRun, 1) 3)) = Some TIdle) as Q.
    { intros u Hu Hne. destruct u as [|[|[|]]]; try lia; vm_compute; reflexivity. }
    destruct (le_lt_dec 3 t) as [L|L].
    - assert (O : outside_idle 3 st).
      { assert (G : forall s0 ks tr st, bsteps s0 ks tr st -> outside_idle 3 s0 -> only_threads 3 tr -> outside_idle 3 st).
        { clear. induction 1; intros HI HO; auto. apply only_threads_app in HO as [HO1 HO2]. exact (outside_step 3 _ _ _ _ (IHbsteps HI HO1) H0 HO2). }
        eapply (G (binit 3 0) ks tr); [eapply exec_sound; [apply bs_nil|exact E]|intros u _; reflexivity|].
        rewrite Et. intros u Hi. cbn in Hi. repeat (destruct Hi as [Hi|Hi]; [try discriminate; injection Hi; lia|]). contradiction. }
      now apply O.
    - specialize (Q t L Ht). rewrite E in Q. cbn in Q. congruence. }
  assert (CR := calls_rets 3 0 ks tr st ltac:(eapply exec_sound; [apply bs_nil|exact E])).
  split; [rewrite Et; cbn; tauto|]. split; [rewrite CR, E1; cbn; lia|]. split; [intros t Ht; rewrite CR, E2 by exact Ht; cbn; lia|].
  intros e s' S. inversion S; subst; destruct (Nat.eq_dec t 1) as [->|Hne]; try rewrite E1 in *; try (rewrite E2 in * by auto); discriminate.
Qed.
Print Assumptions C68_waiter_left_behind_refuted.
(* what holds: an exception goes only to a waiter whose own timeout expired
   during the call; and a normal return needs the counter to have changed after
   the waiter read it, by a completed round or by somebody's timeout *)
Theorem C68_outcome_partial : forall n b0 ks tr st t r a b, execution n b0 ks tr st -> tr = a ++ ERet t r :: b ->
  (r <> Passed -> since_call t (EExpire t) a) /\
  (r = Passed -> exists u, since_read t (EGen u) a \/ since_read t (EBroke u) a).
Proof.
  intros n b0 ks tr st t r a b HE E. split.
  - exact (throws_only_own_expiry _ _ _ _ _ _ _ _ _ HE E).
  - intros ->. exact (pass_needs_change _ _ _ _ _ _ _ _ HE E).
Qed.
Print Assumptions C68_outcome_partial.
(* C68_others_return_partial (P_BarrierBroke) *)

(* ---- C69 ---- *)
(* false: a barrier for two; three threads call, all three pass *)
Theorem C69_surplus_refuted : exists ks tr st, execution 2 0 ks tr st /\ no_expiry ks /\
  calls 0 tr = 1 /\ calls 1 tr = 1 /\ calls 2 tr = 1 /\ length (filter is_arrive tr) = 3 /\ rets 0 tr = 1 /\ rets 1 tr = 1 /\ rets 2 tr = 1.
Proof.
  destruct (trace_sound 2 0 ([(KCall, 2); (KRun, 2)] ++ arrive_sleep 0 ++ arrive_last 1 ++ wake_leave 0 ++ repeat (KRun, 2) 6)
    [ECall 2; ERead 2; ECall 0; ERead 0; EArrive 0; ECall 1; ERead 1; EArrive 1; EGen 1; ERet 1 Passed; ERet 0 Passed; EArrive 2; ERet 2 Passed]) as (ks&st&H&->); [vm_compute; reflexivity|].
  do 3 eexists. split; [exact H|]. split; [|repeat split; vm_compute; reflexivity].
  intro Hi. cbn in Hi. repeat (destruct Hi as [Hi|Hi]; [discriminate|]). contradiction.
Qed.
Print Assumptions C69_surplus_refuted.
(* what holds for any number of threads: at every moment a round has been
   completed for every n arrivals (timeouts or not), except that the call that
   made the n-th one may still have to do it ... *)
Theorem C69_rounds_partial : forall n b0 ks tr st, (1 <= n < 2 ^ 32)%Z -> execution n b0 ks tr st ->
  (n * Z.of_nat (count is_gen tr) <= Z.of_nat (count is_arrive tr) <= n * Z.of_nat (count is_gen tr) + n)%Z /\
  (Z.of_nat (count is_arrive tr) = (n * Z.of_nat (count is_gen tr) + n)%Z -> exists t, rets t tr < calls t tr).
Proof. exact generations. Qed.
Print Assumptions C69_rounds_partial.
(* ... and without timeouts nobody passes unless a round was completed after
   the caller read the counter *)
Theorem C69_pass_needs_round_partial : forall n b0 ks tr st t a b, execution n b0 ks tr st -> no_expiry ks ->
  tr = a ++ ERet t Passed :: b -> exists u, since_read t (EGen u) a.
Proof. exact pass_needs_gen. Qed.
Print Assumptions C69_pass_needs_round_partial.
(* three threads on a barrier for two: the third one waits, then a fourth lets it go *)
Example C69_nonvacuous : exists ks tr st, execution 2 0 ks tr st /\ no_expiry ks /\ count is_arrive tr = 4 /\ count is_gen tr = 2.
Proof.
  destruct (exec (binit 2 0) [] [] (arrive_sleep 0 ++ arrive_last 1 ++ wake_leave 0 ++ arrive_sleep 2 ++ arrive_last 3 ++ wake_leave 2)) as [[[ks tr] st]|] eqn:E.
  2: { exfalso. revert E. vm_compute. discriminate. }
  exists ks, tr, st. split; [eapply exec_sound; [apply bs_nil|exact E]|].
  assert (Q : option_map (fun x => (existsb (fun k => match k with KExpire => true | _ => false end) (fst (fst x)), count is_arrive (snd (fst x)), count is_gen (snd (fst x))))
    (exec (binit 2 0) [] [] (arrive_sleep 0 ++ arrive_last 1 ++ wake_leave 0 ++ arrive_sleep 2 ++ arrive_last 3 ++ wake_leave 2)) = Some (false, 4, 2)) by (vm_compute; reflexivity).
  rewrite E in Q. cbn [option_map fst snd] in Q. injection Q as Q1 Q2 Q3. repeat split; auto.
  intro Hi. assert (existsb (fun k => match k with KExpire => true | _ => false end) ks = true) by (apply existsb_exists; eauto). congruence.
Qed.

(* ---- C70: nothing depends on where the 32-bit counter starts ---- *)
Theorem C70_wraparound : forall n b0, 1 <= n -> (Z.of_nat n < two32)%Z -> (0 <= b0 < two32)%Z ->
  forall ks tr st, execution (Z.of_nat n) b0 ks tr st -> only_threads n tr -> no_expiry ks ->
  (forall t1 t2 a b r, t1 < n -> t2 < n -> tr = a ++ ERet t1 r :: b -> rets t1 a < calls t2 a /\ r = Passed) /\
  (forall R, at_most_calls R tr -> (exists t, t < n /\ rets t tr < R) ->
     (exists e st', bstep st KRun e st') \/ (exists t st', t < n /\ calls t tr < R /\ bstep st KCall [ECall t] st')).
Proof.
  intros n b0 H1 H2 H3 ks tr st HE HO HX. split.
  - intros t1 t2 a b r T1 T2 E. exact (early n b0 ks tr st t1 t2 a b r H1 H2 H3 HE HO HX T1 T2 E).
  - intros R HR HT. exact (progress n b0 ks tr st R H1 H2 H3 HE HO HX HR HT).
Qed.
Print Assumptions C70_wraparound.
(* the counter wraps to 0 in this round *)
Example C70_nonvacuous : exists ks tr st, execution 2 (two32 - 1) ks tr st /\ b_cnt st = 0%Z /\ rets 0 tr = 1 /\ rets 1 tr = 1.
Proof.
  destruct (exec (binit 2 (two32 - 1)) [] [] (arrive_sleep 0 ++ arrive_last 1 ++ wake_leave 0)) as [[[ks tr] st]|] eqn:E.
  2: { exfalso. revert E. vm_compute. discriminate. }
  exists ks, tr, st. split; [eapply exec_sound; [apply bs_nil|exact E]|].
  assert (Q : option_map (fun x => (b_cnt (snd x), rets 0 (snd (fst x)), rets 1 (snd (fst x)))) (exec (binit 2 (two32 - 1)) [] [] (arrive_sleep 0 ++ arrive_last 1 ++ wake_leave 0)) = Some (0%Z, 1, 1)) by (vm_compute; reflexivity).
  rewrite E in Q. cbn [option_map fst snd] in Q. injection Q as Q1 Q2 Q3. auto.
Qed.

(* ---- C71 ---- *)
(* false for large arguments: a negative timeout, and a clock overflow *)
Theorem C71_timeout_refuted :
  (exists ms now, (0 <= ms < 2 ^ 64)%Z /\ wait_call_deadline now ms = Ok (now - 1000000)%Z) /\
  (exists ms, (0 <= ms < 2 ^ 63)%Z /\ wait_call_deadline 0 ms = UB).
Proof.
  split.
  - exists (2 ^ 64 - 1)%Z, 5000000%Z. split; [lia|]. vm_compute. reflexivity.
  - exists (2 ^ 63 - 1)%Z. split; [lia|]. vm_compute. reflexivity.
Qed.
Print Assumptions C71_timeout_refuted.
(* exactly when the call waits for the time it was given (a day times a thousand
   for 0): the deadline must fit the clock's 63 bits of nanoseconds *)
Theorem C71_timeout_partial : forall now ms, (0 <= now < 2 ^ 63)%Z -> (0 <= ms < 2 ^ 64)%Z ->
  (wait_call_deadline now ms = Ok (now + (if (ms =? 0)%Z then 86400000000 else ms) * 1000000)%Z <->
   (now + (if (ms =? 0)%Z then 86400000000 else ms) * 1000000 < 2 ^ 63)%Z).
Proof. exact deadline_exact. Qed.
Print Assumptions C71_timeout_partial.
(* the overload that takes a duration, for every count of milliseconds (also
   negative ones): the deadline is the one asked for, or else does not fit and
   the call is undefined *)
Theorem C71_duration_partial : forall now count, (- 2 ^ 63 <= now < 2 ^ 63)%Z -> (- 2 ^ 63 <= count < 2 ^ 63)%Z ->
  let ns := ((if (count =? 0)%Z then 86400000000 else count) * 1000000)%Z in
  ((- 2 ^ 63 <= ns < 2 ^ 63)%Z /\ (- 2 ^ 63 <= now + ns < 2 ^ 63)%Z /\
     wait_deadline now (wait_duration count) = Ok (now + ns)%Z) \/
  (~ ((- 2 ^ 63 <= ns < 2 ^ 63)%Z /\ (- 2 ^ 63 <= now + ns < 2 ^ 63)%Z) /\
     wait_deadline now (wait_duration count) = UB).
Proof.
  intros now count Hn Hc ns. change (2 ^ 63)%Z with two63 in *. unfold wait_deadline, wait_duration, forever_ms.
  assert (E : ((if (count =? 0)%Z then 3600 * 24 * 1000 * 1000 else count) * 1000000)%Z = ns)
    by (unfold ns; destruct (count =? 0)%Z; reflexivity).
  rewrite E. cbv zeta. match goal with |- context [if ?b then _ else _] => destruct b eqn:C end.
  - left. split; [lia|]. split; [lia|reflexivity].
  - right. split; [lia|reflexivity].
Qed.
Print Assumptions C71_duration_partial.
Example C71_duration_nonvacuous : wait_deadline 7000000 (wait_duration (-5)) = Ok 2000000%Z /\
  wait_deadline (- 2 ^ 63) (wait_duration (-1)) = UB /\ wait_deadline (2 ^ 63 - 1) (wait_duration 1) = UB.
Proof. repeat split; vm_compute; reflexivity. Qed.
Example C71_nonvacuous : wait_call_deadline 1000 250 = Ok 250001000%Z /\ wait_call_deadline 1000 0 = Ok 86400000000001000%Z.
Proof. split; vm_compute; reflexivity. Qed.

(* ---- C81: with timeouts, any number of threads ---- *)
Theorem C81_never_stuck : forall n b0 ks tr st, execution n b0 ks tr st -> (exists t, rets t tr < calls t tr) ->
  exists k e st', bstep st k e st' /\ (k = KRun \/ k = KExpire).
Proof.
  intros n b0 ks tr st HE (t & L). apply (some_step n b0 ks tr st HE). exists t. intros I.
  rewrite (calls_rets _ _ _ _ _ HE), I in L. cbn in L. lia.
Qed.
Print Assumptions C81_never_stuck.
Theorem C81_waiting_ends : forall N R n b0 ks tr st, execution n b0 ks tr st -> only_threads N tr -> at_most_calls R tr ->
  forced_steps ks <= (3 * N + 15) * N * R + 2 * spurious_steps ks.
Proof. exact steps_bounded. Qed.
Print Assumptions C81_waiting_ends.
Example C81_never_stuck_nonvacuous : exists ks tr st, execution 5 0 ks tr st /\ rets 0 tr < calls 0 tr.
Proof.
  destruct (trace_sound 5 0 (arrive_sleep 0) [ECall 0; ERead 0; EArrive 0]) as (ks&st&H&->); [vm_compute; reflexivity|].
  do 3 eexists. split; [exact H|]. vm_compute. lia.
Qed.
Example C81_nonvacuous : exists ks tr st, execution 5 0 ks tr st /\ only_threads 2 tr /\ at_most_calls 1 tr /\ forced_steps ks = 15.
Proof.
  destruct (trace_sound 5 0 (arrive_sleep 0 ++ time_out 0)
    [ECall 0; ERead 0; EArrive 0; EExpire 0; EBroke 0; EThrow 0 ThrewTimeout; ERet 0 ThrewTimeout]) as (ks&st&H&->); [vm_compute; reflexivity|].
  do 3 eexists. split; [exact H|]. split; [|split].
  - intros t Hi. cbn in Hi. repeat (destruct Hi as [Hi|Hi]; [try discriminate; injection Hi; lia|]). contradiction.
  - intro t. unfold calls, count. cbn. destruct t; cbn; lia.
  - vm_compute. reflexivity.
Qed.

(* ---- C82: the caller that gives up first really was not released: between its
   reading the counter and giving up no round was completed (or a multiple of 2^32) ---- *)
Theorem C82_timeout_means_not_released : forall n b0 ks tr st t a b, (0 <= b0 < two32)%Z -> execution n b0 ks tr st -> tr = a ++ EBroke t :: b ->
  (forall u, ~ In (EBroke u) a) /\
  exists x y, a = x ++ ERead t :: y /\ ~ In (ERead t) y /\ (Z.of_nat (count is_gen y) mod two32 = 0)%Z.
Proof. exact timeout_round. Qed.
Print Assumptions C82_timeout_means_not_released.
(* a round is completed, then one of the two waits again and times out *)
Example C82_nonvacuous : exists ks tr st, execution 2 0 ks tr st /\ In (EGen 1) tr /\ In (EBroke 0) tr.
Proof.
  destruct (trace_sound 2 0 (arrive_sleep 0 ++ arrive_last 1 ++ wake_leave 0 ++ arrive_sleep 0 ++ time_out 0)
    [ECall 0; ERead 0; EArrive 0; ECall 1; ERead 1; EArrive 1; EGen 1; ERet 1 Passed; ERet 0 Passed;
     ECall 0; ERead 0; EArrive 0; EExpire 0; EBroke 0; EThrow 0 ThrewTimeout; ERet 0 ThrewTimeout]) as (ks&st&H&->); [vm_compute; reflexivity|].
  do 3 eexists. split; [exact H|]. cbn. tauto.
Qed.
