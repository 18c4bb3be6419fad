(* P_BarrierUse.v -- C123 and C124: the two programs of /repo that use a barrier *)
From Coq Require Import Lia.
From Verif Require Import Base M_Stream M_Format M_Barrier S_Barrier M_BarrierUse S_BarrierUse L_Barrier L_BarrierUse C_Barrier C_BarrierUse.

(* ---- C123: examples/BarrierExample.cxx, with any number n of threads; main is
   thread n and waits too ---- *)
(* a thread writes its number a second time only when every thread has written it
   once, main has announced that it waits, and everyone has passed the barrier *)
Theorem C123_second_number_after_all : forall n ks tr c t a b, (Z.of_nat n + 1 < 2 ^ 32)%Z ->
  csteps (example_prog n) (example_start n) ks tr c -> calm ks -> t < n ->
  tr = a ++ Said t (put_int (Z.of_nat t)) :: b -> said t (put_int (Z.of_nat t)) a = 1 ->
  (forall u, u < n -> 1 <= said u (put_int (Z.of_nat u)) a) /\ 1 <= said n (lit " wait at the barrier" ++ [nl]) a /\
  (forall u, u <= n -> In (InBar (ERet u Passed)) a).
Proof. exact ex_second. Qed.
Print Assumptions C123_second_number_after_all.
(* " clear the barrier" is the last thing written: every number has been written
   twice, every call of wait has returned, and no further step is possible *)
Theorem C123_clear_is_last : forall n ks tr c a b, (Z.of_nat n + 1 < 2 ^ 32)%Z ->
  csteps (example_prog n) (example_start n) ks tr c -> calm ks -> tr = a ++ Said n (lit " clear the barrier" ++ [nl]) :: b ->
  b = [] /\ (forall k e c', ~ cstep (example_prog n) c k e c') /\
  (forall u, u < n -> said u (put_int (Z.of_nat u)) a = 2) /\ (forall u, u <= n -> returns u a = 2) /\
  (forall u r, In (InBar (ERet u r)) a -> r = Passed).
Proof.
  intros n ks tr c a b Hn H C E. destruct (ex_last _ _ _ _ _ _ Hn H C E) as (A1&A2&A3&A4). split; [exact A1|]. split; [exact A2|]. split; [exact A3|]. split.
  - intros u Hu. rewrite returns_rets. auto.
  - intros u r J. change (2 ^ 32)%Z with two32 in Hn. rewrite ex_start in H.
    refine (ret_passed _ _ _ _ _ _ _ (ex_wf n) _ _ _ u r ltac:(lia) ltac:(lia) H C _). apply btr_of. rewrite E, in_app_iff. auto.
Qed.
Print Assumptions C123_clear_is_last.
(* the program does not stop before that, is not terminated by an exception, and
   gets there in a bounded number of steps (spurious wakeups aside) *)
Theorem C123_gets_there : forall n ks tr c, (Z.of_nat n + 1 < 2 ^ 32)%Z ->
  csteps (example_prog n) (example_start n) ks tr c -> calm ks ->
  c_dead c = false /\ effort ks <= 27 * n + 25 + 2 * spurious ks /\
  (stopped (example_prog n) c -> exists a, tr = a ++ [Said n (lit " clear the barrier" ++ [nl])]).
Proof.
  intros n ks tr c Hn H C. split; [|split].
  - change (2 ^ 32)%Z with two32 in Hn. rewrite ex_start in H. exact (calm_alive _ _ _ _ _ _ _ (ex_wf n) _ _ _ ltac:(lia) ltac:(lia) H C).
  - eapply ex_effort; eauto.
  - eapply ex_ends; eauto.
Qed.
Print Assumptions C123_gets_there.
(* two threads and main *)
Definition example_schedule : list (option kind * tid) :=
  steps_of 2 4 ++ steps_of 0 1 ++ inside (arrive_sleep 0) ++ steps_of 1 1 ++ inside (arrive_sleep 1) ++ steps_of 2 2 ++ inside (arrive_last 2) ++
  inside (wake_leave 1) ++ inside (wake_leave 0) ++ inside (arrive_sleep 1) ++ inside (arrive_sleep 2) ++ inside (arrive_last 0) ++ steps_of 0 1 ++
  inside (wake_leave 2) ++ inside (wake_leave 1) ++ steps_of 2 1 ++ steps_of 1 1 ++ steps_of 2 2.
Definition words (tr : list cev) : list (tid * str) := flat_map (fun e => match e with Said t s => [(t, s)] | _ => [] end) tr.
Example C123_nonvacuous : exists ks tr c, csteps (example_prog 2) (example_start 2) ks tr c /\ calm ks /\ stopped (example_prog 2) c /\
  words tr = [(0, lit "0"); (1, lit "1"); (2, lit " wait at the barrier" ++ [nl]); (0, lit "0"); (1, lit "1"); (2, lit " clear the barrier" ++ [nl])].
Proof.
  pose proof (cexec_run (example_prog 2) (example_start 2) example_schedule) as H.
  assert (Q : option_map (fun x => (existsb is_expiry (fst (fst x)), words (snd (fst x)))) (cexec (example_prog 2) (example_start 2) [] [] example_schedule) =
    Some (false, [(0, lit "0"); (1, lit "1"); (2, lit " wait at the barrier" ++ [nl]); (0, lit "0"); (1, lit "1"); (2, lit " clear the barrier" ++ [nl])])) by (vm_compute; reflexivity).
  destruct (cexec _ _ _ _ _) as [[[ks tr] c]|]; [|discriminate]. cbn [option_map fst snd] in Q. injection Q as Q1 Q2. exists ks, tr, c.
  assert (C : calm ks) by (apply calm_if; exact Q1). split; [exact H|]. split; [exact C|]. split; [|exact Q2].
  assert (J : In (Said 2 (lit " clear the barrier" ++ [nl])) tr).
  { assert (In (2, lit " clear the barrier" ++ [nl]) (words tr)) as J by (rewrite Q2; cbn; tauto).
    apply in_flat_map in J as (e&J&J'). destruct e; try contradiction. destruct J' as [J'|[]]. injection J' as -> ->. exact J. }
  apply in_split in J as (a&b&E). destruct (C123_clear_is_last 2 ks tr c a b ltac:(reflexivity) H C E) as (_&N&_). intros k e c' S. destruct (N _ _ _ S).
Qed.
(* there is no catch block: when a minute passes, the program is terminated *)
Example C123_without_catch : exists ks tr c, csteps (example_prog 1) (example_start 1) ks tr c /\ c_dead c = true /\
  words tr = [(0, lit "0"); (1, lit " wait at the barrier" ++ [nl])].
Proof.
  set (l := steps_of 1 2 ++ steps_of 0 1 ++ inside (arrive_sleep 0) ++ steps_of 1 2 ++ inside (arrive_last 1) ++ inside (wake_leave 0) ++ inside (arrive_sleep 0) ++ inside (time_out 0)).
  pose proof (cexec_run (example_prog 1) (example_start 1) l) as H.
  assert (Q : option_map (fun x => (c_dead (snd x), words (snd (fst x)))) (cexec (example_prog 1) (example_start 1) [] [] l) =
    Some (true, [(0, lit "0"); (1, lit " wait at the barrier" ++ [nl])])) by (vm_compute; reflexivity).
  destruct (cexec _ _ _ _ _) as [[[ks tr] c]|]; [|discriminate]. cbn [option_map fst snd] in Q. injection Q as Q1 Q2. exists ks, tr, c. auto.
Qed.

(* ---- C124: test/BarrierTest.cxx, with n threads and R trials; main is thread n
   and only joins them ---- *)
(* the two lines main writes with Format are those of the model *)
Lemma C124_texts : forall im n,
  (do f <- newFormat im (lit "Spawning %0 threads" ++ [nl]); fmt_str (addI f (Z.of_nat n) 0 nul nul) false) =
    Ok (lit "Spawning " ++ put_int (Z.of_nat n) ++ lit " threads" ++ [nl]) /\
  (do f <- newFormat im (lit "Waiting to join threads" ++ [nl]); fmt_str f false) = Ok (lit "Waiting to join threads" ++ [nl]).
Proof.
  intros im n. unfold addI. change (addI_text (Z.of_nat n) 0 nul nul) with (put_int (Z.of_nat n)). generalize (put_int (Z.of_nat n)). intros w.
  split; destruct im; vm_compute; reflexivity.
Qed.
(* while nothing times out the threads are in lock step *)
Theorem C124_lock_step : forall n R ks tr c t u, (Z.of_nat n < 2 ^ 32)%Z ->
  csteps (test_prog n R) (test_start n R) ks tr c -> calm ks -> t < n -> u < n -> naps t tr <= S (naps u tr).
Proof. exact te_lock_step. Qed.
Print Assumptions C124_lock_step.
(* and when the program can go on no further, every thread has done all trials and reported nothing *)
Theorem C124_all_trials : forall n R ks tr c, (1 <= Z.of_nat n < 2 ^ 32)%Z ->
  csteps (test_prog n R) (test_start n R) ks tr c -> calm ks -> stopped (test_prog n R) c ->
  forall t, t < n -> naps t tr = R /\ (forall s, said t s tr = 0) /\ returns t tr = R /\ (forall r, In (InBar (ERet t r)) tr -> r = Passed).
Proof. intros n R ks tr c Hn H C St t Ht. rewrite returns_rets. exact (te_all_pass _ _ _ _ _ Hn H C St t Ht). Qed.
Print Assumptions C124_all_trials.
(* with or without timeouts: the program is never terminated by an exception, and
   always ends, having joined all its threads *)
Theorem C124_always_ends : forall n R ks tr c, csteps (test_prog n R) (test_start n R) ks tr c ->
  c_dead c = false /\ effort ks <= (3 * n + 16) * n * R + 3 * n + 5 + 2 * spurious ks /\
  (stopped_for_good (test_prog n R) c -> exists a, tr = a ++ [Said n (lit "Joined all threads" ++ [nl])]) /\
  (forall a b, tr = a ++ Said n (lit "Joined all threads" ++ [nl]) :: b ->
     b = [] /\ (forall k e c', ~ cstep (test_prog n R) c k e c') /\ forall t, t <= n -> c_thr c t = Some []).
Proof.
  intros n R ks tr c H. split; [eapply te_alive; eauto|]. split; [eapply te_effort; eauto|]. split; [apply te_ends with (1 := H)|].
  intros a b E. destruct (te_last _ _ _ _ _ _ _ H E) as (A&_&B). auto.
Qed.
Print Assumptions C124_always_ends.
(* what a thread reports: at most one line, after its wait threw; at most one
   thread reports the Timeout; in the end whoever caught something has reported it *)
Theorem C124_reports : forall n R ks tr c, csteps (test_prog n R) (test_start n R) ks tr c ->
  (forall t s, t < n -> 1 <= said t s tr -> said t s tr = 1 /\
     ((s = lit "Ooops, dang!: Barrier test barrier timed out after 100 ms. Current state is dangerous" ++ [nl; nl] /\ In (InBar (ERet t ThrewTimeout)) tr) \/
      (s = lit "Ooops, dang!: Barrier test barrier is corrupted." ++ [nl; nl] /\ In (InBar (ERet t ThrewCorrupt)) tr))) /\
  (forall t s s', t < n -> 1 <= said t s tr -> 1 <= said t s' tr -> s = s') /\
  (forall t u, t < n -> u < n ->
     let s := lit "Ooops, dang!: Barrier test barrier timed out after 100 ms. Current state is dangerous" ++ [nl; nl] in
     1 <= said t s tr -> 1 <= said u s tr -> t = u) /\
  (stopped_for_good (test_prog n R) c -> forall t, t < n ->
     (In (InBar (ERet t ThrewTimeout)) tr ->
        said t (lit "Ooops, dang!: Barrier test barrier timed out after 100 ms. Current state is dangerous" ++ [nl; nl]) tr = 1) /\
     (In (InBar (ERet t ThrewCorrupt)) tr -> said t (lit "Ooops, dang!: Barrier test barrier is corrupted." ++ [nl; nl]) tr = 1)).
Proof.
  intros n R ks tr c H. split; [|split; [|split]].
  - intros t s Ht Hs. destruct (te_said _ _ _ _ _ _ _ H Ht Hs) as (A&r&N&J&->). split; [exact A|]. destruct r; [congruence| |]; auto.
  - intros t s s' Ht A B. exact (te_one_line _ _ _ _ _ _ _ _ H Ht A B).
  - intros t u Ht Hu s A B. exact (te_one_timeout _ _ _ _ _ _ _ H Ht Hu A B).
  - intros St t Ht. split; intros J.
    + apply (te_reported n R ks tr c t ThrewTimeout); auto. discriminate.
    + apply (te_reported n R ks tr c t ThrewCorrupt); auto. discriminate.
Qed.
Print Assumptions C124_reports.
(* two threads, two trials, nothing expires *)
Example C124_nonvacuous : exists ks tr c, csteps (test_prog 2 2) (test_start 2 2) ks tr c /\ calm ks /\ stopped (test_prog 2 2) c /\
  words tr = [(2, lit "Creating threads" ++ [nl]); (2, lit "Spawning 2 threads" ++ [nl]); (2, lit "Waiting to join threads" ++ [nl]); (2, lit "Joined all threads" ++ [nl])].
Proof.
  set (l := steps_of 2 5 ++ steps_of 0 1 ++ inside (arrive_sleep 0) ++ steps_of 1 1 ++ inside (arrive_last 1) ++ steps_of 1 1 ++
    inside (wake_leave 0) ++ inside (arrive_sleep 1) ++ steps_of 0 1 ++ inside (arrive_last 0) ++ inside (wake_leave 1) ++ steps_of 2 3).
  pose proof (cexec_run (test_prog 2 2) (test_start 2 2) l) as H.
  assert (Q : option_map (fun x => (existsb is_expiry (fst (fst x)), words (snd (fst x)))) (cexec (test_prog 2 2) (test_start 2 2) [] [] l) =
    Some (false, [(2, lit "Creating threads" ++ [nl]); (2, lit "Spawning 2 threads" ++ [nl]); (2, lit "Waiting to join threads" ++ [nl]); (2, lit "Joined all threads" ++ [nl])]))
    by (vm_compute; reflexivity).
  destruct (cexec _ _ _ _ _) as [[[ks tr] c]|]; [|discriminate]. cbn [option_map fst snd] in Q. injection Q as Q1 Q2. exists ks, tr, c.
  split; [exact H|]. split; [apply calm_if; exact Q1|]. split; [|exact Q2].
  assert (J : In (Said 2 (lit "Joined all threads" ++ [nl])) tr).
  { assert (In (2, lit "Joined all threads" ++ [nl]) (words tr)) as J by (rewrite Q2; cbn; tauto).
    apply in_flat_map in J as (e&J&J'). destruct e; try contradiction. destruct J' as [J'|[]]. injection J' as -> ->. exact J. }
  apply in_split in J as (a&b&E). destruct (C124_always_ends 2 2 ks tr c H) as (_&_&_&N). destruct (N a b E) as (_&N1&_). intros k e c' S. destruct (N1 _ _ _ S).
Qed.
(* thread 0's timeout expires; thread 1 passes once (thread 0's arrival still counts, see C120), then
   finds the barrier corrupted: both report, main still joins them *)
Example C124_nonvacuous_expiry : exists ks tr c, csteps (test_prog 2 3) (test_start 2 3) ks tr c /\ stopped_for_good (test_prog 2 3) c /\
  words tr = [(2, lit "Creating threads" ++ [nl]); (2, lit "Spawning 2 threads" ++ [nl]); (2, lit "Waiting to join threads" ++ [nl]);
    (0, lit "Ooops, dang!: Barrier test barrier timed out after 100 ms. Current state is dangerous" ++ [nl; nl]);
    (1, lit "Ooops, dang!: Barrier test barrier is corrupted." ++ [nl; nl]); (2, lit "Joined all threads" ++ [nl])].
Proof.
  set (l := steps_of 2 5 ++ steps_of 0 1 ++ inside (arrive_sleep 0) ++ inside (time_out 0) ++ steps_of 0 1 ++ steps_of 1 1 ++ inside (arrive_last 1) ++
    steps_of 1 1 ++ inside (arrive_sleep 1) ++ inside (time_out_again 1) ++ steps_of 1 1 ++ steps_of 2 3).
  pose proof (cexec_run (test_prog 2 3) (test_start 2 3) l) as H.
  assert (Q : option_map (fun x => words (snd (fst x))) (cexec (test_prog 2 3) (test_start 2 3) [] [] l) =
    Some [(2, lit "Creating threads" ++ [nl]); (2, lit "Spawning 2 threads" ++ [nl]); (2, lit "Waiting to join threads" ++ [nl]);
    (0, lit "Ooops, dang!: Barrier test barrier timed out after 100 ms. Current state is dangerous" ++ [nl; nl]);
    (1, lit "Ooops, dang!: Barrier test barrier is corrupted." ++ [nl; nl]); (2, lit "Joined all threads" ++ [nl])]) by (vm_compute; reflexivity).
  destruct (cexec _ _ _ _ _) as [[[ks tr] c]|]; [|discriminate]. cbn [option_map fst snd] in Q. injection Q as Q2. exists ks, tr, c.
  split; [exact H|]. split; [|exact Q2].
  assert (J : In (Said 2 (lit "Joined all threads" ++ [nl])) tr).
  { assert (In (2, lit "Joined all threads" ++ [nl]) (words tr)) as J by (rewrite Q2; cbn; tauto).
    apply in_flat_map in J as (e&J&J'). destruct e; try contradiction. destruct J' as [J'|[]]. injection J' as -> ->. exact J. }
  apply in_split in J as (a&b&E). destruct (C124_always_ends 2 3 ks tr c H) as (_&_&_&N). destruct (N a b E) as (_&N1&_). intros k e c' S. destruct (N1 _ _ _ S).
Qed.
