(* P_Progress.v -- barriers for one thread and for none (C106), races on the
   barrier's counter (C107), mailbox calls finish in every schedule (C108) and are ordered (C109) *)
From Verif Require Import Base M_Barrier S_Barrier L_Barrier L_BarrierZ L_BarrierT C_Barrier.
From Verif Require M_MailBox M_MailBoxConc S_MailBoxConc S_Publish L_PublishM L_PublishO L_Progress P_MailBox P_MailBoxConc.
Local Open Scope nat_scope.

(* ---- C106 ---- *)
(* one waiter, any number of threads, any schedule: nobody ever sleeps, no
   timeout can expire, every wait returns normally, and while a wait is under
   way some thread can run *)
Theorem C106_one_never_blocks : forall b0 ks tr st, execution 1 b0 ks tr st ->
  (forall t old nt, b_thr st t <> TSleep old nt) /\ no_expiry ks /\
  (forall t r, In (ERet t r) tr -> r = Passed) /\ (forall t r, ~ In (EThrow t r) tr) /\
  (forall t, rets t tr < calls t tr -> exists e st', bstep st KRun e st').
Proof.
  intros b0 ks tr st H. destruct (one_all _ _ _ _ H) as ([_ _ G _] & E & _ & R & T).
  split; [intros t old nt X; specialize (G t); rewrite X in G; exact G|].
  split; [exact E|]. split; [exact R|]. split; [exact T|]. intros t N. apply (one_runs _ _ _ _ t H). intros I.
  rewrite (calls_rets _ _ _ _ _ H t), I in N. cbn in N. lia.
Qed.
Print Assumptions C106_one_never_blocks.
(* no waiters: nobody ever returns (before 2^32 arrivals and without timeouts),
   and when nothing can run everybody who called is asleep *)
Theorem C106_none_never_passes : forall b0 ks tr st, execution 0 b0 ks tr st -> no_expiry ks ->
  (Z.of_nat (count is_arrive tr) < two32)%Z ->
  (forall t r, ~ In (ERet t r) tr) /\
  ((forall e st', ~ bstep st KRun e st') -> forall t, In (ECall t) tr -> b_thr st t = TSleep b0 false).
Proof.
  intros b0 ks tr st H K A. destruct (none_all _ _ _ _ H K A) as (I & R). split; [exact R|].
  intros N t C. destruct (none_stuck _ _ _ _ t H K A N) as [X|X]; [exfalso|exact X]. revert X.
  assert (G : forall s0 ks tr st, bsteps s0 ks tr st -> In (ECall t) tr -> (forall r, ~ In (ERet t r) tr) -> b_thr st t <> TIdle).
  { clear. induction 1 as [|st ks tr st1 k e st2 H IH S]; [intros []|]. intros C R.
    assert (R1 : forall r, ~ In (ERet t r) tr) by (intros r X; apply (R r), in_or_app; auto).
    assert (R2 : forall r, ~ In (ERet t r) e) by (intros r X; apply (R r), in_or_app; auto).
    assert (B : In (ECall t) tr \/ In (ECall t) e) by (apply in_app_or, C).
    assert (Q : In (ECall t) tr -> b_thr st1 t <> TIdle) by (intros X; apply IH; assumption).
    inversion S; subst; cbn [with_thr b_thr]; (destruct (Nat.eq_dec t t0) as [<-|D]; [rewrite upd_same|rewrite upd_other by exact D]);
      try discriminate; try (destruct B as [B|B]; [apply Q, B|cbn in B; destruct B as [B|[]]; congruence]);
      try (destruct B as [B|B]; [apply Q, B|destruct B]); try (exfalso; eapply R2; left; reflexivity).
    - destruct h; cbn [hold_step] in H1; repeat match type of H1 with context [if ?b then _ else _] => destruct b end; injection H1 as <- <- <-; discriminate.
    - intros X. assert (Y : b_thr st1 t = TIdle).
      { destruct (hold_step_thr _ _ _ _ _ _ _ t H1) as [Z|(o & n & Z1 & Z2)]; congruence. }
      destruct B as [B|B]; [exact (Q B Y)|].
      destruct h; cbn [hold_step] in H1; repeat match type of H1 with context [if ?b then _ else _] => destruct b end; injection H1 as <- <- <-;
        cbn in B; repeat (destruct B as [B|B]; [discriminate|]); destruct B. }
  exact (G _ _ _ _ H C (R t)).
Qed.
Print Assumptions C106_none_never_passes.
Example C106_nonvacuous : (exists ks tr st, execution 1 7 ks tr st /\ rets 0 tr = 1 /\ rets 1 tr = 1) /\
  (exists ks tr st, execution 0 7 ks tr st /\ no_expiry ks /\ count is_arrive tr = 2).
Proof.
  split.
  - destruct (trace_sound 1 7 ([(KCall, 1)] ++ arrive_last 0 ++ repeat (KRun, 1) 8)
      [ECall 1; ECall 0; ERead 0; EArrive 0; EGen 0; ERet 0 Passed; ERead 1; EArrive 1; EGen 1; ERet 1 Passed]) as (ks&st&H&->); [vm_compute; reflexivity|].
    do 3 eexists. split; [exact H|]. split; vm_compute; reflexivity.
  - destruct (trace_sound 0 7 (arrive_sleep 0 ++ arrive_sleep 1)
      [ECall 0; ERead 0; EArrive 0; ECall 1; ERead 1; EArrive 1]) as (ks&st&H&->); [vm_compute; reflexivity|].
    do 3 eexists. split; [exact H|]. split; [|reflexivity]. intros Hi. cbn in Hi. repeat (destruct Hi as [Hi|Hi]; [discriminate|]). contradiction.
Qed.

(* ---- C107 ---- *)
(* false: a third thread at a barrier for two reads the counter while the second
   writes it; and so does the second thread while the first, timed out, writes it *)
Ltac reach l t1 x1 t2 x2 :=
  match goal with |- exists ks tr st, execution ?n ?b ks tr st /\ _ =>
    destruct (exec (binit n b) [] [] l) as [[[ks tr] st]|] eqn:E; [|exfalso; revert E; vm_compute; discriminate];
    exists ks, tr, st; split; [eapply exec_sound; [apply bs_nil|exact E]|];
    assert (Q : option_map (fun x => (b_thr (snd x) t1, b_thr (snd x) t2)) (exec (binit n b) [] [] l) = Some (x1, x2)) by (vm_compute; reflexivity);
    assert (Qt : option_map (fun x => snd (fst x)) (exec (binit n b) [] [] l) = Some tr) by (rewrite E; reflexivity);
    rewrite E in Q; cbn in Q; injection Q as Q1 Q2
  end.
Theorem C107_no_race_refuted :
  (exists ks tr st, execution 2 0 ks tr st /\ reading st 2 /\ writing st 1) /\
  (exists ks tr st, execution 2 0 ks tr st /\ only_threads 2 tr /\ reading st 1 /\ writing st 0).
Proof.
  split.
  - reach (arrive_sleep 0 ++ [(KCall, 2)] ++ [(KCall, 1); (KRun, 1); (KRun, 1); (KRun, 1); (KRun, 1)]) 2 TCalled 1 (THold 0 HBump).
    split; [exact Q1|]. exists 0%Z. left. exact Q2.
  - reach (arrive_sleep 0 ++ [(KExpire, 0); (KRun, 0); (KRun, 0); (KRun, 0); (KCall, 1)]) 1 TCalled 0 (THold 0 HInf).
    split; [|split; [exact Q1|exists 0%Z; right; exact Q2]].
    vm_compute in Qt. injection Qt as <-. intros t Hi. cbn in Hi. repeat (destruct Hi as [Hi|Hi]; [try discriminate; injection Hi; lia|]). contradiction.
Qed.
Print Assumptions C107_no_race_refuted.
(* what holds for any number of threads and any timeouts: everything but that
   first reading happens with the mutex held, by one thread at a time *)
Theorem C107_mutual_exclusion_partial : forall n b0 ks tr st t1 t2 o1 h1 o2 h2, execution n b0 ks tr st ->
  b_thr st t1 = THold o1 h1 -> b_thr st t2 = THold o2 h2 -> t1 = t2 /\ b_own st = Some t1.
Proof.
  intros n b0 ks tr st t1 t2 o1 h1 o2 h2 H E1 E2. assert (HM := mutex_execution _ _ _ _ _ H).
  split; [exact (mutex_unique _ _ _ _ _ _ _ HM E1 E2)|]. apply HM. unfold holds. eauto.
Qed.
Print Assumptions C107_mutual_exclusion_partial.
Theorem C107_writes_locked_partial : forall n b0 ks tr st k e st', execution n b0 ks tr st -> bstep st k e st' ->
  b_wait st' <> b_wait st \/ b_cnt st' <> b_cnt st \/ b_corr st' <> b_corr st ->
  exists t, b_own st = Some t /\ holds (b_thr st t).
Proof.
  intros n b0 ks tr st k e st' H S D. assert (HM := mutex_execution _ _ _ _ _ H).
  inversion S; subst; cbn in D; try (exfalso; intuition congruence).
  exists t. assert (X : holds (b_thr st t)) by (unfold holds; eauto). split; [apply HM|]; exact X.
Qed.
Print Assumptions C107_writes_locked_partial.
Example C107_nonvacuous : exists ks tr st, execution 2 0 ks tr st /\ b_thr st 1 = THold 0 HBump /\ b_thr st 0 = TSleep 0 false.
Proof.
  reach (arrive_sleep 0 ++ [(KCall, 1); (KRun, 1); (KRun, 1); (KRun, 1); (KRun, 1)]) 1 (THold 0 HBump) 0 (TSleep 0 false).
  split; [exact Q1|exact Q2].
Qed.

(* ---- C108 ---- *)
Import M_MailBox M_MailBoxConc P_MailBox P_MailBoxConc.
(* no thread makes a new call in this step *)
Definition no_new_call {M} (e : list (ev M)) : Prop := forall t b c, ~ In (Inv t b c) e.
(* there is no infinite schedule in which pending calls run on without any new call ... *)
Theorem C108_no_livelock : forall (M : Type) names (tr : list (ev M)) (f : nat -> cstate M),
  csteps (cinit names) tr (f 0) ->
  ~ (forall i, exists e, no_new_call e /\ cstep (f i) e (f (S i))).
Proof. intros M names tr f. exact (L_Progress.no_infinite names tr f). Qed.
Print Assumptions C108_no_livelock.
(* ... and when no step but a new call is possible, every call has returned *)
Theorem C108_ends_idle : forall (M : Type) names (tr : list (ev M)) (st : cstate M), csteps (cinit names) tr st ->
  (forall e st', no_new_call e -> ~ cstep st e st') -> forall t, thr st t = Idle.
Proof. intros M names tr st. exact (L_Progress.stuck_idle names tr st). Qed.
Print Assumptions C108_ends_idle.
Example C108_nonvacuous : exists tr st, csteps (cinit names0) tr st /\ owner st 0 = Some 0 /\ thr st 1 = Want 0 (CPut (Some 7) None) /\
  exists e st', no_new_call e /\ cstep st e st'.
Proof.
  destruct (drive (cinit names0) (firstn 5 sched0)) as [[stm trm]|] eqn:Dm; [|vm_compute in Dm; discriminate Dm].
  exists trm, stm. split; [eapply drive_sound; exact Dm|].
  assert (E : option_map (fun x => (owner (fst x) 0, thr (fst x) 1)) (drive (cinit names0) (firstn 5 sched0)) =
              Some (Some 0, Want 0 (CPut (Some 7) None))) by (vm_compute; reflexivity).
  rewrite Dm in E. cbn [option_map fst] in E. injection E as E1 E2. split; [exact E1|]. split; [exact E2|].
  destruct (drive1 stm (DGo 0)) as [[st' e]|] eqn:D1.
  - exists e, st'. split; [|exact (drive1_sound _ _ _ _ D1)].
    assert (E : match drive (cinit names0) (firstn 5 sched0) with Some (s, _) => option_map snd (drive1 s (DGo 0)) | None => None end = Some []) by (vm_compute; reflexivity).
    rewrite Dm, D1 in E. cbn in E. injection E as ->. intros ? ? ? [].
  - exfalso. assert (E : match drive (cinit names0) (firstn 5 sched0) with Some (s, _) => option_map snd (drive1 s (DGo 0)) | None => None end = Some []) by (vm_compute; reflexivity).
    rewrite Dm, D1 in E. discriminate.
Qed.

(* ---- C109 ---- *)
Import S_MailBoxConc S_Publish.
(* thread u's k-th call (counted from 0) on mailbox b had returned when thread t
   made its j-th call, also on b; when that has returned, u's call, with all that
   u did before it, happens before what t does next *)
Theorem C109_earlier_call_happens_before : forall (M : Type) names (tr1 tr2 : list (ev M)) st K t u b c1 c2 j k,
  mclocked names (tr1 ++ tr2) st K ->
  nth_error (calls_of u tr1) k = Some (b, c1) -> k < length (rets_of u tr1) ->
  nth_error (calls_of t (tr1 ++ tr2)) j = Some (b, c2) -> length (calls_of t tr1) <= j -> j < length (rets_of t (tr1 ++ tr2)) ->
  k < mk_thr K t u.
Proof.
  intros M names tr1 tr2 st K t u b c1 c2 j k H N1 L1 N2 L2 L3.
  eapply (L_PublishO.after_run names _ st K H tr1 tr2); eauto. unfold L_PublishO.begun, L_PublishO.fin. lia.
Qed.
Print Assumptions C109_earlier_call_happens_before.
(* any two calls of different threads on one mailbox that have returned are
   ordered, one way or the other *)
Theorem C109_calls_are_ordered : forall (M : Type) names (tr : list (ev M)) st K t u b c1 c2 j k, t <> u ->
  mclocked names tr st K ->
  nth_error (calls_of u tr) k = Some (b, c1) -> k < length (rets_of u tr) ->
  nth_error (calls_of t tr) j = Some (b, c2) -> j < length (rets_of t tr) ->
  k < mk_thr K t u \/ j < mk_thr K u t.
Proof.
  intros M names tr st K t u b c1 c2 j k D H N1 L1 N2 L2.
  eapply (L_PublishO.pair_run names tr st K H); eauto; unfold L_PublishO.fin; lia.
Qed.
Print Assumptions C109_calls_are_ordered.
(* the schedule of C62: thread 1's put and thread 2's count overlap; thread 0's
   get comes after its own subscribe *)
Example C109_nonvacuous : exists (tr : list (ev nat)) st K, mclocked names0 tr st K /\
  nth_error (calls_of 1 tr) 0 = Some (0, CPut (Some 7) None) /\ 0 < length (rets_of 1 tr) /\
  nth_error (calls_of 2 tr) 0 = Some (0, CSubscriberCount) /\ 0 < length (rets_of 2 tr).
Proof.
  destruct C62_nonvacuous as (st & tr & H & E & _). destruct (L_PublishM.csteps_mclocked _ _ _ H) as (K & HK).
  exists tr, st, K. split; [exact HK|]. subst tr. vm_compute. repeat split; lia.
Qed.
(* one call after the other: 0 subscribes, then 1 puts *)
Example C109_nonvacuous_2 : exists (tr1 tr2 : list (ev nat)) st K, mclocked names0 (tr1 ++ tr2) st K /\
  nth_error (calls_of 0 tr1) 0 = Some (0, CSubscribe) /\ 0 < length (rets_of 0 tr1) /\
  nth_error (calls_of 1 (tr1 ++ tr2)) 0 = Some (0, CPut (Some 7) None) /\ length (calls_of 1 tr1) <= 0 /\ 0 < length (rets_of 1 (tr1 ++ tr2)).
Proof.
  destruct (drive (cinit names0) ([DCall 0 0 CSubscribe] ++ repeat (DGo 0) 4 ++ [DCall 1 0 (CPut (Some 7) None)] ++ repeat (DGo 1) 5)) as [[st tr]|] eqn:D; [|vm_compute in D; discriminate D].
  assert (H := drive_sound _ _ _ _ D).
  match type of D with ?x = _ => assert (E : option_map snd x = Some ([Inv 0 0 CSubscribe; Ret 0 (MOk (RSub A))] ++ [Inv 1 0 (CPut (Some 7) None); Ret 1 (MOk RUnit)])) by (vm_compute; reflexivity) end.
  rewrite D in E. cbn [option_map snd] in E. injection E as E. destruct (L_PublishM.csteps_mclocked _ _ _ H) as (K & HK).
  exists [Inv 0 0 CSubscribe; Ret 0 (MOk (RSub A))], [Inv 1 0 (CPut (Some 7) None); Ret 1 (MOk RUnit)], st, K. subst tr. split; [exact HK|].
  vm_compute. repeat split; lia.
Qed.
