(* P_Fair.v -- C136: under a fair scheduler every mailbox call returns.  C137:
   under a fair scheduler everybody passes the barrier, however often sleepers
   wake up for no reason.  C138: every wait with a time limit returns. *)
From Verif Require Import Base M_MailBox M_MailBoxConc M_Barrier S_Barrier S_MailBoxConc S_Fair L_FairBox L_FairBar L_FairAll L_FairEx C_Barrier.
From Verif Require P_MailBox P_MailBoxConc L_BarrierT.
Local Open Scope nat_scope.

(* ---- C136 ---- *)
(* any number of threads and mailboxes, any number of calls, for ever *)
Theorem C136_call_returns : forall (M : Type) names (f : nat -> cstate M) e, box_for_ever (cinit names) f e -> box_fair f ->
  forall n t b c, In (Inv t b c) (e n) -> exists m r, n < m /\ In (Ret t r) (e m).
Proof. intros M names f e HS HA n t b c. exact (call_returns names f e [] _ (cs_nil _) HS HA n t b c). Qed.
Print Assumptions C136_call_returns.
(* every execution can be continued in a fair way *)
Theorem C136_fair_exists : forall (M : Type) names (tr : list (ev M)) st, csteps (cinit names) tr st ->
  exists f e tr' N, box_for_ever (cinit names) f e /\ box_fair f /\ upto e N = tr ++ tr'.
Proof. intros M names tr st. exact (box_fair_exists names tr st). Qed.
Print Assumptions C136_fair_exists.
(* thread 0 is inside mailbox 0, threads 1 and 2 want to get in *)
Example C136_nonvacuous : exists (f : nat -> cstate nat) e, box_for_ever (cinit P_MailBox.names0) f e /\ box_fair f /\
  exists n, In (Inv 1 0 (CPut (Some 7) None)) (e n).
Proof.
  destruct P_MailBoxConc.C80_nonvacuous as (st & tr & H & _ & W & _).
  destruct (C136_fair_exists _ _ _ _ H) as (f & e & tr' & N & HS & HA & U). exists f, e. split; [exact HS|]. split; [exact HA|].
  assert (X : In (Inv 1 0 (CPut (Some 7) None)) (upto e N)).
  { rewrite U. apply in_or_app. left. destruct (L_MailBoxConc.inv_run _ _ _ H) as (o & w & rs & I). pose proof (L_MailBoxConc.i_thr _ _ _ _ _ _ I 1) as Q. rewrite W in Q.
    destruct Q as [Q _]. assert (X : In (0, CPut (Some 7) None) (calls_of 1 tr)) by (rewrite Q; apply in_or_app; right; left; reflexivity).
    unfold calls_of in X. apply in_flat_map in X as (x & X & Y). destruct x as [t b c|t r]; [|destruct Y]. destruct (Nat.eqb_spec t 1) as [->|]; [|destruct Y].
    destruct Y as [Y|[]]. injection Y as -> ->. exact X. }
  unfold upto in X. apply in_concat in X as (l & X & Y). apply in_map_iff in X as (n & <- & _). exists n. exact Y.
Qed.

(* ---- C137 ---- *)
(* exactly n threads use a barrier for n, no timeout expires, the counter starts
   anywhere: once each of them has called wait R times, R calls of each return *)
Theorem C137_everybody_passes : forall n b0 f k e R, 1 <= n -> (Z.of_nat n < 2 ^ 32)%Z -> (0 <= b0 < 2 ^ 32)%Z ->
  bar_for_ever (binit (Z.of_nat n) b0) f k e -> bar_fair f ->
  (forall i, k i <> KExpire) -> (forall i t, In (ECall t) (e i) -> t < n) ->
  (forall t, t < n -> exists m, R <= calls t (upto e m)) ->
  exists m, forall t, t < n -> R <= rets t (upto e m).
Proof. intros n b0 f k e R H1 H2 H3 HS HA HK HO. exact (everybody_passes n b0 f k e H1 H2 H3 HS HA HK HO R). Qed.
Print Assumptions C137_everybody_passes.
(* every execution can be continued in a fair way without new calls, timeouts and
   further wake-ups for no reason *)
Theorem C137_fair_exists : forall nw b0 ks tr st, execution nw b0 ks tr st ->
  exists f k e tr' N, bar_for_ever (binit nw b0) f k e /\ bar_fair f /\ upto e N = tr ++ tr' /\
    (forall t n, In (ECall t) (e n) -> In (ECall t) tr) /\ (forall n, k n = KRun \/ In (k n) ks).
Proof. exact bar_fair_exists. Qed.
Print Assumptions C137_fair_exists.
(* two threads, two rounds, wake-ups for no reason *)
Example C137_nonvacuous : exists f k e, bar_for_ever (binit 2 0) f k e /\ bar_fair f /\ (forall i, k i <> KExpire) /\
  (forall i t, In (ECall t) (e i) -> t < 2) /\ forall t, t < 2 -> exists m, 2 <= calls t (upto e m).
Proof.
  destruct (trace_sound 2 0 (arrive_sleep 0 ++ [(KSpurious, 0); (KRun, 0); (KRun, 0)] ++ arrive_last 1 ++ wake_leave 0 ++ arrive_sleep 1 ++ [(KSpurious, 1); (KCall, 0)])
    [ECall 0; ERead 0; EArrive 0; ECall 1; ERead 1; EArrive 1; EGen 1; ERet 1 Passed; ERet 0 Passed; ECall 1; ERead 1; EArrive 1; ECall 0]) as (ks & st & H & ->); [vm_compute; reflexivity|].
  destruct (C137_fair_exists _ _ _ _ _ H) as (f & k & e & tr' & N & HS & HA & U & HC & HK). exists f, k, e. split; [exact HS|]. split; [exact HA|]. split; [|split].
  - intros i X. destruct (HK i) as [Y|Y]; [congruence|]. rewrite X in Y. cbn in Y. repeat (destruct Y as [Y|Y]; [discriminate|]). exact Y.
  - intros i t X. apply HC in X. cbn in X. repeat (destruct X as [X|X]; [try discriminate; injection X as <-; lia|]). destruct X.
  - intros t Ht. exists N. rewrite U. unfold calls. rewrite L_Barrier.count_app. destruct t as [|[|t]]; [cbn; lia..|lia].
Qed.

(* ---- C138 ---- *)
(* any number of waiters, any number of threads, any number of calls, for ever;
   the barrier may be broken by earlier timeouts *)
Theorem C138_timed_wait_returns : forall nw b0 f k e, bar_for_ever (binit nw b0) f k e -> bar_fair f -> time_passes f e ->
  forall n t, In (ECall t) (e n) -> exists m r, n < m /\ In (ERet t r) (e m).
Proof. intros nw b0 f k e HS HA HT n t H. exact (timed_returns nw b0 f k e HS HA HT t n H). Qed.
Print Assumptions C138_timed_wait_returns.
(* a barrier for two: the only caller wakes up for no reason, is told that its
   time is over, and leaves *)
Example C138_nonvacuous : exists f k e, bar_for_ever (binit 2 0) f k e /\ bar_fair f /\ time_passes f e /\
  (exists n, In (ECall 0) (e n)) /\ exists n, k n = KSpurious.
Proof.
  destruct (trace_sound 2 0 (arrive_sleep 0 ++ [(KSpurious, 0); (KRun, 0); (KRun, 0)] ++ time_out 0)
    [ECall 0; ERead 0; EArrive 0; EExpire 0; EBroke 0; EThrow 0 ThrewTimeout; ERet 0 ThrewTimeout]) as (ks & st & H & ->); [vm_compute; reflexivity|].
  assert (ID : forall t, b_thr st t = TIdle).
  { intros t. pose proof (L_BarrierT.calls_rets _ _ _ _ _ H t) as X.
    match type of X with ?a = ?b + _ => assert (Y : a = b) by (destruct t; reflexivity) end.
    destruct (b_thr st t); try reflexivity; cbn [L_BarrierT.busy] in X; lia. }
  destruct (bar_seq _ _ _ _ H) as (f & k & e & N & HS & U & K & FN). exists f, k, e. split; [exact HS|]. split; [|split; [|split]].
  - intros t A. exfalso. destruct (A N) as (n & ee & s & Hn & S & [D _]). destruct (FN n Hn) as [X _]. rewrite X in S, D.
    clear - S ID. remember KRun as kk eqn:EK. destruct S; try discriminate; match goal with Y : b_thr _ _ = _ |- _ => rewrite ID in Y; discriminate end.
  - intros t n _ _ A. exfalso. destruct (A N) as (m & o & b & Hm & X). destruct (FN m Hm) as [Y _]. rewrite Y, ID in X. discriminate.
  - assert (X : In (ECall 0) (upto e N)) by (rewrite U; left; reflexivity). unfold upto in X. apply in_concat in X as (l & X & Y). apply in_map_iff in X as (n & <- & _). eauto.
  - assert (X : In KSpurious (map k (seq 0 N))) by (rewrite K; cbn; auto 10). apply in_map_iff in X as (n & X & _). eauto.
Qed.
