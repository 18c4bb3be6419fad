(* P_Publish.v -- property theorems: what a thread did before passing a barrier
   or putting a message is visible to the threads that pass it or get it (C100,
   C101).  Happens-before is defined in S_Publish. *)
From Verif Require Import Base M_Barrier M_MailBox S_Barrier S_MailBox S_MailBoxConc S_Publish L_Publish L_PublishM C_Barrier.
From Verif Require M_MailBoxConc P_MailBox P_MailBoxConc.
Local Open Scope nat_scope.

(* ---- C100 ---- *)
(* n threads, no timeout expiring: when thread t has returned from wait m times,
   the first m calls of every thread, with what it did before them, happen
   before everything t does from now on *)
Theorem C100_barrier_publishes : forall n b0 ks tr st K t u,
  1 <= n -> (Z.of_nat n < two32)%Z -> (0 <= b0 < two32)%Z ->
  clocked (Z.of_nat n) b0 ks tr st K -> only_threads n tr -> no_expiry ks -> t < n -> u < n ->
  rets t tr <= k_thr K t u.
Proof.
  intros n b0 ks tr st K t u H1 H2 H3 HC HO HE Ht Hu.
  assert (A := ck_ret _ _ _ _ (barrier_publishes n b0 ks tr st K H1 H2 H3 HC HO HE) t u Ht Hu). lia.
Qed.
Print Assumptions C100_barrier_publishes.
(* every execution has clocks, and they count only calls that were made *)
Theorem C100_clocks : forall n b0 ks tr st, execution n b0 ks tr st ->
  exists K, clocked n b0 ks tr st K /\ forall t u, k_thr K t u <= calls u tr.
Proof.
  intros n b0 ks tr st H. destruct (execution_clocked _ _ _ _ _ H) as (K & HK). exists K. split; [exact HK|].
  apply (clock_sound _ _ _ _ _ _ HK).
Qed.
Print Assumptions C100_clocks.
(* two threads, two rounds: in the end each knows both calls of the other; a
   thread that has not been through the barrier knows nothing of the other *)
Example C100_nonvacuous : (exists ks tr st K, clocked 2 0 ks tr st K /\ only_threads 2 tr /\ no_expiry ks /\ rets 0 tr = 2 /\ k_thr K 0 1 = 2) /\
  (exists ks tr st K, clocked 2 0 ks tr st K /\ calls 1 tr = 1 /\ k_thr K 0 1 = 0).
Proof.
  split.
  - destruct (trace_sound 2 0 (arrive_sleep 0 ++ arrive_last 1 ++ arrive_sleep 1 ++ wake_leave 0 ++ [(KSpurious, 1); (KRun, 1); (KRun, 1)] ++ arrive_last 0 ++ wake_leave 1)
      [ECall 0; ERead 0; EArrive 0; ECall 1; ERead 1; EArrive 1; EGen 1; ERet 1 Passed; ECall 1; ERead 1; EArrive 1;
       ERet 0 Passed; ECall 0; ERead 0; EArrive 0; EGen 0; ERet 0 Passed; ERet 1 Passed]) as (ks&st&H&->); [vm_compute; reflexivity|].
    destruct (C100_clocks _ _ _ _ _ H) as (K & HK & HS).
    match type of HK with clocked _ _ ?k ?t _ _ => assert (O : only_threads 2 t /\ no_expiry k) end.
    { split.
      - intros t Hi. cbn in Hi. repeat (destruct Hi as [Hi|Hi]; [try discriminate; injection Hi; lia|]). contradiction.
      - intro Hi. cbn in Hi. repeat (destruct Hi as [Hi|Hi]; [discriminate|]). contradiction. }
    do 3 eexists. exists K. split; [exact HK|]. split; [apply O|]. split; [apply O|]. split; [vm_compute; reflexivity|].
    assert (A := C100_barrier_publishes 2 0 _ _ st K 0 1 ltac:(lia) ltac:(reflexivity) ltac:(unfold two32; lia) HK (proj1 O) (proj2 O) ltac:(lia) ltac:(lia)).
    specialize (HS 0 1). vm_compute in A, HS. apply Nat.le_antisymm; assumption.
  - exists [KCall], [ECall 1], (with_thr (binit 2 0) 1 TCalled), (clock_step (binit 2 0) [ECall 1] (with_thr (binit 2 0) 1 TCalled) clocks0).
    split; [|split; reflexivity]. apply (ck_snoc 2 0 [] [] _ _ KCall [ECall 1] _ (ck_nil 2 0)). apply b_call. reflexivity.
Qed.

(* ---- C101 ---- *)
Import M_MailBoxConc.
(* when get hands thread t the message m, m was put into the same mailbox by a
   call (the k-th of thread u, counted from 0) that happens before *)
Theorem C101_put_before_get : forall (M : Type) names (tr : list (ev M)) st K t m,
  mclocked names (tr ++ [Ret t (MOk (RMsg (Some m)))]) st K ->
  exists b c u k s, (exists earlier, calls_of t tr = earlier ++ [(b, c)]) /\
    nth_error (calls_of u tr) k = Some (b, CPut (Some m) s) /\ k < mk_thr K t u.
Proof. intros; eapply get_after_put; eauto. Qed.
Print Assumptions C101_put_before_get.
Theorem C101_clocks : forall (M : Type) names (tr : list (ev M)) st, csteps (cinit names) tr st ->
  exists K, mclocked names tr st K /\ forall t u, mk_thr K t u <= length (calls_of u tr).
Proof.
  intros M names tr st H. destruct (csteps_mclocked _ _ _ H) as (K & HK). exists K. split; [exact HK|apply (mclock_sound _ _ _ _ HK)].
Qed.
Print Assumptions C101_clocks.
(* the schedule of C62: thread 0 gets what thread 1 put, and knows its call; of
   thread 1's call alone, thread 0 knows nothing *)
Example C101_nonvacuous : (exists tr st K, mclocked P_MailBox.names0 (tr ++ [Ret 0 (MOk (RMsg (Some 7)))]) st K /\ mk_thr K 0 1 = 1) /\
  (exists tr st K, mclocked (M := nat) P_MailBox.names0 tr st K /\ calls_of 1 tr = [(0, CPut (Some 7) None)] /\ mk_thr K 0 1 = 0).
Proof.
  split.
  - destruct P_MailBoxConc.C62_nonvacuous as (st & tr & H & -> & _). destruct (C101_clocks _ _ _ _ H) as (K & HK & HS).
    exists [Inv 0 0 CSubscribe; Inv 1 0 (CPut (Some 7) None); Inv 2 0 CSubscriberCount; Ret 0 (MOk (RSub P_MailBox.A));
          Inv 0 0 (CGet (Some P_MailBox.A)); Ret 1 (MOk RUnit); Ret 2 (MOk (RNum 1))], st, K.
    split; [exact HK|]. destruct (C101_put_before_get _ _ [_; _; _; _; _; _; _] _ _ _ _ HK) as (b & c & u & k & s & _ & A & B).
    specialize (HS 0 1). cbn in HS. destruct u as [|[|[|u]]].
    + destruct k as [|[|k]]; cbn in A; try discriminate A. destruct k; discriminate A.
    + lia.
    + destruct k as [|[|k]]; discriminate A.
    + destruct k; discriminate A.
  - exists [Inv 1 0 (CPut (Some 7) None)], (set_thr (cinit P_MailBox.names0) 1 (Want 0 (CPut (Some 7) None))), (mkMK (tick (fun _ _ => 0) 1) (fun _ _ => 0)).
    split; [|split; reflexivity]. apply (mck_snoc P_MailBox.names0 [] (cinit P_MailBox.names0) mclocks0); [apply mck_nil|constructor; reflexivity|].
    exact (mk_call _ _ _ mclocks0 _ _ _ eq_refl).
Qed.
