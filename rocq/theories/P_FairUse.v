(* P_FairUse.v -- C140: under a fair scheduler the two programs of /repo that use a
   barrier end, however often sleepers wake up for no reason. *)
From Coq Require Import Lia.
From Verif Require Import Base M_Stream M_Format M_Barrier S_Barrier S_Fair M_BarrierUse S_BarrierUse S_FairUse L_Barrier L_BarrierUse C_Barrier C_BarrierUse L_FairUse P_BarrierUse.
Local Open Scope nat_scope.

(* examples/BarrierExample.cxx with n threads, when no timeout expires: at some
   time main has written its last line, every thread has passed both waits and
   written its number twice, and nothing happens any more *)
Theorem C140_example_ends : forall n f k e, (Z.of_nat n + 1 < 2 ^ 32)%Z ->
  use_for_ever (example_prog n) (example_start n) f k e -> use_fair (example_prog n) f -> (forall i, k i <> KBar KExpire) ->
  exists m a, upto e m = a ++ [Said n (lit " clear the barrier" ++ [nl])] /\ over f e m /\
    (forall t, t <= n -> c_thr (f m) t = Some []) /\ (forall u, u < n -> said u (put_int (Z.of_nat u)) a = 2) /\
    (forall u, u <= n -> returns u a = 2) /\ (forall u r, In (InBar (ERet u r)) a -> r = Passed).
Proof.
  intros n f k e Hn HS HA HK. pose proof Hn as Hn0. change (2 ^ 32)%Z with two32 in Hn. pose proof HS as HS'. rewrite ex_start in HS'.
  destruct (calm_fair_end _ _ _ _ _ _ _ (ex_wf n) (le_n _) ltac:(lia) ltac:(lia) f k e HS' HA HK) as (m & F & Z).
  pose proof (calm_al _ _ _ _ _ _ _ (ex_wf n) ltac:(lia) ltac:(lia) f k e HS' HK m) as A.
  destruct (calm_exec (example_prog n) (S n) f k e HS' HK m) as (ks & EX & C). rewrite <- ex_start in EX.
  pose proof (end_all _ _ _ _ _ _ _ _ _ _ _ m (ex_wf n) HS' A F) as EA.
  destruct (ex_ends n ks _ _ Hn0 EX C) as (a & E); [intros kk ee c' S; elim (no_step _ _ _ _ _ EA Z S)|].
  exists m, a. split; [exact E|]. split; [exact (end_over _ _ _ _ _ m HS EA Z)|]. split; [intros t Ht; apply F; lia|].
  destruct (C123_clear_is_last n ks _ _ a [] Hn0 EX C E) as (_ & _ & X). exact X.
Qed.
Print Assumptions C140_example_ends.

(* test/BarrierTest.cxx with any number of threads and trials, when the time
   limits run out: main joins all threads *)
Theorem C140_test_ends : forall n R f k e,
  use_for_ever (test_prog n R) (test_start n R) f k e -> use_fair (test_prog n R) f -> use_time_passes f e ->
  exists m a, upto e m = a ++ [Said n (lit "Joined all threads" ++ [nl])] /\ over f e m /\ forall t, t <= n -> c_thr (f m) t = Some [].
Proof.
  intros n R f k e HS HA HT.
  assert (AL : forall i, c_dead (f i) = false) by (intros i; destruct (U_exec _ _ _ _ _ HS i) as (ks & H & _); exact (te_alive _ _ _ _ _ H)).
  destruct (mu_bound _ _ _ _ _ _ _ (te_wf n R) _ _ _ _ HS AL) as (B & HB). destruct (settle (mu n e) B (mu_up _ _ _ AL) HB) as (m & Q0).
  destruct (timed_end _ _ _ _ _ _ _ (te_wf n R) _ _ _ _ HS HA AL m Q0 (le_n _) HT) as [F Z].
  pose proof (end_all _ _ _ _ _ _ _ _ _ _ _ m (te_wf n R) HS (AL m) F) as EA. destruct (U_exec _ _ _ _ _ HS m) as (ks & EX & _).
  destruct (te_ends n R ks _ _ EX) as (a & E); [intros kk ee c' S; elim (no_step _ _ _ _ _ EA Z S)|].
  exists m, a. split; [exact E|]. split; [exact (end_over _ _ _ _ _ m HS EA Z)|]. intros t Ht. apply F. lia.
Qed.
Print Assumptions C140_test_ends.

(* the same program when no timeout expires: every thread also makes all its
   trials, and passes every time *)
Theorem C140_test_passes : forall n R f k e, (1 <= Z.of_nat n < 2 ^ 32)%Z ->
  use_for_ever (test_prog n R) (test_start n R) f k e -> use_fair (test_prog n R) f -> (forall i, k i <> KBar KExpire) ->
  exists m a, upto e m = a ++ [Said n (lit "Joined all threads" ++ [nl])] /\ over f e m /\
    forall t, t < n -> naps t (upto e m) = R /\ returns t (upto e m) = R /\ (forall r, In (InBar (ERet t r)) (upto e m) -> r = Passed).
Proof.
  intros n R f k e Hn HS HA HK. pose proof Hn as Hn0. change (2 ^ 32)%Z with two32 in Hn.
  destruct (calm_fair_end _ _ _ _ _ _ _ (te_wf n R) ltac:(lia) ltac:(lia) ltac:(lia) f k e HS HA HK) as (m & F & Z).
  pose proof (calm_al _ _ _ _ _ _ _ (te_wf n R) ltac:(lia) ltac:(lia) f k e HS HK m) as A.
  destruct (calm_exec (test_prog n R) n f k e HS HK m) as (ks & EX & C).
  pose proof (end_all _ _ _ _ _ _ _ _ _ _ _ m (te_wf n R) HS A F) as EA.
  assert (NS : forall kk ee c', ~ cstep (test_prog n R) (f m) kk ee c') by (intros kk ee c'; apply no_step; assumption).
  destruct (te_ends n R ks _ _ EX) as (a & E); [intros kk ee c' S; elim (NS _ _ _ S)|].
  exists m, a. split; [exact E|]. split; [exact (end_over _ _ _ _ _ m HS EA Z)|]. intros t Ht.
  destruct (te_all_pass n R ks _ _ Hn0 EX C (fun kk ee c' S => False_ind _ (NS _ _ _ S)) t Ht) as (X1 & _ & X2 & X3).
  rewrite returns_rets. auto.
Qed.
Print Assumptions C140_test_passes.

(* every execution can be continued in such a way *)
Theorem C140_example_fair_exists : forall n ks tr c, (Z.of_nat n + 1 < 2 ^ 32)%Z ->
  csteps (example_prog n) (example_start n) ks tr c -> calm ks ->
  exists f k e tr' m, use_for_ever (example_prog n) (example_start n) f k e /\ use_fair (example_prog n) f /\ (forall i, k i <> KBar KExpire) /\
    upto e m = tr ++ tr' /\ forall x, In x ks -> exists i, k i = x.
Proof.
  intros n ks tr c Hn H C. set (ok := fun x : ckind => x <> KBar KSpurious /\ x <> KBar KExpire).
  destruct (use_run_out _ _ ok (27 * n + 25 + 2 * spurious ks) ks tr c H) as (ks' & tr' & c' & H' & OK & ST).
  - intros ks' tr' c' H' OK. assert (C' : calm (ks ++ ks')).
    { intros X. apply in_app_or in X as [X|X]; [exact (C X)|]. rewrite Forall_forall in OK. destruct (OK _ X) as [_ Y]. congruence. }
    pose proof (ex_effort n _ _ _ Hn H' C') as L. destruct (effort_own ok ks' (fun x => @proj1 _ _) OK) as [X Y].
    rewrite effort_app, spurious_app, X, Y in L. lia.
  - destruct (use_seq _ _ _ _ _ H') as (f & k & e & N & HF & U & K & FN & KX). exists f, k, e, tr', N. split; [exact HF|]. split; [|split; [|split]].
    + intros t A. exfalso. destruct (A N) as (i & kk & ee & c2 & Hi & S & K1 & K2 & _). rewrite (FN i Hi) in S. exact (ST _ _ _ S (conj K1 K2)).
    + intros i X. destruct (K i) as [Y|Y]; [congruence|]. rewrite X in Y. apply in_app_or in Y as [Y|Y]; [exact (C Y)|].
      rewrite Forall_forall in OK. destruct (OK _ Y) as [_ Z]. congruence.
    + exact U.
    + intros x X. destruct (KX x) as (i & _ & Y); [apply in_or_app; auto|]. eauto.
Qed.
Print Assumptions C140_example_fair_exists.
Theorem C140_test_fair_exists : forall n R ks tr c, csteps (test_prog n R) (test_start n R) ks tr c ->
  exists f k e tr' m, use_for_ever (test_prog n R) (test_start n R) f k e /\ use_fair (test_prog n R) f /\ use_time_passes f e /\
    upto e m = tr ++ tr' /\ forall x, In x ks -> exists i, k i = x.
Proof.
  intros n R ks tr c H. set (ok := fun x : ckind => x <> KBar KSpurious).
  destruct (use_run_out _ _ ok ((3 * n + 16) * n * R + 3 * n + 5 + 2 * spurious ks) ks tr c H) as (ks' & tr' & c' & H' & OK & ST).
  - intros ks' tr' c' H' OK. pose proof (te_effort n R _ _ _ H') as L. destruct (effort_own ok ks' (fun x Hx => Hx) OK) as [X Y].
    rewrite effort_app, spurious_app, X, Y in L. lia.
  - assert (SG : stopped_for_good (test_prog n R) c').
    { intros kk ee c2 S. apply ST in S. destruct kk as [|[]]; try reflexivity; exfalso; apply S; discriminate. }
    destruct (caught_end _ _ _ _ _ _ _ (te_wf n R) ltac:(lia) _ _ _ _ ltac:(discriminate) (le_n n) H' SG) as [_ Z].
    destruct (use_seq _ _ _ _ _ H') as (f & k & e & N & HF & U & K & FN & KX). exists f, k, e, tr', N. split; [exact HF|]. split; [|split; [|split]].
    + intros t A. exfalso. destruct (A N) as (i & kk & ee & c2 & Hi & S & K1 & _). rewrite (FN i Hi) in S. exact (ST _ _ _ S K1).
    + intros t i _ _ A. exfalso. destruct (A N) as (j & o & b & Hj & X). cbn beta in X. rewrite (FN j Hj), Z in X. discriminate.
    + exact U.
    + intros x X. destruct (KX x) as (i & _ & Y); [apply in_or_app; auto|]. eauto.
Qed.
Print Assumptions C140_test_fair_exists.

(* two threads and main; the first thread wakes up for no reason twice *)
Example C140_nonvacuous : exists f k e, use_for_ever (example_prog 2) (example_start 2) f k e /\ use_fair (example_prog 2) f /\
  (forall i, k i <> KBar KExpire) /\ exists i, k i = KBar KSpurious.
Proof.
  set (l := steps_of 2 2 ++ steps_of 0 1 ++ inside (arrive_sleep 0 ++ [(KSpurious, 0); (KRun, 0); (KRun, 0); (KSpurious, 0); (KRun, 0)])).
  pose proof (cexec_run (example_prog 2) (example_start 2) l) as H.
  assert (Q : option_map (fun x => (existsb is_expiry (fst (fst x)), spurious (fst (fst x)))) (cexec (example_prog 2) (example_start 2) [] [] l) = Some (false, 2)) by (vm_compute; reflexivity).
  destruct (cexec _ _ _ _ _) as [[[ks tr] c]|]; [|discriminate]. cbn [option_map fst snd] in Q. injection Q as Q1 Q2.
  destruct (C140_example_fair_exists 2 ks tr c ltac:(reflexivity) H (calm_if _ Q1)) as (f & k & e & tr' & m & A & B & C & _ & D).
  exists f, k, e. split; [exact A|]. split; [exact B|]. split; [exact C|]. apply D. clear - Q2. induction ks as [|x ks IH]; [discriminate|].
  destruct x as [|[]]; try (right; apply IH, Q2). left. reflexivity.
Qed.
(* two threads, three trials; the first thread's time runs out *)
Example C140_nonvacuous_expiry : exists f k e, use_for_ever (test_prog 2 3) (test_start 2 3) f k e /\ use_fair (test_prog 2 3) f /\
  use_time_passes f e /\ exists i, k i = KBar KExpire.
Proof.
  set (l := steps_of 2 5 ++ steps_of 0 1 ++ inside (arrive_sleep 0) ++ inside (time_out 0)).
  pose proof (cexec_run (test_prog 2 3) (test_start 2 3) l) as H.
  assert (Q : option_map (fun x => existsb is_expiry (fst (fst x))) (cexec (test_prog 2 3) (test_start 2 3) [] [] l) = Some true) by (vm_compute; reflexivity).
  destruct (cexec _ _ _ _ _) as [[[ks tr] c]|]; [|discriminate]. cbn [option_map fst snd] in Q. injection Q as Q.
  destruct (C140_test_fair_exists 2 3 ks tr c H) as (f & k & e & tr' & m & A & B & C & _ & D).
  exists f, k, e. split; [exact A|]. split; [exact B|]. split; [exact C|]. apply D. apply existsb_exists in Q as (x & X & Y). destruct x as [|[]]; try discriminate. exact X.
Qed.
