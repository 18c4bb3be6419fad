(* P_TestBarrier.v -- C133: the program test/BarrierTest.cxx with its command line. *)
From Verif Require Import Base M_Options M_Stream M_StreamIn M_Barrier S_Num S_Options S_OptionsExample S_TestMain C_TestMain.
From Verif Require Import M_BarrierUse S_BarrierUse M_TestMain C_TestRun.

(* main: the numbers given on the command line, or 100, 10 and 50, are those of the test *)
Theorem C133_numbers : forall m argv is, understood barrier_test (tl argv) is ->
  bt_main m argv = Ok (Calls (number (lit "trials") 100 is, number (lit "threads") 10 is, number (lit "maddur") 50 is) []) /\
  is_int (number (lit "trials") 100 is) /\ is_int (number (lit "threads") 10 is) /\ is_int (number (lit "maddur") 50 is).
Proof.
  intros m argv is U. split; [apply bt_calls; exact U|]. repeat split; eapply number_int; try eassumption; unfold is_int; lia.
Qed.
Print Assumptions C133_numbers.
(* or it says why not, and ends *)
Theorem C133_complains : forall m argv why, complaint barrier_test (tl argv) why -> bt_main m argv = Ok (Quits (lines why)).
Proof. exact bt_quits. Qed.
Print Assumptions C133_complains.
(* there is no third way *)
Theorem C133_every_line : forall ts, Forall (fun t => ~ In "000"%char t) ts ->
  (exists is, understood barrier_test ts is) \/ exists why, complaint barrier_test ts why.
Proof. exact bt_every. Qed.
Print Assumptions C133_every_line.

(* whatever the numbers, the test ends: the number of steps is bounded (but for
   spurious wakeups), it is never terminated by an exception, and when nothing
   more can happen all threads have been joined *)
Theorem C133_ends_partial : forall trials threads ks tr c, is_int threads ->
  csteps (bt_prog trials threads) (bt_start trials threads) ks tr c ->
  let n := Z.to_nat threads in
  c_dead c = false /\ effort ks <= (3 * n + 16) * n * Z.to_nat trials + 3 * n + 5 + 2 * spurious ks /\
  (stopped_for_good (bt_prog trials threads) c -> exists a, tr = a ++ [Said n (lit "Joined all threads" ++ [nl])]) /\
  (forall a b, tr = a ++ Said n (lit "Joined all threads" ++ [nl]) :: b ->
     b = [] /\ (forall k e c', ~ cstep (bt_prog trials threads) c k e c') /\ forall t, t <= n -> c_thr c t = Some []).
Proof. intros trials threads ks tr c I H. apply bt_ends with (1 := I). exact H. Qed.
Print Assumptions C133_ends_partial.
(* the threads' first lines (seed and random distribution) are defined *)
Theorem C133_defined_partial : forall trials threads dur ks tr c u, is_int dur -> harmless threads dur ->
  csteps (bt_prog trials threads) (bt_start trials threads) ks tr c -> In (Created u) tr -> bt_bad_thread dur u = false.
Proof.
  intros trials threads dur ks tr c u D HA H I. apply (bt_created _ _ _ _ _ _ H) in I. unfold is_int in D.
  destruct HA as [N|[N Z0]]; [lia|]. unfold bt_bad_thread. apply orb_false_iff. split.
  - apply negb_false_iff. unfold in_int, two31. apply andb_true_iff. rewrite Z.leb_le, Z.ltb_lt. lia.
  - apply Z.ltb_ge. unfold to_u32, two32. destruct (Z.lt_ge_cases dur 0).
    + rewrite <- (Z.mod_add _ 1) by discriminate. rewrite Z.mod_small; lia.
    + rewrite Z.mod_small; lia.
Qed.
Print Assumptions C133_defined_partial.
(* REFUTED: that this is so for all numbers of threads and all durations.  For
   all others there is a run in which a thread begins with undefined behaviour. *)
Theorem C133_defined_refuted : forall trials threads dur, is_int threads -> ~ harmless threads dur ->
  exists ks tr c u, csteps (bt_prog trials threads) (bt_start trials threads) ks tr c /\ In (Created u) tr /\ bt_bad_thread dur u = true.
Proof.
  intros trials threads dur I N. unfold is_int in I. unfold harmless in N.
  destruct (bt_spawns trials threads (Z.to_nat threads)) as (ks & tr & c & H & _ & A & _); [unfold two31; lia|lia|].
  assert (X : exists u, u < Z.to_nat threads /\ bt_bad_thread dur u = true).
  { destruct (Z.eq_dec dur 0) as [->|D].
    - exists 0. split; [lia|]. reflexivity.
    - exists (Z.to_nat 9157). split; [lia|]. unfold bt_bad_thread. rewrite Z2Nat.id by lia. apply orb_true_iff. left. reflexivity. }
  destruct X as (u & Hu & B). exists ks, tr, c, u. auto.
Qed.
Print Assumptions C133_defined_refuted.

(* "BarrierTest -t3 3 --trials 7": seven trials, three threads, the default 50 *)
Example C133_nonvacuous : exists is, understood barrier_test [lit "-t3"; lit "3"; lit "--trials"; lit "7"] is /\
  (forall m, bt_main m [lit "BarrierTest"; lit "-t3"; lit "3"; lit "--trials"; lit "7"] = Ok (Calls (7, 3, 50)%Z [])) /\ harmless 3 50 /\
  complaint barrier_test [lit "-t"; lit "x"] [lit "threads unacceptable value ""x"" "].
Proof.
  assert (N : forall t z, ty_read ty_int t = RdOk (VInt z) -> int_text t z /\ is_int z) by (intros t z E; apply int_text_read; exact E).
  assert (U : understood barrier_test [lit "-t3"; lit "3"; lit "--trials"; lit "7"] [TNum (lit "threads") 3; TNum (lit "trials") 7]).
  { left. destruct (N (lit "3") 3%Z) as [A B]; [vm_compute; reflexivity|]. destruct (N (lit "7") 7%Z) as [A' B']; [vm_compute; reflexivity|].
    apply (T_num _ (mkT (lit "threads") "t" true (lit "Number of threads in test."))); auto; [right; left; reflexivity|right; exists (lit "3"); reflexivity|].
    apply (T_num _ (mkT (lit "trials") "r" true (lit "Number of passes through the barrier"))); auto; [right; right; left; reflexivity|left; reflexivity|].
    apply T_end. }
  exists [TNum (lit "threads") 3; TNum (lit "trials") 7]. split; [exact U|]. split; [|split].
  - intros m. destruct (C133_numbers m (lit "BarrierTest" :: [lit "-t3"; lit "3"; lit "--trials"; lit "7"]) _ U) as [E _]. exact E.
  - right. lia.
  - apply (CP_rejected _ _ [] (mkT (lit "threads") "t" true (lit "Number of threads in test.")) (lit "-t") (lit "x") []).
    + apply T_end.
    + right. left. reflexivity.
    + reflexivity.
    + right. exists []. reflexivity.
    + intros (z & H). apply int_text_read in H. vm_compute in H. discriminate.
    + intros [H|[]]; discriminate.
Qed.
