(* P_ExchangeFair.v -- C135: the exchange program, and MailBoxTest, come to their
   end under every fair scheduler. *)
From Verif Require Import Base M_MailBox M_MailBoxConc M_Barrier M_Exchange M_TestMain S_Exchange S_ExchangeFair S_TestMain L_ExchangeF C_TestMail.

(* the threads poll get until they have their messages; if the scheduler is fair
   they all finish, and report success *)
Theorem C135_fair_ends : forall c f k, fits c -> schedule (xstep c) (xinit c) f k -> fair (xstep c) f ->
  exists n, forall m t, n <= m -> t < c_threads c -> l_at (x_thr (f m) t) = PEnd 0%Z.
Proof. intros c f k HF HS HA. exact (all_finish c HF f k HS HA). Qed.
Print Assumptions C135_fair_ends.

Lemma one_step a g k g' : (1 <= a_threads a < 2 ^ 31)%Z -> good a -> (forall t, ok_of a (x_thr g t)) ->
  (mt_step a g k g' <-> xstep (cfg_of a) g k g').
Proof.
  intros B G O. destruct (same_of a g [k] g' B G O) as [A1 A2]. split; intros S.
  - assert (R : xrun (cfg_of a) g [k] g') by (apply A1; apply (mr_snoc a g [] g k g'); [constructor|exact S]).
    remember [k] as l eqn:EL. destruct R as [|g ks1 g1 k1 g2 R1 S1]; [discriminate|]. apply (app_inj_tail ks1 []) in EL as [-> ->].
    remember [] as l0 eqn:E0. destruct R1 as [|g ks2 g3 k3 g1 R1 S3]; [exact S1|]. destruct ks2; discriminate.
  - assert (R : mt_run a g [k] g') by (apply A2; apply (xr_snoc (cfg_of a) g [] g k g'); [constructor|exact S]).
    remember [k] as l eqn:EL. destruct R as [|g ks1 g1 k1 g2 R1 S1]; [discriminate|]. apply (app_inj_tail ks1 []) in EL as [-> ->].
    remember [] as l0 eqn:E0. destruct R1 as [|g ks2 g3 k3 g1 R1 S3]; [exact S1|]. destruct ks2; discriminate.
Qed.
(* the same for the test program and the numbers of its command line *)
Theorem C135_test_ends : forall m t r ne f k, (1 <= t < 2 ^ 31)%Z -> works m t r ne ->
  let a := mkMT m t r ne in schedule (mt_step a) (mt_start a) f k -> fair (mt_step a) f ->
  exists n, forall j i, n <= j -> i < Z.to_nat t -> l_at (x_thr (f j) i) = PEnd 0%Z.
Proof.
  intros m t r ne f k B W a HS HA. assert (G : good a) by exact W. pose proof (good_fits a B G) as HF.
  assert (OK : forall n, exists ks, mt_run a (mt_start a) ks (f n)).
  { destruct HS as [S0 SS]. induction n as [|n (ks & IH)]; [rewrite S0; exists []; constructor|].
    destruct (SS n) as [[S1 _]|[-> _]]; [|eauto]. exists (ks ++ [k n]). econstructor; eassumption. }
  assert (SM : forall n kk g', mt_step a (f n) kk g' <-> xstep (cfg_of a) (f n) kk g').
  { intros n kk g'. destruct (OK n) as (ks & R).
    assert (O : forall i, ok_of a (x_thr (f n) i)) by (intros i X; apply (ok_run a ks (f n) R X i)). apply one_step; assumption. }
  assert (X : exists n, forall j i, n <= j -> i < c_threads (cfg_of a) -> l_at (x_thr (f j) i) = PEnd 0%Z); [|exact X].
  apply C135_fair_ends with (k := k); try assumption.
  - destruct HS as [S0 SS]. split; [rewrite S0; apply start_same; exact B|]. intros n. rewrite <- SM. apply SS.
  - intros u H N. apply HA. intros N0. destruct (H N0) as (n & g' & H1 & H2 & H3). exists n, g'. rewrite SM. auto.
Qed.
Print Assumptions C135_test_ends.

(* and there are such schedules, for every configuration *)
Theorem C135_fair_exists : forall c, fits c -> exists f k, schedule (xstep c) (xinit c) f k /\ fair (xstep c) f.
Proof. exact fair_exists. Qed.
Print Assumptions C135_fair_exists.

(* three threads, five messages, four trials *)
Example C135_nonvacuous : let c := mkCfg 3 5 4 false in fits c /\
  exists f k n, schedule (xstep c) (xinit c) f k /\ fair (xstep c) f /\
    l_at (x_thr (f 0) 2) = PSubscribe /\ l_at (x_thr (f n) 2) = PEnd 0%Z.
Proof.
  cbv zeta. set (c := mkCfg 3 5 4 false). assert (HF : fits c) by (unfold fits; cbn; unfold two31; lia). split; [exact HF|].
  destruct (C135_fair_exists c HF) as (f & k & HS & HA). destruct (C135_fair_ends c f k HF HS HA) as (n & H).
  exists f, k, n. split; [exact HS|]. split; [exact HA|]. split; [destruct HS as [-> _]; reflexivity|].
  apply H; [lia|]. cbn. lia.
Qed.
