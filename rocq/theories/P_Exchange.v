(* P_Exchange.v -- C113: the exchange program of the manual and the test. *)
From Verif Require Import Base M_MailBox M_MailBoxConc M_Barrier M_Exchange S_Exchange L_ExchangeG L_ExchangeP.

(* each thread gets, in each trial, from each sender, exactly what that sender
   sent in that trial, in the order it was sent, and nothing from anybody else;
   with no_echo nothing of its own *)
Theorem C113_each_trial_exact : forall c g t, fits c -> reached c g -> t < c_threads c ->
  forall r, r < length (l_past (x_thr g t)) ->
    (forall u, filter (from u) (nth r (l_past (x_thr g t)) []) = due c t r u) /\
    (forall m, In m (nth r (l_past (x_thr g t)) []) -> x_from m < c_threads c).
Proof.
  intros c g t HF HR Ht r Hr. split; [intros u; apply exact_trials; assumption|]. intros m Hm. eapply past_senders; eassumption.
Qed.
Print Assumptions C113_each_trial_exact.
(* what a thread holds of the trial it is in belongs to that trial *)
Theorem C113_no_stray_message : forall c g t m, fits c -> reached c g -> t < c_threads c ->
  In m (l_cur (x_thr g t)) -> x_trial m = length (l_past (x_thr g t)).
Proof. exact cur_trial. Qed.
Print Assumptions C113_no_stray_message.
(* nobody is more than one trial ahead of anybody *)
Theorem C113_together : forall c g t u, fits c -> reached c g -> t < c_threads c -> u < c_threads c -> 0 < c_msgs c ->
  length (l_past (x_thr g u)) <= S (length (l_past (x_thr g t))).
Proof. exact together. Qed.
Print Assumptions C113_together.
(* no thread ends by an exception or by undefined behaviour; a thread that
   finishes has done all its trials and reports success *)
Theorem C113_success : forall c g t, fits c -> reached c g -> t < c_threads c ->
  l_at (x_thr g t) <> PDied /\
  forall res, l_at (x_thr g t) = PEnd res -> res = 0%Z /\ length (l_past (x_thr g t)) = c_trials c.
Proof. intros c g t HF HR Ht. split; [apply (never_dies c); assumption|]. intros res E. apply (end_ok c g t res); assumption. Qed.
Print Assumptions C113_success.
(* when all have finished, the mailbox has no subscriber and no message left *)
Theorem C113_nothing_left : forall c g, fits c -> reached c g ->
  (forall t, t < c_threads c -> exists res, l_at (x_thr g t) = PEnd res) -> mb_queues (boxes (x_box g) 0) = [].
Proof. exact empty_end. Qed.
Print Assumptions C113_nothing_left.
(* the program is never beyond hope: from wherever it has got to, all threads
   can still finish *)
Theorem C113_can_finish : forall c g, fits c -> reached c g ->
  exists ks g', xrun c g ks g' /\ in_time ks /\ forall t, t < c_threads c -> l_at (x_thr g' t) = PEnd 0%Z.
Proof.
  intros c g HF HR. destruct (can_finish c HF g HR) as (g' & (ks & G & I) & H). exists ks, g'. split; [exact G|]. split; [exact I|].
  intros t Ht. destruct (H t Ht) as (res & E1). destruct (end_ok c g' t res HF) as [-> _]; auto.
  apply (reached_go c g g' HR). exists ks. auto.
Qed.
Print Assumptions C113_can_finish.

(* two threads, two messages each, one trial, no echo: there is an execution, it
   ends, and thread 0 has got thread 1's messages *)
Example C113_nonvacuous : let c := mkCfg 2 2 1 true in fits c /\ reached c (xinit c) /\
  exists g, reached c g /\ l_at (x_thr g 0) = PEnd 0%Z /\ l_at (x_thr g 1) = PEnd 0%Z /\
    filter (from 1) (nth 0 (l_past (x_thr g 0)) []) = [mkX 1 0 0; mkX 1 0 1] /\
    filter (from 0) (nth 0 (l_past (x_thr g 0)) []) = [].
Proof.
  cbv zeta. set (c := mkCfg 2 2 1 true). assert (HF : fits c) by (unfold fits; cbn; unfold two31; lia).
  assert (R0 : reached c (xinit c)) by (exists []; split; [constructor|intros []]).
  split; [exact HF|]. split; [exact R0|].
  destruct (C113_can_finish c (xinit c) HF R0) as (ks & g & G & I & H). assert (RG : reached c g) by (exists ks; auto).
  assert (T0 : 0 < c_threads c) by (cbn; lia). assert (T1 : 1 < c_threads c) by (cbn; lia).
  exists g. split; [exact RG|]. split; [apply H, T0|]. split; [apply H, T1|].
  destruct (C113_success c g 0 HF RG T0) as [_ S1]. destruct (S1 _ (H 0 T0)) as [_ S2].
  destruct (C113_each_trial_exact c g 0 HF RG T0 0) as [EX _]; [rewrite S2; cbn; lia|].
  split; rewrite EX; reflexivity.
Qed.
(* the same program without no_echo, three threads, several trials *)
Example C113_nonvacuous2 : let c := mkCfg 3 5 4 false in fits c /\
  exists g, reached c g /\ length (l_past (x_thr g 2)) = 4 /\
    filter (from 2) (nth 3 (l_past (x_thr g 2)) []) = map (mkX 2 3) [0; 1; 2; 3; 4].
Proof.
  cbv zeta. set (c := mkCfg 3 5 4 false). assert (HF : fits c) by (unfold fits; cbn; unfold two31; lia).
  assert (R0 : reached c (xinit c)) by (exists []; split; [constructor|intros []]).
  split; [exact HF|].
  destruct (C113_can_finish c (xinit c) HF R0) as (ks & g & G & I & H). assert (RG : reached c g) by (exists ks; auto).
  assert (T2 : 2 < c_threads c) by (cbn; lia).
  exists g. split; [exact RG|].
  destruct (C113_success c g 2 HF RG T2) as [_ S1]. destruct (S1 _ (H 2 T2)) as [_ S2]. split; [exact S2|].
  destruct (C113_each_trial_exact c g 2 HF RG T2 3) as [EX _]; [rewrite S2; cbn; lia|]. rewrite EX. reflexivity.
Qed.
