(* P_BarrierLife.v -- C116: when a barrier may be destroyed. *)
From Verif Require Import Base M_Barrier S_Barrier C_Barrier M_BarrierLife.

(* REFUTED: that a barrier is done with when everybody has arrived and one wait
   has returned.  Here both threads of a barrier for two have arrived, thread 1
   has returned, and thread 0 has yet to take the barrier's mutex *)
Theorem C116_done_after_return_refuted : exists ks tr st ks2 tr2 st2, execution 2 0 ks tr st /\ no_expiry ks /\
  count is_arrive tr = 2 /\ count is_gen tr = 1 /\ In (ERet 1 Passed) tr /\ rets 0 tr < calls 0 tr /\
  bsteps st ks2 tr2 st2 /\ b_own st = None /\ b_own st2 = Some 0.
Proof.
  destruct (exec (binit 2 0) [] [] (arrive_sleep 0 ++ arrive_last 1)) as [[[ks tr] st]|] eqn:E; [|exfalso; revert E; vm_compute; discriminate].
  destruct (exec st [] [] (repeat (KRun, 0) 2)) as [[[ks2 tr2] st2]|] eqn:E2.
  2: { exfalso. revert E2. assert (Q : match exec (binit 2 0) [] [] (arrive_sleep 0 ++ arrive_last 1) with
         Some (_, _, s) => match exec s [] [] (repeat (KRun, 0) 2) with None => true | _ => false end | None => true end = false) by (vm_compute; reflexivity).
       rewrite E in Q. intros E2. rewrite E2 in Q. discriminate. }
  assert (Q : match exec (binit 2 0) [] [] (arrive_sleep 0 ++ arrive_last 1) with
         Some (k1, t1, s) => match exec s [] [] (repeat (KRun, 0) 2) with
           Some (_, _, s2) => Some (existsb (fun k => match k with KExpire => true | _ => false end) k1, t1, b_own s, b_own s2) | None => None end | None => None end
     = Some (false, [ECall 0; ERead 0; EArrive 0; ECall 1; ERead 1; EArrive 1; EGen 1; ERet 1 Passed], None, Some 0)) by (vm_compute; reflexivity).
  rewrite E, E2 in Q. injection Q as Q1 Q2 Q3 Q4.
  exists ks, tr, st, ks2, tr2, st2. split; [eapply exec_sound; [apply bs_nil|exact E]|]. split.
  { intro Hi. assert (existsb (fun k => match k with KExpire => true | _ => false end) ks = true) by (apply existsb_exists; eauto). congruence. }
  rewrite Q2. split; [reflexivity|]. split; [reflexivity|]. split; [cbn; tauto|]. split; [vm_compute; lia|]. split; [|auto].
  eapply exec_sound; [apply bs_nil|exact E2].
Qed.
Print Assumptions C116_done_after_return_refuted.

Lemma idle_steps st k e st' : bstep st k e st' -> k <> KCall -> forall u, b_thr st u = TIdle -> b_thr st' u = TIdle.
Proof.
  intros B K u I. inversion B; subst; try congruence; cbn; unfold upd_thr; destruct (Nat.eqb_spec u t) as [->|]; try congruence; cbn; try exact I.
  revert H0. unfold hold_step. intros H0.
  destruct h; repeat match type of H0 with context [if ?c then _ else _] => destruct c end; injection H0 as <- _ _; cbn; rewrite ?I; auto.
Qed.
Lemma pinv N n b0 x : psteps N (pinit n b0) x -> forall t, p_gone x t = true \/ N <= t -> b_thr (p_bar x) t = TIdle.
Proof.
  remember (pinit n b0) as x0 eqn:E0. induction 1 as [x|x y z H IH S]; [subst; intros t _; reflexivity|]. specialize (IH E0).
  inversion S; subst; cbn.
  - intros t Ht. eapply idle_steps; eauto.
  - intros u Hu. inversion H2; subst; try discriminate. cbn. unfold upd_thr. destruct (Nat.eqb_spec u t) as [->|].
    + destruct Hu as [Hu|Hu]; [congruence|lia].
    + apply IH, Hu.
  - intros u Hu. unfold set_gone in Hu. destruct (Nat.eqb_spec u t) as [Eu|Eu]; [rewrite Eu; assumption|]. apply IH, Hu.
Qed.
(* what does hold, for any number of threads and waiters and also with timeouts:
   a thread is inside wait only while it has its pointer, so when the last
   pointer has gone nobody is inside and nobody touches the barrier any more *)
Theorem C116_destroyed_untouched_partial : forall N n b0 x, psteps N (pinit n b0) x ->
  (forall t, b_thr (p_bar x) t <> TIdle -> t < N /\ p_gone x t = false) /\
  (destroyed N x -> forall y, ~ pstep N x y).
Proof.
  intros N n b0 x H. assert (V := pinv N n b0 x H). split.
  - intros t Ht. split.
    + destruct (le_lt_dec N t) as [L|L]; [|exact L]. destruct Ht. apply V. auto.
    + destruct (p_gone x t) eqn:G; [|reflexivity]. destruct Ht. apply V. auto.
  - intros D y S. assert (A : forall t, b_thr (p_bar x) t = TIdle).
    { intros t. apply V. destruct (le_lt_dec N t); auto. }
    inversion S; subst; [|rewrite D in *; [discriminate|assumption]|rewrite D in *; [discriminate|assumption]].
    inversion H1; subst; rewrite A in *; try discriminate. congruence.
Qed.
Print Assumptions C116_destroyed_untouched_partial.
(* one thread passes its barrier for one and lets it go *)
Example C116_nonvacuous : exists x y, psteps 1 (pinit 1 0) x /\ b_thr (p_bar x) 0 <> TIdle /\
  psteps 1 (pinit 1 0) y /\ destroyed 1 y.
Proof.
  exists (mkP (with_thr (binit 1 0) 0 TCalled) (fun _ => false)), (mkP (binit 1 0) (set_gone (fun _ => false) 0)).
  split; [eapply ps_snoc; [apply ps_nil|]; apply (p_call 1 (pinit 1 0) 0); [lia|reflexivity|apply b_call; reflexivity]|].
  split; [discriminate|].
  split; [eapply ps_snoc; [apply ps_nil|]; apply (p_letgo 1 (pinit 1 0) 0); [lia|reflexivity|reflexivity]|].
  intros t Ht. cbn. unfold set_gone. destruct (Nat.eqb_spec t 0); [reflexivity|lia].
Qed.
