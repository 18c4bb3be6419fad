(* P_BarrierBroke.v -- C68: what the other threads get when one has timed out *)
From Verif Require Import Base M_Barrier S_Barrier L_Barrier L_BarrierT L_BarrierR C_Barrier P_Barrier M_BarrierTime P_BarrierTime.
From Coq Require Import Lia.
Local Open Scope nat_scope.

(* a thread that has looked at a counter other than 2^32 - 1 and has not been told of a timeout *)
Definition untold (x : tst) : Prop :=
  did_read x = true /\ late x = false /\ about x = false /\ forall o, old_of x = Some o -> o <> (two32 - 1)%Z.
Lemma untold_intro x : did_read x = true -> late x = false -> about x = false -> (forall o, old_of x = Some o -> o <> (two32 - 1)%Z) -> untold x.
Proof. unfold untold. auto. Qed.
Lemma untold_step t st k e st' : bstep st k e st' -> (forall u, ~ In (EGen u) e) -> (forall r, ~ In (ERet t r) e) ->
  b_cnt st = (two32 - 1)%Z -> untold (b_thr st t) -> b_cnt st' = (two32 - 1)%Z /\ untold (b_thr st' t).
Proof.
  assert (O : forall s v x w, b_thr (with_thr s v x) w = if Nat.eqb w v then x else b_thr s w) by reflexivity.
  intros H NG NR C U. pose proof U as (U1 & U2 & U3 & U4).
  destruct H; rewrite ?O; cbn [b_cnt with_thr with_own];
    try (split; [exact C|destruct (Nat.eqb_spec t t0) as [E|N]; [subst t0; rewrite H in U1, U2, U3, U4|exact U]]).
  all: try discriminate U1.
  all: try (apply untold_intro; [reflexivity|reflexivity|reflexivity|intros o [= <-]; exact (U4 old eq_refl)]).
  - destruct h; cbn in H0; try (match type of H0 with context [if ?c then _ else _] => destruct c eqn:D end); injection H0 as <- <- <-;
      rewrite ?O; cbn [b_cnt with_thr with_own with_cnt with_corr];
      try (destruct (NG t0 (or_introl eq_refl))).
    all: split; [first [exact C|reflexivity]|].
    all: destruct (Nat.eqb_spec t t0) as [E|N]; [subst t0; rewrite H in U1, U2, U3, U4|try exact U].
    all: try discriminate U2; try discriminate U3.
    all: try (apply untold_intro; [reflexivity|first [reflexivity|exact U2]|reflexivity|first [intros o [= <-]; exact (U4 old eq_refl)|discriminate]]).
    all: try (exfalso; apply Z.eqb_eq in D; apply (U4 old eq_refl); congruence).
    all: cbn; clear - U; destruct (b_thr st t); exact U.
  - apply untold_intro; [reflexivity|destruct timedout; reflexivity|destruct timedout; reflexivity|intros o [= <-]; exact (U4 old eq_refl)].
  - destruct (NR r). left. reflexivity.
Qed.
(* cutting a trace that grows by at most one event *)
Lemma snoc_cut {A} (tr e a b : list A) x : length e <= 1 -> tr ++ e = a ++ x :: b ->
  (e = [] /\ tr = a ++ x :: b) \/ (e = [x] /\ b = [] /\ a = tr) \/ exists y b', e = [y] /\ b = b' ++ [y] /\ tr = a ++ x :: b'.
Proof.
  destruct e as [|y [|]]; cbn; intros L E; [left; rewrite app_nil_r in E; auto| |lia]. right. destruct b as [|z b' _] using rev_ind.
  - left. apply app_inj_tail in E as [-> ->]. auto.
  - right. rewrite app_comm_cons, app_assoc in E. apply app_inj_tail in E as [-> ->]. exists z, b'. auto.
Qed.
(* who has read the counter and not returned is in a call *)
Lemma read_stays n b0 ks tr st : execution n b0 ks tr st -> forall t a b, tr = a ++ ERead t :: b -> (forall r, ~ In (ERet t r) b) -> did_read (b_thr st t) = true.
Proof.
  unfold execution. intros HE. induction HE as [|s0 ks tr st1 k e st2 HE IH S]; intros t a b E NR; [destruct a; discriminate|].
  destruct (step_class _ _ _ _ S) as (t' & C1 & C2 & C3).
  assert (K : (forall r, ~ In (ERet t r) e) -> did_read (b_thr st1 t) = true -> did_read (b_thr st2 t) = true).
  { intros NR' D. destruct (Nat.eq_dec t' t) as [->|N].
    - destruct C3 as [(-> & -> & _)|[(_ & _ & _ & C3 & _)|[(_ & _ & r & -> & _)|(_ & _ & C3 & _)]]]; [|exact C3|destruct (NR' r); left; reflexivity|exact C3].
      inversion S; subst. match goal with X : b_thr st1 t = TIdle |- _ => rewrite X in D; discriminate D end.
    - destruct (C1 t) as (_ & X & _); [congruence|]. congruence. }
  destruct (snoc_cut _ _ _ _ _ (bstep_one _ _ _ _ S) E) as [(-> & E')|[(-> & -> & E')|(y & b' & -> & -> & E')]].
  - eapply K; [intros r []|eapply IH; eauto].
  - assert (t' = t) by (symmetry; exact (C2 _ (or_introl eq_refl))). subst t'.
    destruct C3 as [(_ & X & _)|[(_ & _ & _ & C3 & _)|[(_ & _ & r & X & _)|(_ & _ & _ & _ & X & _)]]]; [discriminate X|exact C3|discriminate X|destruct X; left; reflexivity].
  - eapply K; [intros r J; apply (NR r); apply in_or_app; right; exact J|]. eapply IH; [exact E'|]. intros r J. apply (NR r). apply in_or_app. left. exact J.
Qed.

(* the thread that has been overtaken by a timeout *)
Lemma overtaken n b0 ks tr st u t : (0 <= b0 < two32)%Z -> execution n b0 ks tr st -> forall a m a1 a2,
  tr = a ++ EBroke u :: m -> (b0 + Z.of_nat (count is_gen a) < two32 - 1)%Z -> t <> u ->
  a = a1 ++ ERead t :: a2 -> (forall r, ~ In (ERet t r) a2) -> (forall r, ~ In (ERet t r) m) -> (forall v, ~ In (EGen v) m) ->
  b_cnt st = (two32 - 1)%Z /\ untold (b_thr st t).
Proof.
  intros B HE0. pose proof HE0 as HE. unfold execution in HE. remember (binit n b0) as s0. induction HE as [|s0 ks tr st1 k e st2 HE IH S]; subst; intros a m a1 a2 E G N Ea NR NRm NGm; [destruct a; discriminate|].
  destruct (snoc_cut _ _ _ _ _ (bstep_one _ _ _ _ S) E) as [(-> & E')|[(-> & -> & E')|(y & m' & -> & -> & E')]].
  - destruct (IH HE eq_refl _ _ _ _ E' G N Ea NR NRm NGm) as [I1 I2]. eapply untold_step; eauto.
  - rewrite E' in Ea, G. destruct (broke_from _ _ _ _ S) as (o & UH). destruct (TM_execution n b0 ks tr st1 B HE) as [M1 M2 M3 M4 M5].
    destruct (M4 _ _ UH) as [NB _].
    destruct (quiet_execution _ _ _ _ _ HE NB) as [_ Q].
    assert (C : b_cnt st2 = (two32 - 1)%Z).
    { inversion S; subst. match goal with X : hold_step _ ?v ?o' ?h = _ |- _ => destruct h; cbn in X; try (match type of X with context [if ?c then _ else _] => destruct c end); inversion X; subst; reflexivity end. }
    split; [exact C|].
    assert (D : did_read (b_thr st1 t) = true) by (eapply read_stays; eauto).
    assert (HN : forall o' h, b_thr st1 t <> THold o' h). { intros o' h X. apply N. eapply mutex_unique; [eapply mutex_execution; exact HE|exact X|exact UH]. }
    assert (SAME : b_thr st2 t = b_thr st1 t).
    { inversion S; subst. match goal with X : hold_step _ ?v ?o' ?h = _ |- _ => destruct h; cbn in X; try (match type of X with context [if ?c then _ else _] => destruct c end); inversion X; subst end.
      cbn. unfold upd_thr. destruct (Nat.eqb_spec t u); [congruence|reflexivity]. }
    rewrite SAME. apply untold_intro; [exact D|apply Q| |].
    + destruct (b_thr st1 t) as [| | |o' h| | |] eqn:X; try reflexivity. destruct (HN _ _ eq_refl).
    + intros o' X. destruct (M2 NB _ _ X) as (x & y & E1 & _ & ->). unfold gcount. assert (LE : count is_gen x <= count is_gen tr) by (rewrite E1, count_app; apply Nat.le_add_r).
      rewrite Z.mod_small; clear - LE G B; lia.
  - destruct (IH HE eq_refl a m' a1 a2 E' G N Ea NR) as [I1 I2].
    + intros r J. apply (NRm r). apply in_or_app. left. exact J.
    + intros v J. apply (NGm v). apply in_or_app. left. exact J.
    + eapply untold_step; [exact S| | |exact I1|exact I2].
      * intros v J. apply (NGm v). apply in_or_app. right. exact J.
      * intros r J. apply (NRm r). apply in_or_app. right. exact J.
Qed.

(* so the others are in fact never told.  u has timed out (EBroke u); t had looked at
   the barrier before and is still in that call; no round is completed before t
   comes back.  Then t returns normally, whatever its own time limit does. *)
Theorem C68_others_return_partial : forall n b0 ks tr st a u m t r b a1 a2,
  (0 <= b0)%Z -> (b0 + Z.of_nat (count is_gen a) < 2 ^ 32 - 1)%Z ->
  execution n b0 ks tr st -> tr = a ++ EBroke u :: m ++ ERet t r :: b -> t <> u ->
  a = a1 ++ ERead t :: a2 -> (forall r', ~ In (ERet t r') a2) ->
  (forall r', ~ In (ERet t r') m) -> (forall v, ~ In (EGen v) m) -> r = Passed.
Proof.
  intros n b0 ks tr st a u m t r b a1 a2 B G HE E N Ea NR NRm NGm.
  rewrite app_comm_cons, app_assoc in E. destruct (execution_split _ _ _ _ _ _ _ _ HE E) as (ks1 & st1 & k & st2 & X1 & X2 & _).
  destruct (overtaken n b0 ks1 _ st1 u t ltac:(unfold two32; lia) X1 a m a1 a2 eq_refl ltac:(unfold two32; lia) N Ea NR NRm NGm) as [_ (_ & L & _)].
  rewrite (ret_from _ _ _ _ _ X2) in L. destruct r; [reflexivity|discriminate L..].
Qed.
Print Assumptions C68_others_return_partial.
(* three threads were asked for; 0 times out while 1, who also has a time limit
   that expires, returns normally *)
Example C68_nonvacuous : exists ks tr st a m b a1 a2, execution 3 0 ks tr st /\
  (0 + Z.of_nat (count is_gen a) < 2 ^ 32 - 1)%Z /\ tr = a ++ EBroke 0 :: m ++ ERet 1 Passed :: b /\
  a = a1 ++ ERead 1 :: a2 /\ (forall r', ~ In (ERet 1 r') a2) /\ (forall r', ~ In (ERet 1 r') m) /\ (forall v, ~ In (EGen v) m) /\ In (EExpire 1) m.
Proof.
  destruct (trace_sound 3 0 (arrive_sleep 0 ++ arrive_sleep 1 ++ time_out 0 ++ (KExpire, 1) :: repeat (KRun, 1) 4)
    ([ECall 0; ERead 0; EArrive 0; ECall 1; ERead 1; EArrive 1; EExpire 0] ++ EBroke 0 :: [EThrow 0 ThrewTimeout; ERet 0 ThrewTimeout; EExpire 1] ++ ERet 1 Passed :: [])) as (ks&st&H&->); [vm_compute; reflexivity|].
  eexists _, _, st, [ECall 0; ERead 0; EArrive 0; ECall 1; ERead 1; EArrive 1; EExpire 0], [EThrow 0 ThrewTimeout; ERet 0 ThrewTimeout; EExpire 1], [], [ECall 0; ERead 0; EArrive 0; ECall 1], [EArrive 1; EExpire 0]. split; [exact H|]. split; [vm_compute; reflexivity|]. split; [reflexivity|]. split; [reflexivity|].
  repeat split; try (intros r J; cbn in J; intuition discriminate). cbn. auto.
Qed.
