(* L_BarrierA.v -- a barrier after a Timeout *)
From Verif Require Import Base M_Barrier S_Barrier L_Barrier L_BarrierN L_BarrierT L_BarrierR C_Barrier.
Local Open Scope nat_scope.

(* the counter is overwritten only before the Timeout is thrown *)
Lemma broke_before_throw n b0 ks tr st t a b : execution n b0 ks tr st -> tr = a ++ EBroke t :: b -> count is_timeout_throw a = 0.
Proof.
  intros HE E. destruct (execution_split _ _ _ _ _ _ _ _ HE E) as (ks1&s1&k1&s2&A&B&_). destruct (broke_from _ _ _ _ B) as (o&Ho).
  assert (CM : classify (b_thr s1 t) = CMid) by (rewrite Ho; reflexivity).
  destruct (PH_execution _ _ _ _ _ A) as [[(X&Y&Z&W)|[(X&Y&Z&W)|[(X&Y&Z&W&_)|(X&Y&Z&W)]]] _]; auto.
  - destruct (W t CM).
  - destruct (W t) as [W1 _]. destruct (W1 CM).
Qed.

(* whoever has read the counter did so after its call *)
Definition fresh_read (t : tid) (tr : list bev) : Prop :=
  exists p q, tr = p ++ ERead t :: q /\ ~ In (ECall t) q /\ ~ In (ERead t) q.
Definition RD (st : bstate) (tr : list bev) : Prop := forall t, has_read (b_thr st t) = true -> fresh_read t tr.
Lemma fresh_app t tr e : fresh_read t tr -> ~ In (ECall t) e -> ~ In (ERead t) e -> fresh_read t (tr ++ e).
Proof. intros (p&q&->&A&B) C D. exists p, (q ++ e). rewrite <- app_assoc, app_comm_cons, !in_app_iff. tauto. Qed.
Lemma RD_one st tr st' t x e : RD st tr ->
  (forall t', t' <> t -> b_thr st' t' = b_thr st t' \/ (exists o n, b_thr st t' = TSleep o n /\ b_thr st' t' = TSleep o true)) ->
  b_thr st' t = x -> (forall t', t' <> t -> ~ In (ECall t') e /\ ~ In (ERead t') e) ->
  (has_read x = true -> (has_read (b_thr st t) = true /\ ~ In (ECall t) e /\ ~ In (ERead t) e) \/ e = [ERead t]) -> RD st' (tr ++ e).
Proof.
  intros HR HU H0 HN HX t' H. destruct (Nat.eq_dec t' t) as [->|Hne].
  - rewrite H0 in H. destruct (HX H) as [(A&B&C)| ->]; [apply fresh_app; auto|]. exists tr, []. repeat split; auto.
  - destruct (HN t' Hne). apply fresh_app; auto. apply HR. destruct (HU t' Hne) as [E|(o&n&E&E')]; [congruence|]. now rewrite E.
Qed.
Lemma RD_step st tr k e st' : RD st tr -> bstep st k e st' -> RD st' (tr ++ e).
Proof.
  intros HI HS. inv HS.
  4:{ assert (NE : forall t', ~ In (ECall t') e /\ ~ In (ERead t') e).
      { intros t'. destruct h; cbn [hold_step] in H0; repeat match type of H0 with context [if ?b then _ else _] => destruct b end;
          inv H0; cbn; intuition discriminate. }
      eapply (RD_one st tr _ t x e HI).
      - intros t' Hne. cbn [with_thr b_thr]. rewrite upd_other by auto. eapply hold_step_thr; eauto.
      - cbn [with_thr b_thr]. apply upd_same.
      - auto.
      - intros _. left. rewrite H. split; [reflexivity|auto]. }
  all: (eapply (RD_one st tr _ t _ _ HI); [apply upd_other_or|apply upd_same| |]).
  all: try (intros t' Hne; cbn; split; intros [X|[]]; congruence); try (intros t' Hne; cbn; tauto).
  all: try discriminate; try (intros _; right; reflexivity).
  all: intros _; left; rewrite H; cbn; intuition discriminate.
Qed.
Lemma RD_execution n b0 ks tr st : execution n b0 ks tr st -> RD st tr.
Proof. unfold execution. remember (binit n b0) as s0. induction 1; subst; [intros t; discriminate|]. eapply RD_step; eauto. Qed.

(* the last reading is where since_read says it is *)
Lemma last_read t (p1 q1 p2 q2 : list bev) : p1 ++ ERead t :: q1 = p2 ++ ERead t :: q2 -> ~ In (ERead t) q1 -> ~ In (ERead t) q2 -> q1 = q2.
Proof.
  revert p2. induction p1 as [|x p1 IH]; intros [|y p2] E N1 N2; cbn in E.
  - congruence.
  - injection E as _ E. destruct N1. rewrite E. apply in_app_iff. cbn. auto.
  - injection E as _ E. destruct N2. rewrite <- E. apply in_app_iff. cbn. auto.
  - injection E as _ E. eapply IH; eauto.
Qed.

Lemma split_in {A} (a : list A) x m p y q : a ++ x :: m = p ++ y :: q -> In y m \/ In y (a ++ [x]).
Proof. intros E. assert (I : In y (a ++ x :: m)) by (rewrite E; apply in_app_iff; cbn; auto). rewrite in_app_iff in *. cbn in *. tauto. Qed.

(* q is a suffix of a ++ m: if some element of m is not in q, q is within m *)
Lemma suffix_within {A} (a m p q : list A) x : a ++ m = p ++ q -> In x m -> ~ In x q -> exists m1, m = m1 ++ q.
Proof.
  intros E I N. revert p E. induction a as [|y a IH]; intros p E; cbn in E; [exists p; exact E|].
  destruct p as [|z p]; cbn in E.
  - destruct N. subst q. right. apply in_app_iff. auto.
  - injection E as _ E. eauto.
Qed.

Lemma later_needs_round n b0 ks tr st u t a m b : execution n b0 ks tr st ->
  tr = a ++ EThrow u ThrewTimeout :: m ++ ERet t Passed :: b -> In (ECall t) m ->
  exists v, since_read t (EGen v) (a ++ EThrow u ThrewTimeout :: m).
Proof.
  intros HE E HI. set (pre := a ++ EThrow u ThrewTimeout :: m).
  assert (E' : tr = pre ++ ERet t Passed :: b) by (rewrite E; unfold pre; rewrite <- app_assoc; reflexivity).
  destruct (execution_split _ _ _ _ _ _ _ _ HE E') as (ks1&s1&k1&s2&A&B&_). apply ret_from in B.
  assert (HR : fresh_read t pre) by (apply (RD_execution _ _ _ _ _ A); rewrite B; reflexivity).
  destruct HR as (p&q&Ep&NC&NR).
  destruct (pass_needs_change _ _ _ _ _ _ _ _ HE E') as (v&[H|H]); [eauto|]. exfalso.
  destruct H as (p'&q'&Ep'&Hv&NR'). rewrite Ep in Ep'. assert (q = q') by (eapply last_read; eauto). subst q'.
  assert (W : exists m1, m = m1 ++ ERead t :: q).
  { apply (suffix_within (a ++ [EThrow u ThrewTimeout]) m p (ERead t :: q) (ECall t)).
    - rewrite <- app_assoc. exact Ep.
    - exact HI.
    - intros [X|X]; [discriminate|auto]. }
  destruct W as (m1&Em). apply in_split in Hv. destruct Hv as (q1&q2&Eq).
  assert (T0 : count is_timeout_throw (a ++ EThrow u ThrewTimeout :: m1 ++ ERead t :: q1) = 0).
  { apply (broke_before_throw n b0 ks tr st v _ (q2 ++ ERet t Passed :: b) HE). rewrite E, Em, Eq. repeat (rewrite <- app_assoc; cbn). reflexivity. }
  rewrite count_app in T0. unfold count at 2 in T0. cbn in T0. lia.
Qed.
