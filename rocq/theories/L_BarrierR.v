(* L_BarrierR.v -- a Timeout means the caller's round was not completed *)
From Verif Require Import Base M_Barrier S_Barrier L_Barrier L_BarrierN L_BarrierT.
From Coq Require Import ZifyBool Setoid.
Local Open Scope nat_scope.

Definition gcount (b0 : Z) (tr : list bev) : Z := ((b0 + Z.of_nat (count is_gen tr)) mod two32)%Z.
Definition read_at b0 t (tr : list bev) (old : Z) : Prop := exists x y, tr = x ++ ERead t :: y /\ ~ In (ERead t) y /\ old = gcount b0 x.
Definition no_break (tr : list bev) : Prop := forall u, ~ In (EBroke u) tr.
Definition about (x : tst) : bool := match x with THold _ HCorr | THold _ HInf => true | _ => false end.
Record TM b0 (st : bstate) (tr : list bev) : Prop := {
  tm_cnt : no_break tr -> b_cnt st = gcount b0 tr;
  tm_old : no_break tr -> forall t o, old_of (b_thr st t) = Some o -> read_at b0 t tr o;
  tm_eq : forall t o, about (b_thr st t) = true -> old_of (b_thr st t) = Some o -> o = b_cnt st;
  tm_inf : forall t o, b_thr st t = THold o HInf -> no_break tr /\ b_corr st = true;
  tm_brk : b_corr st = false -> no_break tr
}.
Lemma no_break_app a b : no_break (a ++ b) <-> no_break a /\ no_break b.
Proof. unfold no_break. split; [intro H; split; intros u X; apply (H u); apply in_app_iff; auto|]. intros [A B] u X. apply in_app_iff in X as [X|X]; [eapply A|eapply B]; eauto. Qed.
Lemma read_at_app b0 t tr o e : read_at b0 t tr o -> ~ In (ERead t) e -> read_at b0 t (tr ++ e) o.
Proof. intros (x&y&->&A&B) H. exists x, (y ++ e). rewrite <- app_assoc, app_comm_cons, in_app_iff. tauto. Qed.

(* one thread changes, the counter stays *)
Lemma TM_one b0 st tr st' t x e : TM b0 st tr -> b_cnt st' = b_cnt st -> b_corr st' = b_corr st ->
  (forall t', t' <> t -> b_thr st' t' = b_thr st t' \/ (exists o n, b_thr st t' = TSleep o n /\ b_thr st' t' = TSleep o true)) ->
  b_thr st' t = x -> no_break e -> count is_gen e = 0 -> (forall t', t' <> t -> ~ In (ERead t') e) ->
  (forall o, old_of x = Some o -> (old_of (b_thr st t) = Some o /\ ~ In (ERead t) e) \/ (o = b_cnt st /\ e = [ERead t])) ->
  (forall o, about x = true -> old_of x = Some o -> o = b_cnt st) ->
  (forall o, x <> THold o HInf) -> TM b0 st' (tr ++ e).
Proof.
  intros [H1 H2 H3 H4 H5] Ec Er HU H0 HB HG HN HO HA HF.
  assert (GC : gcount b0 (tr ++ e) = gcount b0 tr) by (unfold gcount; rewrite count_app, HG, Nat.add_0_r; reflexivity).
  constructor.
  - intro N. apply no_break_app in N as [N _]. rewrite Ec, GC. auto.
  - intros N t' o. pose proof N as N'. apply no_break_app in N as [N _]. destruct (Nat.eq_dec t' t) as [->|Hne].
    + rewrite H0. intro X. destruct (HO o X) as [[Y Z]|[-> ->]].
      * apply read_at_app; auto.
      * exists tr, []. repeat split; auto.
    + intro X. apply read_at_app; [|now apply HN]. apply H2; auto. destruct (HU t' Hne) as [E|(o'&n'&E&E')]; [congruence|]. rewrite E' in X. now rewrite E.
  - intros t' o. rewrite Ec. destruct (Nat.eq_dec t' t) as [->|Hne]; [rewrite H0; auto|].
    destruct (HU t' Hne) as [E|(o'&n'&E&E')]; [rewrite E; eauto|rewrite E'; discriminate].
  - intros t' o X. destruct (Nat.eq_dec t' t) as [->|Hne]; [exfalso; rewrite H0 in X; eapply HF; eauto|].
    destruct (HU t' Hne) as [E|(o'&n'&E&E')]; [|congruence]. rewrite E in X. destruct (H4 _ _ X). split; [apply no_break_app; auto|congruence].
  - rewrite Er. intro X. apply no_break_app. auto.
Qed.
Lemma nobreak1 e : (forall u, e <> EBroke u) -> no_break [e].
Proof. intros H u [X|[]]. eapply H; eauto. Qed.
Lemma nobreak0 : no_break []. Proof. intros u []. Qed.
Ltac nb := first [exact nobreak0 | apply nobreak1; discriminate].
Ltac nr := first [intros t' Hne [X|[]]; congruence | intros t' Hne []].

Lemma TM_step b0 st tr k e st' : mutex st -> TM b0 st tr -> bstep st k e st' -> TM b0 st' (tr ++ e).
Proof.
  intros HM HT HS. pose proof HT as [H1 H2 H3 H4 H5]. inv HS.
  - eapply (TM_one b0 st tr _ t TCalled _ HT); [reflexivity|reflexivity|apply upd_other_or|apply upd_same|nb|reflexivity|nr|discriminate..].
  - eapply (TM_one b0 st tr _ t (TGot (b_cnt st)) _ HT); [reflexivity|reflexivity|apply upd_other_or|apply upd_same|nb|reflexivity|nr| |discriminate..].
    intros o X. right. inv X. auto.
  - eapply (TM_one b0 st tr _ t (THold old HInc) _ HT); [reflexivity|reflexivity|apply upd_other_or|apply upd_same|nb|reflexivity|nr| |discriminate..].
    intros o X. left. rewrite H. auto.
  - assert (HU : forall t', t' <> t -> b_thr (with_thr st'0 t x) t' = b_thr st t' \/ (exists o n, b_thr st t' = TSleep o n /\ b_thr (with_thr st'0 t x) t' = TSleep o true)).
    { intros t' Hne. cbn [with_thr b_thr]. rewrite upd_other by auto. eapply hold_step_thr; eauto. }
    assert (H0' : b_thr (with_thr st'0 t x) t = x) by (cbn [with_thr b_thr]; apply upd_same).
    pose proof (mutex_not_other _ _ _ _ HM H) as Hoth.
    assert (NA : forall t', t' <> t -> about (b_thr (with_thr st'0 t x) t') = false).
    { intros t' Hne. destruct (HU t' Hne) as [->|(o&n&_&->)]; auto. destruct (b_thr st t') eqn:E; auto. exfalso. eapply Hoth; eauto. }
    assert (OLD : forall e0 o, ~ In (ERead t) e0 -> old_of (THold old h) = Some o -> old_of (b_thr st t) = Some o /\ ~ In (ERead t) e0) by (intros; rewrite H; auto).
    destruct h; cbn [hold_step] in H0;
      try (inv H0; eapply (TM_one b0 _ tr _ t _ _ HT); [reflexivity|reflexivity|exact HU|exact H0'|nb|reflexivity|nr|intros o X; left; split; [rewrite H; exact X|cbn; intuition discriminate]|discriminate..]).
    + destruct (b_wait st =? b_n st)%Z; inv H0.
 eapply (TM_one b0 _ tr _ t _ _ HT); [reflexivity|reflexivity|exact HU|exact H0'|nb|reflexivity|nr|intros o X; left; split; [rewrite H; exact X|cbn; intuition discriminate]|discriminate..].
 eapply (TM_one b0 _ tr _ t _ _ HT); [reflexivity|reflexivity|exact HU|exact H0'|nb|reflexivity|nr|intros o X; left; split; [rewrite H; exact X|cbn; intuition discriminate]|discriminate..].
    + (* HBump *) inv H0.
      assert (GC : gcount b0 (tr ++ [EGen t]) = to_u32 (gcount b0 tr + 1)).
      { unfold gcount, to_u32. rewrite count_snoc. cbn [is_gen b2n]. rewrite Zplus_mod_idemp_l. f_equal. lia. }
      constructor.
      * intro N. apply no_break_app in N as [N _]. cbn [with_thr with_cnt b_cnt]. rewrite GC, H1; auto.
      * intros N t' o X. apply no_break_app in N as [N _]. apply read_at_app; [|cbn; intuition discriminate]. apply H2; auto.
        destruct (Nat.eq_dec t' t) as [->|Hne]; [rewrite H0' in X; rewrite H; exact X|]. destruct (HU t' Hne) as [E|(o'&n'&E&E')]; [congruence|]. rewrite E' in X. now rewrite E.
      * intros t' o X. exfalso. destruct (Nat.eq_dec t' t) as [->|Hne]; [rewrite H0' in X; discriminate|rewrite NA in X; [discriminate|auto]].
      * intros t' o X. exfalso. destruct (Nat.eq_dec t' t) as [->|Hne]; [congruence|]. pose proof (NA t' Hne) as Y. rewrite X in Y. discriminate.
      * intro X. apply no_break_app. split; [apply H5; exact X|nb].
    + (* HPred *) destruct (old =? b_cnt st)%Z; inv H0;
       (eapply (TM_one b0 _ tr _ t _ _ HT); [reflexivity|reflexivity|exact HU|exact H0'|nb|reflexivity|nr|intros o X; left; split; [rewrite H; exact X|cbn; intuition discriminate]|discriminate..]).
    + (* HFinal *) destruct (old =? b_cnt st)%Z eqn:E; inv H0;
        (eapply (TM_one b0 _ tr _ t _ _ HT); [reflexivity|reflexivity|exact HU|exact H0'|nb|reflexivity|nr|intros o X; left; split; [rewrite H; exact X|cbn; intuition discriminate]| |discriminate]).
      * intros o _ X. inv X. apply Z.eqb_eq. exact E.
      * discriminate.
    + (* HCorr *) destruct (b_corr st) eqn:E; inv H0.
      * eapply (TM_one b0 _ tr _ t _ _ HT); [reflexivity|reflexivity|exact HU|exact H0'|nb|reflexivity|nr|intros o X; left; split; [rewrite H; exact X|cbn; intuition discriminate]|discriminate..].
      * rewrite app_nil_r. pose proof (H5 eq_refl) as NBk. constructor; auto.
        -- intros N t' o X. apply H2; auto. destruct (Nat.eq_dec t' t) as [->|Hne]; [rewrite H0' in X; rewrite H; exact X|]. destruct (HU t' Hne) as [E'|(o'&n'&E'&E'')]; [congruence|]. rewrite E'' in X. now rewrite E'.
        -- intros t' o X Y. destruct (Nat.eq_dec t' t) as [->|Hne]; [|rewrite NA in X; [discriminate|auto]].
           rewrite H0' in Y. inv Y. cbn [with_thr with_corr b_cnt]. apply (H3 t); rewrite H; auto.
    + (* HInf *) inv H0. constructor.
      * intro N. exfalso. apply (N t). apply in_app_iff. cbn; auto.
      * intro N. exfalso. apply (N t). apply in_app_iff. cbn; auto.
      * intros t' o X. exfalso. destruct (Nat.eq_dec t' t) as [->|Hne]; [rewrite H0' in X; discriminate|rewrite NA in X; [discriminate|auto]].
      * intros t' o X. exfalso. destruct (Nat.eq_dec t' t) as [->|Hne]; [congruence|]. pose proof (NA t' Hne) as Y. rewrite X in Y. discriminate.
      * cbn [with_thr with_cnt b_corr]. intro X. exfalso.
        destruct (H4 t old H) as [_ Y]. cbn in X. congruence.
    + inv H0. eapply (TM_one b0 _ tr _ t _ _ HT); [reflexivity|reflexivity|exact HU|exact H0'|nb|reflexivity|nr|discriminate..].
  - eapply (TM_one b0 st tr _ t _ _ HT); [reflexivity|reflexivity|apply upd_other_or|apply upd_same|nb|reflexivity|nr| |discriminate..].
    intros o X. left. rewrite H. auto.
  - eapply (TM_one b0 st tr _ t _ _ HT); [reflexivity|reflexivity|apply upd_other_or|apply upd_same|nb|reflexivity|nr| |discriminate..].
    intros o X. left. rewrite H. auto.
  - eapply (TM_one b0 st tr _ t _ _ HT); [reflexivity|reflexivity|apply upd_other_or|apply upd_same|nb|reflexivity|nr| |discriminate..].
    intros o X. left. rewrite H. split; [exact X|cbn; intuition discriminate].
  - destruct timedout; (eapply (TM_one b0 st tr _ t _ _ HT); [reflexivity|reflexivity|apply upd_other_or|apply upd_same|nb|reflexivity|nr| |discriminate..]);
    intros o X; left; rewrite H; auto.
  - eapply (TM_one b0 st tr _ t TIdle _ HT); [reflexivity|reflexivity|apply upd_other_or|apply upd_same|nb|reflexivity|nr|discriminate..].
Qed.
Lemma TM_execution n b0 ks tr st : (0 <= b0 < two32)%Z -> execution n b0 ks tr st -> TM b0 st tr.
Proof.
  intro Hb. unfold execution. remember (binit n b0) as s0. induction 1; subst.
  - constructor; cbn; try discriminate; auto; try (intros _; exact nobreak0).
    intros _. unfold gcount. cbn. rewrite Z.mod_small; lia.
  - eapply TM_step; eauto. eapply mutex_execution. unfold execution; eauto.
Qed.
Lemma broke_from st k t st' : bstep st k [EBroke t] st' -> exists o, b_thr st t = THold o HInf.
Proof. intro S. inversion S; subst; match goal with X : hold_step _ _ _ ?h = _ |- _ => destruct h; cbn [hold_step] in X; repeat match type of X with context [if ?b then _ else _] => destruct b end; inv X end. eauto. Qed.

Lemma timeout_round n b0 ks tr st t a b : (0 <= b0 < two32)%Z -> execution n b0 ks tr st -> tr = a ++ EBroke t :: b ->
  (forall u, ~ In (EBroke u) a) /\ exists x y, a = x ++ ERead t :: y /\ ~ In (ERead t) y /\ (Z.of_nat (count is_gen y) mod two32 = 0)%Z.
Proof.
  intros Hb HE E. destruct (execution_split _ _ _ _ _ _ _ _ HE E) as (ks1&s1&k1&s2&A&B&_). destruct (broke_from _ _ _ _ B) as (o&Ho).
  destruct (TM_execution _ _ _ _ _ Hb A) as [H1 H2 H3 H4 H5]. destruct (H4 _ _ Ho) as [NB _]. split; [exact NB|].
  destruct (H2 NB t o) as (x&y&Ey&Hy&Eo); [now rewrite Ho|]. exists x, y. split; auto. split; auto.
  pose proof (H3 t o) as Q. rewrite Ho in Q. specialize (Q eq_refl eq_refl). rewrite H1 in Q by auto. rewrite Eo, Ey in Q.
  unfold gcount in Q. rewrite count_app in Q. unfold count at 3 in Q. cbn [filter is_gen] in Q. fold (count is_gen y) in Q.
  revert Q. generalize (count is_gen x) (count is_gen y). intros p q Q. unfold two32 in *.
  replace (b0 + Z.of_nat (p + q))%Z with ((b0 + Z.of_nat p) + Z.of_nat q)%Z in Q by lia.
  pose proof (Z.div_mod (b0 + Z.of_nat p) 4294967296). pose proof (Z.div_mod (b0 + Z.of_nat p + Z.of_nat q) 4294967296).
  apply Z.mod_divide; [lia|]. exists ((b0 + Z.of_nat p + Z.of_nat q) / 4294967296 - (b0 + Z.of_nat p) / 4294967296)%Z. lia.
Qed.
