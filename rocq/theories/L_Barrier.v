(* L_Barrier.v -- invariants of the barrier *)
From Verif Require Import Base M_Barrier S_Barrier.
From Coq Require Import ZifyBool Setoid.
Local Open Scope nat_scope.

(* ---- counting ---- *)
Definition b2n (b : bool) : nat := if b then 1 else 0.
Fixpoint cnt (n : nat) (p : nat -> bool) : nat := match n with O => 0 | S n => cnt n p + b2n (p n) end.
Fixpoint sum (n : nat) (p : nat -> nat) : nat := match n with O => 0 | S n => sum n p + p n end.
Lemma cnt_le n p : cnt n p <= n.
Proof. induction n; cbn; [lia|]. unfold b2n; destruct (p n); lia. Qed.
Lemma cnt_full n p : cnt n p = n -> forall t, t < n -> p t = true.
Proof. induction n; cbn; intros H t Ht; [lia|]. pose proof (cnt_le n p).
  destruct (p n) eqn:E; cbn in H; [|lia]. destruct (Nat.eq_dec t n); [subst; auto|apply IHn; lia]. Qed.
Lemma cnt_all n p : (forall t, t < n -> p t = true) -> cnt n p = n.
Proof. induction n; cbn; intros H; auto. rewrite IHn by (intros; apply H; lia). rewrite (H n) by lia. cbn. lia. Qed.
Lemma cnt_none n p : (forall t, t < n -> p t = false) -> cnt n p = 0.
Proof. induction n; cbn; intros H; auto. rewrite IHn by (intros; apply H; lia). rewrite (H n) by lia. auto. Qed.
Lemma cnt_ext n p q : (forall t, t < n -> p t = q t) -> cnt n p = cnt n q.
Proof. induction n; cbn; intros H; auto. rewrite (IHn) by (intros; apply H; lia). now rewrite (H n) by lia. Qed.
Lemma cnt_upd n p q t : t < n -> (forall t', t' <> t -> p t' = q t') -> cnt n p + b2n (q t) = cnt n q + b2n (p t).
Proof. induction n; cbn; intros Ht H; [lia|]. destruct (Nat.eq_dec t n) as [->|Hn].
  - rewrite (cnt_ext n p q) by (intros; apply H; lia). lia.
  - rewrite (H n) by lia. enough (cnt n p + b2n (q t) = cnt n q + b2n (p t)) by lia. apply IHn; auto; lia. Qed.
Lemma sum_ext n p q : (forall t, t < n -> p t = q t) -> sum n p = sum n q.
Proof. induction n; cbn; intros H; auto. rewrite (IHn) by (intros; apply H; lia). now rewrite (H n) by lia. Qed.
Lemma sum_upd n p q t : t < n -> (forall t', t' <> t -> p t' = q t') -> sum n p + q t = sum n q + p t.
Proof. induction n; cbn; intros Ht H; [lia|]. destruct (Nat.eq_dec t n) as [->|Hn].
  - rewrite (sum_ext n p q) by (intros; apply H; lia). lia.
  - rewrite (H n) by lia. enough (sum n p + q t = sum n q + p t) by lia. apply IHn; auto; lia. Qed.
Lemma sum_le n p q : (forall t, t < n -> p t <= q t) -> sum n p <= sum n q.
Proof. induction n; cbn; intros H; auto. pose proof (H n ltac:(lia)). enough (sum n p <= sum n q) by lia. apply IHn; intros; apply H; lia. Qed.
Lemma sum_upd_le n p q t : t < n -> (forall t', t' <> t -> p t' <= q t') -> sum n p + q t <= sum n q + p t.
Proof. induction n; cbn; intros Ht H; [lia|]. destruct (Nat.eq_dec t n) as [->|Hn].
  - pose proof (sum_le n p q ltac:(intros; apply H; lia)). lia.
  - pose proof (H n ltac:(lia)). enough (sum n p + q t <= sum n q + p t) by lia. apply IHn; auto; lia. Qed.
Lemma sum_const n c : sum n (fun _ => c) = n * c.
Proof. induction n; cbn; [reflexivity|]. rewrite IHn. lia. Qed.

Lemma count_app p a b : count p (a ++ b) = count p a + count p b.
Proof. unfold count. now rewrite filter_app, app_length. Qed.
Lemma upd_same f t x : upd_thr f t x t = x. Proof. unfold upd_thr. now rewrite Nat.eqb_refl. Qed.
Lemma upd_other f t x t' : t' <> t -> upd_thr f t x t' = f t'.
Proof. unfold upd_thr. intro H. apply Nat.eqb_neq in H. now rewrite H. Qed.

(* ---- arithmetic of the counter ---- *)
Definition gen (b0 : Z) (g : nat) : Z := ((b0 + Z.of_nat g) mod two32)%Z.
Lemma gen_next b0 g : to_u32 (gen b0 g + 1) = gen b0 (S g).
Proof. unfold gen, to_u32. rewrite Zplus_mod_idemp_l. f_equal. lia. Qed.
Lemma gen_neq b0 g : gen b0 g <> gen b0 (S g).
Proof. unfold gen. replace (b0 + Z.of_nat (S g))%Z with ((b0 + Z.of_nat g) + 1)%Z by lia.
  generalize (b0 + Z.of_nat g)%Z as x. intros x H. unfold two32 in *.
  pose proof (Z.div_mod x 4294967296). pose proof (Z.div_mod (x + 1) 4294967296). lia. Qed.

(* ---- mutual exclusion, in every execution ---- *)
Definition holds (x : tst) : Prop := exists old h, x = THold old h.
Definition mutex (st : bstate) : Prop := forall t, b_own st = Some t <-> holds (b_thr st t).

Ltac inv H := inversion H; subst; clear H.
Ltac cases_hold h :=
  destruct h; cbn [hold_step];
  repeat match goal with |- context [if ?b then _ else _] => let E := fresh "E" in destruct b eqn:E end.

Lemma notify_thr st t : b_thr (notify st) t = match b_thr st t with TSleep old _ => TSleep old true | x => x end.
Proof. reflexivity. Qed.
Lemma hold_step_thr st t old h st' x e t' : hold_step st t old h = (st', x, e) ->
  b_thr st' t' = b_thr st t' \/ (exists o n, b_thr st t' = TSleep o n /\ b_thr st' t' = TSleep o true).
Proof. destruct h; cbn [hold_step]; repeat match goal with |- context [if ?b then _ else _] => destruct b end;
  intro H; inv H; cbn [with_wait with_cnt with_own with_corr b_thr]; auto;
  rewrite notify_thr; destruct (b_thr st t'); eauto. Qed.
Lemma hold_step_own st t old h st' x e : b_own st = Some t -> hold_step st t old h = (st', x, e) ->
  (b_own st' = Some t /\ holds x) \/ (b_own st' = None /\ ~ holds x).
Proof. destruct h; cbn [hold_step]; repeat match goal with |- context [if ?b then _ else _] => destruct b end;
  intros Ho H; inv H; cbn [with_wait with_cnt with_own with_corr notify b_own];
  first [left; split; [assumption|unfold holds; eauto] | right; split; [reflexivity|intros (?&?&?); discriminate]]. Qed.

Lemma mutex_step st k e st' : mutex st -> bstep st k e st' -> mutex st'.
Proof.
  unfold mutex. intros HM HS. inv HS.
  - intro t'. cbn [with_thr b_own b_thr]. destruct (Nat.eq_dec t' t) as [->|Hn].
    + rewrite upd_same, HM, H. split; intros (?&?&?); discriminate.
    + rewrite upd_other by auto. apply HM.
  - intro t'. cbn [with_thr b_own b_thr]. destruct (Nat.eq_dec t' t) as [->|Hn].
    + rewrite upd_same, HM, H. split; intros (?&?&?); discriminate.
    + rewrite upd_other by auto. apply HM.
  - intro t'. cbn [with_thr with_own b_own b_thr]. destruct (Nat.eq_dec t' t) as [->|Hn].
    + rewrite upd_same. split; unfold holds; eauto.
    + rewrite upd_other by auto. rewrite <- HM, H0. split; intro X; inv X; congruence.
  - assert (Ho : b_own st = Some t) by (apply HM; unfold holds; eauto).
    pose proof (hold_step_own _ _ _ _ _ _ _ Ho H0) as HO. intro t'. cbn [with_thr b_own b_thr].
    destruct (Nat.eq_dec t' t) as [->|Hn].
    + rewrite upd_same. destruct HO as [[-> X]|[-> X]]; split; intro Y; auto; try congruence; try tauto.
    + rewrite upd_other by auto. assert (Hh : holds (b_thr st'0 t') <-> holds (b_thr st t')).
      { destruct (hold_step_thr _ _ _ _ _ _ _ t' H0) as [->|(o&n&A&B)]; [tauto|]. rewrite A, B.
        split; intros (?&?&?); discriminate. }
      rewrite Hh, <- HM. destruct HO as [[-> X]|[-> X]]; rewrite Ho; split; intro Y; congruence.
  - intro t'. cbn [with_thr b_own b_thr]. destruct (Nat.eq_dec t' t) as [->|Hn].
    + rewrite upd_same, HM, H. split; intros (?&?&?); discriminate.
    + rewrite upd_other by auto. apply HM.
  - intro t'. cbn [with_thr b_own b_thr]. destruct (Nat.eq_dec t' t) as [->|Hn].
    + rewrite upd_same, HM, H. split; intros (?&?&?); discriminate.
    + rewrite upd_other by auto. apply HM.
  - intro t'. cbn [with_thr b_own b_thr]. destruct (Nat.eq_dec t' t) as [->|Hn].
    + rewrite upd_same, HM, H. split; intros (?&?&?); discriminate.
    + rewrite upd_other by auto. apply HM.
  - intro t'. cbn [with_thr with_own b_own b_thr]. destruct (Nat.eq_dec t' t) as [->|Hn].
    + rewrite upd_same. split; unfold holds; eauto.
    + rewrite upd_other by auto. rewrite <- HM, H0. split; intro X; inv X; congruence.
  - intro t'. cbn [with_thr b_own b_thr]. destruct (Nat.eq_dec t' t) as [->|Hn].
    + rewrite upd_same, HM, H. split; intros (?&?&?); discriminate.
    + rewrite upd_other by auto. apply HM.
Qed.
Lemma mutex_init n c : mutex (binit n c).
Proof. intro t. cbn. split; [discriminate|intros (?&?&?); discriminate]. Qed.
Lemma mutex_execution n b0 ks tr st : execution n b0 ks tr st -> mutex st.
Proof. unfold execution. remember (binit n b0) as s0. induction 1; subst; [apply mutex_init|]. eapply mutex_step; eauto. Qed.
Lemma mutex_unique st t1 t2 o1 h1 o2 h2 : mutex st -> b_thr st t1 = THold o1 h1 -> b_thr st t2 = THold o2 h2 -> t1 = t2.
Proof. intros HM A B. assert (b_own st = Some t1) by (apply HM; unfold holds; eauto).
  assert (b_own st = Some t2) by (apply HM; unfold holds; eauto). congruence. Qed.
