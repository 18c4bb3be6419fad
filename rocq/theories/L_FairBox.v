(* L_FairBox.v -- under a fair scheduler every mailbox call returns. *)
From Coq Require Import Classical_Prop.
From Verif Require Import Base M_MailBox M_MailBoxConc M_Barrier S_MailBoxConc S_Fair L_Map L_MailBox L_MailBoxConc L_Progress C_MailBoxConc.

Section F.
Context {M : Type}.
Variable names : nat -> str.
Variable f : nat -> cstate M.
Variable e : nat -> list (ev M).
Variable tr0 : list (ev M).
Variable st0 : cstate M.
Hypothesis HR : csteps (cinit names) tr0 st0.
Hypothesis HS : box_for_ever st0 f e.
Hypothesis HA : box_fair f.

Lemma upto_S n : upto e (S n) = upto e n ++ e n.
Proof. unfold upto. rewrite seq_S, map_app, concat_app. cbn. rewrite app_nil_r. reflexivity. Qed.
Lemma F_later n : csteps st0 (upto e n) (f n).
Proof.
  destruct HS as [S0 SS]. induction n as [|n IH]; [rewrite S0; constructor|]. rewrite upto_S.
  destruct (SS n) as [A|[-> ->]]; [econstructor; eassumption|]. rewrite app_nil_r. exact IH.
Qed.
Lemma F_reached n : csteps (cinit names) (tr0 ++ upto e n) (f n).
Proof.
  assert (X : forall tr st, csteps st0 tr st -> csteps (cinit names) (tr0 ++ tr) st).
  { intros tr st H. induction H as [|st tr st1 ee st2 H IH S]; [rewrite app_nil_r; exact HR|]. rewrite app_assoc. econstructor; [apply IH; assumption|exact S]. }
  exact (X _ _ (F_later n)).
Qed.
Lemma F_inv n : exists o w rs, inv names (f n) (tr0 ++ upto e n) o w rs.
Proof. exact (inv_run _ _ _ (F_reached n)). Qed.
Lemma inside_own n t b p : thr (f n) t = Inside b p -> owner (f n) b = Some t.
Proof. intros H. destruct (F_inv n) as (o & w & rs & I). pose proof (i_thr _ _ _ _ _ _ I t) as X. rewrite H in X. apply X. Qed.
Lemma own_inside n t b : owner (f n) b = Some t -> exists p, thr (f n) t = Inside b p.
Proof. intros H. destruct (F_inv n) as (o & w & rs & I). pose proof (i_own _ _ _ _ _ _ I b) as X. rewrite H in X. exact X. Qed.
Lemma names_same n x : names_of (boxes (f n)) x = names x.
Proof. destruct (F_inv n) as (o & w & rs & I). exact (i_names _ _ _ _ _ _ I x). Qed.

(* what a step does to a thread inside a call *)
Lemma busy_step n t : thr (f n) t <> Idle ->
  (thr (f (S n)) t = thr (f n) t /\ forall b p, thr (f n) t = Inside b p -> boxes (f (S n)) b = boxes (f n) b) \/
  match thr (f n) t with
  | Idle => False
  | Want b k => thr (f (S n)) t = Inside b (PStart k)
  | Inside b p =>
      match M_MailBoxConc.bstep names b (boxes (f n) b) p with
      | (mb, inl p') => thr (f (S n)) t = Inside b p' /\ boxes (f (S n)) b = mb
      | (mb, inr r) => thr (f (S n)) t = Leaving r /\ owner (f (S n)) b = None
      end
  | Leaving r => thr (f (S n)) t = Idle /\ e n = [Ret t r]
  end.
Proof.
  intros HB. destruct (proj2 HS n) as [S|[-> _]]; [|auto].
  pose proof (names_same n) as NN. pose proof (inside_own n) as IO. revert S HB NN IO.
  generalize (f n) as g, (f (Datatypes.S n)) as g', (e n) as ee. intros g g' ee S HB NN IO.
  inversion S; subst; clear S; match goal with X : thr g _ = _ |- _ => rename X into HH1 end;
    try (match goal with X : M_MailBoxConc.bstep _ _ _ _ = _ |- _ => rename X into HH2 end); (destruct (Nat.eq_dec t t0) as [->|D]; [right; rewrite HH1|left; rewrite set_thr_other by exact D]).
  - contradiction.
  - auto.
  - apply set_thr_same.
  - auto.
  - rewrite (bstep_ext _ names) in HH2 by exact NN. rewrite HH2. split; [apply set_thr_same|]. cbn. apply upd_same.
  - split; [reflexivity|]. intros b0 p0 Hb. cbn. apply upd_other. intros ->. pose proof (IO _ _ _ Hb). pose proof (IO _ _ _ HH1). congruence.
  - rewrite (bstep_ext _ names) in HH2 by exact NN. rewrite HH2. split; [apply set_thr_same|]. cbn. rewrite Nat.eqb_refl. reflexivity.
  - split; [reflexivity|]. intros b0 p0 Hb. cbn. apply upd_other. intros ->. pose proof (IO _ _ _ Hb). pose proof (IO _ _ _ HH1). congruence.
  - split; [apply set_thr_same|reflexivity].
  - auto.
Qed.
Lemma moves t n : (forall m, n <= m -> exists j ee st', m <= j /\ thr (f j) t <> Idle /\ M_MailBoxConc.cstep (f j) ee st' /\ box_moved t (f j) st') ->
  exists m, n <= m /\ box_moved t (f m) (f (S m)).
Proof.
  intros H. destruct (HA t) with (N := n) as (m & A); [|eauto]. intros N. destruct (H (Nat.max N n) ltac:(lia)) as (j & ee & st' & A & B). exists j, ee, st'. split; [lia|exact B].
Qed.
Lemma inside_moves n t b p : thr (f n) t = Inside b p ->
  exists m, n <= m /\ match M_MailBoxConc.bstep names b (boxes (f n) b) p with
    | (mb, inl p') => thr (f (S m)) t = Inside b p' /\ boxes (f (S m)) b = mb
    | (mb, inr r) => thr (f (S m)) t = Leaving r /\ owner (f (S m)) b = None end.
Proof.
  intros H1. apply NNPP. intros C.
  assert (A : forall m, n <= m -> thr (f m) t = Inside b p /\ boxes (f m) b = boxes (f n) b).
  { intros m Hm. induction Hm as [|m Hm [I1 I2]]; [auto|].
    assert (NI : thr (f m) t <> Idle) by (rewrite I1; discriminate).
    destruct (busy_step m t NI) as [(X & Y)|X]; [rewrite X, (Y b p I1); auto|]. rewrite I1, I2 in X. elim C. exists m. split; [lia|exact X]. }
  destruct (moves t n) as (m & Hm & HT).
  - intros N HN. exists N. destruct (A N HN) as [A1 A2].
    destruct (M_MailBoxConc.bstep names b (boxes (f n) b) p) as [mb1 [p1|r1]] eqn:BS; pose proof BS as BS'; rewrite <- A2, <- (bstep_ext _ names) in BS by apply names_same.
    + do 2 eexists. split; [lia|]. split; [rewrite A1; discriminate|]. split; [eapply c_work; eassumption|]. unfold box_moved. rewrite set_thr_same, A1.
      destruct (classic (p1 = p)) as [->|D]; [|left; congruence].
      right. exists b. split; [eapply inside_own, A1|]. cbn. rewrite upd_same, A2. intros ->. apply room_step in BS'. lia.
    + do 2 eexists. split; [lia|]. split; [rewrite A1; discriminate|]. split; [eapply c_unlock; eassumption|]. left. rewrite set_thr_same, A1. discriminate.
  - destruct (A m Hm) as [A1 A2]. destruct (A (S m) ltac:(lia)) as [B1 B2]. destruct HT as [X|(b1 & O & X)]; [congruence|].
    destruct (own_inside m t b1 O) as (p1 & Y). rewrite A1 in Y. injection Y as <- <-. congruence.
Qed.
Lemma inside_leaves n t b p : thr (f n) t = Inside b p -> exists m r, n < m /\ thr (f m) t = Leaving r /\ owner (f m) b = None.
Proof.
  intros H. remember (room (boxes (f n) b) p) as k eqn:Ek. revert n p H Ek.
  induction k as [k IH] using lt_wf_ind. intros n p H ->.
  destruct (inside_moves n t b p H) as (m & Hm & X). destruct (M_MailBoxConc.bstep names b (boxes (f n) b) p) as [mb [p'|r]] eqn:BS.
  - destruct X as [X1 X2]. apply room_step in BS. rewrite <- X2 in BS. destruct (IH _ BS (S m) p' X1 eq_refl) as (m' & r & A & B). exists m', r. split; [lia|exact B].
  - exists (S m), r. split; [lia|exact X].
Qed.
Lemma lock_free n b : exists m, n <= m /\ owner (f m) b = None.
Proof.
  destruct (owner (f n) b) as [t|] eqn:O; [|eauto]. destruct (own_inside n t b O) as (p & H).
  destruct (inside_leaves n t b p H) as (m & r & A & _ & B). exists m. split; [lia|exact B].
Qed.
Lemma gets_lock n t b k : thr (f n) t = Want b k -> exists m, n < m /\ thr (f m) t = Inside b (PStart k).
Proof.
  intros H. apply NNPP. intros C.
  assert (A : forall m, n <= m -> thr (f m) t = Want b k).
  { intros m Hm. induction Hm as [|m Hm IH]; [exact H|].
    destruct (busy_step m t ltac:(rewrite IH; discriminate)) as [(X & _)|X]; [congruence|]. rewrite IH in X. elim C. exists (S m). split; [lia|exact X]. }
  destruct (moves t n) as (m & Hm & HT).
  - intros N HN. destruct (lock_free N b) as (m & Hm & O). exists m. do 2 eexists. split; [exact Hm|]. split; [rewrite A by lia; discriminate|].
    split; [eapply c_lock; [apply A; lia|exact O]|]. left. rewrite set_thr_same, A by lia. discriminate.
  - destruct HT as [X|(b1 & O & _)]; [rewrite !A in X by lia; contradiction|]. destruct (own_inside m t b1 O) as (p1 & Y). rewrite A in Y by lia. discriminate.
Qed.
Lemma leaves n t r : thr (f n) t = Leaving r -> exists m, n <= m /\ e m = [Ret t r].
Proof.
  intros H. apply NNPP. intros C.
  assert (A : forall m, n <= m -> thr (f m) t = Leaving r).
  { intros m Hm. induction Hm as [|m Hm IH]; [exact H|].
    destruct (busy_step m t ltac:(rewrite IH; discriminate)) as [(X & _)|X]; [congruence|]. rewrite IH in X. elim C. exists m. split; [lia|apply X]. }
  destruct (moves t n) as (m & Hm & HT).
  - intros N HN. exists N. do 2 eexists. split; [lia|]. split; [rewrite A by lia; discriminate|].
    split; [eapply c_return, A, HN|]. left. rewrite set_thr_same, A by lia. discriminate.
  - destruct HT as [X|(b1 & O & _)]; [rewrite !A in X by lia; contradiction|]. destruct (own_inside m t b1 O) as (p1 & Y). rewrite A in Y by lia. discriminate.
Qed.
Lemma call_returns n t b k : In (Inv t b k) (e n) -> exists m r, n < m /\ In (Ret t r) (e m).
Proof.
  intros H.
  assert (W : thr (f (S n)) t = Want b k).
  { destruct (proj2 HS n) as [S|[_ X]]; [|rewrite X in H; destruct H].
    inversion S; subst; match goal with X : _ = e n |- _ => rewrite <- X in H end; cbn in H; try contradiction; destruct H as [H|[]]; [|discriminate].
    injection H as -> -> ->. apply set_thr_same. }
  destruct (gets_lock _ _ _ _ W) as (m1 & A1 & B1). destruct (inside_leaves _ _ _ _ B1) as (m2 & r & A2 & B2 & _).
  destruct (leaves _ _ _ B2) as (m3 & A3 & B3). exists m3, r. split; [lia|]. rewrite B3. left. reflexivity.
Qed.
Lemma idle_again n t : exists m, n <= m /\ thr (f m) t = Idle.
Proof.
  assert (A : forall n r, thr (f n) t = Leaving r -> exists m, n <= m /\ thr (f m) t = Idle).
  { intros n0 r H. destruct (leaves n0 t r H) as (m & A & B). exists (S m). split; [lia|].
    destruct (proj2 HS m) as [S|[_ X]]; [|rewrite X in B; discriminate]. rewrite B in S. remember [Ret t r] as l eqn:El.
    destruct S; try discriminate. injection El as -> ->. apply set_thr_same. }
  assert (B : forall n b p, thr (f n) t = Inside b p -> exists m, n <= m /\ thr (f m) t = Idle).
  { intros n0 b p H. destruct (inside_leaves n0 t b p H) as (m & r & B1 & B2 & _). destruct (A m r B2) as (m' & C1 & C2). exists m'. split; [lia|exact C2]. }
  destruct (thr (f n) t) as [|b k|b p|r] eqn:H; [exists n; auto| |eapply B, H|eapply A, H].
  destruct (gets_lock n t b k H) as (m & C1 & C2). destruct (B m _ _ C2) as (m' & D1 & D2). exists m'. split; [lia|exact D2].
Qed.
End F.
