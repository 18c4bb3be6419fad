(* L_FairBar.v -- under a fair scheduler every call of wait returns, if its time
   limit runs out or if all others come. *)
From Coq Require Import Classical_Prop.
From Verif Require Import Base M_Barrier S_Barrier S_Fair L_Seq L_Barrier.
From Verif Require L_BarrierN.
Local Open Scope nat_scope.

(* what a step does to one thread *)
Lemma bar_change st k e st' u : bstep st k e st' -> b_thr st' u <> b_thr st u ->
  match b_thr st u with
  | TIdle => b_thr st' u = TCalled
  | TCalled => exists o, b_thr st' u = TGot o
  | TGot o => b_thr st' u = THold o HInc
  | THold o h => exists s x e, hold_step st u o h = (s, x, e) /\ b_thr st' u = x /\ b_own st' = b_own s
  | TSleep o n => b_thr st' u = TWake o false \/ (n = false /\ b_thr st' u = TSleep o true) \/ (b_thr st' u = TWake o true /\ k = KExpire)
  | TWake o td => b_thr st' u = THold o (if td then HFinal else HPred)
  | TDone r => b_thr st' u = TIdle /\ e = [ERet u r]
  end.
Proof.
  intros S HD. inversion S; subst; clear S;
    match goal with X : b_thr st ?v = _ |- _ => destruct (Nat.eq_dec u v) as [->|D] end;
    try (rewrite ?H in *; cbn; unfold upd_thr; rewrite Nat.eqb_refl; eauto 6; fail);
    try (exfalso; apply HD; cbn; unfold upd_thr; destruct (Nat.eqb_spec u t); [contradiction|reflexivity]); try congruence.
  - cbn in HD |- *. unfold upd_thr in *. destruct (Nat.eqb_spec u t); [contradiction|].
    destruct (hold_step_thr _ _ _ _ _ _ _ u H0) as [X|(o & n0 & X & Y)]; [contradiction|]. rewrite X. right. left.
    split; [|exact Y]. destruct n0; congruence.
Qed.

(* how far a thread that holds the mutex has got *)
Definition hrank (h : hold) : nat :=
  match h with HInc => 0 | HTest => 1 | HBump => 2 | HPred => 2 | HNotify => 3 | HFinal => 2 | HCorr => 3 | HInf => 4 | HNotify2 => 5 | HThrow => 6 | HOut _ => 7 end.
(* it will not sleep any more *)
Definition sure (h : hold) : Prop := match h with HInc | HTest | HPred => False | _ => True end.
Lemma hold_up st t o h s x e : hold_step st t o h = (s, x, e) ->
  (exists h', x = THold o h' /\ hrank h < hrank h' /\ (sure h -> sure h')) \/
  (b_own s = None /\ ((exists r, x = TDone r) \/ x = TSleep o false /\ ~ sure h)).
Proof.
  destruct h; cbn [hold_step]; repeat match goal with |- context [if ?b then _ else _] => destruct b end; intros H; injection H as <- <- <-;
    try (left; eexists; split; [reflexivity|]; cbn; split; [lia|tauto]); right; (split; [reflexivity|]); cbn; eauto.
Qed.
Lemma hrank_bound h : hrank h <= 7. Proof. destruct h; cbn; lia. Qed.
Lemma hold_moves st t o h s x e : hold_step st t o h = (s, x, e) -> x <> THold o h /\ x <> TSleep o true.
Proof. intros H. destruct (hold_up _ _ _ _ _ _ _ H) as [(h' & -> & L & _)|(_ & [(r & ->)|[-> _]])]; split; try discriminate. intros X. injection X as ->. lia. Qed.
Lemma hold_ev st t o h s x e u : hold_step st t o h = (s, x, e) -> ~ In (EExpire u) e /\ ~ In (ECall u) e.
Proof.
  destruct h; cbn [hold_step]; repeat match goal with |- context [if ?b then _ else _] => destruct b end; intros H; injection H as <- <- <-;
    cbn; split; intros X; repeat (destruct X as [X|X]; [discriminate|]); exact X.
Qed.
Lemma ret_done st k e st' t r : bstep st k e st' -> In (ERet t r) e -> (forall r, b_thr st t <> TDone r) -> False.
Proof.
  intros S H ND. destruct S; cbn in H; try contradiction; try (destruct H as [H|[]]; try discriminate).
  - revert H1 H. clear. destruct h; cbn [hold_step]; repeat match goal with |- context [if ?b then _ else _] => destruct b end; intros H; injection H as <- <- <-;
      cbn; intros X; repeat (destruct X as [X|X]; [discriminate|]); exact X.
  - injection H as <- <-. eapply ND. eassumption.
Qed.
Lemma run_no_call st e st' t : bstep st KRun e st' -> In (ECall t) e -> False.
Proof.
  intros S H. inversion S; subst; cbn in H; try contradiction; try (destruct H as [H|[]]; try discriminate).
  eapply hold_ev; eassumption.
Qed.
Lemma no_call_count t e : (forall t, ~ In (ECall t) e) -> count (is_call t) e = 0.
Proof.
  intros H. unfold count. destruct (filter (is_call t) e) as [|x l] eqn:FF; [reflexivity|]. exfalso.
  assert (X : In x (filter (is_call t) e)) by (rewrite FF; left; reflexivity). apply filter_In in X as [X Y].
  destruct x; try discriminate. exact (H _ X).
Qed.

Section F.
Variables (nw b0 : Z) (f : nat -> bstate) (k : nat -> kind) (e : nat -> list bev).
Hypothesis HS : bar_for_ever (binit nw b0) f k e.
Hypothesis HA : bar_fair f.

Lemma upto_S n : upto e (S n) = upto e n ++ e n.
Proof. unfold upto. rewrite seq_S, map_app, concat_app. cbn. rewrite app_nil_r. reflexivity. Qed.
Lemma F_exec n : exists ks, execution nw b0 ks (upto e n) (f n) /\ (forall x, In x ks -> exists i, k i = x).
Proof.
  destruct HS as [S0 SS]. induction n as [|n (ks & IH & IK)]; [rewrite S0; exists []; split; [constructor|intros x []]|].
  rewrite upto_S. destruct (SS n) as [A|(-> & -> & _)]; [|rewrite app_nil_r; eauto].
  exists (ks ++ [k n]). split; [econstructor; eassumption|]. intros x X. apply in_app_or in X as [X|[X|[]]]; [auto|eauto].
Qed.
Lemma F_mutex n : mutex (f n).
Proof. destruct (F_exec n) as (ks & A & _). exact (mutex_execution _ _ _ _ _ A). Qed.
Lemma changes n t : b_thr (f (S n)) t <> b_thr (f n) t -> bstep (f n) (k n) (e n) (f (S n)).
Proof. intros H. destruct (proj2 HS n) as [A|(A & _)]; [exact A|rewrite A in H; contradiction]. Qed.

Definition able (t : nat) (n : nat) : Prop := exists ee st', bstep (f n) KRun ee st' /\ bar_moved t (f n) st'.
Lemma able_thr t n ee s x : bstep (f n) KRun ee (with_thr s t x) -> x <> b_thr (f n) t -> (forall o, x <> TSleep o true) -> able t n.
Proof.
  intros S D D'. exists ee, (with_thr s t x). split; [exact S|]. unfold bar_moved. cbn. rewrite upd_same. split; [exact D|].
  intros (o & _ & X). exact (D' o X).
Qed.
(* a thread that can move again and again while it is at x does not stay there *)
Lemma goes_on n t x : b_thr (f n) t = x ->
  (forall m, n <= m -> exists j, m <= j /\ (b_thr (f j) t = x -> able t j)) ->
  exists m, n <= m /\ b_thr (f m) t = x /\ b_thr (f (S m)) t <> x.
Proof.
  intros HX HB. apply NNPP. intros C.
  assert (A : forall m, n <= m -> b_thr (f m) t = x).
  { intros m Hm. induction Hm as [|m Hm IH]; [exact HX|]. apply NNPP. intros D. apply C. exists m. auto. }
  destruct (HA t) with (N := n) as (m & Hm & HT & _).
  - intros N. destruct (HB (Nat.max N n) ltac:(lia)) as (j & Hj & J). destruct (J (A j ltac:(lia))) as (ee & st' & S & B). exists j, ee, st'. split; [lia|]. auto.
  - rewrite (A m), (A (S m)) in HT by lia. contradiction.
Qed.
Lemma goes_now n t x : b_thr (f n) t = x -> (forall m, n <= m -> b_thr (f m) t = x -> able t m) ->
  exists m, n <= m /\ b_thr (f m) t = x /\ b_thr (f (S m)) t <> x.
Proof. intros HX HB. apply goes_on; [exact HX|]. intros m Hm. exists m. split; [lia|]. apply HB, Hm. Qed.

Lemma hold_able m t o h : b_thr (f m) t = THold o h -> able t m.
Proof.
  intros Q. destruct (hold_step (f m) t o h) as [[s x] ee] eqn:E. destruct (hold_moves _ _ _ _ _ _ _ E) as [D1 D2].
  eapply able_thr; [eapply b_hold; [exact Q|exact E]|congruence|]. intros o'. pose proof (hold_up _ _ _ _ _ _ _ E) as [(h' & -> & _)|(_ & [(r & ->)|[-> _]])]; discriminate.
Qed.
Lemma hold_goes n t o h : b_thr (f n) t = THold o h ->
  exists m, n <= m /\ b_thr (f m) t = THold o h /\ exists s x ee, hold_step (f m) t o h = (s, x, ee) /\ b_thr (f (S m)) t = x /\ b_own (f (S m)) = b_own s.
Proof.
  intros E. destruct (goes_now n t _ E) as (m & Hm & M1 & M2); [intros; eapply hold_able; eassumption|].
  exists m. split; [exact Hm|]. split; [exact M1|]. rewrite <- M1 in M2. pose proof (bar_change _ _ _ _ t (changes m t M2) M2) as C. rewrite M1 in C. exact C.
Qed.
(* the mutex is released *)
Lemma releases n t o h : b_thr (f n) t = THold o h ->
  exists m, n < m /\ b_own (f m) = None /\ ((exists r, b_thr (f m) t = TDone r) \/ (b_thr (f m) t = TSleep o false /\ ~ sure h)).
Proof.
  remember (7 - hrank h) as d eqn:Ed. revert n h Ed. induction d as [d IH] using lt_wf_ind. intros n h -> E.
  destruct (hold_goes n t o h E) as (m & Hm & M1 & s & x & ee & H1 & H2 & H3).
  destruct (hold_up _ _ _ _ _ _ _ H1) as [(h' & -> & L & SU)|(O & X)].
  - destruct (IH (7 - hrank h') ltac:(pose proof (hrank_bound h'); lia) (S m) h' eq_refl H2) as (m' & A & B & [C|[C D]]);
      (exists m'; split; [lia|]; split; [exact B|]); [left; exact C|right; split; [exact C|tauto]].
  - exists (S m). split; [lia|]. split; [congruence|]. rewrite H2. exact X.
Qed.
Lemma lock_free n : exists m, n <= m /\ b_own (f m) = None.
Proof.
  destruct (b_own (f n)) as [u|] eqn:O; [|eauto]. destruct (proj1 (F_mutex n u) O) as (o & h & E).
  destruct (releases n u o h E) as (m & Hm & X & _). exists m. split; [lia|exact X].
Qed.

Lemma got_goes n t o : b_thr (f n) t = TGot o -> exists m, n <= m /\ b_thr (f m) t = TGot o /\ b_thr (f (S m)) t = THold o HInc.
Proof.
  intros E. destruct (goes_on n t _ E) as (m & Hm & M1 & M2).
  - intros m Hm. destruct (lock_free m) as (j & Hj & O). exists j. split; [exact Hj|]. intros Q.
    eapply able_thr; [eapply M_Barrier.b_lock; [exact Q|exact O]|rewrite Q; discriminate|discriminate].
  - exists m. split; [exact Hm|]. split; [exact M1|]. rewrite <- M1 in M2. pose proof (bar_change _ _ _ _ t (changes m t M2) M2) as C. rewrite M1 in C. exact C.
Qed.
Lemma wake_goes n t o td : b_thr (f n) t = TWake o td -> exists m, n <= m /\ b_thr (f m) t = TWake o td /\ b_thr (f (S m)) t = THold o (if td then HFinal else HPred).
Proof.
  intros E. destruct (goes_on n t _ E) as (m & Hm & M1 & M2).
  - intros m Hm. destruct (lock_free m) as (j & Hj & O). exists j. split; [exact Hj|]. intros Q.
    eapply able_thr; [eapply b_relock; [exact Q|exact O]|rewrite Q; discriminate|discriminate].
  - exists m. split; [exact Hm|]. split; [exact M1|]. rewrite <- M1 in M2. pose proof (bar_change _ _ _ _ t (changes m t M2) M2) as C. rewrite M1 in C. exact C.
Qed.
Lemma called_goes n t : b_thr (f n) t = TCalled -> exists m o, n <= m /\ b_thr (f m) t = TCalled /\ b_thr (f (S m)) t = TGot o.
Proof.
  intros E. destruct (goes_now n t _ E) as (m & Hm & M1 & M2).
  - intros m Hm Q. eapply able_thr; [apply b_read, Q|rewrite Q; discriminate|discriminate].
  - exists m. rewrite <- M1 in M2. pose proof (bar_change _ _ _ _ t (changes m t M2) M2) as C. rewrite M1 in C. destruct C as (o & C). exists o. auto.
Qed.
Lemma done_goes n t r : b_thr (f n) t = TDone r -> exists m, n <= m /\ b_thr (f m) t = TDone r /\ b_thr (f (S m)) t = TIdle /\ e m = [ERet t r].
Proof.
  intros E. destruct (goes_now n t _ E) as (m & Hm & M1 & M2).
  - intros m Hm Q. eapply able_thr; [eapply b_return, Q|rewrite Q; discriminate|discriminate].
  - exists m. rewrite <- M1 in M2. pose proof (bar_change _ _ _ _ t (changes m t M2) M2) as C. rewrite M1 in C. auto.
Qed.
Lemma awake_goes n t o : b_thr (f n) t = TSleep o true -> exists m, n <= m /\ b_thr (f m) t = TSleep o true /\ exists td, b_thr (f (S m)) t = TWake o td /\ (td = true -> k m = KExpire).
Proof.
  intros E. destruct (goes_now n t _ E) as (m & Hm & M1 & M2).
  - intros m Hm Q. eapply able_thr; [eapply b_wake, Q|rewrite Q; discriminate|discriminate].
  - exists m. rewrite <- M1 in M2. pose proof (bar_change _ _ _ _ t (changes m t M2) M2) as C. rewrite M1 in C. split; [exact Hm|]. split; [exact M1|].
    destruct C as [C|[[C _]|[C1 C2]]]; [exists false; split; [exact C|discriminate]|discriminate|exists true; auto].
Qed.

(* ---- every call sleeps again or returns ---- *)
Definition back (t n : nat) : Prop := exists m r, n <= m /\ In (ERet t r) (e m).
Lemma back_le t n m : n <= m -> back t m -> back t n.
Proof. intros H (j & r & A & B). exists j, r. split; [lia|exact B]. Qed.
Lemma done_back n t r : b_thr (f n) t = TDone r -> back t n.
Proof. intros H. destruct (done_goes n t r H) as (m & A & _ & _ & B). exists m, r. split; [exact A|]. rewrite B. left. reflexivity. Qed.
Definition asleep (t n : nat) : Prop := exists m o b, n <= m /\ b_thr (f m) t = TSleep o b.
Lemma asleep_le t n m : n <= m -> asleep t m -> asleep t n.
Proof. intros H (j & o & b & A & B). exists j, o, b. split; [lia|exact B]. Qed.
Lemma hold_next n t o h : b_thr (f n) t = THold o h -> back t n \/ (asleep t n /\ ~ sure h).
Proof.
  intros H. destruct (releases n t o h H) as (m & A & _ & [(r & B)|[B C]]).
  - left. apply (back_le t n m ltac:(lia)). eapply done_back, B.
  - right. split; [|exact C]. exists m, o, false. split; [lia|exact B].
Qed.
Lemma next n t : b_thr (f n) t <> TIdle -> back t n \/ asleep t n.
Proof.
  assert (A : forall n o h, b_thr (f n) t = THold o h -> back t n \/ asleep t n) by (intros n0 o h H; destruct (hold_next n0 t o h H) as [X|[X _]]; auto).
  assert (L : forall n m, n <= m -> back t m \/ asleep t m -> back t n \/ asleep t n).
  { intros a b H [X|X]; [left; exact (back_le _ _ _ H X)|right; exact (asleep_le _ _ _ H X)]. }
  assert (G : forall n o, b_thr (f n) t = TGot o -> back t n \/ asleep t n).
  { intros n0 o H. destruct (got_goes n0 t o H) as (m & B & _ & C). apply (L n0 (S m) ltac:(lia)). eapply A, C. }
  intros H. destruct (b_thr (f n) t) as [| |o|o h|o b|o td|r] eqn:E.
  - contradiction.
  - destruct (called_goes n t E) as (m & o & B & _ & C). apply (L n (S m) ltac:(lia)). eapply G, C.
  - eapply G, E.
  - eapply A, E.
  - right. exists n, o, b. split; [lia|exact E].
  - destruct (wake_goes n t o td E) as (m & B & _ & C). apply (L n (S m) ltac:(lia)). eapply A, C.
  - left. eapply done_back, E.
Qed.
Lemma expired_back n t o : b_thr (f n) t = TWake o true -> back t n.
Proof.
  intros E. destruct (wake_goes n t o true E) as (m & B & _ & C). apply (back_le t n (S m) ltac:(lia)).
  destruct (hold_next _ _ _ _ C) as [X|[_ X]]; [exact X|]. elim X. exact I.
Qed.
Lemma expire_state n t : In (EExpire t) (e n) -> exists o, b_thr (f (S n)) t = TWake o true.
Proof.
  intros H. destruct (proj2 HS n) as [S|(_ & X & _)]; [|rewrite X in H; destruct H].
  revert H. remember (e n) as en eqn:En. clear En. remember (f n) as fn eqn:Fn. clear Fn. remember (f (Datatypes.S n)) as fm eqn:Fm. clear Fm. intros H. destruct S; cbn in H; try contradiction; try (destruct H as [H|[]]; try discriminate).
  - exfalso. exact (proj1 (hold_ev _ _ _ _ _ _ _ t H1) H).
  - injection H as <-. exists old. cbn. apply upd_same.
Qed.
Lemma call_state n t : In (ECall t) (e n) -> b_thr (f (S n)) t = TCalled.
Proof.
  intros H. destruct (proj2 HS n) as [S|(_ & X & _)]; [|rewrite X in H; destruct H].
  revert H. remember (e n) as en eqn:En. clear En. remember (f n) as fn eqn:Fn. clear Fn. remember (f (Datatypes.S n)) as fm eqn:Fm. clear Fm. intros H. destruct S; cbn in H; try contradiction; try (destruct H as [H|[]]; try discriminate).
  - injection H as <-. cbn. apply upd_same.
  - exfalso. exact (proj2 (hold_ev _ _ _ _ _ _ _ t H1) H).
Qed.
Lemma stays_in n t : b_thr (f n) t <> TIdle -> (forall m r, n <= m -> ~ In (ERet t r) (e m)) -> forall m, n <= m -> b_thr (f m) t <> TIdle.
Proof.
  intros H NR m Hm. induction Hm as [|m Hm IH]; [exact H|]. intros X.
  assert (D : b_thr (f (S m)) t <> b_thr (f m) t) by congruence.
  pose proof (bar_change _ _ _ _ t (changes m t D) D) as C. destruct (b_thr (f m) t) as [| |o|o h|o b|o td|r]; try congruence.
  - destruct C as (o & C). congruence.
  - destruct C as (s & x & ee & C1 & C2 & _). destruct (hold_up _ _ _ _ _ _ _ C1) as [(h' & -> & _)|(_ & [(r & ->)|[-> _]])]; congruence.
  - destruct C as [C|[[_ C]|[C _]]]; congruence.
  - destruct C as [_ C]. apply (NR m r Hm). rewrite C. left. reflexivity.
Qed.
Theorem timed_returns : time_passes f e -> forall t n, In (ECall t) (e n) -> exists m r, n < m /\ In (ERet t r) (e m).
Proof.
  intros TP t n H. apply NNPP. intros C.
  assert (NR : forall m r, S n <= m -> ~ In (ERet t r) (e m)) by (intros m r A B; apply C; exists m, r; split; [lia|exact B]).
  assert (NI : forall m, S n <= m -> b_thr (f m) t <> TIdle) by (apply stays_in; [rewrite (call_state n t H); discriminate|exact NR]).
  destruct (TP t n H) as (m & Hm & X).
  - intros m r A. apply NR. lia.
  - intros N. destruct (next (Nat.max N (S n)) t (NI (Nat.max N (S n)) ltac:(lia))) as [(m & r & A & B)|(m & o & b & A & B)]; [exfalso; apply (NR m r); [lia|exact B]|].
    exists m, o, b. split; [lia|exact B].
  - destruct (expire_state m t X) as (o & E). destruct (expired_back _ _ _ E) as (j & r & A & B). apply (NR j r); [lia|exact B].
Qed.
End F.
