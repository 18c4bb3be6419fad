(* L_FairUse.v -- under a fair scheduler the programs with a barrier end. *)
From Coq Require Import Classical_Prop.
From Verif Require Import Base M_Barrier S_Barrier S_Fair L_Barrier L_BarrierN M_BarrierUse S_BarrierUse L_BarrierUse C_BarrierUse S_FairUse.
From Verif Require L_FairBar L_FairAll L_FairEx.
Local Open Scope nat_scope.

Lemma settle (m : nat -> nat) B : (forall n, m n <= m (S n)) -> (forall n, m n <= B) -> exists n0, forall n, n0 <= n -> m n = m n0.
Proof.
  intros UP. assert (MO : forall a b, a <= b -> m a <= m b) by (intros a b H; induction H as [|b H IH]; [lia|specialize (UP b); lia]).
  induction B as [|B IH]; intros HB.
  - exists 0. intros n _. pose proof (HB n). pose proof (HB 0). lia.
  - destruct (classic (exists n, m n = S B)) as [(n0 & E)|N].
    + exists n0. intros n Hn. pose proof (MO _ _ Hn). specialize (HB n). lia.
    + apply IH. intros n. destruct (Nat.eq_dec (m n) (S B)) as [E|E]; [elim N; eauto|specialize (HB n); lia].
Qed.

(* events outside wait *)
Definition outside (x : cev) : bool := match x with InBar _ => false | _ => true end.
Lemma acts_outside P c0 ks tr c : csteps P c0 ks tr c -> acts ks = tally outside tr.
Proof.
  induction 1 as [|c0 ks tr c1 k e c2 H IH S]; [reflexivity|]. rewrite acts_app, tally_app, IH. f_equal. destruct S; try reflexivity.
  change (0 = tally outside (map InBar e)). symmetry. apply tally_bar. reflexivity.
Qed.
Lemma btr_of_wait l : of_wait l = btr l. Proof. reflexivity. Qed.
Lemma upto_of_wait e n : upto (fun i => of_wait (e i)) n = btr (upto e n).
Proof. induction n as [|n IH]; [reflexivity|]. rewrite !L_FairEx.upto_last, btr_app, IH. reflexivity. Qed.

(* what a step is *)
Lemma cstep_sort P c k e c' : cstep P c k e c' ->
  tally outside e = 1 \/ (exists t, e = [InBar (ECall t)]) \/ (exists t r, e = [InBar (ERet t r)]) \/
  (c_thr c' = c_thr c /\ c_dead c' = c_dead c /\ (forall t, ~ In (ECall t) (btr e)) /\ (forall t r, ~ In (ERet t r) (btr e)) /\
   forall t, b_thr (c_bar c') t = TIdle <-> b_thr (c_bar c) t = TIdle).
Proof.
  intros S. destruct S; try (left; reflexivity); try (right; left; eauto; fail); try (right; right; left; eauto; fail).
  right. right. right. cbn [c_thr c_dead c_bar]. rewrite btr_in.
  assert (NC : forall t, ~ In (ECall t) e).
  { intros t X. pose proof (bstep_called _ _ _ _ _ H1 X) as ->. destruct (bstep_call _ _ _ _ H1) as [-> _]. contradiction. }
  do 2 (split; [reflexivity|]). split; [exact NC|]. split; [exact H0|]. intros t. exact (bstep_inner _ _ _ _ t H1 (NC t) (H0 t)).
Qed.
Lemma cstep_bar P c k e c' : cstep P c k e c' ->
  (k = KAct /\ c_bar c' = c_bar c /\ btr e = []) \/ exists x, k = KBar x /\ bstep (c_bar c) x (btr e) (c_bar c').
Proof. intros S. destruct S; cbn [c_bar]; try (left; auto; fail); right; eexists; (split; [reflexivity|]); try assumption. rewrite btr_in. assumption. Qed.
Lemma cons_neq {A} (a : A) p : Some p <> Some (a :: p).
Proof. intros X. injection X as X. apply (f_equal (@length _)) in X. cbn in X. lia. Qed.

(* whoever could do something outside wait or call wait can do so as long as no
   thread goes on *)
Lemma mover P N ks tr c D k e c' : Inv P N ks tr c D -> cstep P c k e c' -> k = KAct \/ k = KBar KCall ->
  exists t, b_thr (c_bar c) t = TIdle /\ forall c2, c_thr c2 = c_thr c -> c_dead c2 = false -> b_thr (c_bar c2) t = TIdle ->
    exists k e c2', cstep P c2 k e c2' /\ k <> KBar KSpurious /\ k <> KBar KExpire /\ use_moved t c2 c2'.
Proof.
  intros I S K.
  assert (ID : forall t a p, c_thr c t = Some (a :: p) -> is_wait a = false -> b_thr (c_bar c) t = TIdle).
  { intros t a p F Wa. pose proof (i_shape _ _ _ _ _ _ I t) as X. rewrite F in X. destruct X as [[_ [X|(ms & q & X)]]|[X _]]; [exact X| |exact X].
    injection X as -> _. discriminate. }
  destruct S as [b f t s p F|b f t p F|b f t u p F G|b f t u p F G|b f t ms p b' F B|b f k e b' NK NR B|b f t ms p r b' q F B G|b f t ms p r b' F B G]; cbn [c_thr c_bar] in *;
    try (destruct K as [K|K]; [discriminate|injection K as K]; discriminate); try (destruct K as [K|K]; [discriminate|injection K as K]; contradiction).
  1-4: exists t; (split; [eapply ID; [exact F|reflexivity]|]); intros [b2 f2 d2]; cbn; intros -> -> Z.
  - do 3 eexists. split; [apply c_say, F|]. split; [discriminate|]. split; [discriminate|]. left. cbn. rewrite put_same, F. split; [discriminate|apply cons_neq].
  - do 3 eexists. split; [apply c_nap, F|]. split; [discriminate|]. split; [discriminate|]. left. cbn. rewrite put_same, F. split; [discriminate|apply cons_neq].
  - do 3 eexists. split; [eapply c_spawn; [exact F|exact G]|]. split; [discriminate|]. split; [discriminate|]. left. cbn.
    rewrite put_other by (intros ->; congruence). rewrite put_same, F. split; [discriminate|apply cons_neq].
  - do 3 eexists. split; [eapply c_join; [exact F|exact G]|]. split; [discriminate|]. split; [discriminate|]. left. cbn. rewrite put_same, F. split; [discriminate|apply cons_neq].
  - exists t. destruct (bstep_call _ _ _ _ B) as (_ & Z0 & _). split; [exact Z0|]. intros [b2 f2 d2]; cbn; intros -> -> Z.
    do 3 eexists. split; [eapply c_call; [exact F|apply b_call, Z]|]. split; [discriminate|]. split; [discriminate|]. right.
    unfold bar_moved. cbn. rewrite upd_same, Z. split; [discriminate|]. intros (o & X & _). discriminate.
Qed.

Section Fair.
Variables (P : bprog) (N Nw R : nat) (pre mid post : list act).
Hypothesis W : wf P N Nw R pre mid post.
Variables (nw : Z) (f : nat -> cst) (k : nat -> ckind) (e : nat -> list cev).
Hypothesis HS : use_for_ever P (cstart P nw) f k e.
Hypothesis HA : use_fair P f.
Hypothesis AL : forall n, c_dead (f n) = false.

Lemma U_exec n : exists ks, csteps P (cstart P nw) ks (upto e n) (f n) /\ (forall x, In x ks -> exists i, k i = x).
Proof.
  destruct HS as [S0 SS]. induction n as [|n (ks & IH & IK)]; [rewrite S0; exists []; split; [constructor|intros x []]|].
  rewrite L_FairEx.upto_last. destruct (SS n) as [A|(-> & -> & _)]; [|rewrite app_nil_r; eauto].
  exists (ks ++ [k n]). split; [econstructor; eassumption|]. intros x X. apply in_app_or in X as [X|[X|[]]]; [auto|eauto].
Qed.
Lemma U_inv n : exists ks D, Inv P N ks (upto e n) (f n) D /\ csteps P (cstart P nw) ks (upto e n) (f n) /\ (forall x, In x ks -> exists i, k i = x).
Proof.
  destruct (U_exec n) as (ks & H & K). destruct (run _ _ _ _ _ _ _ W _ _ _ _ H) as (_ & _ & _ & L & _). destruct (L (AL n)) as (D & I). eauto.
Qed.

Definition cl n t := calls t (btr (upto e n)).
Definition rt n t := rets t (btr (upto e n)).
Lemma cl_S n t : cl (S n) t = cl n t + calls t (btr (e n)).
Proof. unfold cl, calls. rewrite L_FairEx.upto_last, btr_app, count_app. reflexivity. Qed.
Lemma rt_S n t : rt (S n) t = rt n t + rets t (btr (e n)).
Proof. unfold rt, rets. rewrite L_FairEx.upto_last, btr_app, count_app. reflexivity. Qed.
Lemma cl_rt n t : cl n t = rt n t + b2i (b_thr (c_bar (f n)) t).
Proof. destruct (U_exec n) as (ks & H & _). destruct (run _ _ _ _ _ _ _ W _ _ _ _ H) as (E & _). exact (calls_rets _ _ _ _ _ t E). Qed.
Lemma cl_most n t : cl n t <= if t <? Nw then R else 0.
Proof. destruct (U_exec n) as (ks & H & _). destruct (run _ _ _ _ _ _ _ W _ _ _ _ H) as (_ & M & _). exact (M t). Qed.

Definition mu n := tally outside (upto e n) + sum Nw (fun t => cl n t + rt n t).
Lemma mu_up n : mu n <= mu (S n).
Proof.
  unfold mu. rewrite L_FairEx.upto_last, tally_app. enough (sum Nw (fun t => cl n t + rt n t) <= sum Nw (fun t => cl (S n) t + rt (S n) t)) by lia.
  apply sum_le. intros t _. rewrite cl_S, rt_S. lia.
Qed.
Lemma mu_bound : exists B, forall n, mu n <= B.
Proof.
  exists (sum N (fun t => nact (p_code P t) + caught_acts P) + Nw * (R + R)). intros n. destruct (U_exec n) as (ks & H & _).
  destruct (run _ _ _ _ _ _ _ W _ _ _ _ H) as (_ & _ & A & _). rewrite (acts_outside _ _ _ _ _ H) in A. unfold mu.
  enough (sum Nw (fun t => cl n t + rt n t) <= Nw * (R + R)) by lia. rewrite <- (sum_const Nw (R + R)). apply sum_le. intros t Ht.
  pose proof (cl_most n t) as X. pose proof (cl_rt n t) as Y. destruct (t <? Nw); lia.
Qed.
Lemma quiet_step n : mu (S n) = mu n ->
  c_thr (f (S n)) = c_thr (f n) /\ (forall t, ~ In (ECall t) (btr (e n))) /\ (forall t r, ~ In (ERet t r) (btr (e n))) /\
  forall t, b_thr (c_bar (f (S n))) t = TIdle <-> b_thr (c_bar (f n)) t = TIdle.
Proof.
  intros E. destruct (proj2 HS n) as [S|(X & Y & _)].
  2: { rewrite X, Y. split; [reflexivity|]. split; [intros t []|]. split; [intros t r []|]. tauto. }
  assert (UP : sum Nw (fun t => cl n t + rt n t) <= sum Nw (fun t => cl (Datatypes.S n) t + rt (Datatypes.S n) t)) by (apply sum_le; intros t _; rewrite cl_S, rt_S; lia).
  assert (Z : tally outside (e n) = 0 /\ sum Nw (fun t => cl (Datatypes.S n) t + rt (Datatypes.S n) t) = sum Nw (fun t => cl n t + rt n t)).
  { unfold mu in E. rewrite L_FairEx.upto_last, tally_app in E. lia. }
  destruct Z as [Z1 Z2].
  assert (LT : forall t, cl n t + rt n t < cl (Datatypes.S n) t + rt (Datatypes.S n) t -> 1 <= cl (Datatypes.S n) t -> False).
  { intros t L C. pose proof (cl_most (Datatypes.S n) t) as M. destruct (Nat.ltb_spec t Nw) as [Ht|Ht]; [|lia].
    pose proof (L_FairAll.sum_lt Nw (fun t => cl n t + rt n t) (fun t => cl (Datatypes.S n) t + rt (Datatypes.S n) t) t) as Q.
    cbv beta in Q. rewrite Z2 in Q. apply Nat.lt_irrefl in Q; [exact Q| |exact Ht|exact L]. intros u _. rewrite cl_S, rt_S. lia. }
  destruct (cstep_sort _ _ _ _ _ S) as [X|[(t & X)|[(t & r & X)|(A & _ & B & C & D)]]]; [lia| | |auto].
  - exfalso. assert (Q : calls t (btr (e n)) = 1) by (rewrite X; unfold calls, count; cbn; rewrite Nat.eqb_refl; reflexivity).
    pose proof (cl_S n t). pose proof (rt_S n t). apply (LT t); lia.
  - exfalso. assert (Q : rets t (btr (e n)) = 1) by (rewrite X; unfold rets, count; cbn; rewrite Nat.eqb_refl; reflexivity).
    pose proof (cl_S n t). pose proof (rt_S n t). pose proof (cl_rt (Datatypes.S n) t). apply (LT t); lia.
Qed.

(* the time from which on no thread goes on *)
Variable n0 : nat.
Hypothesis Q0 : forall n, n0 <= n -> mu n = mu n0.
Lemma quiet n : n0 <= n -> c_thr (f (S n)) = c_thr (f n) /\ (forall t, ~ In (ECall t) (btr (e n))) /\ (forall t r, ~ In (ERet t r) (btr (e n))) /\
  forall t, b_thr (c_bar (f (S n))) t = TIdle <-> b_thr (c_bar (f n)) t = TIdle.
Proof. intros H. apply quiet_step. rewrite (Q0 n H), (Q0 (S n)) by lia. reflexivity. Qed.
Lemma same n : n0 <= n -> c_thr (f n) = c_thr (f n0) /\ (forall t, cl n t = cl n0 t) /\ (forall t, rt n t = rt n0 t) /\
  forall t, b_thr (c_bar (f n)) t = TIdle <-> b_thr (c_bar (f n0)) t = TIdle.
Proof.
  intros H. induction H as [|n H (A & B & C & D)]; [repeat split; auto|]. destruct (quiet n H) as (A' & NC & NR & D'). split; [congruence|].
  split; [intros t; rewrite cl_S, B, (calls_none t _ (NC t)); lia|]. split; [intros t; rewrite rt_S, C, (rets_none t _ (NR t)); lia|].
  intros t. rewrite (D' t). apply D.
Qed.
Lemma no_act kk ee c' : cstep P (f n0) kk ee c' -> kk <> KAct /\ kk <> KBar KCall.
Proof.
  intros S. enough (~ (kk = KAct \/ kk = KBar KCall)) by tauto. intros K. destruct (U_inv n0) as (ks & D & I & _).
  destruct (mover _ _ _ _ _ _ _ _ _ I S K) as (t & Z & M).
  assert (Zn : forall n, n0 <= n -> b_thr (c_bar (f n)) t = TIdle) by (intros n Hn; apply (same n Hn), Z).
  destruct (HA t) with (N := n0) as (n & Hn & [[_ X]|[X _]]).
  - intros m. destruct (M (f (Nat.max m n0))) as (k1 & e1 & c1 & A & B & C & U).
    + apply same. lia. 
    + apply AL.
    + apply Zn. lia.
    + exists (Nat.max m n0), k1, e1, c1. split; [lia|auto].
  - apply X. rewrite (proj1 (quiet n Hn)). reflexivity.
  - apply X. rewrite (Zn n Hn), (Zn (Datatypes.S n)) by lia. reflexivity.
Qed.

(* the barrier's part *)
Definition kb n := match k n with KBar x => x | KAct => KRun end.
Lemma U_bar : bar_for_ever (binit nw 0) (fun n => c_bar (f n)) kb (fun n => of_wait (e n)).
Proof.
  split; [rewrite (proj1 HS); reflexivity|]. intros n. rewrite btr_of_wait. destruct (proj2 HS n) as [S|(X & Y & K)].
  - destruct (cstep_bar _ _ _ _ _ S) as [(K & A & B)|(x & K & B)]; unfold kb; rewrite K; [right|left]; auto.
  - right. rewrite X, Y. unfold kb. rewrite K. auto.
Qed.
Lemma U_fair : bar_fair (fun n => c_bar (f n)).
Proof.
  intros t H m. destruct (HA t) with (N := Nat.max m n0) as (n & Hn & U).
  - intros i. destruct (H i) as (n & ee & s & Hn & S & M). destruct (U_inv n) as (ks & D & I & _). pose proof (AL n) as An.
    assert (G : exists e2 c', cstep P (f n) (KBar KRun) e2 c' /\ c_bar c' = s).
    { destruct (f n) as [b g d]. cbn in An, S. subst d. cbn [c_bar] in S.
      assert (Q : (exists t r, ee = [ERet t r]) \/ (forall t r, ~ In (ERet t r) ee)).
      { pose proof (bstep_one _ _ _ _ S) as L. destruct ee as [|x [|y ee]]; cbn in L; [right; cbn; tauto| |lia].
        destruct x; eauto; right; cbn; intuition discriminate. }
      destruct Q as [(v & r & ->)|Q].
      - destruct (bstep_ret _ _ _ _ _ S) as (_ & A & _). pose proof (i_shape _ _ _ _ _ _ I v) as X. cbn [c_thr c_bar] in X. rewrite A in X. unfold shape in X.
        destruct (g v) as [rest|] eqn:Ft; [|destruct X; discriminate]. destruct X as [[_ [X|(ms & p & ->)]]|[X _]]; try discriminate.
        destruct (go_on P ms p r) as [q|] eqn:G.
        + exists [InBar (ERet v r)], (mkC s (put_thr g v (Some q)) false). split; [eapply c_back; eauto|reflexivity].
        + exists [InBar (ERet v r)], (mkC s g true). split; [eapply c_die; eauto|reflexivity].
      - exists (map InBar ee), (mkC s g false). split; [eapply c_in; [|exact Q|exact S]; discriminate|reflexivity]. }
    destruct G as (e2 & c' & G & <-). exists n, (KBar KRun), e2, c'. split; [exact Hn|]. split; [exact G|]. split; [discriminate|]. split; [discriminate|]. right. exact M.
  - exists n. split; [lia|]. destruct U as [[_ U]|U]; [|exact U]. elim U. rewrite (proj1 (quiet n ltac:(lia))). reflexivity.
Qed.

(* every call of wait has a time limit that runs out *)
Lemma last_call n t : b_thr (c_bar (f n)) t <> TIdle ->
  exists i, i < n /\ In (ECall t) (btr (e i)) /\ forall m r, i < m < n -> ~ In (ERet t r) (btr (e m)).
Proof.
  induction n as [|n IH]; intros H.
  - rewrite (proj1 HS) in H. elim H. reflexivity.
  - pose proof (proj2 U_bar n) as S. cbn beta in S. rewrite btr_of_wait in S.
    destruct (classic (In (ECall t) (btr (e n)))) as [C|C]; [exists n; split; [lia|]; split; [exact C|]; intros m r Hm; lia|].
    assert (NR : forall r, ~ In (ERet t r) (btr (e n))).
    { intros r X. destruct S as [S|(_ & Y & _)]; [|rewrite Y in X; destruct X].
      pose proof (bstep_returned _ _ _ _ _ _ S X) as Y. rewrite Y in S. apply H, (bstep_ret _ _ _ _ _ S). }
    destruct IH as (i & Hi & A & B).
    + intros Z. apply H. destruct S as [S|(-> & _)]; [|exact Z]. apply (bstep_inner _ _ _ _ t S C NR), Z.
    + exists i. split; [lia|]. split; [exact A|]. intros m r Hm. destruct (Nat.eq_dec m n) as [->|]; [apply NR|apply B; lia].
Qed.
Lemma timed_idle : use_time_passes f e -> idle_all (f n0).
Proof.
  intros HT t. apply NNPP. intros H. destruct (last_call n0 t H) as (i & Hi & A & B).
  destruct (L_FairBar.timed_returns _ _ _ _ _ U_bar U_fair HT t i A) as (m & r & Hm & X). rewrite btr_of_wait in X.
  destruct (le_lt_dec n0 m) as [L|L]; [exact (proj1 (proj2 (proj2 (quiet m L))) t r X)|apply (B m r); [lia|exact X]].
Qed.
Lemma timed_end : Nw <= p_main P -> use_time_passes f e -> (forall t, t < N -> c_thr (f n0) t = Some []) /\ idle_all (f n0).
Proof.
  intros Hm HT. pose proof (timed_idle HT) as Z. split; [|exact Z]. destruct (U_inv n0) as (ks & D & I & H & _). pose proof (AL n0) as An.
  destruct (run _ _ _ _ _ _ _ W _ _ _ _ H) as (_ & M & _). pose proof no_act as NA.
  destruct (f n0) as [b g d]. cbn in An. subst d. cbn [c_thr]. eapply finished; [exact W|exact I|exact Z| |exact NA].
  intros rest F. pose proof (i_shape _ _ _ _ _ _ I (p_main P)) as S. cbn [c_thr c_bar] in S. rewrite F in S.
  destruct S as [[S _]|(_ & d1 & m & r & r0 & d2 & h & B1 & B2 & B3 & B4 & B5 & B6)]; [exact S|exfalso].
  pose proof (i_calls _ _ _ _ _ _ I (p_main P)) as Q. specialize (M (p_main P)). unfold most in M. destruct (Nat.ltb_spec (p_main P) Nw); [lia|].
  rewrite B4, num_app, num_cons in Q. cbn in Q. lia.
Qed.
End Fair.

(* no thread goes on: those outside wait have made all their calls *)
Lemma no_more P N Nw R pre mid post ks tr c D : wf P N Nw R pre mid post -> Nw <= N -> Inv P N ks tr c D -> c_dead c = false ->
  (forall t rest, c_thr c t = Some rest -> p_code P t = D t ++ rest) ->
  (forall k e c', cstep P c k e c' -> k <> KAct /\ k <> KBar KCall) ->
  forall t, t < Nw -> b_thr (c_bar c) t = TIdle -> R <= calls t (btr tr).
Proof.
  intros W NN I AL CR ST t Ht Z. destruct c as [b f d]. cbn in AL. subst d. cbn [c_bar c_thr] in *.
  destruct (le_lt_dec R (calls t (btr tr))) as [L|Hc]; [exact L|exfalso].
  rewrite (i_calls _ _ _ _ _ _ I) in Hc. cbn [c_bar] in Hc. rewrite Z in Hc. cbn [b2i] in Hc.
  destruct (f t) as [rest|] eqn:Ft.
  - pose proof (CR _ _ Ft) as Co. pose proof (w_waits _ _ _ _ _ _ _ W t ltac:(lia)) as Q. destruct (Nat.ltb_spec t Nw); [|lia].
    rewrite Co, num_app in Q. destruct rest as [|a p]; [cbn in Q; lia|].
    destruct (Nat.eq_dec t (p_main P)) as [->|Ne].
    + destruct (main_goes _ _ _ _ _ _ _ W _ _ _ _ _ I a p Ft Co Z) as [(k&e&c'&X&Y)|(u&_&_&_&X)]; [destruct (ST _ _ _ X); intuition|].
      rewrite Co, num_app in X. lia.
    + assert (PL : plain a) by (apply (w_other _ _ _ _ _ _ _ W t Ne); rewrite Co, in_app_iff; cbn; auto).
      destruct (plain_goes P b f t a p Ft PL Z) as (k&e&c'&X&Y). destruct (ST _ _ _ X); intuition.
  - pose proof (i_mainl _ _ _ _ _ _ I) as ML. cbn in ML. destruct (f (p_main P)) as [rest|] eqn:F; [|congruence]. pose proof (CR _ _ F) as Co.
    destruct rest as [|a p].
    + rewrite app_nil_r in Co. exact (main_spawns _ _ _ _ _ _ _ W _ _ _ _ _ I F Co t ltac:(lia) Ft).
    + pose proof (i_shape _ _ _ _ _ _ I (p_main P)) as S'. cbn [c_thr c_bar] in S'. rewrite F in S'.
      assert (Q : b_thr b (p_main P) = TIdle \/ exists ms, a = Wait ms).
      { destruct S' as [[_ [S'|(ms&q&S')]]|[S' _]]; [auto|injection S' as -> _; right; eauto|auto]. }
      destruct Q as [Q|(ms&->)]; [|exact (waiting_main _ _ _ _ _ _ _ W _ _ _ _ _ _ _ I F Co t ltac:(lia) Ft)].
      destruct (main_goes _ _ _ _ _ _ _ W _ _ _ _ _ I a p F Co Q) as [(k&e&c'&X&Y)|(u&_&_&X&_)]; [destruct (ST _ _ _ X); intuition|].
      exact (X t ltac:(lia) Ft).
Qed.

Section Calm.
Variables (P : bprog) (N Nw R : nat) (pre mid post : list act).
Hypothesis W : wf P N Nw R pre mid post.
Hypothesis NN : Nw <= N.
Hypothesis H1 : 1 <= Nw.
Hypothesis H2 : (Z.of_nat Nw < two32)%Z.
Variables (f : nat -> cst) (k : nat -> ckind) (e : nat -> list cev).
Hypothesis HS : use_for_ever P (cstart P (Z.of_nat Nw)) f k e.
Hypothesis HA : use_fair P f.
Hypothesis HK : forall n, k n <> KBar KExpire.

Lemma calm_exec n : exists ks, csteps P (cstart P (Z.of_nat Nw)) ks (upto e n) (f n) /\ calm ks.
Proof. destruct (U_exec _ _ _ _ _ HS n) as (ks & A & B). exists ks. split; [exact A|]. intros X. destruct (B _ X) as (i & Y). exact (HK i Y). Qed.
Lemma calm_al n : c_dead (f n) = false.
Proof. destruct (calm_exec n) as (ks & A & B). exact (calm_alive _ _ _ _ _ _ _ W _ _ _ H1 H2 A B). Qed.
Lemma calm_fair_end : exists m, (forall t, t < N -> c_thr (f m) t = Some []) /\ idle_all (f m).
Proof.
  destruct (mu_bound _ _ _ _ _ _ _ W _ _ _ _ HS calm_al) as (B & HB).
  destruct (settle (mu Nw e) B (mu_up _ _ _ calm_al) HB) as (n0 & Q0). exists n0.
  pose proof (U_bar _ _ _ _ _ HS) as UB. pose proof (U_fair _ _ _ _ _ _ _ W _ _ _ _ HS HA calm_al n0 Q0) as UF.
  pose proof (no_act _ _ _ _ _ _ _ W _ _ _ _ HS HA calm_al n0 Q0) as NA.
  destruct (calm_exec n0) as (ks & EX & CK). destruct (calm_run _ _ _ _ _ _ _ W _ _ _ H1 H2 EX CK) as (D & I & CR & _).
  pose proof (no_more _ _ _ _ _ _ _ _ _ _ _ W NN I (calm_al n0) CR NA) as NM.
  pose proof (cl_rt _ _ _ _ _ _ _ W _ _ _ _ HS n0) as CT. unfold cl, rt in CT.
  assert (EP : forall r, (forall t, t < Nw -> r <= calls t (btr (upto e n0))) -> forall t, t < Nw -> r <= rets t (btr (upto e n0))).
  { intros r Hr t Ht.
    destruct (L_FairAll.everybody_passes Nw 0 _ _ _ H1 H2 ltac:(unfold two32; lia) UB UF) with (R := r) as (m & Hm).
    - intros n. unfold kb. pose proof (HK n) as X. destruct (k n) as [|x]; [discriminate|]. congruence.
    - intros n u X. pose proof (cl_most _ _ _ _ _ _ _ W _ _ _ _ HS (S n) u) as Y. rewrite cl_S in Y. apply called_once in X. rewrite btr_of_wait in X.
      destruct (Nat.ltb_spec u Nw); [assumption|lia].
    - intros u Hu. exists n0. rewrite upto_of_wait. apply Hr, Hu.
    - specialize (Hm t Ht). rewrite upto_of_wait in Hm. destruct (le_lt_dec n0 m) as [L|L].
      + destruct (same _ _ _ _ _ _ _ W _ _ _ _ HS calm_al n0 Q0 m L) as (_ & _ & X & _). specialize (X t). unfold rt in X. lia.
      + eapply Nat.le_trans; [exact Hm|]. clear - L. induction L as [|n0 L IH]; [rewrite L_FairEx.upto_last, btr_app; unfold rets; rewrite count_app; lia|].
        rewrite L_FairEx.upto_last, btr_app. unfold rets in *. rewrite count_app. lia. }
  assert (CA : forall r, r <= R -> forall t, t < Nw -> r <= calls t (btr (upto e n0))).
  { induction r as [|r IH]; intros Hr t Ht; [lia|]. pose proof (EP r (IH ltac:(lia)) t Ht) as X. specialize (CT t).
    destruct (classic (b_thr (c_bar (f n0)) t = TIdle)) as [Z|Z]; [pose proof (NM t Ht Z); lia|]. rewrite (b2i_busy _ Z) in CT. lia. }
  pose proof (EP R (CA R (le_n _))) as RT.
  assert (Z : idle_all (f n0)).
  { intros t. pose proof (cl_most _ _ _ _ _ _ _ W _ _ _ _ HS n0 t) as M. unfold cl in M. specialize (CT t). destruct (Nat.ltb_spec t Nw) as [L|L].
    - specialize (RT t L). destruct (b_thr (c_bar (f n0)) t); cbn in CT; auto; lia.
    - destruct (b_thr (c_bar (f n0)) t); cbn in CT; auto; lia. }
  split; [|exact Z]. pose proof (calm_al n0) as An. destruct (f n0) as [b g d]. cbn in An. subst d. cbn [c_thr]. eapply finished; [exact W|exact I|exact Z| |exact NA].
  intros rest F. exact (CR _ _ F).
Qed.
End Calm.

(* afterwards nothing happens *)
Lemma end_over P start f k e m : use_for_ever P start f k e -> (forall t, c_thr (f m) t = None \/ c_thr (f m) t = Some []) -> idle_all (f m) -> over f e m.
Proof.
  intros HS F Z n Hn. assert (X : f n = f m /\ forall kk ee c', ~ cstep P (f n) kk ee c').
  { induction Hn as [|n Hn [IH NS]]; [split; [reflexivity|]; intros kk ee c'; apply no_step; assumption|].
    destruct (proj2 HS n) as [S|(X & _)]; [elim (NS _ _ _ S)|]. rewrite X. auto. }
  destruct X as [X NS]. split; [exact X|]. destruct (proj2 HS n) as [S|(_ & Y & _)]; [elim (NS _ _ _ S)|exact Y].
Qed.
Lemma end_all P N Nw R pre mid post nw f k e m : wf P N Nw R pre mid post -> use_for_ever P (cstart P nw) f k e -> c_dead (f m) = false ->
  (forall t, t < N -> c_thr (f m) t = Some []) -> forall t, c_thr (f m) t = None \/ c_thr (f m) t = Some [].
Proof.
  intros W HS A F t. destruct (le_lt_dec N t) as [L|L]; [left|right; auto]. destruct (U_exec _ _ _ _ _ HS m) as (ks & H & _).
  destruct (run _ _ _ _ _ _ _ W _ _ _ _ H) as (_ & _ & _ & X & _). destruct (X A) as (D & I).
  destruct (c_thr (f m) t) eqn:E; [|reflexivity]. pose proof (i_below _ _ _ _ _ _ I t ltac:(congruence)). lia.
Qed.

(* ---- every execution can be continued in a fair way ---- *)
Lemma use_seq P s0 ks tr c : csteps P s0 ks tr c -> exists f k e N, use_for_ever P s0 f k e /\ upto e N = tr /\
  (forall n, k n = KAct \/ In (k n) ks) /\ (forall n, N <= n -> f n = c) /\ forall x, In x ks -> exists n, n < N /\ k n = x.
Proof.
  induction 1 as [c|s0 ks tr c1 kk ee c2 HR IH HS].
  - exists (fun _ => c), (fun _ => KAct), (fun _ => []), 0. split; [split; auto|]. split; [reflexivity|]. split; [auto|]. split; [auto|intros x []].
  - destruct IH as (f & k & e & N & [F0 FS] & U & K & FN & KX).
    exists (fun n => if n <=? N then f n else c2), (fun n => if n <? N then k n else if n =? N then kk else KAct), (fun n => if n <? N then e n else if n =? N then ee else []), (S N).
    split; [split|split; [|split; [|split]]].
    + exact F0.
    + intros n. destruct (Nat.eqb_spec n N) as [->|D].
      * left. rewrite Nat.ltb_irrefl, Nat.leb_refl. destruct (Nat.leb_spec (S N) N); [lia|]. rewrite (FN N (le_n _)). exact HS.
      * destruct (Nat.leb_spec n N), (Nat.leb_spec (S n) N), (Nat.ltb_spec n N); try lia; [apply FS|]. right. auto.
    + rewrite L_FairEx.upto_last, Nat.ltb_irrefl, Nat.eqb_refl. f_equal. rewrite <- U. apply L_FairEx.upto_ext. intros i Hi. destruct (Nat.ltb_spec i N); [reflexivity|lia].
    + intros n. destruct (Nat.ltb_spec n N); [destruct (K n); [auto|right; apply in_or_app; auto]|]. destruct (n =? N); [right; apply in_or_app; cbn; auto|auto].
    + intros n Hn. destruct (Nat.leb_spec n N); [lia|reflexivity].
    + intros x X. apply in_app_or in X as [X|[X|[]]].
      * destruct (KX x X) as (n & Hn & E). exists n. split; [lia|]. destruct (Nat.ltb_spec n N); [exact E|lia].
      * exists N. split; [lia|]. rewrite Nat.ltb_irrefl, Nat.eqb_refl. exact X.
Qed.
Lemma use_run_out P s0 (ok : ckind -> Prop) B ks tr c : csteps P s0 ks tr c ->
  (forall ks' tr' c', csteps P s0 (ks ++ ks') tr' c' -> Forall ok ks' -> length ks' <= B) ->
  exists ks' tr' c', csteps P s0 (ks ++ ks') (tr ++ tr') c' /\ Forall ok ks' /\ forall k e c2, cstep P c' k e c2 -> ~ ok k.
Proof.
  intros H HB.
  enough (G : forall d ks' tr' c', csteps P s0 (ks ++ ks') (tr ++ tr') c' -> Forall ok ks' -> B - length ks' <= d ->
    exists ks' tr' c', csteps P s0 (ks ++ ks') (tr ++ tr') c' /\ Forall ok ks' /\ forall k e c2, cstep P c' k e c2 -> ~ ok k).
  { apply (G B [] [] c); [rewrite !app_nil_r; exact H|constructor|lia]. }
  induction d as [|d IH]; intros ks' tr' c' H' OK HD.
  all: destruct (classic (exists k e c2, cstep P c' k e c2 /\ ok k)) as [(k & e & c2 & S & K)|NS];
    [|exists ks', tr', c'; split; [exact H'|]; split; [exact OK|]; intros k e c2 S K; apply NS; eauto 6].
  all: assert (H2 : csteps P s0 (ks ++ (ks' ++ [k])) (tr ++ (tr' ++ e)) c2) by (rewrite !app_assoc; econstructor; eassumption).
  all: assert (OK2 : Forall ok (ks' ++ [k])) by (apply Forall_app; auto).
  all: pose proof (HB _ _ _ H2 OK2) as L; rewrite app_length in L; cbn in L.
  - lia.
  - apply (IH _ _ _ H2 OK2). rewrite app_length. cbn. lia.
Qed.
Lemma effort_app a b : effort (a ++ b) = effort a + effort b.
Proof. unfold effort. now rewrite filter_app, app_length. Qed.
Lemma spurious_app a b : spurious (a ++ b) = spurious a + spurious b.
Proof. unfold spurious. now rewrite filter_app, app_length. Qed.
Lemma effort_own (ok : ckind -> Prop) l : (forall k, ok k -> k <> KBar KSpurious) -> Forall ok l -> effort l = length l /\ spurious l = 0.
Proof.
  intros NS. induction 1 as [|x l K _ [A B]]; [auto|]. change (x :: l) with ([x] ++ l). rewrite effort_app, spurious_app, A, B.
  apply NS in K. destruct x as [|[]]; cbn; auto. congruence.
Qed.
