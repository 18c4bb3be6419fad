(* P_BarrierTime.v -- C130: time limits of Barrier::wait *)
From Coq Require Import Lia.
From Verif Require Import Base M_Barrier S_Barrier M_BarrierTime S_BarrierTime L_Barrier L_BarrierT L_BarrierR C_Barrier P_Barrier.
Local Open Scope nat_scope.

(* ---- without the clock it is an execution of the barrier ---- *)
Lemma stamp_ev now args e : map o_ev (stamp now args e) = e.
Proof. unfold stamp. rewrite map_map. apply map_id. Qed.
Lemma erase n b0 now st tr : tsteps (tinit n b0 now) tr st -> exists ks, execution n b0 ks (map o_ev tr) (t_bar st).
Proof.
  intros H. remember (tinit n b0 now) as s0. induction H; subst; [exists []; constructor|].
  destruct (IHtsteps eq_refl) as (ks & E). rewrite map_app. unfold execution in *.
  inversion H0; subst; cbn [t_bar] in *; rewrite ?stamp_ev; cbn [map o_ev].
  - exists ks. rewrite app_nil_r. exact E.
  - eexists. econstructor; eassumption.
  - eexists. econstructor; eassumption.
  - exists ks. rewrite app_nil_r. exact E.
  - eexists. econstructor; eassumption.
  - eexists. econstructor; eassumption.
Qed.

(* ---- what a thread's place says about its deadline ---- *)
Definition threw (r : bres) : bool := match r with Passed => false | _ => true end.
Definition expired (x : tst) : bool :=
  match x with
  | TWake _ td => td
  | THold _ (HFinal | HCorr | HInf | HNotify2 | HThrow) => true
  | THold _ (HOut r) | TDone r => threw r
  | _ => false
  end.
Definition has_dl (x : tst) : bool :=
  match x with TSleep _ _ | TWake _ _ | THold _ HPred => true | _ => expired x end.
Definition in_call (x : tst) : bool := match x with TIdle => false | _ => true end.
Definition did_read (x : tst) : bool := match x with TIdle | TCalled => false | _ => true end.
Definition same_class (x y : tst) : Prop := in_call x = in_call y /\ did_read x = did_read y /\ has_dl x = has_dl y /\ expired x = expired y.
Lemma sc_refl x : same_class x x. Proof. repeat split. Qed.

(* one step, seen from every thread *)
Lemma step_class b k e b' : bstep b k e b' -> exists t,
  (forall u, u <> t -> same_class (b_thr b' u) (b_thr b u)) /\ (forall x, In x e -> who x = t) /\
  ((k = KCall /\ e = [ECall t] /\ b_thr b' t = TCalled) \/
   (k = KRun /\ e = [ERead t] /\ b_thr b t = TCalled /\ did_read (b_thr b' t) = true /\ has_dl (b_thr b' t) = false /\ expired (b_thr b' t) = false) \/
   (k = KRun /\ b_thr b' t = TIdle /\ exists r, e = [ERet t r] /\ b_thr b t = TDone r) \/
   (did_read (b_thr b t) = true /\ in_call (b_thr b t) = true /\ did_read (b_thr b' t) = true /\ ~ In (ECall t) e /\ ~ In (ERead t) e /\ (forall r, ~ In (ERet t r) e) /\
    ((exists old, k = KRun /\ e = [] /\ b_thr b t = THold old HTest /\ b_thr b' t = THold old HPred) \/
     (k = KExpire /\ e = [EExpire t] /\ has_dl (b_thr b t) = true) \/
     (k <> KExpire /\ (has_dl (b_thr b' t) = true -> has_dl (b_thr b t) = true) /\ (expired (b_thr b' t) = true -> expired (b_thr b t) = true) /\ (forall u, In (EBroke u) e -> expired (b_thr b t) = true))))).
Proof.
  assert (O : forall st t x u, u <> t -> b_thr (with_thr st t x) u = b_thr st u) by (intros; cbn; unfold upd_thr; destruct (Nat.eqb_spec u t); congruence).
  assert (S : forall st t x, b_thr (with_thr st t x) t = x) by (intros; cbn; unfold upd_thr; rewrite Nat.eqb_refl; reflexivity).
  intros H. destruct H; exists t; (split; [|split]).
  all: try (intros u Hu; rewrite O by exact Hu; cbn; apply sc_refl).
  all: try (rewrite S).
  - intros x [<-|[]]. reflexivity.
  - left. auto.
  - intros x [<-|[]]. reflexivity.
  - right. left. rewrite H. repeat split.
  - intros x [].
  - do 3 right. rewrite H. repeat (split; [cbn; try reflexivity; try (intros; intro; contradiction); intuition discriminate|]). right. right. repeat split; cbn; try discriminate; intros; contradiction.
  - intros u Hu. rewrite O by exact Hu. destruct h; cbn in H0; try (injection H0 as <- <- <-; cbn; apply sc_refl);
      try (match type of H0 with context [if ?c then _ else _] => destruct c end; injection H0 as <- <- <-; cbn; apply sc_refl);
      injection H0 as <- <- <-; cbn; destruct (b_thr st u); repeat split.
  - intros x0 Hx. destruct h; cbn in H0; try (match type of H0 with context [if ?c then _ else _] => destruct c end); injection H0 as <- <- <-;
      repeat (destruct Hx as [<-|Hx]; [reflexivity|]); destruct Hx.
  - do 3 right. rewrite H. split; [reflexivity|]. split; [reflexivity|]. 
    destruct h; cbn in H0; try (match type of H0 with context [if ?c then _ else _] => destruct c end); injection H0 as <- <- <-;
      (split; [reflexivity|split; [cbn; intuition discriminate|split; [cbn; intuition discriminate|split; [cbn; intuition discriminate|]]]]);
      try (left; eexists; repeat split; reflexivity);
      right; right; (split; [discriminate|]); cbn; repeat split; auto; intuition discriminate.
  - intros x [].
  - do 3 right. rewrite H. repeat (split; [cbn; try reflexivity; try (intros; intro; contradiction); intuition discriminate|]). right. right. repeat split; cbn; try discriminate; intros; try contradiction; auto; discriminate.
  - intros x [].
  - do 3 right. rewrite H. repeat (split; [cbn; try reflexivity; try (intros; intro; contradiction); intuition discriminate|]). right. right. repeat split; cbn; try discriminate; intros; try contradiction; auto; discriminate.
  - intros x [<-|[]]. reflexivity.
  - do 3 right. rewrite H. repeat (split; [cbn; try reflexivity; intuition discriminate|]). right. left. repeat split.
  - intros x [].
  - do 3 right. rewrite H. destruct timedout; repeat (split; [cbn; try reflexivity; try (intros; intro; contradiction); intuition discriminate|]); right; right; repeat split; cbn; try discriminate; intros; try contradiction; auto; discriminate.
  - intros x [<-|[]]. reflexivity.
  - right. right. left. split; [reflexivity|]. split; [reflexivity|]. eexists. split; [reflexivity|exact H].
Qed.

(* ---- nobody throws unless somebody has broken the barrier ---- *)
Definition late (x : tst) : bool :=
  match x with THold _ (HNotify2 | HThrow) => true | THold _ (HOut r) | TDone r => threw r | _ => false end.
Definition quiet (st : bstate) (tr : list bev) : Prop :=
  no_break tr -> (b_corr st = true -> exists t o, b_thr st t = THold o HInf) /\ forall t, late (b_thr st t) = false.
Lemma quiet_step st tr k e st' : mutex st -> quiet st tr -> bstep st k e st' -> quiet st' (tr ++ e).
Proof.
  assert (O : forall st t x u, b_thr (with_thr st t x) u = if Nat.eqb u t then x else b_thr st u) by reflexivity.
  intros MX Q H NB. apply no_break_app in NB as [NB NB2]. destruct (Q NB) as [Q1 Q2]. clear Q.
  assert (KEEP : forall st1 t x, b_corr st1 = b_corr st -> (forall u, u <> t -> b_thr st1 u = b_thr st u) ->
    (forall o, b_thr st t <> THold o HInf) -> late x = false ->
    (b_corr (with_thr st1 t x) = true -> exists u o, b_thr (with_thr st1 t x) u = THold o HInf) /\ forall u, late (b_thr (with_thr st1 t x) u) = false).
  { intros st1 t x E1 E2 E3 E4. split.
    - cbn. rewrite E1. intros C. destruct (Q1 C) as (u & o & U). exists u, o. unfold upd_thr. destruct (Nat.eqb_spec u t) as [->|N]; [destruct (E3 o U)|rewrite E2 by exact N; exact U].
    - intros u. rewrite O. destruct (Nat.eqb_spec u t) as [->|N]; [exact E4|rewrite E2 by exact N; apply Q2]. }
  destruct H; try (apply KEEP; [reflexivity|reflexivity|intros; congruence|reflexivity]).
  - pose proof (Q2 t) as L. rewrite H in L.
    destruct h; cbn in H0, L; try discriminate L; try (match type of H0 with context [if ?c then _ else _] => destruct c eqn:C end); injection H0 as <- <- <-;
      try (apply KEEP; [reflexivity|reflexivity|intros; congruence|reflexivity]).
    + (* notify *) split.
      * cbn. intros C. destruct (Q1 C) as (u & o & U). assert (u = t) by (eapply mutex_unique; eassumption). subst u. congruence.
      * intros u. rewrite O. destruct (Nat.eqb_spec u t) as [->|N]; [reflexivity|]. cbn. specialize (Q2 u). destruct (b_thr st u); auto.
    + (* corrupted already *) exfalso. destruct (Q1 eq_refl) as (u & o & U). assert (u = t) by (eapply mutex_unique; eassumption). subst u. congruence.
    + (* first *) split.
      * intros _. exists t, old. rewrite O, Nat.eqb_refl. reflexivity.
      * intros u. rewrite O. destruct (Nat.eqb_spec u t) as [->|N]; [reflexivity|apply Q2].
    + exfalso. apply (NB2 t). left. reflexivity.
    + apply KEEP; [reflexivity|reflexivity|intros; congruence|exact L].
  - apply KEEP; [reflexivity|reflexivity|intros; congruence|destruct timedout; reflexivity].
Qed.
Lemma quiet_execution n b0 ks tr st : execution n b0 ks tr st -> quiet st tr.
Proof.
  unfold execution. intros H. remember (binit n b0) as s0. induction H; subst.
  - intros _. split; [discriminate|reflexivity].
  - eapply quiet_step; [eapply mutex_execution; unfold execution; eassumption|auto|eassumption].
Qed.

(* ---- the clock ---- *)
Definition span (a : warg) : Z := (arg_count a * 1000000)%Z.
Lemma latest_more c e tr l : latest c e tr -> (forall o, In o l -> o_ev o <> e) -> latest c e (tr ++ l).
Proof.
  intros (a & b & -> & E & N) H. exists a, (b ++ l). rewrite <- app_assoc. split; [reflexivity|]. split; [exact E|].
  intros o J. apply in_app_or in J as [J|J]; auto.
Qed.
Lemma latest_new o tr : latest o (o_ev o) (tr ++ [o]).
Proof. exists tr, []. split; [reflexivity|]. split; [reflexivity|intros ? []]. Qed.
Lemma latest_in c e tr : latest c e tr -> In c tr.
Proof. intros (a & b & -> & _). apply in_or_app. right. left. reflexivity. Qed.
Definition timing (st : tstate) (tr : list obs) : Prop :=
  (forall o, In o tr -> (o_at o <= t_now st)%Z) /\
  forall t, let x := b_thr (t_bar st) t in in_call x = true -> exists c, latest c (ECall t) tr /\ o_arg c = t_arg st t /\
    (did_read x = true -> exists r, latest r (ERead t) tr /\ o_arg r = t_arg st t /\ (o_at c <= o_at r)%Z /\
      (has_dl x = true -> (o_at r + span (o_arg r) <= t_dl st t)%Z) /\ (expired x = true -> (t_dl st t <= t_now st)%Z)).
Lemma wait_deadline_ok now c d : wait_deadline now c = Ok d -> d = (now + c * 1000000)%Z.
Proof. unfold wait_deadline. destruct (_ && _); [|discriminate]. intros [= <-]. reflexivity. Qed.
Lemma fset_same {A} (f : tid -> A) t x : fset f t x t = x. Proof. unfold fset. rewrite Nat.eqb_refl. reflexivity. Qed.
Lemma fset_other {A} (f : tid -> A) t x u : u <> t -> fset f t x u = f u. Proof. intros H. unfold fset. destruct (Nat.eqb_spec u t); congruence. Qed.
Lemma exp_dl x : expired x = true -> has_dl x = true.
Proof. destruct x as [| | |o h| | |]; cbn; auto. destruct h; auto. Qed.
Lemma read_call x : did_read x = true -> in_call x = true.
Proof. destruct x; auto. Qed.
Lemma dl_read x : has_dl x = true -> did_read x = true.
Proof. destruct x; auto. Qed.

(* a thread whose place is of the same class, and that has no new call or reading *)
Lemma timing_keep st tr t (now' : Z) args' dl' x' l : timing st tr ->
  (t_now st <= now')%Z -> args' t = t_arg st t -> dl' t = t_dl st t ->
  (in_call x' = true -> in_call (b_thr (t_bar st) t) = true) -> (did_read x' = true -> did_read (b_thr (t_bar st) t) = true) ->
  (has_dl x' = true -> has_dl (b_thr (t_bar st) t) = true) -> (expired x' = true -> expired (b_thr (t_bar st) t) = true) ->
  (forall o, In o l -> o_ev o <> ECall t /\ o_ev o <> ERead t) ->
  in_call x' = true -> exists c, latest c (ECall t) (tr ++ l) /\ o_arg c = args' t /\
    (did_read x' = true -> exists r, latest r (ERead t) (tr ++ l) /\ o_arg r = args' t /\ (o_at c <= o_at r)%Z /\
      (has_dl x' = true -> (o_at r + span (o_arg r) <= dl' t)%Z) /\ (expired x' = true -> (dl' t <= now')%Z)).
Proof.
  intros [_ T] N A D I R L X F Ix. destruct (T t (I Ix)) as (c & C1 & C2 & C3). exists c. rewrite A, D.
  split; [apply latest_more; [exact C1|intros; apply F; assumption]|]. split; [exact C2|]. intros Rx. destruct (C3 (R Rx)) as (r & R1 & R2 & R3 & R4 & R5).
  exists r. split; [apply latest_more; [exact R1|intros; apply F; assumption]|]. split; [exact R2|]. split; [exact R3|]. split; [auto|]. intros E. specialize (R5 (X E)). lia.
Qed.
Ltac by_class E := first [rewrite E; intros ?; assumption|rewrite <- E; intros ?; assumption].
Lemma timing_step st tr e st' : timing st tr -> tstep st e st' -> timing st' (tr ++ e).
Proof.
  intros TI H. pose proof TI as [T0 T].
  assert (T0' : forall o, In o (tr ++ e) -> (o_at o <= t_now st')%Z).
  { intros o J. apply in_app_or in J as [J|J].
    - specialize (T0 o J). destruct H; cbn in *; lia.
    - destruct H; cbn in *; try (destruct J; fail); try (destruct J as [<-|[]]; cbn; lia).
      apply in_map_iff in J as (y & <- & _). cbn. lia. }
  split; [exact T0'|]. intros u. cbv zeta.
  destruct H; cbn [t_bar t_now t_arg t_dl] in *.
  - intros I. eapply (timing_keep (mkT b now args dl false) tr u now' args dl); eauto; intros ? [].
  - destruct (step_class _ _ _ _ H) as (t' & S1 & S2 & S3). pose proof (S2 _ (or_introl eq_refl)) as X. cbn in X. subst t'.
    destruct (Nat.eq_dec u t) as [->|N].
    + destruct S3 as [(_ & _ & S3)|[(K & _)|[(K & _)|(_ & _ & _ & S3 & _)]]]; try discriminate K; [|destruct S3; left; reflexivity].
      intros _. exists (mkObs now a (ECall t)). split; [apply (latest_new (mkObs now a (ECall t)))|]. split; [symmetry; apply fset_same|]. rewrite S3. discriminate.
    + destruct (S1 u N) as (E1 & E2 & E3 & E4). intros I.
      eapply (timing_keep (mkT b now args dl false) tr u now (fset args t a) dl (b_thr b' u)); cbn [t_bar t_now t_arg t_dl]; [exact TI|apply Z.le_refl|apply fset_other, N|reflexivity|by_class E1|by_class E2|by_class E3|by_class E4|intros o [<-|[]]; cbn; split; [intros [= X]; auto|discriminate]|exact I].
  - destruct (step_class _ _ _ _ H1) as (t' & S1 & S2 & S3). destruct (Nat.eq_dec t' t) as [->|NE].
    2:{ exfalso. destruct (S1 t ltac:(congruence)) as (_ & _ & E & _). rewrite H, H0 in E. discriminate E. }
    destruct (Nat.eq_dec u t) as [->|N].
    + intros _. rewrite H0. destruct (T t) as (c & C1 & C2 & C3); [cbn; rewrite H; reflexivity|]. cbn in C3. rewrite H in C3. destruct (C3 eq_refl) as (r & R1 & R2 & R3 & _).
      exists c. rewrite app_nil_r. split; [exact C1|]. split; [exact C2|]. intros _. exists r. split; [exact R1|]. split; [exact R2|]. split; [exact R3|].
      split; [|discriminate]. intros _. rewrite fset_same. apply wait_deadline_ok in H2. unfold span. cbn in R2. rewrite R2.
      pose proof (T0 r (latest_in _ _ _ R1)) as L. cbn in L. subst d. lia.
    + destruct (S1 u N) as (E1 & E2 & E3 & E4). intros I.
      eapply (timing_keep (mkT b now args dl false) tr u now args (fset dl t d) (b_thr b' u)); cbn [t_bar t_now t_arg t_dl]; [exact TI|apply Z.le_refl|reflexivity|apply fset_other, N|by_class E1|by_class E2|by_class E3|by_class E4|intros ? []|exact I].
  - intros I. eapply (timing_keep (mkT b now args dl false) tr u now args dl); eauto; cbn; try lia; intros ? [].
  - destruct (step_class _ _ _ _ H0) as (t & S1 & S2 & S3).
    assert (W : forall o, In o (stamp now args e) -> who (o_ev o) = t /\ In (o_ev o) e).
    { intros o J. apply in_map_iff in J as (y & <- & J). cbn. split; [apply S2, J|exact J]. }
    destruct (Nat.eq_dec u t) as [->|N].
    + destruct S3 as [(K & _)|[(K & E & S3 & S4 & S5 & S6)|[(K & S3 & _)|(S3 & S4 & S5 & S6 & S7 & _ & S8)]]].
      * subst k. destruct H; discriminate.
      * subst e. intros _. destruct (T t) as (c & C1 & C2 & _); [cbn; rewrite S3; reflexivity|].
        exists c. split; [apply latest_more; [exact C1|intros o [<-|[]]; cbn; discriminate]|]. split; [exact C2|]. intros _.
        exists (mkObs now (args t) (ERead t)). split; [apply (latest_new (mkObs now (args t) (ERead t)))|]. split; [reflexivity|].
        split; [exact (T0 c (latest_in _ _ _ C1))|]. rewrite S5, S6. split; discriminate.
      * rewrite S3. discriminate.
      * destruct S8 as [(old & _ & _ & A & B)|[(K & _)|(_ & D & X & _)]].
        -- destruct H1. exists t, old. auto.
        -- subst k. destruct H; discriminate.
        -- intros I. eapply (timing_keep (mkT b now args dl false) tr t now args dl); cbn; auto; try lia.
           intros o J. destruct (W o J) as [_ J']. split; intros Z; rewrite Z in J'; contradiction.
    + destruct (S1 u N) as (E1 & E2 & E3 & E4). intros I.
      eapply (timing_keep (mkT b now args dl false) tr u now args dl (b_thr b' u)); cbn [t_bar t_now t_arg t_dl]; [exact TI|apply Z.le_refl|reflexivity|reflexivity|by_class E1|by_class E2|by_class E3|by_class E4|intros o J; destruct (W o J) as [Z _]; split; intros Y; rewrite Y in Z; exact (N Z)|exact I].
  - destruct (step_class _ _ _ _ H) as (t' & S1 & S2 & S3). pose proof (S2 _ (or_introl eq_refl)) as X. cbn in X. subst t'.
    destruct (Nat.eq_dec u t) as [->|N].
    + destruct S3 as [(K & _)|[(K & _)|[(K & _)|(S3 & S4 & S5 & S6 & S7 & _ & S8)]]]; try discriminate K.
      destruct S8 as [(old & K & _)|[(_ & _ & D)|(K & _)]]; [discriminate K| |congruence].
      intros _. destruct (T t S4) as (c & C1 & C2 & C3). destruct (C3 S3) as (r & R1 & R2 & R3 & R4 & _). cbn in *.
      assert (F : forall o, In o [mkObs now (args t) (EExpire t)] -> o_ev o <> ECall t /\ o_ev o <> ERead t) by (intros o [<-|[]]; cbn; split; discriminate).
      exists c. split; [apply latest_more; [exact C1|intros; apply F; assumption]|]. split; [exact C2|]. intros _.
      exists r. split; [apply latest_more; [exact R1|intros; apply F; assumption]|]. split; [exact R2|]. split; [exact R3|]. split; auto.
    + destruct (S1 u N) as (E1 & E2 & E3 & E4). intros I.
      eapply (timing_keep (mkT b now args dl false) tr u now args dl (b_thr b' u)); cbn [t_bar t_now t_arg t_dl]; [exact TI|apply Z.le_refl|reflexivity|reflexivity|by_class E1|by_class E2|by_class E3|by_class E4|intros o [<-|[]]; cbn; split; discriminate|exact I].
Qed.
Lemma timing_run n b0 now tr st : tsteps (tinit n b0 now) tr st -> timing st tr.
Proof.
  intros H. remember (tinit n b0 now) as s0. induction H; subst; [|eapply timing_step; eauto].
  split; [intros ? []|]. intros t. discriminate.
Qed.

Lemma tsplit s tr st : tsteps s tr st -> forall a o b, tr = a ++ o :: b ->
  exists st1 e1 e2 st2 a', tsteps s a' st1 /\ tstep st1 (e1 ++ o :: e2) st2 /\ a = a' ++ e1.
Proof.
  induction 1; intros a o b E; [destruct a; discriminate|].
  destruct (app_eq_app _ _ _ _ E) as (l & [[E1 E2]|[E1 E2]]).
  - destruct l as [|x l]; cbn in E2.
    + rewrite app_nil_r in E1. subst a. exists st1, [], b, st2, tr. rewrite app_nil_r, E2. auto.
    + injection E2 as -> ->. exact (IHtsteps _ _ _ E1).
  - exists st1, l, b, st2, tr. rewrite <- E2. auto.
Qed.
(* a step that shows an event of a kind other than a call *)
Lemma shows st1 l o st2 : tstep st1 l st2 -> In o l -> (forall t, o_ev o <> ECall t) ->
  o_at o = t_now st1 /\ o_arg o = t_arg st1 (who (o_ev o)) /\ exists k e b', bstep (t_bar st1) k e b' /\ l = stamp (t_now st1) (t_arg st1) e.
Proof.
  intros H J N. destruct H; cbn in *; try (destruct J; fail).
  - destruct J as [<-|[]]. destruct (N t eq_refl).
  - apply in_map_iff in J as (y & <- & J). cbn. split; [reflexivity|]. split; [reflexivity|]. eauto.
  - destruct J as [<-|[]]. cbn. split; [reflexivity|]. split; [reflexivity|]. do 3 eexists. split; [exact H|reflexivity].
Qed.
Lemma span_limit a : sensible a -> span a = limit a.
Proof.
  unfold span, limit, arg_count, wait_ulong, wait_duration, forever_ms. destruct a as [n|n]; intros H; destruct (Z.eqb_spec n 0) as [E|E]; [reflexivity| |reflexivity..]. cbn in H.
  assert (X : to_i64 n = n). { unfold to_i64. rewrite Z.mod_small by (unfold two64; lia). destruct (Z.ltb_spec n two63); [reflexivity|unfold two63 in *; lia]. }
  rewrite X. destruct (Z.eqb_spec n 0); lia.
Qed.

Lemma sorted_run n b0 now tr st : tsteps (tinit n b0 now) tr st -> forall a o b g, tr = a ++ o :: b -> In g b -> (o_at o <= o_at g)%Z.
Proof.
  intros H. remember (tinit n b0 now) as s0. induction H; subst; intros a o b g E J; [destruct a; discriminate|].
  destruct (timing_run _ _ _ _ _ H) as [T0 _].
  assert (N : forall x, In x e -> o_at x = t_now st1).
  { intros x X. destruct H0; cbn in *; try (destruct X; fail); try (destruct X as [<-|[]]; reflexivity). apply in_map_iff in X as (y & <- & _). reflexivity. }
  destruct (app_eq_app _ _ _ _ E) as (l & [[E1 E2]|[E1 E2]]).
  - destruct l as [|x l]; cbn in E2.
    + subst e. rewrite (N o), (N g); [apply Z.le_refl|right; exact J|left; reflexivity].
    + injection E2 as -> ->. apply in_app_or in J as [J|J]; [exact (IHtsteps eq_refl _ _ _ _ E1 J)|]. rewrite (N g J). apply T0. rewrite E1. apply in_or_app. right. left. reflexivity.
  - subst e. rewrite (N o), (N g); [apply Z.le_refl|apply in_or_app; right; right; exact J|apply in_or_app; right; left; reflexivity].
Qed.
(* the latest event is in one place only *)
Lemma latest_place (e : bev) x y x' y' : x ++ e :: y = x' ++ e :: y' -> ~ In e y -> ~ In e y' -> x = x' /\ y = y'.
Proof.
  revert x'. induction x as [|p x IH]; intros [|q x'] E N N'; cbn in E.
  - injection E as E. auto.
  - injection E as -> E. destruct N. rewrite E. apply in_or_app. right. left. reflexivity.
  - injection E as -> E. destruct N'. rewrite <- E. apply in_or_app. right. left. reflexivity.
  - injection E as -> E. destruct (IH x' E N N') as [-> ->]. auto.
Qed.
Lemma count_gen_in u l : In (EGen u) l -> 0 < count is_gen l.
Proof. induction l as [|x l IH]; intros []; unfold count in *; cbn; [subst x; cbn; lia|]. specialize (IH H). destruct (is_gen x); cbn; lia. Qed.
Lemma bstep_one st k e st' : bstep st k e st' -> length e <= 1.
Proof.
  intros H. destruct H; cbn; auto. destruct h; cbn in H0; try (match type of H0 with context [if ?c then _ else _] => destruct c end); injection H0 as <- <- <-; cbn; auto.
Qed.

(* ---- C130 ---- *)
(* wait throws only when the time limit has passed since it was called *)
Theorem C130_not_early : forall n b0 now tr st a o b t r,
  tsteps (tinit n b0 now) tr st -> tr = a ++ o :: b -> o_ev o = ERet t r -> r <> Passed -> sensible (o_arg o) ->
  exists c, latest c (ECall t) a /\ o_arg c = o_arg o /\ (o_at c + limit (o_arg o) <= o_at o)%Z.
Proof.
  intros n b0 now tr st a o b t r H E V NP S. destruct (tsplit _ _ _ H _ _ _ E) as (st1 & e1 & e2 & st2 & a' & H1 & H2 & Ea).
  destruct (shows _ _ o _ H2) as (A1 & A2 & k & e & b' & B & L); [apply in_or_app; right; left; reflexivity|rewrite V; discriminate|].
  destruct (step_class _ _ _ _ B) as (u & _ & W & S3).
  assert (IN : In (ERet t r) e).
  { rewrite <- (stamp_ev (t_now st1) (t_arg st1) e), <- L, <- V. apply in_map. apply in_or_app. right. left. reflexivity. }
  pose proof (W _ IN) as X. cbn in X. subst u.
  destruct S3 as [(_ & -> & _)|[(_ & -> & _)|[(_ & _ & r' & -> & P)|(_ & _ & _ & _ & _ & NR & _)]]].
  - destruct IN as [IN|[]]. discriminate IN.
  - destruct IN as [IN|[]]. discriminate IN.
  - destruct IN as [IN|[]]. injection IN as ->. destruct e1 as [|y [|z e1]]; cbn in L; [|discriminate L..]. rewrite app_nil_r in Ea. subst a'.
    destruct (timing_run _ _ _ _ _ H1) as [T0 T]. destruct (T t) as (c & C1 & C2 & C3); [rewrite P; reflexivity|]. exists c. split; [exact C1|].
    rewrite V in A2. cbn in A2. split; [congruence|]. rewrite P in C3. destruct (C3 eq_refl) as (rr & R1 & R2 & R3 & R4 & R5).
    assert (X : threw r = true) by (destruct r; [congruence|reflexivity..]). cbn in R4, R5. specialize (R4 X). specialize (R5 X).
    rewrite <- (span_limit _ S), A2, A1. rewrite R2 in R4. lia.
  - destruct (NR r IN).
Qed.
Print Assumptions C130_not_early.
(* in particular wait() and wait(0) do not throw in the first thousand days *)
Corollary C130_forever : forall n b0 now tr st a o b t r,
  tsteps (tinit n b0 now) tr st -> tr = a ++ o :: b -> o_ev o = ERet t r -> o_arg o = WMs 0 \/ o_arg o = WDur 0 ->
  (forall c, latest c (ECall t) a -> (o_at o < o_at c + 1000 * 24 * 3600 * 1000000000)%Z) -> r = Passed.
Proof.
  intros n b0 now tr st a o b t r H E V A D. destruct r; [reflexivity|exfalso..];
  (destruct (C130_not_early _ _ _ _ _ _ _ _ _ _ H E V) as (c & C1 & C2 & C3); [discriminate|destruct A as [->| ->]; cbn; lia|];
   specialize (D c C1); destruct A as [A|A]; rewrite A in C3; cbn in C3; lia).
Qed.
Print Assumptions C130_forever.

(* and when every round is completed within the limits nobody throws *)
Lemma unbroken n b0 now tr st : (0 <= b0 < 2 ^ 32)%Z -> tsteps (tinit n b0 now) tr st ->
  (Z.of_nat (count is_gen (map o_ev tr)) < 2 ^ 32)%Z -> all_sensible tr -> released_in_time tr (t_now st) -> no_break (map o_ev tr).
Proof.
  intros B H G AS RT t J. apply in_map_iff in J as (o & V & J). apply in_split in J as (a & b & E).
  destruct (tsplit _ _ _ H _ _ _ E) as (st1 & e1 & e2 & st2 & a' & H1 & H2 & Ea).
  destruct (shows _ _ o _ H2) as (A1 & A2 & k & e & b' & BS & L); [apply in_or_app; right; left; reflexivity|rewrite V; discriminate|].
  destruct (step_class _ _ _ _ BS) as (u & _ & W & S3).
  assert (IN : In (EBroke t) e).
  { rewrite <- (stamp_ev (t_now st1) (t_arg st1) e), <- L, <- V. apply in_map. apply in_or_app. right. left. reflexivity. }
  pose proof (W _ IN) as X. cbn in X. subst u.
  assert (EX : expired (b_thr (t_bar st1) t) = true).
  { destruct S3 as [(_ & -> & _)|[(_ & -> & _)|[(_ & _ & r' & -> & P)|(_ & _ & _ & _ & _ & _ & S8)]]]; try (destruct IN as [IN|[]]; discriminate IN).
    destruct S8 as [(old & _ & -> & _)|[(_ & -> & _)|(_ & _ & _ & S8)]]; [destruct IN|destruct IN as [IN|[]]; discriminate IN|exact (S8 t IN)]. }
  destruct (timing_run _ _ _ _ _ H1) as [_ T].
  destruct (T t (read_call _ (dl_read _ (exp_dl _ EX)))) as (c & _ & _ & C3).
  destruct (C3 (dl_read _ (exp_dl _ EX))) as (r & R1 & R2 & _ & R4 & R5). specialize (R4 (exp_dl _ EX)). specialize (R5 EX). clear C3 T.
  destruct (erase _ _ _ _ _ H) as (ks & HE).
  assert (LEN : length e <= 1) by (eapply bstep_one; eassumption).
  assert (e1 = []). { apply (f_equal (@length obs)) in L. unfold stamp in L. rewrite app_length, map_length in L. cbn in L. destruct e1; [reflexivity|cbn in L; lia]. }
  subst e1. rewrite app_nil_r in Ea. subst a'.
  destruct R1 as (x & y & Ea & RV & RN).
  assert (E' : map o_ev tr = map o_ev a ++ EBroke t :: map o_ev b) by (rewrite E, map_app; cbn; rewrite V; reflexivity).
  destruct (timeout_round _ _ _ _ _ _ _ _ B HE E') as (_ & x' & y' & E2 & NI & CN).
  rewrite Ea, map_app in E2. cbn in E2. rewrite RV in E2.
  assert (NI2 : ~ In (ERead t) (map o_ev y)). { intros Z. apply in_map_iff in Z as (z & Z1 & Z2). exact (RN z Z2 Z1). }
  destruct (latest_place _ _ _ _ _ E2 NI2 NI) as [_ EY]. subst y'.
  assert (C0 : count is_gen (map o_ev y) = 0).
  { assert (LE : count is_gen (map o_ev y) <= count is_gen (map o_ev tr)).
    { assert (X : tr = (x ++ [r]) ++ y ++ o :: b) by (rewrite E, Ea, <- !app_assoc; reflexivity). rewrite X, !map_app, !count_app. lia. }
    rewrite Z.mod_small in CN by (unfold two32; split; [apply Zle_0_nat|lia]). lia. }
  assert (SR : sensible (o_arg r)) by (apply AS; rewrite E, Ea; apply in_or_app; left; apply in_or_app; right; left; reflexivity).
  rewrite (span_limit _ SR) in R4.
  assert (TO : (o_at o <= t_now st)%Z). { destruct (timing_run _ _ _ _ _ H) as [T0 _]. apply T0. rewrite E. apply in_or_app. right. left. reflexivity. }
  destruct (RT x r (y ++ o :: b) t) as (g & w & J1 & J2 & J3); [rewrite E, Ea, <- app_assoc; reflexivity|exact RV|clear - R4 R5 A1 TO; lia|].
  apply in_app_or in J1 as [J1|[J1|J1]].
  - apply (in_map o_ev) in J1. rewrite J2 in J1. apply count_gen_in in J1. lia.
  - subst g. rewrite V in J2. discriminate J2.
  - pose proof (sorted_run _ _ _ _ _ H _ _ _ _ E J1) as Q. clear - Q J3 R4 R5 A1. lia.
Qed.
Theorem C130_in_time : forall n b0 now tr st o t r,
  (0 <= b0 < 2 ^ 32)%Z -> tsteps (tinit n b0 now) tr st ->
  (Z.of_nat (count is_gen (map o_ev tr)) < 2 ^ 32)%Z -> all_sensible tr -> released_in_time tr (t_now st) ->
  In o tr -> o_ev o = ERet t r -> r = Passed.
Proof.
  intros n b0 now tr st o t r B H G AS RT J V. pose proof (unbroken _ _ _ _ _ B H G AS RT) as NB.
  destruct (erase _ _ _ _ _ H) as (ks & HE). apply in_split in J as (a & b & E).
  assert (E' : map o_ev tr = map o_ev a ++ ERet t r :: map o_ev b) by (rewrite E, map_app; cbn; rewrite V; reflexivity).
  destruct (execution_split _ _ _ _ _ _ _ _ HE E') as (ks1 & st1 & k & st2 & X1 & X2 & _).
  rewrite E' in NB. apply no_break_app in NB as [NB _]. destruct (quiet_execution _ _ _ _ _ X1 NB) as [_ Q]. specialize (Q t).
  destruct (step_class _ _ _ _ X2) as (u & _ & W & S3). pose proof (W _ (or_introl eq_refl)) as X. cbn in X. subst u.
  destruct S3 as [(_ & Y & _)|[(_ & Y & _)|[(_ & _ & r' & Y & P)|(_ & _ & _ & _ & _ & NR & _)]]]; try discriminate Y.
  - injection Y as <-. rewrite P in Q. destruct r; [reflexivity|discriminate Q..].
  - destruct (NR r). left. reflexivity.
Qed.
Print Assumptions C130_in_time.

(* as long as clock and limits together stay below 2^63 nanoseconds, waiting is
   defined *)
Theorem C130_defined : forall n b0 now tr st,
  tsteps (tinit n b0 now) tr st -> (0 <= now)%Z ->
  (forall o, In o tr -> sensible (o_arg o) /\ (0 <= limit (o_arg o))%Z /\ (t_now st + limit (o_arg o) < 2 ^ 63)%Z) -> t_bad st = false.
Proof.
  intros n b0 now tr st H N. remember (tinit n b0 now) as s0. destruct H as [|st tr st1 e st2 H S]; subst; [reflexivity|]. intros A.
  assert (NN : (now <= t_now st1)%Z).
  { clear - H. remember (tinit n b0 now) as s0. induction H; subst; [apply Z.le_refl|]. specialize (IHtsteps eq_refl). destruct H0; cbn in *; lia. }
  destruct S; try reflexivity. exfalso. cbn [t_now] in *.
  destruct (timing_run _ _ _ _ _ H) as [_ T]. destruct (T t) as (c & C1 & C2 & _); [cbn; rewrite H0; reflexivity|]. cbn in C2.
  destruct (A c) as (S1 & S2 & S3); [rewrite app_nil_r; exact (latest_in _ _ _ C1)|].
  rewrite <- (span_limit _ S1) in S2, S3. unfold span in S2, S3. rewrite C2 in S2, S3. unfold wait_deadline, two63 in H3.
  cbv zeta in H3. change (2 ^ 63)%Z with 9223372036854775808%Z in S3.
  match type of H3 with (if ?c then _ else _) = _ => assert (X : c = true) by (clear - S2 S3 N NN; rewrite !andb_true_iff, !Z.leb_le, !Z.ltb_lt; lia) end.
  rewrite X in H3. discriminate H3.
Qed.
Print Assumptions C130_defined.

(* ---- concrete runs ---- *)
Inductive act := ATick (d : Z) | ACall (t : tid) (a : warg) | ADo (k : kind) (t : tid).
Definition texec1 (st : tstate) (x : act) : option (list obs * tstate) :=
  let '(mkT b now args dl bad) := st in
  if bad then None else
  match x with
  | ATick d => if (d <? 0)%Z then None else Some ([], mkT b (now + d) args dl false)
  | ACall t a => match exec1 b KCall t with
                 | Some ([ECall u], b') => if Nat.eqb u t then Some ([mkObs now a (ECall t)], mkT b' now (fset args t a) dl false) else None
                 | _ => None
                 end
  | ADo KRun t =>
      match exec1 b KRun t with
      | Some (e, b') =>
          match b_thr b t, b_thr b' t with
          | THold old HTest, THold old' HPred =>
              if (old =? old')%Z then match e with [] => match wait_deadline now (arg_count (args t)) with Ok d => Some ([], mkT b' now args (fset dl t d) false) | _ => None end | _ => None end
              else None
          | _, _ => Some (stamp now args e, mkT b' now args dl false)
          end
      | None => None
      end
  | ADo KExpire t => match exec1 b KExpire t with
                     | Some ([EExpire u], b') => if Nat.eqb u t && (dl t <=? now)%Z then Some (stamp now args [EExpire t], mkT b' now args dl false) else None
                     | _ => None
                     end
  | ADo _ _ => None
  end.
Lemma exec1_other st k t e st' u o h : exec1 st k t = Some (e, st') -> u <> t -> b_thr st' u = THold o h -> b_thr st u = THold o h.
Proof.
  assert (O : forall s v x w, w <> v -> b_thr (with_thr s v x) w = b_thr s w) by (intros s v x w ?; cbn; unfold upd_thr; destruct (Nat.eqb_spec w v); congruence).
  unfold exec1. intros E N. destruct k, (b_thr st t) as [| |old|old g|old [|]|old td|r]; try discriminate E.
  all: try (destruct (b_own st); try discriminate E).
  all: try (destruct g; cbn in E; try (match type of E with context [if ?c then _ else _] => destruct c end)).
  all: injection E as <- <-; rewrite O by exact N; cbn; auto.
  all: destruct (b_thr st u); auto; discriminate.
Qed.
Lemma texec1_sound st x e st' : texec1 st x = Some (e, st') -> tstep st e st'.
Proof.
  destruct st as [b now args dl [|]]; unfold texec1; [discriminate|]. destruct x as [d|t a|k t].
  - destruct (Z.ltb_spec d 0); [discriminate|]. intros [= <- <-]. constructor. lia.
  - destruct (exec1 b KCall t) as [[[|[u| | | | | | |] [|]] b']|] eqn:E; try discriminate. destruct (Nat.eqb_spec u t); [|discriminate]. subst u. intros [= <- <-].
    apply ts_call. eapply exec1_sound; eauto.
  - destruct k; try discriminate.
    + destruct (exec1 b KRun t) as [[e' b']|] eqn:E; [|discriminate]. intros H.
      assert (R : ~ (exists old, b_thr b t = THold old HTest /\ b_thr b' t = THold old HPred) -> Some (stamp now args e', mkT b' now args dl false) = Some (e, st') -> tstep (mkT b now args dl false) e st').
      { intros NT [= <- <-]. apply ts_run with (k := KRun); [auto|eapply exec1_sound; eauto|]. intros (u & o & A & B).
        destruct (Nat.eq_dec u t) as [->|N]; [apply NT; eauto|]. rewrite (exec1_other _ _ _ _ _ _ _ _ E N B) in A. discriminate A. }
      destruct (b_thr b t) as [| |old|old h| | |] eqn:P; try (apply R; [intros (o & A & B); discriminate A|exact H]).
      destruct h; try (apply R; [intros (o & A & B); discriminate A|exact H]).
      destruct (b_thr b' t) as [| | |old' h'| | |] eqn:Q; try (apply R; [intros (o & A & B); discriminate B|exact H]).
      destruct h'; try (apply R; [intros (o & A & B); discriminate B|exact H]). clear R. destruct (Z.eqb_spec old old'); [|discriminate H]. subst old'.
      destruct e'; [|discriminate H]. destruct (wait_deadline now (arg_count (args t))) eqn:W; try discriminate H. injection H as <- <-.
      eapply ts_enter; [exact P|exact Q|eapply exec1_sound; eauto|exact W].
    + destruct (exec1 b KExpire t) as [[[|[| | | | |u| |] [|]] b']|] eqn:E; try discriminate. destruct (Nat.eqb_spec u t); [|discriminate]. subst u. cbn [andb].
      destruct (Z.leb_spec (dl t) now); [|discriminate]. intros [= <- <-]. apply ts_expire; [eapply exec1_sound; eauto|assumption].
Qed.
Fixpoint texec (st : tstate) (tr : list obs) (l : list act) : option (list obs * tstate) :=
  match l with
  | [] => Some (tr, st)
  | x :: l => match texec1 st x with Some (e, st') => texec st' (tr ++ e) l | None => None end
  end.
Lemma texec_sound s0 l : forall st tr tr' st', tsteps s0 tr st -> texec st tr l = Some (tr', st') -> tsteps s0 tr' st'.
Proof.
  induction l as [|x l IH]; cbn; intros st tr tr' st' H E; [injection E as <- <-; exact H|].
  destruct (texec1 st x) as [[e s]|] eqn:X; [|discriminate]. eapply IH; [|exact E]. eapply tss_snoc; [exact H|eapply texec1_sound; exact X].
Qed.
Definition tdo (l : list (kind * tid)) : list act := map (fun p => ADo (fst p) (snd p)) l.
Definition tview (n b0 now : Z) (l : list act) : option (list obs * Z) :=
  match texec (tinit n b0 now) [] l with Some (tr, st) => Some (tr, t_now st) | None => None end.
Lemma tview_sound n b0 now l tr z : tview n b0 now l = Some (tr, z) -> exists st, tsteps (tinit n b0 now) tr st /\ t_now st = z.
Proof.
  unfold tview. destruct (texec (tinit n b0 now) [] l) as [[tr' st]|] eqn:E; [|discriminate]. intros [= <- <-].
  exists st. split; [|reflexivity]. eapply texec_sound; [constructor|exact E].
Qed.
(* two threads; thread 0 waits 5 ms in vain and throws 5 ms after its call *)
Example C130_nonvacuous : exists tr st a o b,
  tsteps (tinit 2 0 7) tr st /\ tr = a ++ o :: b /\ o_ev o = ERet 0 ThrewTimeout /\ o_arg o = WMs 5 /\ o_at o = (7 + 5000000)%Z.
Proof.
  destruct (tview_sound 2 0 7 (ACall 0 (WMs 5) :: tdo (repeat (KRun, 0) 5) ++ ATick 5000000 :: tdo (time_out 0))
    (map (fun p => mkObs (fst p) (WMs 5) (snd p)) [(7%Z, ECall 0); (7%Z, ERead 0); (7%Z, EArrive 0); (5000007%Z, EExpire 0); (5000007%Z, EBroke 0); (5000007%Z, EThrow 0 ThrewTimeout); (5000007%Z, ERet 0 ThrewTimeout)]) 5000007%Z) as (st & H & Z); [vm_compute; reflexivity|].
  eexists _, st, (map (fun p => mkObs (fst p) (WMs 5) (snd p)) [(7%Z, ECall 0); (7%Z, ERead 0); (7%Z, EArrive 0); (5000007%Z, EExpire 0); (5000007%Z, EBroke 0); (5000007%Z, EThrow 0 ThrewTimeout)]), _, [].
  split; [exact H|]. split; [reflexivity|]. repeat split.
Qed.
(* thread 0 waits 5 ms, thread 1 arrives after 4 ms: both pass *)
Example C130_in_time_nonvacuous : exists tr st,
  tsteps (tinit 2 0 7) tr st /\ (Z.of_nat (count is_gen (map o_ev tr)) < 2 ^ 32)%Z /\ all_sensible tr /\ released_in_time tr (t_now st) /\
  t_now st = (7 + 9000000)%Z /\ In (mkObs 4000007 (WMs 5) (ERet 0 Passed)) tr /\ In (mkObs 4000007 (WDur 0) (ERet 1 Passed)) tr /\
  (* C130_forever *) (forall c, In c tr -> (4000007 < o_at c + 1000 * 24 * 3600 * 1000000000)%Z) /\
  (* C130_defined *) (forall o, In o tr -> sensible (o_arg o) /\ (0 <= limit (o_arg o))%Z /\ (t_now st + limit (o_arg o) < 2 ^ 63)%Z).
Proof.
  destruct (tview_sound 2 0 7 (ACall 0 (WMs 5) :: tdo (repeat (KRun, 0) 5) ++ ATick 4000000 :: ACall 1 (WDur 0) :: tdo (repeat (KRun, 1) 8 ++ repeat (KRun, 0) 5) ++ [ATick 5000000])
    [mkObs 7%Z (WMs 5) (ECall 0); mkObs 7%Z (WMs 5) (ERead 0); mkObs 7%Z (WMs 5) (EArrive 0);
     mkObs 4000007%Z (WDur 0) (ECall 1); mkObs 4000007%Z (WDur 0) (ERead 1); mkObs 4000007%Z (WDur 0) (EArrive 1); mkObs 4000007%Z (WDur 0) (EGen 1); mkObs 4000007%Z (WDur 0) (ERet 1 Passed); mkObs 4000007%Z (WMs 5) (ERet 0 Passed)] 9000007%Z) as (st & H & Z); [vm_compute; reflexivity|].
  eexists _, st. split; [exact H|]. split; [cbn; lia|]. split.
  { intros o J. cbn in J. repeat (destruct J as [<-|J]; [cbn; lia|]). destruct J. }
  split; [|split; [exact Z|split; [cbn; tauto|split; [cbn; tauto|]]]].
  2:{ rewrite Z. split; intros o J; cbn in J; repeat (destruct J as [<-|J]; [cbn; lia|]); destruct J. }
  rewrite Z. intros a o b t E V L.
  do 9 (destruct a as [|? a]; [injection E as <- <-; first [discriminate V|exfalso; cbn in L; lia|exists (mkObs 4000007%Z (WDur 0) (EGen 1)), 1; split; [cbn; tauto|split; [reflexivity|cbn; lia]]]|injection E as _ E]).
  destruct a; discriminate E.
Qed.
