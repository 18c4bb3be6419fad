(* L_BarrierN.v -- exactly num_waiters threads, no timeout expires *)
From Verif Require Import Base M_Barrier S_Barrier L_Barrier.
From Coq Require Import ZifyBool Setoid.
Local Open Scope nat_scope.

Definition arr (c : Z) (x : tst) : bool :=
  match x with
  | THold _ HTest | THold _ HBump => true
  | THold old HPred | TSleep old _ | TWake old _ => (old =? c)%Z
  | _ => false
  end.
Definition bmp (x : tst) : bool := match x with THold _ HBump => true | _ => false end.

Definition enter b0 g cl rt (old : Z) := cl = S g /\ rt = g /\ old = gen b0 g.
Definition leave b0 g cl rt (old : Z) := cl = g /\ S rt = g /\ exists g', g = S g' /\ old = gen b0 g'.
Definition local b0 g cl rt (x : tst) : Prop :=
  match x with
  | TIdle => cl = g /\ rt = g
  | TCalled => cl = S g /\ rt = g
  | TGot old | THold old HInc | THold old HTest | THold old HBump => enter b0 g cl rt old
  | THold old HNotify | THold old (HOut Passed) | TSleep old true => leave b0 g cl rt old
  | TDone Passed => cl = g /\ S rt = g
  | THold old HPred | TSleep old false | TWake old false => enter b0 g cl rt old \/ leave b0 g cl rt old
  | _ => False
  end.
Record Inv (n : nat) (b0 : Z) (st : bstate) (tr : list bev) (g : nat) : Prop := {
  i_mutex : mutex st;
  i_n : b_n st = Z.of_nat n;
  i_cnt : b_cnt st = gen b0 g;
  i_out : forall t, n <= t -> b_thr st t = TIdle;
  i_loc : forall t, t < n -> local b0 g (calls t tr) (rets t tr) (b_thr st t);
  i_wait : Z.of_nat (cnt n (fun t => arr (b_cnt st) (b_thr st t))) = (b_wait st + Z.of_nat n * Z.of_nat (cnt n (fun t => bmp (b_thr st t))))%Z;
  i_pos : (0 <= b_wait st)%Z;
  i_lt : (b_wait st < Z.of_nat n)%Z \/ exists t old, b_thr st t = THold old HTest;
  i_ntf : forall t old, b_thr st t = THold old HNotify -> b_wait st = 0%Z;
  i_slp : forall t old, b_thr st t = TSleep old false -> old <> b_cnt st -> exists t' o', b_thr st t' = THold o' HNotify
}.

Lemma Inv_init n b0 : 1 <= n -> (0 <= b0 < two32)%Z -> Inv n b0 (binit (Z.of_nat n) b0) [] 0.
Proof.
  intros Hn Hb. constructor; cbn [binit b_n b_wait b_cnt b_thr]; auto; try discriminate; try lia.
  - apply mutex_init.
  - unfold gen. rewrite Z.mod_small; lia.
  - intros. cbn. auto.
  - rewrite !cnt_none; cbn; auto; lia.
Qed.

Lemma calls_snoc t tr e : calls t (tr ++ [e]) = calls t tr + b2n (is_call t e).
Proof. unfold calls. rewrite count_app. unfold count at 2. cbn. destruct (is_call t e); reflexivity. Qed.
Lemma rets_snoc t tr e : rets t (tr ++ [e]) = rets t tr + b2n (is_ret t e).
Proof. unfold rets. rewrite count_app. unfold count at 2. cbn. destruct (is_ret t e); reflexivity. Qed.
Lemma eqb_b2n_neq a b : a <> b -> b2n (Nat.eqb a b) = 0.
Proof. intro H. apply Nat.eqb_neq in H. now rewrite H. Qed.

(* a step that changes one thread and perhaps [waiting], not the counter *)
Lemma frame n b0 st tr g st' t x e :
  Inv n b0 st tr g -> mutex st' -> t < n ->
  b_n st' = b_n st -> b_cnt st' = b_cnt st -> b_thr st' = upd_thr (b_thr st) t x ->
  (forall t', t' <> t -> calls t' (tr ++ e) = calls t' tr /\ rets t' (tr ++ e) = rets t' tr) ->
  local b0 g (calls t (tr ++ e)) (rets t (tr ++ e)) x ->
  (Z.of_nat (b2n (arr (b_cnt st) x)) - Z.of_nat (b2n (arr (b_cnt st) (b_thr st t))) =
     b_wait st' - b_wait st + Z.of_nat n * (Z.of_nat (b2n (bmp x)) - Z.of_nat (b2n (bmp (b_thr st t)))))%Z ->
  (0 <= b_wait st')%Z ->
  ((b_wait st' < Z.of_nat n)%Z \/ (exists o, x = THold o HTest) \/ (b_wait st' = b_wait st /\ forall old, b_thr st t <> THold old HTest)) ->
  (forall t' old, t' <> t -> b_thr st t' = THold old HNotify -> b_wait st' = b_wait st) ->
  (forall old, x = THold old HNotify -> b_wait st' = 0%Z) ->
  (forall old, b_thr st t <> THold old HNotify) ->
  (forall old, x = TSleep old false -> old = b_cnt st \/ b_thr st t = x) ->
  exists g', Inv n b0 st' (tr ++ e) g'.
Proof.
  intros HI HM Ht En Ec Eth Hcr Hl Hw Hp Hlt Hn1 Hn2 Hn3 Hs. exists g.
  assert (U : forall t', t' <> t -> b_thr st' t' = b_thr st t') by (intros; rewrite Eth; now apply upd_other).
  assert (U0 : b_thr st' t = x) by (rewrite Eth; now apply upd_same).
  pose proof (i_n _ _ _ _ _ HI) as I1. pose proof (i_cnt _ _ _ _ _ HI) as I2.
  constructor; auto; try congruence.
  - intros t' H. rewrite U by lia. now apply (i_out _ _ _ _ _ HI).
  - intros t' H. destruct (Nat.eq_dec t' t) as [->|Hne].
    + now rewrite U0.
    + rewrite U by auto. destruct (Hcr t' Hne) as [-> ->]. now apply (i_loc _ _ _ _ _ HI).
  - rewrite Ec.
    pose proof (cnt_upd n (fun t' => arr (b_cnt st) (b_thr st' t')) (fun t' => arr (b_cnt st) (b_thr st t')) t Ht) as C1.
    cbv beta in C1. rewrite U0 in C1. specialize (C1 ltac:(intros t' Hne; now rewrite U)).
    pose proof (cnt_upd n (fun t' => bmp (b_thr st' t')) (fun t' => bmp (b_thr st t')) t Ht) as C2.
    cbv beta in C2. rewrite U0 in C2. specialize (C2 ltac:(intros t' Hne; now rewrite U)).
    pose proof (i_wait _ _ _ _ _ HI) as W. nia.
  - destruct Hlt as [|[[o Ho]|[Ew Ho]]]; auto.
    + right. exists t, o. congruence.
    + rewrite Ew. destruct (i_lt _ _ _ _ _ HI) as [|(t2&o2&H2)]; auto. right. exists t2, o2.
      rewrite U; auto. intros ->. now apply (Ho o2).
  - intros t' old H. destruct (Nat.eq_dec t' t) as [->|Hne].
    + rewrite U0 in H. eauto.
    + rewrite U in H by auto. rewrite (Hn1 t' old); auto. eapply (i_ntf _ _ _ _ _ HI); eauto.
  - intros t' old H. rewrite Ec. intro Hne'.
    assert (exists t' o', b_thr st t' = THold o' HNotify) as (t2&o2&H2).
    { destruct (Nat.eq_dec t' t) as [->|Hne].
      + rewrite U0 in H. destruct (Hs old H) as [|E]; [congruence|]. apply (i_slp _ _ _ _ _ HI t old); congruence.
      + rewrite U in H by auto. apply (i_slp _ _ _ _ _ HI t' old); auto. }
    exists t2, o2. rewrite U; auto. intros ->. now apply (Hn3 o2).
Qed.

Lemma gen_neq' b0 g : gen b0 (S g) <> gen b0 g. Proof. intro; eapply gen_neq; eauto. Qed.

Ltac others := intros t' Hne; rewrite ?app_nil_r, ?calls_snoc, ?rets_snoc; cbn [is_call is_ret];
  rewrite ?eqb_b2n_neq by auto; cbn [b2n]; lia.

Lemma mutex_not_other st t old h : mutex st -> b_thr st t = THold old h -> forall t' o h', t' <> t -> b_thr st t' <> THold o h'.
Proof. intros HM H t' o h' Hne E. apply Hne. eapply mutex_unique; eauto. Qed.
Lemma mutex_free st : mutex st -> b_own st = None -> forall t o h, b_thr st t <> THold o h.
Proof. intros HM HN t o h E. assert (b_own st = Some t) by (apply HM; unfold holds; eauto). congruence. Qed.

Ltac fr n b0 st tr g t x H :=
  apply (frame n b0 st tr g _ t x); auto; rewrite ?H; try discriminate;
  try (cbn [with_thr with_own with_wait with_cnt notify b_wait b_cnt b_thr b_n arr bmp b2n]; lia);
  try (right; right; split; [reflexivity|discriminate]);
  try (left; reflexivity); try others.

Lemma Inv_step n b0 st tr g k e st' : Inv n b0 st tr g -> (Z.of_nat n < two32)%Z -> bstep st k e st' -> k <> KExpire ->
  (forall t, In (ECall t) e -> t < n) -> exists g', Inv n b0 st' (tr ++ e) g'.
Proof.
  intros HI Hn32 HS Hk Hc. pose proof (mutex_step _ _ _ _ (i_mutex _ _ _ _ _ HI) HS) as HM'.
  assert (Hin : forall t, b_thr st t <> TIdle -> t < n).
  { intros t H. destruct (le_lt_dec n t) as [L|L]; auto. exfalso. apply H. now apply (i_out _ _ _ _ _ HI). }
  pose proof (i_cnt _ _ _ _ _ HI) as Hcnt. pose proof (i_n _ _ _ _ _ HI) as HbN. pose proof (i_pos _ _ _ _ _ HI) as Hpos.
  pose proof (i_mutex _ _ _ _ _ HI) as HM.
  inv HS.
  - (* call *) assert (Ht : t < n) by (apply Hc; cbn; auto). pose proof (i_loc _ _ _ _ _ HI t Ht) as HL. rewrite H in HL. cbn in HL.
    fr n b0 st tr g t TCalled H.
    rewrite calls_snoc, rets_snoc. cbn [is_call is_ret local]. rewrite Nat.eqb_refl. cbn [b2n]. lia.
  - (* read *) assert (Ht : t < n) by (apply Hin; congruence). pose proof (i_loc _ _ _ _ _ HI t Ht) as HL. rewrite H in HL. cbn in HL.
    fr n b0 st tr g t (TGot (b_cnt st)) H.
    rewrite calls_snoc, rets_snoc. cbn [is_call is_ret local b2n]. unfold enter. repeat split; try lia; auto.
  - (* lock *) assert (Ht : t < n) by (apply Hin; congruence). pose proof (i_loc _ _ _ _ _ HI t Ht) as HL. rewrite H in HL. cbn [local] in HL.
    fr n b0 st tr g t (THold old HInc) H. rewrite app_nil_r. exact HL.
  - (* hold *) assert (Ht : t < n) by (apply Hin; congruence). pose proof (i_loc _ _ _ _ _ HI t Ht) as HL. rewrite H in HL.
    pose proof (mutex_not_other _ _ _ _ HM H) as Hoth.
    destruct h; cbn [hold_step] in H0; cbn [local] in HL; try contradiction.
    + (* HInc *) inv H0.
      assert (Hb : (b_wait st < Z.of_nat n)%Z).
      { destruct (i_lt _ _ _ _ _ HI) as [|(t2&o2&H2)]; auto. exfalso.
        destruct (Nat.eq_dec t2 t) as [->|Hne]; [congruence|]. eapply Hoth; eauto. }
      assert (Ew : to_u32 (b_wait st + 1) = (b_wait st + 1)%Z) by (unfold to_u32; apply Z.mod_small; lia).
      fr n b0 st tr g t (THold old HTest) H.
      * rewrite calls_snoc, rets_snoc. cbn [is_call is_ret local b2n]. rewrite !Nat.add_0_r. exact HL.
      * right; left; eauto.
      * intros t' o Hne H'. exfalso. eapply Hoth; eauto.
    + (* HTest *) destruct (b_wait st =? b_n st)%Z eqn:Ew; inv H0.
      * fr n b0 st tr g t (THold old HBump) H.
        -- rewrite app_nil_r. exact HL.
        -- intros t' o Hne H'. exfalso. eapply Hoth; eauto.
      * fr n b0 st'0 tr g t (THold old HPred) H.
        -- rewrite app_nil_r. left. exact HL.
        -- destruct HL as (_&_&->). cbn [arr bmp b2n with_thr b_wait]. rewrite Hcnt, Z.eqb_refl. cbn [b2n]. lia.
        -- left. cbn [with_thr b_wait]. pose proof (i_wait _ _ _ _ _ HI) as W.
           pose proof (cnt_le n (fun t => arr (b_cnt st'0) (b_thr st'0 t))). nia.
    + (* HBump *) inv H0. 
      pose proof (i_wait _ _ _ _ _ HI) as W. pose proof (cnt_le n (fun t => arr (b_cnt st) (b_thr st t))) as CL.
      assert (CB : cnt n (fun t => bmp (b_thr st t)) >= 1).
      { pose proof (cnt_upd n (fun t' => bmp (b_thr st t')) (fun t' => if Nat.eqb t' t then false else bmp (b_thr st t')) t Ht) as C.
        cbv beta in C. rewrite Nat.eqb_refl, H in C. cbn [bmp b2n] in C.
        specialize (C ltac:(intros t' Hne; apply Nat.eqb_neq in Hne; now rewrite Hne)). lia. }
      assert (CA : cnt n (fun t => arr (b_cnt st) (b_thr st t)) = n) by nia.
      assert (W0 : b_wait st = 0%Z) by nia.
      pose proof (cnt_full _ _ CA) as FA. cbv beta in FA.
      exists (S g).
      assert (U : forall t', t' <> t -> b_thr (with_thr (with_cnt st (to_u32 (b_cnt st + 1))) t (THold old HNotify)) t' = b_thr st t').
      { intros t' Hne. cbn [with_thr with_cnt b_thr]. now apply upd_other. }
      assert (U0 : b_thr (with_thr (with_cnt st (to_u32 (b_cnt st + 1))) t (THold old HNotify)) t = THold old HNotify).
      { cbn [with_thr with_cnt b_thr]. now apply upd_same. }
      assert (EC : b_cnt (with_thr (with_cnt st (to_u32 (b_cnt st + 1))) t (THold old HNotify)) = gen b0 (S g)).
      { cbn [with_thr with_cnt b_cnt]. rewrite Hcnt. apply gen_next. }
      assert (FL : forall t', t' < n -> t' <> t -> enter b0 g (calls t' tr) (rets t' tr) (gen b0 g) /\
                     exists o, o = gen b0 g /\ (b_thr st t' = TSleep o false \/ b_thr st t' = TWake o false)).
      { intros t' Ht' Hne. pose proof (FA t' Ht') as A. pose proof (i_loc _ _ _ _ _ HI t' Ht') as L.
        destruct (b_thr st t') eqn:Et'; cbn [arr] in A; try discriminate.
        - exfalso. eapply Hoth; eauto.
        - apply Z.eqb_eq in A. subst. destruct notified; cbn [local] in L.
          + exfalso. destruct L as (_&_&g'&->&E). rewrite Hcnt in E. eapply gen_neq'; eauto.
          + destruct L as [L|(_&_&g'&->&E)].
            * split; [unfold enter in *; tauto|]. eauto.
            * exfalso. rewrite Hcnt in E. eapply gen_neq'; eauto.
        - apply Z.eqb_eq in A. subst. destruct timedout; cbn [local] in L; [contradiction|].
          destruct L as [L|(_&_&g'&->&E)].
            * split; [unfold enter in *; tauto|]. eauto.
            * exfalso. rewrite Hcnt in E. eapply gen_neq'; eauto. }
      constructor; auto.
      * intros t' H'. rewrite U by lia. now apply (i_out _ _ _ _ _ HI).
      * intros t' H'. rewrite calls_snoc, rets_snoc. cbn [is_call is_ret b2n]. rewrite !Nat.add_0_r.
        destruct (Nat.eq_dec t' t) as [->|Hne].
        -- rewrite U0. cbn [local]. destruct HL as (A&B&C). unfold leave. repeat split; [lia|lia|]. exists g. auto.
        -- rewrite U by auto. destruct (FL t' H' Hne) as ((A&B&_)&o&->&X).
           assert (LV : leave b0 (S g) (calls t' tr) (rets t' tr) (gen b0 g)) by (unfold leave; repeat split; [lia|lia|]; eauto).
           destruct X as [->| ->]; cbn [local]; auto.
      * rewrite EC, !cnt_none.
        -- cbn [with_thr with_cnt b_wait]. rewrite W0. cbn. lia.
        -- intros t' H'. destruct (Nat.eq_dec t' t) as [->|Hne]; [now rewrite U0|]. rewrite U by auto.
           destruct (FL t' H' Hne) as (_&o&->&[->| ->]); reflexivity.
        -- intros t' H'. destruct (Nat.eq_dec t' t) as [->|Hne]; [now rewrite U0|]. rewrite U by auto.
           pose proof (gen_neq b0 g). destruct (FL t' H' Hne) as (_&o&->&[->| ->]); cbn [arr]; lia.
      * left. cbn [with_thr with_cnt b_wait]. lia.
      * intros t' o H' Hne'. exists t, old. auto.
    + (* HNotify *) inv H0. pose proof (i_ntf _ _ _ _ _ HI _ _ H) as W0.
      pose proof (i_wait _ _ _ _ _ HI) as W. rewrite W0 in W.
      assert (CB : cnt n (fun t => bmp (b_thr st t)) = 0).
      { apply cnt_none. intros t' Ht'. destruct (Nat.eq_dec t' t) as [->|Hne]; [now rewrite H|].
        destruct (b_thr st t') eqn:E; auto. exfalso. eapply Hoth; eauto. }
      rewrite CB in W.
      assert (NA : forall t', t' < n -> arr (b_cnt st) (b_thr st t') = false).
      { assert (Z0 : cnt n (fun t => arr (b_cnt st) (b_thr st t)) = 0) by lia. clear - Z0.
        assert (Q : forall m, cnt m (fun t => arr (b_cnt st) (b_thr st t)) = 0 -> forall t', t' < m -> arr (b_cnt st) (b_thr st t') = false).
        { induction m; cbn; intros Z t' Ht'; [lia|]. destruct (Nat.eq_dec t' m) as [->|].
          - destruct (arr (b_cnt st) (b_thr st m)); auto. cbn in Z. lia.
          - apply IHm; lia. }
        exact (Q n Z0). }
      exists g.
      assert (U : forall t', t' <> t -> b_thr (with_thr (notify st) t (THold old (HOut Passed))) t' =
                   match b_thr st t' with TSleep o _ => TSleep o true | x => x end).
      { intros t' Hne. cbn [with_thr b_thr]. rewrite upd_other by auto. apply notify_thr. }
      assert (U0 : b_thr (with_thr (notify st) t (THold old (HOut Passed))) t = THold old (HOut Passed)).
      { cbn [with_thr b_thr]. now apply upd_same. }
      assert (UA : forall t', arr (b_cnt st) (b_thr (with_thr (notify st) t (THold old (HOut Passed))) t') = arr (b_cnt st) (b_thr st t')).
      { intro t'. destruct (Nat.eq_dec t' t) as [->|Hne]; [now rewrite U0, H|]. rewrite U by auto. destruct (b_thr st t'); auto. }
      constructor; auto.
      * intros t' H'. rewrite U by lia. rewrite (i_out _ _ _ _ _ HI); auto.
      * intros t' H'. rewrite app_nil_r. destruct (Nat.eq_dec t' t) as [->|Hne].
        -- rewrite U0. exact HL.
        -- rewrite U by auto. pose proof (i_loc _ _ _ _ _ HI t' H') as L. pose proof (NA t' H') as A.
           destruct (b_thr st t'); auto. cbn [local]. destruct notified; auto. cbn [local] in L. destruct L as [(_&_&->)|L]; auto.
           cbn [arr] in A. rewrite Hcnt in A. lia.
      * cbn [with_thr notify b_cnt b_wait]. rewrite W0.
        rewrite (cnt_ext n _ (fun t => arr (b_cnt st) (b_thr st t))) by (intros; apply UA).
        rewrite (cnt_ext n (fun t0 => bmp _) (fun t => bmp (b_thr st t))); [lia|].
        intros t' _. destruct (Nat.eq_dec t' t) as [->|Hne]; [now rewrite U0, H|]. rewrite U by auto. destruct (b_thr st t'); auto.
      * left. cbn [with_thr notify b_wait]. lia.
      * intros t' o H' Hne'. exfalso. destruct (Nat.eq_dec t' t) as [->|Hne]; [congruence|]. rewrite U in H' by auto.
        destruct (b_thr st t'); discriminate.
    + (* HPred *) destruct (old =? b_cnt st)%Z eqn:Ep; inv H0.
      * apply Z.eqb_eq in Ep. fr n b0 st tr g t (TSleep old false) H.
        -- rewrite app_nil_r. exact HL.
        -- intros o E. left. congruence.
      * fr n b0 st'0 tr g t (THold old (HOut Passed)) H.
        -- rewrite app_nil_r. destruct HL as [(_&_&->)|HL]; [exfalso; rewrite Hcnt in Ep; lia|]. exact HL.
        -- cbn [arr bmp b2n with_thr b_wait]. rewrite Ep. cbn. lia.
    + (* HOut *) destruct r; try contradiction. inv H0.
      fr n b0 st tr g t (TDone Passed) H. rewrite app_nil_r. unfold leave in HL. cbn. tauto.
  - (* wake *) assert (Ht : t < n) by (apply Hin; congruence). pose proof (i_loc _ _ _ _ _ HI t Ht) as HL. rewrite H in HL. cbn [local] in HL.
    fr n b0 st tr g t (TWake old false) H. rewrite app_nil_r. right. exact HL.
  - (* spurious *) assert (Ht : t < n) by (apply Hin; congruence). pose proof (i_loc _ _ _ _ _ HI t Ht) as HL. rewrite H in HL. cbn [local] in HL.
    fr n b0 st tr g t (TWake old false) H. rewrite app_nil_r. exact HL.
  - congruence.
  - (* relock *) assert (Ht : t < n) by (apply Hin; congruence). pose proof (i_loc _ _ _ _ _ HI t Ht) as HL. rewrite H in HL.
    destruct timedout; cbn [local] in HL; [contradiction|].
    fr n b0 st tr g t (THold old HPred) H. rewrite app_nil_r. exact HL.
  - (* return *) assert (Ht : t < n) by (apply Hin; congruence). pose proof (i_loc _ _ _ _ _ HI t Ht) as HL. rewrite H in HL. cbn [local] in HL.
    destruct r; try contradiction.
    fr n b0 st tr g t TIdle H.
    rewrite calls_snoc, rets_snoc. cbn [is_call is_ret local]. rewrite Nat.eqb_refl. cbn [b2n]. lia.
Qed.

Lemma no_expiry_app a b : no_expiry (a ++ b) -> no_expiry a /\ no_expiry b.
Proof. unfold no_expiry. rewrite in_app_iff. tauto. Qed.
Lemma only_threads_app n a b : only_threads n (a ++ b) -> only_threads n a /\ only_threads n b.
Proof. unfold only_threads. intro H. split; intros t Hi; apply H; rewrite in_app_iff; auto. Qed.

Lemma Inv_execution n b0 ks tr st : 1 <= n -> (Z.of_nat n < two32)%Z -> (0 <= b0 < two32)%Z ->
  execution (Z.of_nat n) b0 ks tr st -> only_threads n tr -> no_expiry ks -> exists g, Inv n b0 st tr g.
Proof.
  intros H1 H2 H3. unfold execution. remember (binit (Z.of_nat n) b0) as s0. induction 1; subst; intros HO HE.
  - exists 0. now apply Inv_init.
  - apply only_threads_app in HO as [HO1 HO2]. apply no_expiry_app in HE as [HE1 HE2].
    destruct IHbsteps as [g HI]; auto. eapply Inv_step; eauto. intros ->. apply HE2. cbn; auto.
Qed.

Lemma list_eq_dec_nil {A} (l : list A) : l = [] \/ exists l1 x, l = l1 ++ [x].
Proof. induction l using rev_ind; eauto. Qed.
Lemma execution_prefix n b0 ks tr st tr1 e tr2 : execution n b0 ks tr st -> tr = tr1 ++ e :: tr2 ->
  exists ks1 st1, execution n b0 ks1 (tr1 ++ [e]) st1 /\ (forall k, In k ks1 -> In k ks).
Proof.
  unfold execution. intros HE. revert tr1 tr2. induction HE; intros tr1 tr2 E.
  - destruct tr1; discriminate.
  - assert (L : length e0 <= 1).
    { inv H; cbn; auto. destruct h; cbn [hold_step] in H1; repeat match type of H1 with context [if ?b then _ else _] => destruct b end; inv H1; cbn; auto. }
    destruct e0 as [|e0 [|]]; [| |cbn in L; lia].
    + rewrite app_nil_r in E. destruct (IHHE tr1 tr2 E) as (ks1&s1&A&B). exists ks1, s1. split; auto.
      intros x Hx. apply in_app_iff; auto.
    + destruct (list_eq_dec_nil tr2) as [->|(tr3&x&->)].
      * apply app_inj_tail in E as [<- <-]. exists (ks ++ [k]), st2. split; auto. eapply bs_snoc; eauto.
      * rewrite app_comm_cons, app_assoc in E. apply app_inj_tail in E as [E <-].
        destruct (IHHE tr1 tr3 E) as (ks1&s1&A&B). exists ks1, s1. split; auto. intros y Hy. apply in_app_iff; auto.
Qed.

Lemma local_bounds b0 g cl rt x : local b0 g cl rt x -> g <= cl /\ rt <= g.
Proof. destruct x as [| |old|old h|old nt|old td|r]; cbn [local]; unfold enter, leave; try lia;
  [destruct h as [| | | | | | | | | |r]; try destruct r | destruct nt | destruct td | destruct r]; unfold enter, leave; try lia; try tauto. Qed.

Lemma not_early n b0 ks tr st t1 t2 : 1 <= n -> (Z.of_nat n < two32)%Z -> (0 <= b0 < two32)%Z ->
  execution (Z.of_nat n) b0 ks tr st -> only_threads n tr -> no_expiry ks -> t1 < n -> t2 < n ->
  rets t1 tr <= calls t2 tr.
Proof.
  intros. destruct (Inv_execution n b0 ks tr st) as [g HI]; auto.
  pose proof (local_bounds _ _ _ _ _ (i_loc _ _ _ _ _ HI t1 ltac:(auto))). pose proof (local_bounds _ _ _ _ _ (i_loc _ _ _ _ _ HI t2 ltac:(auto))). lia.
Qed.

Lemma no_race n b0 ks tr st t1 t2 : 1 <= n -> (Z.of_nat n < two32)%Z -> (0 <= b0 < two32)%Z ->
  execution (Z.of_nat n) b0 ks tr st -> only_threads n tr -> no_expiry ks -> reading st t1 -> writing st t2 -> False.
Proof.
  intros ? ? ? ? ? ? HR [old HW]. destruct (Inv_execution n b0 ks tr st) as [g HI]; auto. unfold reading in HR.
  assert (Hin : forall t, b_thr st t <> TIdle -> t < n).
  { intros t Hx. destruct (le_lt_dec n t) as [L|L]; auto. exfalso. apply Hx. now apply (i_out _ _ _ _ _ HI). }
  assert (T1 : t1 < n) by (apply Hin; congruence).
  assert (T2 : t2 < n) by (apply Hin; destruct HW; congruence).
  destruct HW as [HW|HW].
  - pose proof (i_wait _ _ _ _ _ HI) as W. pose proof (i_pos _ _ _ _ _ HI).
    pose proof (cnt_le n (fun t => arr (b_cnt st) (b_thr st t))) as CL.
    assert (CB : cnt n (fun t => bmp (b_thr st t)) >= 1).
    { pose proof (cnt_upd n (fun t' => bmp (b_thr st t')) (fun t' => if Nat.eqb t' t2 then false else bmp (b_thr st t')) t2 T2) as C.
      cbv beta in C. rewrite Nat.eqb_refl, HW in C. cbn [bmp b2n] in C.
      specialize (C ltac:(intros t' Hne; apply Nat.eqb_neq in Hne; now rewrite Hne)). lia. }
    assert (CA : cnt n (fun t => arr (b_cnt st) (b_thr st t)) = n) by nia.
    pose proof (cnt_full _ _ CA t1 T1) as F. cbv beta in F. rewrite HR in F. discriminate.
  - pose proof (i_loc _ _ _ _ _ HI t2 T2) as L. rewrite HW in L. exact L.
Qed.

(* ---- progress ---- *)
Lemma hold_enabled st t old h : b_thr st t = THold old h -> exists e st', bstep st KRun e st'.
Proof. intro H. destruct (hold_step st t old h) as [[s x] e] eqn:E. exists e, (with_thr s t x). eapply b_hold; eauto. Qed.

Lemma exists_or_all (P : nat -> Prop) n : (forall t, P t \/ ~ P t) -> (exists t, t < n /\ P t) \/ (forall t, t < n -> ~ P t).
Proof. intros D. induction n; [right; lia|]. destruct IHn as [(t&Ht&HP)|HA]; [left; exists t; split; auto; lia|].
  destruct (D n) as [HP|HN]; [left; exists n; auto|]. right. intros t Ht. destruct (Nat.eq_dec t n) as [->|]; auto. apply HA; lia. Qed.

Lemma progress n b0 ks tr st R : 1 <= n -> (Z.of_nat n < two32)%Z -> (0 <= b0 < two32)%Z ->
  execution (Z.of_nat n) b0 ks tr st -> only_threads n tr -> no_expiry ks -> at_most_calls R tr ->
  (exists t, t < n /\ rets t tr < R) ->
  (exists e st', bstep st KRun e st') \/ (exists t st', t < n /\ calls t tr < R /\ bstep st KCall [ECall t] st').
Proof.
  intros H1 H2 H3 HE HO HX HR (t0&Ht0&Hr0). destruct (Inv_execution n b0 ks tr st) as [g HI]; auto.
  pose proof (i_mutex _ _ _ _ _ HI) as HM.
  destruct (b_own st) as [t|] eqn:Ho.
  { left. destruct (proj1 (HM t) Ho) as (old&h&E). eapply hold_enabled; eauto. }
  pose proof (mutex_free _ HM Ho) as HF.
  destruct (exists_or_all (fun t => match b_thr st t with TCalled | TGot _ | TWake _ _ | TDone _ | TSleep _ true => True | _ => False end) n) as [(t&Ht&HP)|HA].
  { intro t. destruct (b_thr st t) as [| |old|old h|old [|]|old td|r]; tauto. }
  { left. destruct (b_thr st t) as [| |old|old h|old [|]|old td|r] eqn:E; try contradiction.
    - do 2 eexists. apply b_read. exact E.
    - do 2 eexists. eapply b_lock; eauto.
    - do 2 eexists. eapply b_wake; eauto.
    - do 2 eexists. eapply b_relock; eauto.
    - do 2 eexists. eapply b_return; eauto. }
  assert (HT : forall t, t < n -> b_thr st t = TIdle \/ b_thr st t = TSleep (b_cnt st) false).
  { intros t Ht. specialize (HA t Ht). destruct (b_thr st t) as [| |old|old h|old [|]|old td|r] eqn:E; auto; try tauto.
    - exfalso. eapply HF; eauto.
    - right. destruct (Z.eq_dec old (b_cnt st)) as [->|Hne]; auto. exfalso.
      destruct (i_slp _ _ _ _ _ HI _ _ E Hne) as (t'&o'&E'). eapply HF; eauto. }
  destruct (exists_or_all (fun t => b_thr st t = TIdle) n) as [(t&Ht&HP)|HB].
  { intro t. destruct (b_thr st t) as [| |old|old h|old [|]|old td|r]; auto; right; discriminate. }
  - right. exists t. eexists. split; auto. split; [|apply b_call; exact HP].
    pose proof (i_loc _ _ _ _ _ HI t Ht) as L. rewrite HP in L. cbn in L.
    pose proof (i_loc _ _ _ _ _ HI t0 Ht0) as L0. pose proof (HR t0) as R0.
    destruct (HT t0 Ht0) as [E|E]; rewrite E in L0; cbn [local] in L0; [lia|].
    destruct L0 as [(A&_)|(_&_&g'&->&E')]; [lia|]. exfalso. rewrite (i_cnt _ _ _ _ _ HI) in E'. eapply gen_neq'; eauto.
  - exfalso.
    assert (CA : cnt n (fun t => arr (b_cnt st) (b_thr st t)) = n).
    { apply cnt_all. intros t Ht. destruct (HT t Ht) as [E|E]; [exfalso; eapply HB; eauto|]. rewrite E. cbn. apply Z.eqb_refl. }
    assert (CB : cnt n (fun t => bmp (b_thr st t)) = 0).
    { apply cnt_none. intros t Ht. destruct (HT t Ht) as [E|E]; rewrite E; reflexivity. }
    pose proof (i_wait _ _ _ _ _ HI) as W. rewrite CA, CB in W.
    destruct (i_lt _ _ _ _ _ HI) as [L|(t&o&E)]; [lia|]. eapply HF; eauto.
Qed.

(* ---- boundedness ---- *)
Definition rank (c : Z) (x : tst) : nat :=
  match x with
  | TIdle => 0 | TCalled => 10 | TGot _ => 9
  | THold _ HInc => 8 | THold _ HTest => 7 | THold _ HBump => 4 | THold _ HNotify => 3
  | THold old HPred => if (old =? c)%Z then 6 else 3
  | THold _ _ => 2
  | TSleep _ _ => 5
  | TWake old _ => if (old =? c)%Z then 7 else 4
  | TDone _ => 1
  end.
Definition pot (n R : nat) (st : bstate) (tr : list bev) : nat :=
  sum n (fun t => rank (b_cnt st) (b_thr st t) + 11 * (R - calls t tr)).

Lemma pot_upd n R st tr st' t x e : t < n -> b_cnt st' = b_cnt st -> b_thr st' = upd_thr (b_thr st) t x ->
  (forall t', t' <> t -> calls t' (tr ++ e) = calls t' tr) ->
  pot n R st' (tr ++ e) + (rank (b_cnt st) (b_thr st t) + 11 * (R - calls t tr)) =
  pot n R st tr + (rank (b_cnt st) x + 11 * (R - calls t (tr ++ e))).
Proof.
  intros Ht Ec Eth Hcl. unfold pot. rewrite Ec.
  pose proof (sum_upd n (fun t => rank (b_cnt st) (b_thr st' t) + 11 * (R - calls t (tr ++ e)))
                (fun t => rank (b_cnt st) (b_thr st t) + 11 * (R - calls t tr)) t Ht) as SS. cbv beta in SS.
  rewrite Eth in *. rewrite upd_same in SS. apply SS. intros t' Hne. rewrite upd_other, Hcl; auto.
Qed.

Lemma pot_step n b0 R st tr g k e st' : Inv n b0 st tr g -> (Z.of_nat n < two32)%Z -> bstep st k e st' -> k <> KExpire ->
  (forall t, In (ECall t) e -> t < n) -> (forall t, calls t (tr ++ e) <= R) ->
  pot n R st' (tr ++ e) + b2n (is_work k) <= pot n R st tr + 2 * b2n (is_spurious k).
Proof.
  intros HI Hn32 HS Hk Hc HR.
  assert (Hin : forall t, b_thr st t <> TIdle -> t < n).
  { intros t H. destruct (le_lt_dec n t) as [L|L]; auto. exfalso. apply H. now apply (i_out _ _ _ _ _ HI). }
  pose proof (i_cnt _ _ _ _ _ HI) as Hcnt. pose proof (i_mutex _ _ _ _ _ HI) as HM.
  inv HS; cbn [is_work is_spurious b2n]; try congruence.
  - assert (Ht : t < n) by (apply Hc; cbn; auto).
    pose proof (pot_upd n R st tr (with_thr st t TCalled) t TCalled [ECall t] Ht eq_refl eq_refl) as P.
    specialize (HR t). rewrite calls_snoc in *. cbn [is_call] in *. rewrite Nat.eqb_refl, H in *. cbn [b2n rank] in *.
    enough (forall t', t' <> t -> calls t' (tr ++ [ECall t]) = calls t' tr) by (specialize (P ltac:(auto)); lia).
    intros t' Hne. rewrite calls_snoc. cbn [is_call]. rewrite eqb_b2n_neq by auto. lia.
  - assert (Ht : t < n) by (apply Hin; congruence).
    pose proof (pot_upd n R st tr (with_thr st t (TGot (b_cnt st))) t _ [ERead t] Ht eq_refl eq_refl) as P.
    rewrite calls_snoc in P. cbn [is_call] in P. rewrite H in P. cbn [b2n rank] in P.
    enough (forall t', t' <> t -> calls t' (tr ++ [ERead t]) = calls t' tr) by (specialize (P ltac:(auto)); lia).
    intros t' Hne. rewrite calls_snoc. cbn. lia.
  - assert (Ht : t < n) by (apply Hin; congruence).
    pose proof (pot_upd n R st tr (with_thr (with_own st (Some t)) t (THold old HInc)) t _ [] Ht eq_refl eq_refl) as P.
    rewrite H, !app_nil_r in *. cbn [rank] in P. specialize (P ltac:(auto)). lia.
  - assert (Ht : t < n) by (apply Hin; congruence). pose proof (i_loc _ _ _ _ _ HI t Ht) as HL. rewrite H in HL.
    destruct h; cbn [hold_step] in H0; cbn [local] in HL; try contradiction.
    + inv H0. pose proof (pot_upd n R st tr (with_thr (with_wait st (to_u32 (b_wait st + 1))) t (THold old HTest)) t _ [EArrive t] Ht eq_refl eq_refl) as P.
      rewrite calls_snoc in P. cbn [is_call] in P. rewrite H in P. cbn [b2n rank] in P.
      enough (forall t', t' <> t -> calls t' (tr ++ [EArrive t]) = calls t' tr) by (specialize (P ltac:(auto)); lia).
      intros t' Hne. rewrite calls_snoc. cbn. lia.
    + destruct (b_wait st =? b_n st)%Z eqn:Ew; inv H0.
      * pose proof (pot_upd n R st tr (with_thr (with_wait st 0) t (THold old HBump)) t _ [] Ht eq_refl eq_refl) as P.
        rewrite H, !app_nil_r in *. cbn [rank] in P. specialize (P ltac:(auto)). lia.
      * pose proof (pot_upd n R st'0 tr (with_thr st'0 t (THold old HPred)) t _ [] Ht eq_refl eq_refl) as P.
        rewrite H, !app_nil_r in *. cbn [rank] in P. specialize (P ltac:(auto)). destruct (old =? b_cnt st'0)%Z; lia.
    + inv H0. unfold pot. set (st2 := with_thr _ _ _).
      assert (CL : forall t', calls t' (tr ++ [EGen t]) = calls t' tr) by (intro; rewrite calls_snoc; cbn; lia).
      pose proof (sum_upd_le n (fun u => rank (b_cnt st2) (b_thr st2 u) + 11 * (R - calls u (tr ++ [EGen t])))
                (fun t => rank (b_cnt st) (b_thr st t) + 11 * (R - calls t tr)) t Ht) as SS. cbv beta in SS.
      rewrite CL in SS. rewrite H in SS. unfold st2 at 5 6 in SS. cbn [with_thr b_thr with_cnt b_cnt] in SS. rewrite upd_same in SS. cbn [rank] in SS.
      enough (HH : forall t', t' <> t -> rank (b_cnt st2) (b_thr st2 t') + 11 * (R - calls t' (tr ++ [EGen t])) <=
                               rank (b_cnt st) (b_thr st t') + 11 * (R - calls t' tr)) by (specialize (SS HH); lia).
      intros t' Hne. rewrite CL. unfold st2. cbn [with_thr b_thr with_cnt b_cnt]. rewrite upd_other by auto.
      rewrite Hcnt, gen_next.
      destruct (le_lt_dec n t') as [Lx|Lx]; [rewrite (i_out _ _ _ _ _ HI) by auto; cbn; lia|].
      pose proof (i_loc _ _ _ _ _ HI t' Lx) as L.
      destruct (b_thr st t') as [| |o|o h|o nt|o td|r] eqn:E; cbn [rank]; try lia.
      * exfalso. apply Hne. apply (mutex_unique st t' t o h old HBump); auto.
      * destruct td; cbn [local] in L; [contradiction|].
        destruct (o =? gen b0 g)%Z eqn:E1, (o =? gen b0 (S g))%Z eqn:E2; try lia.
        exfalso. apply Z.eqb_eq in E2. apply Z.eqb_neq in E1. destruct L as [(_&_&->)|(_&_&g'&->&->)]; [congruence|].
        revert E2. clear. unfold gen. intro H. replace (b0 + Z.of_nat (S (S g')))%Z with ((b0 + Z.of_nat g') + 2)%Z in H by lia.
        revert H. generalize (b0 + Z.of_nat g')%Z as x. intros x H. unfold two32 in *.
        pose proof (Z.div_mod x 4294967296). pose proof (Z.div_mod (x + 2) 4294967296). lia.
    + inv H0. unfold pot. rewrite app_nil_r. set (st2 := with_thr _ _ _).
      pose proof (sum_upd n (fun t => rank (b_cnt st2) (b_thr st2 t) + 11 * (R - calls t tr))
                (fun t => rank (b_cnt st) (b_thr st t) + 11 * (R - calls t tr)) t Ht) as SS. cbv beta in SS.
      rewrite H in SS. unfold st2 at 5 6 in SS. cbn [with_thr b_thr notify b_cnt] in SS. rewrite upd_same in SS. cbn [rank] in SS.
      enough (HH : forall t', t' <> t -> rank (b_cnt st2) (b_thr st2 t') + 11 * (R - calls t' tr) =
                               rank (b_cnt st) (b_thr st t') + 11 * (R - calls t' tr)) by (specialize (SS HH); lia).
      intros t' Hne. unfold st2. cbn [with_thr b_thr notify b_cnt]. rewrite upd_other by auto.
      destruct (b_thr st t'); reflexivity.
    + destruct (old =? b_cnt st)%Z eqn:Ep; inv H0.
      * pose proof (pot_upd n R st tr (with_thr (with_own st None) t (TSleep old false)) t _ [] Ht eq_refl eq_refl) as P.
        rewrite H, !app_nil_r in *. cbn [rank] in P. rewrite Ep in P. specialize (P ltac:(auto)). lia.
      * pose proof (pot_upd n R st'0 tr (with_thr st'0 t (THold old (HOut Passed))) t _ [] Ht eq_refl eq_refl) as P.
        rewrite H, !app_nil_r in *. cbn [rank] in P. rewrite Ep in P. specialize (P ltac:(auto)). lia.
    + destruct r; try contradiction. inv H0.
      pose proof (pot_upd n R st tr (with_thr (with_own st None) t (TDone Passed)) t _ [] Ht eq_refl eq_refl) as P.
      rewrite H, !app_nil_r in *. cbn [rank] in P. specialize (P ltac:(auto)). lia.
  - assert (Ht : t < n) by (apply Hin; congruence). pose proof (i_loc _ _ _ _ _ HI t Ht) as HL. rewrite H in HL. cbn [local] in HL.
    pose proof (pot_upd n R st tr (with_thr st t (TWake old false)) t _ [] Ht eq_refl eq_refl) as P.
    rewrite H, !app_nil_r in *. cbn [rank] in P. specialize (P ltac:(auto)).
    destruct HL as (_&_&g'&->&->). rewrite Hcnt in P. pose proof (gen_neq b0 g'). destruct (gen b0 g' =? gen b0 (S g'))%Z eqn:E; lia.
  - assert (Ht : t < n) by (apply Hin; congruence).
    pose proof (pot_upd n R st tr (with_thr st t (TWake old false)) t _ [] Ht eq_refl eq_refl) as P.
    rewrite H, !app_nil_r in *. cbn [rank] in P. specialize (P ltac:(auto)). destruct (old =? b_cnt st)%Z; lia.
  - assert (Ht : t < n) by (apply Hin; congruence). pose proof (i_loc _ _ _ _ _ HI t Ht) as HL. rewrite H in HL.
    destruct timedout; cbn [local] in HL; [contradiction|].
    pose proof (pot_upd n R st tr (with_thr (with_own st (Some t)) t (THold old HPred)) t _ [] Ht eq_refl eq_refl) as P.
    rewrite H, !app_nil_r in *. cbn [rank] in P. specialize (P ltac:(auto)). destruct (old =? b_cnt st)%Z; lia.
  - assert (Ht : t < n) by (apply Hin; congruence).
    pose proof (pot_upd n R st tr (with_thr st t TIdle) t _ [ERet t r] Ht eq_refl eq_refl) as P.
    rewrite calls_snoc in P. cbn [is_call] in P. rewrite H in P. cbn [b2n rank] in P.
    enough (forall t', t' <> t -> calls t' (tr ++ [ERet t r]) = calls t' tr) by (specialize (P ltac:(auto)); lia).
    intros t' Hne. rewrite calls_snoc. cbn. lia.
Qed.

Lemma filter_snoc_len (p : kind -> bool) ks k : length (filter p (ks ++ [k])) = length (filter p ks) + b2n (p k).
Proof. rewrite filter_app, app_length. cbn. destruct (p k); reflexivity. Qed.

Lemma work_bounded n b0 ks tr st R : 1 <= n -> (Z.of_nat n < two32)%Z -> (0 <= b0 < two32)%Z ->
  execution (Z.of_nat n) b0 ks tr st -> only_threads n tr -> no_expiry ks -> at_most_calls R tr ->
  work_steps ks <= 11 * n * R + 2 * spurious_steps ks.
Proof.
  intros H1 H2 H3 HE HO HX HR.
  enough (pot n R st tr + work_steps ks <= 11 * n * R + 2 * spurious_steps ks) by lia.
  revert HO HX HR. unfold execution in HE. remember (binit (Z.of_nat n) b0) as s0. induction HE; subst; intros.
  - cbn [work_steps spurious_steps filter length]. unfold pot.
    rewrite (sum_ext n _ (fun _ => 11 * R)) by (intros; cbn; lia). rewrite sum_const. unfold work_steps, spurious_steps. cbn. lia.
  - pose proof HO as HO'. pose proof HX as HX'. apply only_threads_app in HO as [HO1 HO2]. apply no_expiry_app in HX as [HX1 HX2].
    assert (HR1 : at_most_calls R tr). { intro t. specialize (HR t). unfold calls in *. rewrite count_app in HR. lia. }
    specialize (IHHE eq_refl HO1 HX1 HR1).
    destruct (Inv_execution n b0 ks tr st1) as [g HI]; auto.
    assert (k <> KExpire) by (intros ->; apply HX2; cbn; auto).
    pose proof (pot_step n b0 R st1 tr g k e st2 HI ltac:(auto) ltac:(auto) ltac:(auto) HO2 HR).
    unfold work_steps, spurious_steps in *. rewrite !filter_snoc_len. lia.
Qed.
