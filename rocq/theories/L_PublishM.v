(* L_PublishM.v -- happens-before through a mailbox. *)
From Verif Require Import Base M_MailBox M_MailBoxConc S_MailBox S_MailBoxConc S_Publish L_Map L_MailBox L_MailBoxConc.

Section L.
Context {M : Type}.
Notation mbox := (mbox M). Notation call := (call M). Notation mret := (mret M).

Definition has (mb : mbox) (m : M) : Prop := exists iq, In iq (mb_queues mb) /\ In (Some m) (snd iq).
Lemma has_queue mb i m : In (Some m) (queue mb i) -> has mb m.
Proof.
  unfold queue. destruct (q_find i (mb_queues mb)) as [q|] eqn:E; [|intros []]. intros H. exists (i, q). split; [|exact H].
  exact (find_some_in _ Zcmp_eq _ _ _ E).
Qed.
Lemma has_set mb i q m : has (set_queue mb i q) m -> In (Some m) q \/ has mb m.
Proof.
  intros (iq & A & B). unfold set_queue, set_queues in A. cbn [mb_queues] in A. apply in_insert in A as [->|A]; [left; exact B|right; exists iq; auto].
Qed.
Lemma has_same mb mb' m : mb_queues mb' = mb_queues mb -> has mb' m -> has mb m.
Proof. unfold has. intros ->. auto. Qed.
Lemma tl_in {A} (l : list A) x : In x (tl l) -> In x l.
Proof. destruct l; cbn; auto. Qed.
Lemma lookup_box {A} (o : outcome A) (mb : mbox) k mb' x : lookup o mb k = (mb', x) -> (forall a, fst (k a) = mb) -> mb' = mb.
Proof. destruct o as [a|e|]; cbn; intros E H; [specialize (H a); rewrite E in H; exact H|congruence|congruence]. Qed.

(* a step adds only the message being put *)
Lemma bstep_has names b mb p mb' x m : bstep names b mb p = (mb', x) -> has mb' m -> has mb m \/ exists omit ks, p = PPut omit (Some m) ks.
Proof.
  destruct p as [c|i|i|i m0|omit m0 [|k ks]|i|ret [|k ks]|i|i]; cbn [bstep]; intros E H.
  - left. destruct c as [|s|m0 s|s| |s|i| |s]; cbn [bstep] in E; try (apply lookup_box in E; [subst mb'; exact H|reflexivity]).
    + injection E as <- <-. apply has_set in H as [[]|H]. exact H.
    + injection E as <- <-. exact H.
    + injection E as <- <-. exact H.
    + destruct (getQueue mb (sub_idx s)); cbn in E; injection E as <- <-; exact H.
  - left. destruct (mb_counter mb <? two31 - 1)%Z; injection E as <- <-; exact H.
  - left. destruct (queue mb i); injection E as <- <-; exact H.
  - left. injection E as <- <-. apply has_set in H as [H|H]; [|exact H]. apply tl_in, has_queue in H. exact H.
  - left. injection E as <- <-. exact H.
  - injection E as <- <-. destruct (k =? omit)%Z; [left; exact H|]. apply has_set in H as [H|H]; [|left; exact H].
    apply in_app_iff in H as [H|[->|[]]]; [left; eapply has_queue; exact H|right; eauto].
  - left. injection E as <- <-. exact H.
  - left. injection E as <- <-. exact H.
  - left. injection E as <- <-. exact H.
  - left. destruct (queue mb i) eqn:Q; injection E as <- <-; [exact H|]. apply has_set in H as [H|H]; [|exact H]. apply (has_queue mb i). rewrite Q. cbn; auto.
  - left. destruct (queue mb i) eqn:Q; injection E as <- <-.
    + destruct H as (iq & A & B). exists iq. split; [|exact B]. unfold set_queues in A. cbn [mb_queues] in A. eapply in_erase; exact A.
    + apply has_set in H as [H|H]; [|exact H]. apply (has_queue mb i). rewrite Q. cbn; auto.
Qed.

(* message m was put into mailbox b by a call that happens before clock c *)
Definition known (tr : list (ev M)) (b : nat) (m : M) (c : clock) : Prop :=
  exists u k s, nth_error (calls_of u tr) k = Some (b, CPut (Some m) s) /\ k < c u.
(* the call thread t is in *)
Definition current (tr : list (ev M)) (t b : nat) (c : call) : Prop := exists pre, calls_of t tr = pre ++ [(b, c)].
Record MI (st : cstate M) (tr : list (ev M)) (K : mclocks) : Prop := {
  mi_own : forall t, length (calls_of t tr) <= mk_thr K t t;
  mi_hold : forall t b u, owner st b = Some t -> mk_mtx K b u <= mk_thr K t u;
  mi_box : forall b m, has (boxes st b) m ->
     known tr b m (match owner st b with None => mk_mtx K b | Some t => mk_thr K t end);
  mi_thr : forall t, match thr st t with
    | Idle => True
    | Want b c => current tr t b c
    | Inside b p => exists c, current tr t b c /\
        match p with
        | PStart c' => c' = c
        | PPut _ m _ => exists s, c = CPut m s
        | PGetPop _ (Some m) => known tr b m (mk_thr K t)
        | _ => True
        end
    | Leaving (MOk (RMsg (Some m))) => exists b c, current tr t b c /\ known tr b m (mk_thr K t)
    | Leaving _ => True
    end }.

Lemma known_mono tr e b m (c c' : clock) : known tr b m c -> (forall u, c u <= c' u) -> known (tr ++ e) b m c'.
Proof.
  intros (u & k & s & A & B) H. exists u, k, s. split; [|specialize (H u); lia].
  rewrite calls_app. rewrite nth_error_app1; [exact A|]. apply nth_error_Some. rewrite A. discriminate.
Qed.
Lemma current_app tr e t b c : current tr t b c -> calls_of t e = [] -> current (tr ++ e) t b c.
Proof. intros (pre & A) H. exists pre. rewrite calls_app, H, app_nil_r. exact A. Qed.

Lemma MI_init names : MI (cinit names) [] mclocks0.
Proof.
  constructor; cbn; intros; try lia; try exact I.
  destruct H as (iq & [] & _).
Qed.
Lemma set_owner_same (st : cstate M) b o : owner (set_owner st b o) b = o.
Proof. cbn. now rewrite Nat.eqb_refl. Qed.
Lemma set_owner_other (st : cstate M) b o b' : b' <> b -> owner (set_owner st b o) b' = owner st b'.
Proof. intro H. cbn. apply Nat.eqb_neq in H. now rewrite H. Qed.
Lemma boxes_upd (st : cstate M) b mb b' : boxes (set_box st b mb) b' = if Nat.eqb b' b then mb else boxes st b'.
Proof. reflexivity. Qed.

(* what the clocks do in each kind of step *)
Lemma K_call (st : cstate M) t b c K K' : mclock_step st [@Inv M t b c] (set_thr st t (Want b c)) K K' -> K' = mkMK (tick (mk_thr K) t) (mk_mtx K).
Proof.
  intros H. inversion H as [t' b' c' E|t' b' A B|t' b' A B|A B]; subst.
  - injection E as <- _ _. reflexivity.
  - cbn in B. congruence.
  - cbn in B. congruence.
  - exfalso. eapply B. cbn; eauto.
Qed.
Lemma K_lock (st : cstate M) t b p K K' : owner st b = None -> mclock_step st [] (set_thr (set_owner st b (Some t)) t p) K K' ->
  K' = mkMK (set_clock (mk_thr K) t (join_clock (mk_thr K t) (mk_mtx K b))) (mk_mtx K).
Proof.
  intros Ho H. inversion H as [t' b' c' E|t' b' A B|t' b' A B|A B]; subst.
  - discriminate.
  - cbn in B. destruct (Nat.eqb_spec b' b) as [->|N]; [injection B as <-; reflexivity|congruence].
  - cbn in B. destruct (Nat.eqb_spec b' b) as [->|N]; congruence.
  - specialize (A b). cbn in A. rewrite Nat.eqb_refl in A. congruence.
Qed.
Lemma K_unlock (st : cstate M) t b mb p K K' : owner st b = Some t -> mclock_step st [] (set_thr (set_owner (set_box st b mb) b None) t p) K K' ->
  K' = mkMK (mk_thr K) (set_clock (mk_mtx K) b (join_clock (mk_mtx K b) (mk_thr K t))).
Proof.
  intros Ho H. inversion H as [t' b' c' E|t' b' A B|t' b' A B|A B]; subst.
  - discriminate.
  - cbn in B. destruct (Nat.eqb_spec b' b) as [->|N]; congruence.
  - cbn in B. destruct (Nat.eqb_spec b' b) as [->|N]; [assert (t' = t) as -> by congruence; reflexivity|congruence].
  - specialize (A b). cbn in A. rewrite Nat.eqb_refl in A. congruence.
Qed.
Lemma K_other (st : cstate M) e st' K K' : (forall b, owner st' b = owner st b) -> (forall t b c, ~ In (@Inv M t b c) e) -> mclock_step st e st' K K' -> K' = K.
Proof.
  intros Ho He H. inversion H as [t' b' c' E|t' b' A B|t' b' A B|A B]; subst.
  - exfalso. eapply He. cbn; eauto.
  - rewrite Ho in B. congruence.
  - rewrite Ho in B. congruence.
  - reflexivity.
Qed.

(* a step that leaves other threads alone *)
Lemma thr_other st tr K t e st' K' : MI st tr K -> (forall t', t' <> t -> thr st' t' = thr st t') ->
  (forall t', t' <> t -> calls_of t' e = []) -> (forall t' u, mk_thr K t' u <= mk_thr K' t' u) ->
  forall t', t' <> t -> match thr st' t' with
    | Idle => True
    | Want b c => current (tr ++ e) t' b c
    | Inside b p => exists c, current (tr ++ e) t' b c /\
        match p with
        | PStart c' => c' = c
        | PPut _ m _ => exists s, c = CPut m s
        | PGetPop _ (Some m) => known (tr ++ e) b m (mk_thr K' t')
        | _ => True
        end
    | Leaving (MOk (RMsg (Some m))) => exists b c, current (tr ++ e) t' b c /\ known (tr ++ e) b m (mk_thr K' t')
    | Leaving _ => True
    end.
Proof.
  intros HI Ht He Hm t' N. assert (H := mi_thr _ _ _ HI t'). rewrite (Ht t' N). specialize (He t' N).
  destruct (thr st t') as [|b c|b p|r]; [exact I|apply current_app; assumption| |].
  - destruct H as (c & A & B). exists c. split; [apply current_app; assumption|]. destruct p; auto. destruct m; auto.
    eapply known_mono; [exact B|apply Hm].
  - destruct r as [[|s0|[m|]|n0]|e0| |]; auto. destruct H as (b & c & A & B). exists b, c. split; [apply current_app; assumption|].
    eapply known_mono; [exact B|apply Hm].
Qed.

Lemma MI_step st tr K e st' K' : (forall t b p, thr st t = Inside b p -> owner st b = Some t) ->
  MI st tr K -> cstep st e st' -> mclock_step st e st' K K' -> MI st' (tr ++ e) K'.
Proof.
  intros HO HI HS HK. inversion HS as [st0 t b c E|st0 t b c E Ho|st0 t b p mb p' E B|st0 t b p mb r E B|st0 t r E]; subst.
  - (* call *) apply K_call in HK as ->.
    assert (Mono : forall t' u, mk_thr K t' u <= mk_thr (mkMK (tick (mk_thr K) t) (mk_mtx K)) t' u).
    { intros t' u. cbn. unfold tick, set_clock. destruct (Nat.eqb_spec t' t) as [->|N]; [destruct (Nat.eqb u t); lia|lia]. }
    assert (C1 : calls_of t [Inv t b c] = [(b, c)]) by (unfold calls_of; cbn; rewrite Nat.eqb_refl; reflexivity).
    assert (C2 : forall t', t' <> t -> calls_of t' [Inv t b c] = []).
    { intros t' N. unfold calls_of. cbn. destruct (Nat.eqb_spec t t'); [congruence|reflexivity]. }
    constructor.
    + intros t'. assert (A := mi_own _ _ _ HI t'). rewrite calls_app, app_length. destruct (Nat.eq_dec t' t) as [->|N].
      * rewrite C1. cbn. unfold tick, set_clock. rewrite !Nat.eqb_refl. lia.
      * rewrite C2 by exact N. specialize (Mono t' t'). cbn [length]. lia.
    + intros t' b' u A. assert (X := mi_hold _ _ _ HI t' b' u A). specialize (Mono t' u). cbn in *. lia.
    + intros b' m A. assert (X := mi_box _ _ _ HI b' m A). cbn [set_thr owner mk_mtx mk_thr] in *.
      destruct (owner st b') as [t'|]; eapply known_mono; eauto.
    + intros t'. destruct (Nat.eq_dec t' t) as [->|N].
      * rewrite set_thr_same. exists (calls_of t tr). rewrite calls_app, C1. reflexivity.
      * apply (thr_other st tr K t); auto. intros t1 N1. apply set_thr_other. exact N1.
  - (* lock *) apply (K_lock _ _ _ _ _ _ Ho) in HK as ->.
    assert (Mono : forall t' u, mk_thr K t' u <= set_clock (mk_thr K) t (join_clock (mk_thr K t) (mk_mtx K b)) t' u).
    { intros t' u. unfold set_clock, join_clock. destruct (Nat.eqb_spec t' t) as [->|N]; lia. }
    constructor.
    + intros t'. assert (A := mi_own _ _ _ HI t'). rewrite app_nil_r. specialize (Mono t' t'). cbn [mk_thr]. lia.
    + intros t' b' u A. cbn [mk_thr mk_mtx]. cbn [set_thr set_owner owner] in A. destruct (Nat.eqb_spec b' b) as [->|N].
      * injection A as <-. unfold set_clock, join_clock. rewrite Nat.eqb_refl. lia.
      * assert (X := mi_hold _ _ _ HI t' b' u A). specialize (Mono t' u). lia.
    + intros b' m A. assert (X := mi_box _ _ _ HI b' m A). cbn [set_thr set_owner owner mk_mtx mk_thr].
      destruct (Nat.eqb_spec b' b) as [->|N].
      * rewrite Ho in X. eapply known_mono; [exact X|]. intros u. unfold set_clock, join_clock. rewrite Nat.eqb_refl. lia.
      * destruct (owner st b') as [t'|]; eapply known_mono; eauto.
    + intros t'. destruct (Nat.eq_dec t' t) as [->|N].
      * rewrite set_thr_same. assert (X := mi_thr _ _ _ HI t). rewrite E in X. exists c. split; [apply current_app; [exact X|reflexivity]|reflexivity].
      * apply (thr_other st tr K t); auto. intros t1 N1. rewrite set_thr_other by exact N1. reflexivity.
  - (* work *) apply K_other in HK as ->; [|reflexivity|intros ? ? ? []].
    assert (Ho := HO t b p E). assert (X := mi_thr _ _ _ HI t). rewrite E in X. destruct X as (c & Cu & X).
    constructor.
    + intros t'. rewrite app_nil_r. apply (mi_own _ _ _ HI).
    + intros t' b' u A. exact (mi_hold _ _ _ HI t' b' u A).
    + intros b' m A. cbn [set_thr set_box boxes owner] in *. unfold upd in A. destruct (Nat.eqb_spec b' b) as [->|N].
      * rewrite Ho. destruct (bstep_has _ _ _ _ _ _ _ B A) as [A1|(om & ks & ->)].
        -- assert (Y := mi_box _ _ _ HI b m A1). rewrite Ho in Y. eapply known_mono; [exact Y|auto].
        -- destruct X as (s & ->). destruct Cu as (pre & Cu). exists t, (length pre), s. rewrite app_nil_r, Cu.
           split; [rewrite nth_error_app2, Nat.sub_diag by lia; reflexivity|]. assert (L := mi_own _ _ _ HI t). rewrite Cu, app_length in L. cbn in L. lia.
      * assert (Y := mi_box _ _ _ HI b' m A). eapply known_mono; [exact Y|auto].
    + intros t'. destruct (Nat.eq_dec t' t) as [->|N].
      * rewrite set_thr_same. exists c. split; [apply current_app; [exact Cu|reflexivity]|].
        destruct p' as [c'|i|i|i m|om m ks|i|ret ks|i|i]; auto.
        -- exfalso. clear - B. destruct p as [[]|i|i|i m|om m [|k ks]|i|ret [|k ks]|i|i]; cbn [bstep] in B;
             repeat match type of B with
             | context [lookup ?o _ _] => destruct o; cbn in B
             | context [if ?x then _ else _] => destruct x
             | context [match queue ?a ?b with _ => _ end] => destruct (queue a b) end; discriminate B.
        -- destruct m as [m|]; [|exact I].
           assert (Q : In (Some m) (queue (boxes st b) i)).
           { clear - B. destruct p as [[]|i0|i0|i0 m0|om m0 [|k ks]|i0|ret [|k ks]|i0|i0]; cbn [bstep] in B;
               repeat match type of B with
               | context [lookup ?o _ _] => destruct o; cbn in B
               | context [if ?x then _ else _] => destruct x
               | context [match queue ?a ?b with _ => _ end] => destruct (queue a b) eqn:Q end; try discriminate B.
             injection B as <- <- <-. rewrite Q. cbn; auto. }
           assert (Y := mi_box _ _ _ HI b m (has_queue _ _ _ Q)). rewrite Ho in Y. eapply known_mono; [exact Y|auto].
        -- assert (Z : (exists om' ks', p = PPut om' m ks') \/ exists s, p = PStart (CPut m s)).
           { clear - B. destruct p as [[]|i0|i0|i0 m0|om' m0 [|k ks']|i0|ret [|k ks']|i0|i0]; cbn [bstep] in B;
               repeat match type of B with
               | context [lookup ?o _ _] => destruct o; cbn in B
               | context [if ?x then _ else _] => destruct x
               | context [match queue ?a ?b with _ => _ end] => destruct (queue a b) eqn:Q end; try discriminate B;
               injection B; intros; subst; eauto. }
           destruct Z as [(om' & ks' & ->)|(s & ->)]; [exact X|]. subst c. eauto.
      * apply (thr_other st tr K t); auto. intros t1 N1. rewrite set_thr_other by exact N1. reflexivity.
  - (* unlock *) assert (Ho := HO t b p E). apply (K_unlock _ _ _ _ _ _ _ Ho) in HK as ->.
    assert (X := mi_thr _ _ _ HI t). rewrite E in X. destruct X as (c & Cu & X).
    assert (NP : forall om m ks, p = PPut om m ks -> ks = []).
    { intros om m [|k ks] ->; [reflexivity|]. cbn in B. discriminate B. }
    constructor.
    + intros t'. rewrite app_nil_r. apply (mi_own _ _ _ HI).
    + intros t' b' u A. cbn [set_thr set_owner owner mk_mtx mk_thr] in *. destruct (Nat.eqb_spec b' b) as [->|N]; [discriminate|].
      unfold set_clock. apply Nat.eqb_neq in N. rewrite N. exact (mi_hold _ _ _ HI t' b' u A).
    + intros b' m A. cbn [set_thr set_box set_owner boxes owner mk_mtx mk_thr] in *. unfold upd in A. destruct (Nat.eqb_spec b' b) as [->|N].
      * destruct (bstep_has _ _ _ _ _ _ _ B A) as [A1|(om & ks & ->)].
        -- assert (Y := mi_box _ _ _ HI b m A1). rewrite Ho in Y. eapply known_mono; [exact Y|]. intros u. unfold set_clock, join_clock. rewrite Nat.eqb_refl. lia.
        -- rewrite (NP _ _ _ eq_refl) in B. cbn in B. injection B as <- <-.
           assert (Y := mi_box _ _ _ HI b m A). rewrite Ho in Y. eapply known_mono; [exact Y|]. intros u. unfold set_clock, join_clock. rewrite Nat.eqb_refl. lia.
      * assert (Y := mi_box _ _ _ HI b' m A). unfold set_clock. apply Nat.eqb_neq in N. rewrite N. eapply known_mono; [exact Y|auto].
    + intros t'. destruct (Nat.eq_dec t' t) as [->|N].
      * rewrite set_thr_same. destruct r as [[|s0|[m|]|n0]|e0| |]; auto. exists b, c. split; [apply current_app; [exact Cu|reflexivity]|].
        assert (Q : exists i, p = PGetPop i (Some m)).
        { clear - B. destruct p as [[]|i0|i0|i0 m0|om' m0 [|k ks']|i0|ret [|k ks']|i0|i0]; cbn [bstep] in B; unfold terminate_on_throw in B;
               repeat match type of B with
               | context [lookup ?o _ _] => destruct o; cbn in B
               | context [if ?x then _ else _] => destruct x
               | context [match queue ?a ?b with _ => _ end] => destruct (queue a b) eqn:Q end; try discriminate B;
               injection B; intros; subst; eauto. }
        destruct Q as (i & ->). eapply known_mono; [exact X|auto].
      * apply (thr_other st tr K t); auto. intros t1 N1. rewrite set_thr_other by exact N1. reflexivity.
  - (* return *) apply K_other in HK as ->; [|reflexivity|intros ? ? ? [Y|[]]; discriminate Y].
    assert (NC : forall t', calls_of t' [@Ret M t r] = []) by reflexivity.
    constructor.
    + intros t'. rewrite calls_app, NC, app_nil_r. apply (mi_own _ _ _ HI).
    + intros t' b' u A. exact (mi_hold _ _ _ HI t' b' u A).
    + intros b' m A. assert (Y := mi_box _ _ _ HI b' m A). eapply known_mono; [exact Y|auto].
    + intros t'. destruct (Nat.eq_dec t' t) as [->|N]; [rewrite set_thr_same; exact I|].
      apply (thr_other st tr K t); auto. intros t1 N1. rewrite set_thr_other by exact N1. reflexivity.
Qed.

Lemma mclocked_csteps names tr st K : mclocked names tr st K -> csteps (@cinit M names) tr st.
Proof. induction 1; [apply cs_nil|eapply cs_snoc; eauto]. Qed.
Lemma MI_run names tr st K : mclocked names tr st K -> MI st tr K.
Proof.
  induction 1 as [|tr st K e st' K' HC IH HS HK]; [apply MI_init|]. eapply MI_step; eauto.
  destruct (inv_run names tr st (mclocked_csteps _ _ _ _ HC)) as (o & w & rs & I).
  intros t b p E. assert (X := i_thr _ _ _ _ _ _ I t). rewrite E in X. tauto.
Qed.
(* every execution has its clocks *)
Lemma csteps_mclocked names tr st : csteps (@cinit M names) tr st -> exists K, mclocked names tr st K.
Proof.
  remember (cinit names) as s0. induction 1 as [|s0 tr st e st' HC IH HS]; subst; [eexists; apply mck_nil|].
  destruct (IH eq_refl) as (K & HK). destruct (inv_run names tr st HC) as (o & w & rs & I).
  assert (X : exists K', mclock_step st e st' K K').
  { inversion HS as [st0 t b c E|st0 t b c E Ho|st0 t b p mb p' E B|st0 t b p mb r E B|st0 t r E]; subst.
    - eexists. eapply mk_call. reflexivity.
    - eexists. apply (mk_lock _ _ _ _ t b Ho). cbn. now rewrite Nat.eqb_refl.
    - exists K. apply mk_other; [reflexivity|intros ? ? ? []].
    - eexists. apply (mk_unlock _ _ _ _ t b); [|cbn; now rewrite Nat.eqb_refl].
      assert (X := i_thr _ _ _ _ _ _ I t). rewrite E in X. tauto.
    - exists K. apply mk_other; [reflexivity|intros ? ? ? [Y|[]]; discriminate Y]. }
  destruct X as (K' & X). exists K'. eapply mck_snoc; eauto.
Qed.
Lemma snoc_event names (tr : list (ev M)) e st K : mclocked names (tr ++ [e]) st K ->
  exists st0 K0 st1 K1, mclocked names tr st0 K0 /\ cstep st0 [e] st1 /\ mclock_step st0 [e] st1 K0 K1 /\ forall t u, mk_thr K1 t u <= mk_thr K t u.
Proof.
  remember (tr ++ [e]) as l. intros H. revert tr e Heql. induction H as [|tr0 st K0 e0 st' K' HC IH HS HK]; intros tr e E.
  - destruct tr; discriminate.
  - assert (Mono : forall t u, mk_thr K0 t u <= mk_thr K' t u).
    { inversion HK; subst; cbn; intros t1 u; unfold tick, set_clock, join_clock; try lia.
      - destruct (Nat.eqb_spec t1 t) as [->|N]; [destruct (Nat.eqb u t); lia|lia].
      - destruct (Nat.eqb_spec t1 t) as [->|N]; lia. }
    inversion HS; subst.
    + apply app_inj_tail in E as (-> & <-). do 4 eexists. split; [exact HC|]. split; [exact HS|]. split; [exact HK|auto].
    + rewrite app_nil_r in E. destruct (IH _ _ E) as (s0 & k0 & s1 & k1 & A & B & C & D). do 4 eexists. split; [exact A|]. split; [exact B|]. split; [exact C|].
      intros t1 u. specialize (D t1 u). specialize (Mono t1 u). lia.
    + rewrite app_nil_r in E. destruct (IH _ _ E) as (s0 & k0 & s1 & k1 & A & B & C & D). do 4 eexists. split; [exact A|]. split; [exact B|]. split; [exact C|].
      intros t1 u. specialize (D t1 u). specialize (Mono t1 u). lia.
    + rewrite app_nil_r in E. destruct (IH _ _ E) as (s0 & k0 & s1 & k1 & A & B & C & D). do 4 eexists. split; [exact A|]. split; [exact B|]. split; [exact C|].
      intros t1 u. specialize (D t1 u). specialize (Mono t1 u). lia.
    + apply app_inj_tail in E as (-> & <-). do 4 eexists. split; [exact HC|]. split; [exact HS|]. split; [exact HK|auto].
Qed.

(* thread t has just got m *)
Lemma get_after_put names (tr : list (ev M)) st K t m : mclocked names (tr ++ [Ret t (MOk (RMsg (Some m)))]) st K ->
  exists b c u k s, (exists pre, calls_of t tr = pre ++ [(b, c)]) /\
    nth_error (calls_of u tr) k = Some (b, CPut (Some m) s) /\ k < mk_thr K t u.
Proof.
  intros H. destruct (snoc_event _ _ _ _ _ H) as (s0 & K0 & s1 & K1 & A & B & C & D).
  inversion B as [| | | |st0 t0 r E]; subst. assert (X := mi_thr _ _ _ (MI_run _ _ _ _ A) t). rewrite E in X.
  destruct X as (b & c & P & (u & k & s & Q1 & Q2)). exists b, c, u, k, s. split; [exact P|]. split; [exact Q1|].
  apply K_other in C as ->; [|reflexivity|intros ? ? ? [Y|[]]; discriminate Y]. specialize (D t u). lia.
Qed.

(* clocks never claim more than has happened *)
Lemma mclock_sound names (tr : list (ev M)) st K : mclocked names tr st K ->
  (forall t u, mk_thr K t u <= length (calls_of u tr)) /\ (forall b u, mk_mtx K b u <= length (calls_of u tr)).
Proof.
  induction 1 as [|tr st K e st' K' HC (A & B) HS HK]; [split; intros; cbn; lia|].
  assert (Mo : forall u, length (calls_of u tr) <= length (calls_of u (tr ++ e))) by (intros u; rewrite calls_app, app_length; lia).
  assert (A' : forall t u, mk_thr K t u <= length (calls_of u (tr ++ e))) by (intros t u; specialize (A t u); specialize (Mo u); lia).
  assert (B' : forall b u, mk_mtx K b u <= length (calls_of u (tr ++ e))) by (intros b u; specialize (B b u); specialize (Mo u); lia).
  inversion HK as [t b c E|t b O1 O2|t b O1 O2|O1 O2]; subst; cbn [mk_thr mk_mtx]; unfold tick, set_clock, join_clock; split; auto.
  - intros t' u. destruct (Nat.eqb_spec t' t) as [->|N]; [|apply A']. destruct (Nat.eqb_spec u t) as [->|N]; [|apply A'].
    rewrite calls_app, app_length. unfold calls_of at 2. cbn. rewrite Nat.eqb_refl. cbn. specialize (A t t). lia.
  - intros t' u. destruct (Nat.eqb t' t); [|apply A']. specialize (A' t u). specialize (B' b u). lia.
  - intros b' u. destruct (Nat.eqb b' b); [|apply B']. specialize (A' t u). specialize (B' b u). lia.
Qed.
End L.
