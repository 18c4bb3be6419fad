(* L_Publish.v -- happens-before through the barrier. *)
From Verif Require Import Base M_Barrier S_Barrier S_Publish L_Barrier L_BarrierN.
Local Open Scope nat_scope.

Lemma clocked_execution n b0 ks tr st K : clocked n b0 ks tr st K -> execution n b0 ks tr st.
Proof. induction 1; [apply bs_nil|eapply bs_snoc; eauto]. Qed.
Lemma execution_clocked n b0 ks tr st : execution n b0 ks tr st -> exists K, clocked n b0 ks tr st K.
Proof.
  unfold execution. remember (binit n b0) as s0. induction 1; subst; [eexists; apply ck_nil|].
  destruct IHbsteps as (K & HK); [reflexivity|]. eexists. eapply ck_snoc; eauto.
Qed.

(* the arrivals a thread has published by unlocking the mutex *)
Definition published (x : tst) (c : nat) : nat :=
  match x with TCalled | TGot _ | THold _ _ => c - 1 | _ => c end.
Definition over (x : tst) : bool := match x with THold _ (HOut _) | TDone _ => true | _ => false end.
Record CK (n : nat) (st : bstate) (tr : list bev) (K : clocks) : Prop := {
  ck_own : forall t, calls t tr <= k_thr K t t;
  ck_hold : forall t u, b_own st = Some t -> k_mtx K u <= k_thr K t u;
  ck_pub : forall u, u < n -> published (b_thr st u) (calls u tr) <= k_mtx K u;
  ck_ret : forall t u, t < n -> u < n -> rets t tr + b2n (over (b_thr st t)) <= k_thr K t u
}.
Lemma CK_init n b0 : CK n (binit (Z.of_nat n) b0) [] clocks0.
Proof. constructor; intros; cbn; lia. Qed.
Lemma CK_gen n st tr K st' tr' K' : CK n st tr K ->
  (forall t u, k_thr K t u <= k_thr K' t u) -> (forall u, k_mtx K u <= k_mtx K' u) ->
  (forall t, calls t tr' <= calls t tr \/ calls t tr' <= k_thr K' t t) ->
  (forall t u, b_own st' = Some t -> k_mtx K' u <= k_thr K' t u) ->
  (forall u, u < n -> published (b_thr st' u) (calls u tr') <= published (b_thr st u) (calls u tr) \/
                      published (b_thr st' u) (calls u tr') <= k_mtx K' u) ->
  (forall t, t < n -> rets t tr' + b2n (over (b_thr st' t)) <= rets t tr + b2n (over (b_thr st t)) \/
                      forall u, u < n -> rets t tr' + b2n (over (b_thr st' t)) <= k_thr K' t u) ->
  CK n st' tr' K'.
Proof.
  intros [A B C D] H1 H2 H3 H4 H5 H6. constructor.
  - intros t. specialize (A t). specialize (H1 t t). destruct (H3 t); lia.
  - exact H4.
  - intros u Hu. specialize (C u Hu). specialize (H2 u). destruct (H5 u Hu); lia.
  - intros t u Ht Hu. specialize (D t u Ht Hu). specialize (H1 t u). destruct (H6 t Ht) as [X|X]; [lia|exact (X u Hu)].
Qed.

Lemma set_same {A} (f : nat -> A) t c : set_clock f t c t = c. Proof. unfold set_clock. now rewrite Nat.eqb_refl. Qed.
Lemma set_other {A} (f : nat -> A) t c t' : t' <> t -> set_clock f t c t' = f t'.
Proof. unfold set_clock. intro H. apply Nat.eqb_neq in H. now rewrite H. Qed.

(* the locking steps *)
Lemma CK_lock n st tr K t x : CK n st tr K -> b_own st = None ->
  published x (calls t tr) <= published (b_thr st t) (calls t tr) -> over x = false ->
  CK n (with_thr (with_own st (Some t)) t x) tr (clock_step st [] (with_thr (with_own st (Some t)) t x) K).
Proof.
  intros HC Ho Hp Hx. unfold clock_step. rewrite Ho. cbn [with_thr with_own b_own].
  eapply CK_gen; [exact HC| | | | | |]; cbn [k_thr k_mtx with_thr with_own b_own b_thr].
  - intros t' u. destruct (Nat.eq_dec t' t) as [->|N]; [rewrite set_same; unfold join_clock; lia|rewrite set_other by exact N; lia].
  - auto.
  - auto.
  - intros t' u E. injection E as <-. rewrite set_same. unfold join_clock. lia.
  - intros u Hu. left. destruct (Nat.eq_dec u t) as [->|N]; [rewrite upd_same; exact Hp|rewrite upd_other by exact N; lia].
  - intros t' Ht. left. destruct (Nat.eq_dec t' t) as [->|N]; [rewrite upd_same, Hx; cbn; lia|rewrite upd_other by exact N; lia].
Qed.
(* steps that neither lock nor unlock, and are not calls *)
Lemma CK_quiet n st tr K st' t x e : CK n st tr K -> b_own st' = b_own st ->
  (forall u, u <> t -> b_thr st' u = b_thr st u \/ (exists o m, b_thr st u = TSleep o m /\ b_thr st' u = TSleep o true)) -> b_thr st' t = x ->
  (forall u, e <> [ECall u]) -> (forall u, calls u (tr ++ e) = calls u tr) -> (forall u, u <> t -> rets u (tr ++ e) = rets u tr) ->
  published x (calls t tr) <= published (b_thr st t) (calls t tr) ->
  (t < n -> rets t (tr ++ e) + b2n (over x) <= rets t tr + b2n (over (b_thr st t)) \/
            forall u, u < n -> rets t (tr ++ e) + b2n (over x) <= k_thr K t u) ->
  CK n st' (tr ++ e) (clock_step st e st' K).
Proof.
  intros HC Ho Hu Hx He Hcl Hr Hp Hret.
  assert (E : clock_step st e st' K = K).
  { unfold clock_step. rewrite Ho. destruct e as [|[] []]; try (destruct (b_own st); reflexivity). exfalso. eapply He. reflexivity. }
  rewrite E. eapply CK_gen; [exact HC|auto|auto| | | |].
  - intros u. left. rewrite Hcl. lia.
  - intros t' u E2. rewrite Ho in E2. exact (ck_hold _ _ _ _ HC t' u E2).
  - intros u Hn. left. rewrite Hcl. destruct (Nat.eq_dec u t) as [->|N]; [rewrite Hx; exact Hp|].
    destruct (Hu u N) as [->|(o & m & -> & ->)]; cbn [published]; lia.
  - intros t' Hn. destruct (Nat.eq_dec t' t) as [->|N]; [rewrite Hx; exact (Hret Hn)|left]. rewrite (Hr t' N).
    destruct (Hu t' N) as [->|(o & m & -> & ->)]; cbn; lia.
Qed.
(* unlocking *)
Lemma CK_unlock n st tr K t x : CK n st tr K -> b_own st = Some t ->
  (over x = false \/ over (b_thr st t) = true) ->
  CK n (with_thr (with_own st None) t x) tr (clock_step st [] (with_thr (with_own st None) t x) K).
Proof.
  intros HC Ho Hx. unfold clock_step. rewrite Ho. cbn [with_thr with_own b_own].
  eapply CK_gen; [exact HC| | | | | |]; cbn [k_thr k_mtx with_thr with_own b_own b_thr].
  - auto.
  - intros u. unfold join_clock. lia.
  - auto.
  - discriminate.
  - intros u Hu. destruct (Nat.eq_dec u t) as [->|N]; [|left; rewrite upd_other by exact N; lia].
    right. rewrite upd_same. assert (A := ck_own _ _ _ _ HC t). unfold join_clock, published. destruct x; lia.
  - intros t' Ht. left. destruct (Nat.eq_dec t' t) as [->|N]; [rewrite upd_same|rewrite upd_other by exact N; lia].
    destruct Hx as [-> | ->]; cbn [b2n]; [lia|]. destruct (over x); cbn; lia.
Qed.

(* passing: everybody's arrival in the round has been published *)
Lemma pass_clock n b0 st tr g K t old h : Inv n b0 st tr g -> CK n st tr K -> t < n -> b_thr st t = THold old h ->
  leave b0 g (calls t tr) (rets t tr) old -> forall u, u < n -> S (rets t tr) <= k_thr K t u.
Proof.
  intros HI HC Ht Hh (L1 & L2 & _) u Hu.
  assert (Ho : b_own st = Some t) by (apply (i_mutex _ _ _ _ _ HI); unfold holds; eauto).
  destruct (Nat.eq_dec u t) as [->|N].
  - assert (A := ck_own _ _ _ _ HC t). lia.
  - assert (A := ck_hold _ _ _ _ HC t u Ho). assert (B := ck_pub _ _ _ _ HC u Hu).
    assert (L := i_loc _ _ _ _ _ HI u Hu). assert (M := mutex_not_other _ _ _ _ (i_mutex _ _ _ _ _ HI) Hh u).
    assert (C : g <= published (b_thr st u) (calls u tr)); [|lia].
    destruct (b_thr st u) as [| |o|o h'|o nt|o td|r] eqn:E; cbn [published local] in *; try (unfold enter in L; lia).
    + exfalso. eapply M; eauto.
    + destruct nt; unfold enter, leave in L; lia.
    + destruct td; unfold enter, leave in L; lia.
    + destruct r; lia.
Qed.

Lemma calls_nocall u tr e : (forall v, ~ In (ECall v) e) -> calls u (tr ++ e) = calls u tr.
Proof.
  intro H. unfold calls. rewrite count_app. replace (count (is_call u) e) with 0; [lia|].
  unfold count. induction e as [|x e IH]; [reflexivity|]. cbn. destruct x; cbn; try (apply IH; intros v Hv; apply (H v); cbn; auto).
  exfalso. eapply H. cbn; eauto.
Qed.
Lemma rets_noret u tr e : (forall r, ~ In (ERet u r) e) -> rets u (tr ++ e) = rets u tr.
Proof.
  intro H. unfold rets. rewrite count_app. replace (count (is_ret u) e) with 0; [lia|].
  unfold count. induction e as [|x e IH]; [reflexivity|]. cbn.
  destruct x; cbn; try (apply IH; intros v Hv; apply (H v); cbn; auto).
  destruct (Nat.eqb t u) eqn:E; [apply Nat.eqb_eq in E; subst; exfalso; eapply H; cbn; eauto|]. apply IH; intros v Hv; apply (H v); cbn; auto.
Qed.

Lemma CK_step n b0 st tr g K k e st' : Inv n b0 st tr g -> CK n st tr K -> bstep st k e st' -> k <> KExpire ->
  CK n st' (tr ++ e) (clock_step st e st' K).
Proof.
  intros HI HC HS Hk. assert (HM := i_mutex _ _ _ _ _ HI).
  assert (Hin : forall t, b_thr st t <> TIdle -> t < n).
  { intros t H. destruct (le_lt_dec n t) as [L|L]; auto. exfalso. apply H. now apply (i_out _ _ _ _ _ HI). }
  inv HS.
  - (* call *)
    assert (E : clock_step st [ECall t] (with_thr st t TCalled) K = mkK (tick (k_thr K) t) (k_mtx K)).
    { unfold clock_step. cbn [with_thr b_own]. destruct (b_own st); reflexivity. }
    rewrite E. assert (Mono : forall t' u, k_thr K t' u <= tick (k_thr K) t t' u).
    { intros t' u. unfold tick. destruct (Nat.eq_dec t' t) as [->|N]; [rewrite set_same; destruct (Nat.eqb u t); lia|rewrite set_other by exact N; lia]. }
    eapply CK_gen; [exact HC|exact Mono|cbn; auto| | | |]; cbn [k_thr k_mtx with_thr b_own b_thr].
    + intros t'. rewrite calls_snoc. cbn [is_call]. destruct (Nat.eq_dec t t') as [->|N].
      * right. unfold tick. rewrite set_same, Nat.eqb_refl. cbn [b2n]. assert (A := ck_own _ _ _ _ HC t'). lia.
      * left. rewrite eqb_b2n_neq by exact N. lia.
    + intros t' u Ho. specialize (Mono t' u). assert (A := ck_hold _ _ _ _ HC t' u Ho). lia.
    + intros u Hu. left. rewrite calls_snoc. cbn [is_call]. destruct (Nat.eq_dec u t) as [->|N].
      * rewrite upd_same, H, Nat.eqb_refl. cbn [published b2n]. lia.
      * rewrite upd_other by exact N. rewrite eqb_b2n_neq by auto. rewrite Nat.add_0_r. lia.
    + intros t' Ht. left. rewrite rets_snoc. cbn [is_ret b2n]. destruct (Nat.eq_dec t' t) as [->|N]; [rewrite upd_same; cbn; lia|rewrite upd_other by exact N; lia].
  - (* read *) eapply (CK_quiet n st tr K _ t (TGot (b_cnt st)) [ERead t]); auto; cbn [with_thr b_own b_thr].
    + intros u N. left. now apply upd_other.
    + apply upd_same.
    + discriminate.
    + intros u. apply calls_nocall. intros v [X|[]]; discriminate.
    + intros u N. apply rets_noret. intros r [X|[]]; discriminate.
    + rewrite H. cbn [published]. lia.
    + intros _. left. rewrite rets_noret by (intros r [X|[]]; discriminate). cbn; lia.
  - (* lock *) rewrite app_nil_r. apply CK_lock; auto. rewrite H. cbn [published]. lia.
  - (* hold *)
    assert (Ht : t < n) by (apply Hin; congruence). assert (Ho : b_own st = Some t) by (apply HM; unfold holds; eauto).
    assert (HL := i_loc _ _ _ _ _ HI t Ht). rewrite H in HL.
    assert (Quiet : forall s' y, b_own s' = b_own st -> (forall u, u <> t -> b_thr s' u = b_thr st u \/ (exists o m, b_thr st u = TSleep o m /\ b_thr s' u = TSleep o true)) ->
      (forall v, ~ In (ECall v) e) -> (forall u r, ~ In (ERet u r) e) ->
      published y (calls t tr) <= calls t tr - 1 -> (over y = false \/ leave b0 g (calls t tr) (rets t tr) old) ->
      CK n (with_thr s' t y) (tr ++ e) (clock_step st e (with_thr s' t y) K)).
    { intros s' y O U E1 E2 P V. eapply (CK_quiet n st tr K _ t y e); auto; cbn [with_thr b_own b_thr].
      - intros u N. rewrite upd_other by exact N. exact (U u N).
      - apply upd_same.
      - intros u ->. apply (E1 u). cbn; auto.
      - intros u. apply calls_nocall. exact E1.
      - intros u _. apply rets_noret. apply E2.
      - rewrite H. cbn [published]. exact P.
      - intros _. rewrite rets_noret by apply E2. destruct V as [V|V]; [left; rewrite V; cbn; lia|right].
        intros u Hu. assert (A := pass_clock n b0 st tr g K t old h HI HC Ht H V u Hu). destruct (over y); cbn [b2n]; lia. }
    assert (NT : forall u, u <> t -> b_thr (notify st) u = b_thr st u \/ (exists o m, b_thr st u = TSleep o m /\ b_thr (notify st) u = TSleep o true)).
    { intros u _. rewrite notify_thr. destruct (b_thr st u); eauto. }
    destruct h; cbn [hold_step] in H0; repeat match type of H0 with context [if ?b then _ else _] => let E := fresh "E" in destruct b eqn:E end; inv H0;
      cbn [local] in HL; try contradiction;
      try (rewrite app_nil_r; apply CK_unlock; [exact HC|exact Ho|rewrite H; cbn; auto]);
      try (apply Quiet; cbn [with_wait with_cnt b_own b_thr]; auto; try (intros v [X|[]]; discriminate); try (intros u r [X|[]]; discriminate)).
    right. destruct HL as [HL|HL]; [|exact HL]. exfalso. destruct HL as (_ & _ & ->). rewrite (i_cnt _ _ _ _ _ HI), Z.eqb_refl in E. discriminate.
  - (* wake *) eapply (CK_quiet n st tr K _ t (TWake old false) []); auto; cbn [with_thr b_own b_thr].
    + intros u N. left. now apply upd_other.
    + apply upd_same.
    + discriminate.
    + intros u. now rewrite app_nil_r.
    + intros u N. now rewrite app_nil_r.
    + rewrite H. cbn [published]. lia.
    + intros _. left. rewrite app_nil_r. cbn; lia.
  - eapply (CK_quiet n st tr K _ t (TWake old false) []); auto; cbn [with_thr b_own b_thr].
    + intros u N. left. now apply upd_other.
    + apply upd_same.
    + discriminate.
    + intros u. now rewrite app_nil_r.
    + intros u N. now rewrite app_nil_r.
    + rewrite H. cbn [published]. lia.
    + intros _. left. rewrite app_nil_r. cbn; lia.
  - contradiction.
  - (* relock *) rewrite app_nil_r. apply CK_lock; auto; [rewrite H; cbn [published]; lia|destruct timedout; reflexivity].
  - (* return *) eapply (CK_quiet n st tr K _ t TIdle [ERet t r]); auto; cbn [with_thr b_own b_thr].
    + intros u N. left. now apply upd_other.
    + apply upd_same.
    + discriminate.
    + intros u. apply calls_nocall. intros v [X|[]]; discriminate.
    + intros u N. apply rets_noret. intros r' [X|[]]. injection X; congruence.
    + rewrite H. cbn [published]. lia.
    + intros _. left. rewrite rets_snoc, H. cbn. rewrite Nat.eqb_refl. cbn. lia.
Qed.

Lemma barrier_publishes n b0 ks tr st K : 1 <= n -> (Z.of_nat n < two32)%Z -> (0 <= b0 < two32)%Z ->
  clocked (Z.of_nat n) b0 ks tr st K -> only_threads n tr -> no_expiry ks -> CK n st tr K.
Proof.
  intros H1 H2 H3. induction 1 as [|ks tr st K k e st' HC IH HS]; intros HO HE.
  - apply CK_init.
  - apply only_threads_app in HO as [HO1 HO2]. apply no_expiry_app in HE as [HE1 HE2].
    destruct (Inv_execution n b0 ks tr st H1 H2 H3 (clocked_execution _ _ _ _ _ _ HC) HO1 HE1) as (g & HI).
    eapply CK_step; eauto. intros ->. apply HE2. cbn; auto.
Qed.

(* clocks never claim more than has happened *)
Lemma clock_sound n b0 ks tr st K : clocked n b0 ks tr st K ->
  (forall t u, k_thr K t u <= calls u tr) /\ (forall u, k_mtx K u <= calls u tr).
Proof.
  induction 1 as [|ks tr st K k e st' HC (A & B) HS]; [split; intros; cbn; lia|].
  assert (Mo : forall u, calls u tr <= calls u (tr ++ e)) by (intros u; unfold calls; rewrite count_app; lia).
  set (K1 := match e with [ECall t] => mkK (tick (k_thr K) t) (k_mtx K) | _ => K end).
  assert (C : (forall t u, k_thr K1 t u <= calls u (tr ++ e)) /\ (forall u, k_mtx K1 u <= calls u (tr ++ e))).
  { assert (D : (forall t u, k_thr K t u <= calls u (tr ++ e)) /\ (forall u, k_mtx K u <= calls u (tr ++ e))).
    { split; intros; specialize (Mo u); [specialize (A t u)|specialize (B u)]; lia. }
    unfold K1. destruct e as [|[] []]; try exact D. cbn [k_thr k_mtx]. split; [|apply D].
    intros t' u. unfold tick. destruct (Nat.eq_dec t' t) as [->|N]; [rewrite set_same|rewrite set_other by exact N; apply D].
    destruct (Nat.eqb_spec u t) as [->|N]; [|apply D]. rewrite calls_snoc. cbn [is_call]. rewrite Nat.eqb_refl. cbn. specialize (A t t). lia. }
  destruct C as (C1 & C2). unfold clock_step. fold K1.
  destruct (b_own st) as [o|], (b_own st') as [o'|]; cbn [k_thr k_mtx]; auto.
  - split; [exact C1|]. intros u. unfold join_clock. specialize (C1 o u). specialize (C2 u). lia.
  - split; [|exact C2]. intros t u. destruct (Nat.eq_dec t o') as [->|N]; [rewrite set_same|rewrite set_other by exact N; apply C1].
    unfold join_clock. specialize (C1 o' u). specialize (C2 u). lia.
Qed.
