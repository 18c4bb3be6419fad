(* L_PublishO.v -- finished calls on a mailbox happen before the next one. *)
From Verif Require Import Base M_MailBox M_MailBoxConc S_MailBox S_MailBoxConc S_Publish L_MailBoxConc L_PublishM.
Local Open Scope nat_scope.

Section L.
Context {M : Type}.
Definition leaving (x : tstate M) : nat := match x with Leaving _ => 1 | _ => 0 end.
(* how many calls of thread u have released their mutex *)
Definition fin (st : cstate M) (tr : list (ev M)) (u : nat) : nat := length (rets_of u tr) + leaving (thr st u).
Definition reach (K : mclocks) (st : cstate M) (b : nat) : clock := match owner st b with None => mk_mtx K b | Some t => mk_thr K t end.
Definition ordered (st : cstate M) (tr : list (ev M)) (K : mclocks) : Prop :=
  forall b u k c, nth_error (calls_of u tr) k = Some (b, c) -> k < fin st tr u -> k < reach K st b u.

Lemma fin_len names st tr : csteps (cinit names) tr st -> forall t,
  length (calls_of t tr) = fin st tr t + (match thr st t with Want _ _ | Inside _ _ => 1 | _ => 0 end).
Proof.
  intros H t. destruct (inv_run names tr st H) as (o & w & rs & I). assert (X := i_thr _ _ _ _ _ _ I t).
  destruct (i_seq _ _ _ _ _ _ I) as [_ E]. pose proof (len_of t o rs E) as L. unfold fin, leaving.
  destruct (thr st t) as [|b c|b p|r].
  - destruct X as [A B]. rewrite <- A, <- B. lia.
  - destruct X as [A B]. rewrite A, app_length, <- B. cbn. lia.
  - destruct X as (A & _ & r & B & _). rewrite <- A, <- L, B, app_length. cbn. lia.
  - destruct X as [A B]. rewrite <- A, <- L, B, app_length. cbn. lia.
Qed.
Lemma fin_other (st st' : cstate M) tr e u : thr st' u = thr st u -> rets_of u e = [] -> fin st' (tr ++ e) u = fin st tr u.
Proof. intros H R. unfold fin. rewrite H, rets_app, R, app_nil_r. reflexivity. Qed.

Lemma ordered_step names st tr K e st' K' : mclocked names tr st K -> cstep st e st' -> mclock_step st e st' K K' ->
  ordered st tr K -> ordered st' (tr ++ e) K'.
Proof.
  intros HC HS HK HO. assert (FL := fin_len names st tr (mclocked_csteps _ _ _ _ HC)). assert (HI := MI_run _ _ _ _ HC).
  assert (OW : forall t b p, thr st t = Inside b p -> owner st b = Some t).
  { destruct (inv_run names tr st (mclocked_csteps _ _ _ _ HC)) as (o & w & rs & I).
    intros t b p E. assert (X := i_thr _ _ _ _ _ _ I t). rewrite E in X. tauto. }
  assert (Old : forall u k x, k < fin st tr u -> nth_error (calls_of u (tr ++ e)) k = Some x -> nth_error (calls_of u tr) k = Some x).
  { intros u k x L N. rewrite calls_app, nth_error_app1 in N; [exact N|]. specialize (FL u). lia. }
  inversion HS as [st0 t b c E|st0 t b c E Ho|st0 t b p mb p' E B|st0 t b p mb r E B|st0 t r E]; subst; intros b' u k c' N L.
  - assert (F : fin (set_thr st t (Want b c)) (tr ++ [Inv t b c]) u = fin st tr u).
    { unfold fin. rewrite rets_app. cbn. rewrite app_nil_r. destruct (Nat.eqb_spec u t) as [->|D]; [rewrite E; reflexivity|reflexivity]. }
    rewrite F in L. assert (X := HO b' u k c' (Old u k _ L N) L). apply K_call in HK as ->. unfold reach in *. cbn.
    destruct (owner st b') as [t'|]; [|exact X]. unfold tick, set_clock. destruct (Nat.eqb_spec t' t) as [->|D]; [destruct (Nat.eqb u t); lia|exact X].
  - assert (F : fin (set_thr (set_owner st b (Some t)) t (Inside b (PStart c))) (tr ++ []) u = fin st tr u).
    { unfold fin. rewrite app_nil_r. cbn. destruct (Nat.eqb_spec u t) as [->|D]; [rewrite E; reflexivity|reflexivity]. }
    rewrite F in L. assert (X := HO b' u k c' (Old u k _ L N) L). apply (K_lock _ _ _ _ _ _ Ho) in HK as ->. unfold reach in *. cbn.
    destruct (Nat.eqb_spec b' b) as [->|D].
    + rewrite Ho in X. unfold set_clock, join_clock. rewrite Nat.eqb_refl. lia.
    + destruct (owner st b') as [t'|]; [|exact X]. unfold set_clock, join_clock. destruct (Nat.eqb_spec t' t) as [->|D']; [lia|exact X].
  - assert (F : fin (set_thr (set_box st b mb) t (Inside b p')) (tr ++ []) u = fin st tr u).
    { unfold fin. rewrite app_nil_r. cbn. destruct (Nat.eqb_spec u t) as [->|D]; [rewrite E; reflexivity|reflexivity]. }
    rewrite F in L. assert (X := HO b' u k c' (Old u k _ L N) L). apply K_other in HK as ->; [|reflexivity|intros ? ? ? []]. exact X.
  - assert (Ho := OW t b p E). apply (K_unlock _ _ _ _ _ _ _ Ho) in HK as ->. rewrite app_nil_r in N.
    assert (F : fin (set_thr (set_owner (set_box st b mb) b None) t (Leaving r)) (tr ++ []) u = if Nat.eqb u t then S (fin st tr u) else fin st tr u).
    { unfold fin. rewrite app_nil_r. cbn. destruct (Nat.eqb_spec u t) as [->|D]; [rewrite E; cbn; lia|reflexivity]. }
    rewrite F in L. assert (Z : mk_mtx K b' u <= mk_mtx K b' u) by lia.
    assert (C : k < fin st tr u \/ (u = t /\ k = fin st tr t)).
    { destruct (Nat.eqb_spec u t) as [->|D]; [|left; exact L]. destruct (Nat.eq_dec k (fin st tr t)); [right; auto|left; lia]. }
    unfold reach. cbn. destruct C as [C|[-> ->]].
    + assert (X := HO b' u k c' N C). unfold reach in X. destruct (Nat.eqb_spec b' b) as [->|D].
      * rewrite Ho in X. unfold set_clock, join_clock. rewrite Nat.eqb_refl. lia.
      * destruct (owner st b') as [t'|]; [exact X|]. unfold set_clock. apply Nat.eqb_neq in D. rewrite D. exact X.
    + assert (Y := mi_thr _ _ _ HI t). rewrite E in Y. destruct Y as (c & (pre & Cu) & _).
      specialize (FL t). rewrite E, Cu, app_length in FL. cbn in FL. assert (fin st tr t = length pre) by lia.
      rewrite Cu, H, nth_error_app2, Nat.sub_diag in N by lia. cbn in N. injection N as -> ->.
      rewrite Nat.eqb_refl. unfold set_clock, join_clock. rewrite Nat.eqb_refl.
      assert (Q := mi_own _ _ _ HI t). rewrite Cu, app_length in Q. cbn in Q. lia.
  - assert (F : fin (set_thr st t Idle) (tr ++ [Ret t r]) u = fin st tr u).
    { unfold fin. rewrite rets_app, app_length. unfold rets_of at 2. cbn. rewrite (Nat.eqb_sym t u). destruct (Nat.eqb_spec u t) as [->|D]; [rewrite E; cbn; lia|cbn; lia]. }
    rewrite F in L. assert (X := HO b' u k c' (Old u k _ L N) L). apply K_other in HK as ->; [|reflexivity|intros ? ? ? [Y|[]]; discriminate Y]. exact X.
Qed.
Lemma ordered_run names tr st K : mclocked names tr st K -> ordered st tr K.
Proof.
  induction 1 as [|tr st K e st' K' HC IH HS HK]; [intros b u k c N L; destruct k; discriminate|]. eapply ordered_step; eauto.
Qed.
Lemma inside_after names (tr : list (ev M)) st K t b p u k c : mclocked names tr st K -> thr st t = Inside b p ->
  nth_error (calls_of u tr) k = Some (b, c) -> k < length (rets_of u tr) -> k < mk_thr K t u.
Proof.
  intros HC E N L. assert (X := ordered_run _ _ _ _ HC b u k c N). unfold fin in X. specialize (X ltac:(lia)). unfold reach in X.
  destruct (inv_run names tr st (mclocked_csteps _ _ _ _ HC)) as (o & w & rs & I).
  assert (Y := i_thr _ _ _ _ _ _ I t). rewrite E in Y. destruct Y as (_ & Y & _). rewrite Y in X. exact X.
Qed.

Lemma clock_mono (st : cstate M) e st' K K' : mclock_step st e st' K K' -> forall t u, mk_thr K t u <= mk_thr K' t u.
Proof.
  intros HK. inversion HK; subst; cbn; intros t1 u; unfold tick, set_clock, join_clock; try lia.
  - destruct (Nat.eqb_spec t1 t) as [->|N]; [destruct (Nat.eqb u t); lia|lia].
  - destruct (Nat.eqb_spec t1 t) as [->|N]; lia.
Qed.
Lemma app_cases {A} (l e l1 l2 : list A) : length e <= 1 -> l ++ e = l1 ++ l2 -> (l2 = [] /\ l1 = l ++ e) \/ exists l2', l2 = l2' ++ e /\ l = l1 ++ l2'.
Proof.
  intros H E. destruct e as [|x [|y e]]; [| |cbn in H; lia].
  - rewrite app_nil_r in E. right. exists l2. rewrite app_nil_r. auto.
  - destruct l2 as [|z l2 _] using rev_ind; [left; rewrite app_nil_r in E; auto|]. right. rewrite app_assoc in E. apply app_inj_tail in E as (-> & ->). eauto.
Qed.
Definition begun (st : cstate M) (tr : list (ev M)) (t : nat) : nat := fin st tr t + match thr st t with Inside _ _ => 1 | _ => 0 end.
Lemma after_run names (tr : list (ev M)) st K : mclocked names tr st K -> forall tr1 tr2 t u b c1 c2 j k, tr = tr1 ++ tr2 ->
  nth_error (calls_of u tr1) k = Some (b, c1) -> k < length (rets_of u tr1) ->
  nth_error (calls_of t tr) j = Some (b, c2) -> length (calls_of t tr1) <= j -> j < begun st tr t -> k < mk_thr K t u.
Proof.
  induction 1 as [|tr st K e st' K' HC IH HS HK]; intros tr1 tr2 t u b c1 c2 j k E N1 L1 N2 L2 L3.
  { destruct k; destruct tr1; discriminate. }
  assert (FL := fin_len names st tr (mclocked_csteps _ _ _ _ HC)).
  assert (HC' : mclocked names (tr ++ e) st' K') by (eapply mck_snoc; eauto).
  assert (Mo := clock_mono _ _ _ _ _ HK t u).
  assert (JL : j < length (calls_of t (tr ++ e))) by (apply nth_error_Some; rewrite N2; discriminate).
  destruct (app_cases tr e tr1 tr2 ltac:(inversion HS; cbn; lia) E) as [(-> & ->)|(tr2' & -> & Et)]; [lia|].
  assert (Keep : j < begun st tr t -> k < mk_thr K' t u).
  { intros L. enough (k < mk_thr K t u) by lia. eapply (IH tr1 tr2'); eauto. rewrite <- N2. rewrite calls_app, nth_error_app1; [reflexivity|].
    specialize (FL t). unfold begun in L. destruct (thr st t); lia. }
  inversion HS as [st0 t0 b0 c E0|st0 t0 b0 c E0 Ho|st0 t0 b0 p mb p' E0 B|st0 t0 b0 p mb r E0 B|st0 t0 r E0]; subst st0; subst st' e.
  - apply Keep. revert L3. unfold begun, fin. rewrite rets_app. cbn. rewrite app_nil_r. destruct (Nat.eqb_spec t t0) as [->|D]; [rewrite E0; cbn; lia|auto].
  - destruct (Nat.eq_dec t t0) as [->|D].
    + destruct (Nat.eq_dec j (fin st tr t0)) as [->|Dj].
      * eapply (inside_after names _ _ _ t0 b0 _ u k c1 HC').
        -- apply set_thr_same.
        -- assert (Y := mi_thr _ _ _ (MI_run _ _ _ _ HC) t0). rewrite E0 in Y. destruct Y as (pre & Cu). specialize (FL t0). rewrite E0, Cu, app_length in FL. cbn in FL.
           rewrite app_nil_r, Cu, nth_error_app2 in N2 by lia. replace (fin st tr t0 - length pre) with 0 in N2 by lia. cbn in N2. injection N2 as -> ->.
           rewrite app_nil_r, Et. rewrite calls_app, nth_error_app1; [exact N1|]. apply nth_error_Some. rewrite N1. discriminate.
        -- rewrite app_nil_r, Et, rets_app, app_length. lia.
      * apply Keep. revert L3. unfold begun. rewrite app_nil_r. unfold fin. cbn. rewrite Nat.eqb_refl, E0. cbn. unfold fin in Dj. rewrite E0 in Dj. cbn in Dj. lia.
    + apply Keep. revert L3. unfold begun, fin. rewrite app_nil_r. cbn. apply Nat.eqb_neq in D. rewrite D. auto.
  - apply Keep. revert L3. unfold begun, fin. rewrite app_nil_r. cbn. destruct (Nat.eqb_spec t t0) as [->|D]; [rewrite E0; cbn; lia|auto].
  - apply Keep. revert L3. unfold begun, fin. rewrite app_nil_r. cbn. destruct (Nat.eqb_spec t t0) as [->|D]; [rewrite E0; cbn; lia|auto].
  - apply Keep. revert L3. unfold begun, fin. rewrite rets_app, app_length. unfold rets_of at 2. cbn. rewrite (Nat.eqb_sym t0 t). destruct (Nat.eqb_spec t t0) as [->|D]; [rewrite E0; cbn; lia|cbn; lia].
Qed.

(* two finished calls of different threads on one mailbox are ordered *)
Lemma pair_run names (tr : list (ev M)) st K : mclocked names tr st K -> forall t u b c1 c2 j k, t <> u ->
  nth_error (calls_of u tr) k = Some (b, c1) -> k < fin st tr u ->
  nth_error (calls_of t tr) j = Some (b, c2) -> j < fin st tr t -> k < mk_thr K t u \/ j < mk_thr K u t.
Proof.
  induction 1 as [|tr st K e st' K' HC IH HS HK]; intros t u b c1 c2 j k Dtu N1 L1 N2 L2.
  { destruct k; discriminate. }
  assert (FL := fin_len names st tr (mclocked_csteps _ _ _ _ HC)).
  assert (HI := MI_run _ _ _ _ HC). assert (OR := ordered_run _ _ _ _ HC).
  assert (OW : forall t b p, thr st t = Inside b p -> owner st b = Some t).
  { destruct (inv_run names tr st (mclocked_csteps _ _ _ _ HC)) as (o & w & rs & I).
    intros t1 b1 p E. assert (X := i_thr _ _ _ _ _ _ I t1). rewrite E in X. tauto. }
  assert (Mo := clock_mono _ _ _ _ _ HK).
  assert (Old : forall u k x, k < fin st tr u -> nth_error (calls_of u (tr ++ e)) k = Some x -> nth_error (calls_of u tr) k = Some x).
  { intros u0 k0 x L N. rewrite calls_app, nth_error_app1 in N; [exact N|]. specialize (FL u0). lia. }
  assert (Keep : k < fin st tr u -> j < fin st tr t -> k < mk_thr K' t u \/ j < mk_thr K' u t).
  { intros A B. destruct (IH t u b c1 c2 j k Dtu (Old _ _ _ A N1) A (Old _ _ _ B N2) B) as [X|X]; [left; specialize (Mo t u)|right; specialize (Mo u t)]; lia. }
  inversion HS as [st0 t0 b0 c E0|st0 t0 b0 c E0 Ho|st0 t0 b0 p mb p' E0 B|st0 t0 b0 p mb r E0 B|st0 t0 r E0]; subst st0; subst st' e.
  - assert (F : forall v, fin (set_thr st t0 (Want b0 c)) (tr ++ [Inv t0 b0 c]) v = fin st tr v).
    { intros v. unfold fin. rewrite rets_app. cbn. rewrite app_nil_r. destruct (Nat.eqb_spec v t0) as [->|D]; [rewrite E0; reflexivity|reflexivity]. }
    rewrite F in L1, L2. auto.
  - assert (F : forall v, fin (set_thr (set_owner st b0 (Some t0)) t0 (Inside b0 (PStart c))) (tr ++ []) v = fin st tr v).
    { intros v. unfold fin. rewrite app_nil_r. cbn. destruct (Nat.eqb_spec v t0) as [->|D]; [rewrite E0; reflexivity|reflexivity]. }
    rewrite F in L1, L2. auto.
  - assert (F : forall v, fin (set_thr (set_box st b0 mb) t0 (Inside b0 p')) (tr ++ []) v = fin st tr v).
    { intros v. unfold fin. rewrite app_nil_r. cbn. destruct (Nat.eqb_spec v t0) as [->|D]; [rewrite E0; reflexivity|reflexivity]. }
    rewrite F in L1, L2. auto.
  - assert (F : forall v, fin (set_thr (set_owner (set_box st b0 mb) b0 None) t0 (Leaving r)) (tr ++ []) v = if Nat.eqb v t0 then S (fin st tr v) else fin st tr v).
    { intros v. unfold fin. rewrite app_nil_r. cbn. destruct (Nat.eqb_spec v t0) as [->|D]; [rewrite E0; cbn; lia|reflexivity]. }
    rewrite F in L1, L2. assert (Ho := OW _ _ _ E0).
    assert (Y := mi_thr _ _ _ HI t0). rewrite E0 in Y. destruct Y as (c & (pre & Cu) & _).
    assert (FL0 := FL t0). rewrite E0, Cu, app_length in FL0. cbn in FL0.
    assert (New : forall v i cv cw w, v <> t0 -> i < fin st tr v -> nth_error (calls_of v (tr ++ [])) i = Some (w, cv) ->
       nth_error (calls_of t0 (tr ++ [])) (fin st tr t0) = Some (w, cw) -> i < mk_thr K' t0 v).
    { intros v i cv cw w Dv Lv Nv N0. rewrite app_nil_r, Cu, nth_error_app2 in N0 by lia. replace (fin st tr t0 - length pre) with 0 in N0 by lia. cbn in N0. injection N0 as -> ->.
      assert (X := OR w v i cv (Old _ _ _ Lv Nv) Lv). unfold reach in X. rewrite Ho in X. specialize (Mo t0 v). lia. }
    destruct (Nat.eqb_spec u t0) as [Eu|Du]; destruct (Nat.eqb_spec t t0) as [Ett|Dt]; try congruence.
    + destruct (Nat.eq_dec k (fin st tr u)) as [->|Dk]; [|apply Keep; lia]. right. subst u. exact (New t j c2 c1 b Dt L2 N2 N1).
    + destruct (Nat.eq_dec j (fin st tr t)) as [->|Dk]; [|apply Keep; lia]. left. subst t. exact (New u k c1 c2 b Du L1 N1 N2).
    + apply Keep; assumption.
  - assert (F : forall v, fin (set_thr st t0 Idle) (tr ++ [Ret t0 r]) v = fin st tr v).
    { intros v. unfold fin. rewrite rets_app, app_length. unfold rets_of at 2. cbn. rewrite (Nat.eqb_sym t0 v). destruct (Nat.eqb_spec v t0) as [->|D]; [rewrite E0; cbn; lia|cbn; lia]. }
    rewrite F in L1, L2. auto.
Qed.
End L.
