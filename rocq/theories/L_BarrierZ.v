(* L_BarrierZ.v -- barriers for one thread and for none *)
From Verif Require Import Base M_Barrier S_Barrier L_Barrier.
Local Open Scope nat_scope.

(* ---- one waiter ---- *)
Definition going (x : tst) : Prop :=
  match x with
  | TIdle | TCalled | TGot _ | THold _ HInc | THold _ HTest | THold _ HBump | THold _ HNotify | THold _ (HOut Passed) | TDone Passed => True
  | _ => False
  end.
Definition at_test (x : tst) : Prop := exists old, x = THold old HTest.
Record one_inv (st : bstate) : Prop := {
  o_mutex : mutex st;
  o_n : b_n st = 1%Z;
  o_going : forall t, going (b_thr st t);
  o_wait : (forall t, at_test (b_thr st t) -> b_wait st = 1%Z) /\ ((forall t, ~ at_test (b_thr st t)) -> b_wait st = 0%Z);
}.
Definition thr_upd (st : bstate) t x := with_thr st t x.
Lemma one_step st k e st' : one_inv st -> bstep st k e st' ->
  one_inv st' /\ k <> KExpire /\ k <> KSpurious /\ (forall t r, In (ERet t r) e -> r = Passed) /\ (forall t r, ~ In (EThrow t r) e).
Proof.
  intros [HM Hn HG HW] S. assert (HM' := mutex_step _ _ _ _ HM S). 
  assert (W0 : forall t, b_own st = Some t -> ~ at_test (b_thr st t) -> b_wait st = 0%Z).
  { intros t O N. apply (proj2 HW). intros u (old & E). assert (b_own st = Some u) by (apply HM; unfold holds; eauto).
    assert (u = t) by congruence. subst. apply N. exists old. exact E. }
  assert (W1 : b_own st = None -> b_wait st = 0%Z).
  { intros O. apply (proj2 HW). intros u (old & E). assert (b_own st = Some u) by (apply HM; unfold holds; eauto). congruence. }
  assert (simple : forall t x, ~ at_test (b_thr st t) -> going x -> ~ at_test x -> mutex (with_thr st t x) -> one_inv (with_thr st t x)).
  { intros t x A G B Mx. constructor; [exact Mx|exact Hn| |].
    - intros u. cbn. destruct (Nat.eq_dec u t) as [->|D]; [rewrite upd_same|rewrite upd_other by exact D]; auto.
    - cbn. split.
      + intros u U. destruct (Nat.eq_dec u t) as [->|D]; [rewrite upd_same in U; contradiction|rewrite upd_other in U by exact D; eapply (proj1 HW); eauto].
      + intros N. apply (proj2 HW). intros u U. destruct (Nat.eq_dec u t) as [->|D]; [contradiction|]. apply (N u). rewrite upd_other by exact D. exact U. }
  assert (locked : forall w c o t x, (forall u, u <> t -> ~ at_test (b_thr st u)) -> going x ->
     (at_test x -> w = 1%Z) -> (~ at_test x -> w = 0%Z) ->
     mutex (with_thr (mkB (b_n st) w c (b_corr st) o (b_thr st)) t x) -> one_inv (with_thr (mkB (b_n st) w c (b_corr st) o (b_thr st)) t x)).
  { intros w c o t x A G B1 B0 Mx. constructor; [exact Mx|exact Hn| |].
    - intros u. cbn. destruct (Nat.eq_dec u t) as [->|D]; [rewrite upd_same|rewrite upd_other by exact D]; auto.
    - cbn. split.
      + intros u U. destruct (Nat.eq_dec u t) as [->|D]; [rewrite upd_same in U; auto|rewrite upd_other in U by exact D; destruct (A u D U)].
      + intros N. apply B0. specialize (N t). rewrite upd_same in N. exact N. }
  assert (others : forall t, b_own st = Some t \/ b_own st = None -> forall u, u <> t -> ~ at_test (b_thr st u)).
  { intros t O u D (old & E). assert (b_own st = Some u) by (apply HM; unfold holds; eauto). destruct O; congruence. }
  assert (NT : forall x, at_test x -> exists old, x = THold old HTest) by (intros x H; exact H).
  inv S.
  - split; [|split; [discriminate|split; [discriminate|split; [intros ? ? [X|[]]; discriminate|intros ? ? [X|[]]; discriminate]]]].
    apply simple; [rewrite H; intros (o & X); discriminate|exact I|intros (o & X); discriminate|exact HM'].
  - split; [|split; [discriminate|split; [discriminate|split; [intros ? ? [X|[]]; discriminate|intros ? ? [X|[]]; discriminate]]]].
    apply simple; [rewrite H; intros (o & X); discriminate|exact I|intros (o & X); discriminate|exact HM'].
  - split; [|split; [discriminate|split; [discriminate|split; [intros ? ? []|intros ? ? []]]]].
    apply (locked (b_wait st) (b_cnt st) (Some t) t); [apply others; right; assumption|exact I|intros (o & X); discriminate|intros _; apply W1; assumption|exact HM'].
  - assert (O : b_own st = Some t) by (apply HM; unfold holds; eauto). assert (G := HG t). rewrite H in G.
    assert (W0' : h <> HTest -> b_wait st = 0%Z).
    { intros N. apply (W0 t O). rewrite H. intros (o & X). congruence. }
    destruct h; cbn [hold_step] in H0; cbn in G; try contradiction.
    + injection H0 as <- <- <-. split; [|split; [discriminate|split; [discriminate|split; [intros ? ? [X|[]]; discriminate|intros ? ? [X|[]]; discriminate]]]].
      apply locked; [apply others; left; assumption|exact I| |intros N; destruct N; eexists; reflexivity|exact HM'].
      intros _. rewrite W0' by discriminate. reflexivity.
    + assert (W : b_wait st = 1%Z) by (apply (proj1 HW t); rewrite H; eexists; reflexivity).
      rewrite W, Hn in H0. cbn in H0. injection H0 as <- <- <-. split; [|split; [discriminate|split; [discriminate|split; [intros ? ? []|intros ? ? []]]]].
      apply locked; [apply others; left; assumption|exact I|intros (o & X); discriminate|reflexivity|exact HM'].
    + injection H0 as <- <- <-. split; [|split; [discriminate|split; [discriminate|split; [intros ? ? [X|[]]; discriminate|intros ? ? [X|[]]; discriminate]]]].
      apply locked; [apply others; left; assumption|exact I|intros (o & X); discriminate|intros _; apply W0'; discriminate|exact HM'].
    + injection H0 as <- <- <-. split; [|split; [discriminate|split; [discriminate|split; [intros ? ? []|intros ? ? []]]]].
      assert (E : forall u, b_thr (notify st) u = b_thr st u).
      { intros u. rewrite notify_thr. specialize (HG u). destruct (b_thr st u); try reflexivity. contradiction. }
      constructor; [exact HM'|exact Hn| |].
      * intros u. cbn. destruct (Nat.eq_dec u t) as [->|D]; [rewrite upd_same; exact I|rewrite upd_other by exact D]. specialize (HG u). destruct (b_thr st u); auto.
      * cbn. split.
        -- intros u U. exfalso. destruct (Nat.eq_dec u t) as [->|D]; [rewrite upd_same in U; destruct U; discriminate|rewrite upd_other in U by exact D].
           apply (others t (or_introl O) u D). specialize (E u). rewrite notify_thr in E. rewrite <- E. exact U.
        -- intros _. apply W0'. discriminate.
    + destruct r; cbn in G; try contradiction. injection H0 as <- <- <-. split; [|split; [discriminate|split; [discriminate|split; [intros ? ? []|intros ? ? []]]]].
      apply (locked (b_wait st) (b_cnt st) None t); [apply others; left; assumption|exact I|intros (o & X); discriminate|intros _; apply W0'; discriminate|exact HM'].
  - exfalso. specialize (HG t). rewrite H in HG. exact HG.
  - exfalso. specialize (HG t). rewrite H in HG. exact HG.
  - exfalso. specialize (HG t). rewrite H in HG. exact HG.
  - exfalso. specialize (HG t). rewrite H in HG. exact HG.
  - assert (G := HG t). rewrite H in G. destruct r; cbn in G; try contradiction.
    split; [|split; [discriminate|split; [discriminate|split; [intros ? ? [X|[]]; injection X; auto|intros ? ? [X|[]]; discriminate]]]].
    apply simple; [rewrite H; intros (o & X); discriminate|exact I|intros (o & X); discriminate|exact HM'].
Qed.
Lemma one_all b0 ks tr st : execution 1 b0 ks tr st ->
  one_inv st /\ ~ In KExpire ks /\ ~ In KSpurious ks /\ (forall t r, In (ERet t r) tr -> r = Passed) /\ (forall t r, ~ In (EThrow t r) tr).
Proof.
  unfold execution. remember (binit 1 b0) as s0. induction 1 as [st|st ks tr st1 k e st2 H IH S]; subst.
  - split; [|cbn; intuition]. constructor; [apply mutex_init|reflexivity|intros; exact I|].
    split; [intros t (o & X); discriminate|reflexivity].
  - destruct (IH eq_refl) as (I & E & P & R & T). destruct (one_step _ _ _ _ I S) as (I' & E' & P' & R' & T').
    split; [exact I'|]. split; [|split; [|split]].
    + intros X. apply in_app_or in X. destruct X as [X|[X|[]]]; congruence.
    + intros X. apply in_app_or in X. destruct X as [X|[X|[]]]; congruence.
    + intros t r X. apply in_app_or in X. destruct X; eauto.
    + intros t r X. apply in_app_or in X. destruct X; [eapply T|eapply T']; eauto.
Qed.
Lemma one_runs b0 ks tr st t : execution 1 b0 ks tr st -> b_thr st t <> TIdle -> exists e st', bstep st KRun e st'.
Proof.
  intros H N. destruct (one_all _ _ _ _ H) as ([HM _ HG _] & _). assert (G := HG t).
  assert (OWN : forall u, b_own st = Some u -> exists e st', bstep st KRun e st').
  { intros u O. apply HM in O. destruct O as (old & h & E). destruct (hold_step st u old h) as [[s x] e] eqn:S. do 2 eexists. eapply b_hold; eassumption. }
  destruct (b_thr st t) as [| |old|old h|old nt|old to|r] eqn:E; cbn in G; try contradiction.
  - do 2 eexists. eapply b_read; eassumption.
  - destruct (b_own st) as [u|] eqn:O; [eapply OWN; reflexivity|]. do 2 eexists. eapply b_lock; eassumption.
  - apply (OWN t). apply HM. unfold holds. eauto.
  - do 2 eexists. eapply b_return; eassumption.
Qed.

(* ---- no waiters ---- *)
Definition held (b0 : Z) (x : tst) : Prop :=
  match x with
  | TIdle | TCalled => True
  | TGot old | THold old HInc | THold old HTest | THold old HPred | TWake old false | TSleep old false => old = b0
  | _ => False
  end.
Record none_inv (b0 : Z) (a : nat) (st : bstate) : Prop := {
  z_n : b_n st = 0%Z;
  z_cnt : b_cnt st = b0;
  z_wait : b_wait st = Z.of_nat a;
  z_held : forall t, held b0 (b_thr st t);
  z_test : forall t old, b_thr st t = THold old HTest -> 0 < a;
}.
Lemma none_step b0 a st k e st' : none_inv b0 a st -> bstep st k e st' -> k <> KExpire -> (Z.of_nat (a + count is_arrive e) < two32)%Z ->
  none_inv b0 (a + count is_arrive e) st' /\ (forall t r, ~ In (ERet t r) e).
Proof.
  intros [Hn Hc Hw HH HT] S K A.
  assert (simple : forall n w c r o t x a', n = 0%Z -> c = b0 -> w = Z.of_nat a' -> held b0 x -> (forall old, x = THold old HTest -> 0 < a') -> a <= a' ->
     none_inv b0 a' (with_thr (mkB n w c r o (b_thr st)) t x)).
  { intros n w c r o t x a' En Ec Ew Hx Tx L. constructor; cbn; auto.
    - intros u. destruct (Nat.eq_dec u t) as [->|D]; [rewrite upd_same|rewrite upd_other by exact D]; auto.
    - intros u old U. destruct (Nat.eq_dec u t) as [->|D]; [rewrite upd_same in U|rewrite upd_other in U by exact D]; [eauto|]. specialize (HT u old U). lia. }
  inv S.
  - unfold count. cbn. rewrite Nat.add_0_r. split; [|intros t' r [X|[]]; discriminate]. apply simple; auto; try discriminate; reflexivity.
  - unfold count. cbn. rewrite Nat.add_0_r. split; [|intros t' r [X|[]]; discriminate]. apply simple; auto; try discriminate; reflexivity.
  - unfold count. cbn. rewrite Nat.add_0_r. split; [|intros t' r []]. apply simple; auto; try discriminate; try lia; specialize (HH t); rewrite H in HH; exact HH.
  - assert (G := HH t). rewrite H in G. destruct h; cbn in G; try contradiction; subst old; cbn [hold_step] in H0.
    + injection H0 as <- <- <-. unfold count in *. cbn in *. split; [|intros t' r [X|[]]; discriminate].
      apply simple; auto; try discriminate; try (specialize (HH t); rewrite H in HH; exact HH); try lia; rewrite Hw; unfold to_u32; rewrite Z.mod_small; lia.
    + assert (0 < a) by (eapply HT; exact H). rewrite Hn, Hw in H0. destruct (Z.eqb_spec (Z.of_nat a) 0); [lia|].
      injection H0 as <- <- <-. unfold count. cbn. rewrite Nat.add_0_r. split; [|intros t' r []]. apply simple; auto; try discriminate; reflexivity.
    + rewrite Z.eqb_refl in H0. injection H0 as <- <- <-. unfold count. cbn. rewrite Nat.add_0_r. split; [|intros t' r []].
      apply simple; auto; try discriminate; reflexivity.
  - exfalso. specialize (HH t). rewrite H in HH. exact HH.
  - unfold count. cbn. rewrite Nat.add_0_r. split; [|intros t' r []]. apply simple; auto; try discriminate; try lia; specialize (HH t); rewrite H in HH; exact HH.
  - congruence.
  - assert (G := HH t). rewrite H in G. destruct timedout; [contradiction|].
    unfold count. cbn. rewrite Nat.add_0_r. split; [|intros t' r []]. apply simple; auto. discriminate.
  - exfalso. specialize (HH t). rewrite H in HH. exact HH.
Qed.
Lemma none_all b0 ks tr st : execution 0 b0 ks tr st -> no_expiry ks -> (Z.of_nat (count is_arrive tr) < two32)%Z ->
  none_inv b0 (count is_arrive tr) st /\ (forall t r, ~ In (ERet t r) tr).
Proof.
  unfold execution. remember (binit 0 b0) as s0. induction 1 as [st|st ks tr st1 k e st2 H IH S]; subst; intros K A.
  - split; [|intros t r []]. constructor; cbn; auto. discriminate.
  - rewrite count_app in *. destruct (IH eq_refl) as (I & R); [intros X; apply K, in_or_app; auto|lia|].
    destruct (none_step b0 _ _ _ _ _ I S) as (I' & R'); [intros ->; apply K, in_or_app; right; left; reflexivity|exact A|].
    split; [exact I'|]. intros t r X. apply in_app_or in X. destruct X; [eapply R|eapply R']; eauto.
Qed.
Lemma none_stuck b0 ks tr st t : execution 0 b0 ks tr st -> no_expiry ks -> (Z.of_nat (count is_arrive tr) < two32)%Z ->
  (forall e st', ~ bstep st KRun e st') -> b_thr st t = TIdle \/ b_thr st t = TSleep b0 false.
Proof.
  intros H K A N. assert (HM := mutex_execution _ _ _ _ _ H). destruct (none_all _ _ _ _ H K A) as ([_ _ _ HH _] & _).
  assert (OWN : b_own st = None).
  { destruct (b_own st) as [u|] eqn:O; [|reflexivity]. exfalso. apply HM in O. destruct O as (old & h & E).
    destruct (hold_step st u old h) as [[s x] e] eqn:S. eapply N, b_hold; eassumption. }
  specialize (HH t). destruct (b_thr st t) as [| |old|old h|old nt|old to|r] eqn:E; cbn in HH.
  - left; reflexivity.
  - exfalso. eapply N, b_read; eassumption.
  - exfalso. eapply N, b_lock; eassumption.
  - exfalso. destruct (hold_step st t old h) as [[s x] e] eqn:S. eapply N, b_hold; eassumption.
  - destruct nt; [contradiction|]. right. congruence.
  - exfalso. eapply N, b_relock; eassumption.
  - contradiction.
Qed.
