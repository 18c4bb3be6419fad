(* L_BarrierT.v -- any threads, any timeouts *)
From Verif Require Import Base M_Barrier S_Barrier L_Barrier L_BarrierN.
From Coq Require Import ZifyBool Setoid.
Local Open Scope nat_scope.

(* ---- at most one Timeout ---- *)
Inductive cls := CMid | CFin | CCor | COther.
Definition classify (x : tst) : cls :=
  match x with
  | THold _ HInf | THold _ HNotify2 | THold _ HThrow => CMid
  | THold _ (HOut ThrewTimeout) | TDone ThrewTimeout => CFin
  | THold _ (HOut ThrewCorrupt) | TDone ThrewCorrupt => CCor
  | _ => COther
  end.
Lemma classify_notify st t : classify (b_thr (notify st) t) = classify (b_thr st t).
Proof. rewrite notify_thr. destruct (b_thr st t); reflexivity. Qed.

Notation T tr := (count is_timeout_throw tr).
Notation R tr := (count is_timeout_ret tr).
Record PH (st : bstate) (tr : list bev) : Prop := {
  ph : (b_corr st = false /\ T tr = 0 /\ R tr = 0 /\ (forall t, classify (b_thr st t) = COther)) \/
       (b_corr st = true /\ T tr = 0 /\ R tr = 0 /\ (exists t, classify (b_thr st t) = CMid) /\ (forall t, classify (b_thr st t) <> CFin /\ classify (b_thr st t) <> CCor)) \/
       (b_corr st = true /\ T tr = 1 /\ R tr = 0 /\ (forall t, classify (b_thr st t) <> CMid) /\
          exists t, classify (b_thr st t) = CFin /\ forall t', classify (b_thr st t') = CFin -> t' = t) \/
       (b_corr st = true /\ T tr = 1 /\ R tr = 1 /\ (forall t, classify (b_thr st t) <> CMid /\ classify (b_thr st t) <> CFin));
  ph_cor : (exists t, In (EThrow t ThrewCorrupt) tr \/ In (ERet t ThrewCorrupt) tr) -> T tr = 1
}.

Lemma snoc_T tr e : T (tr ++ [e]) = T tr + b2n (is_timeout_throw e).
Proof. rewrite count_app. unfold count at 2. cbn. destruct (is_timeout_throw e); reflexivity. Qed.
Lemma snoc_R tr e : R (tr ++ [e]) = R tr + b2n (is_timeout_ret e).
Proof. rewrite count_app. unfold count at 2. cbn. destruct (is_timeout_ret e); reflexivity. Qed.

(* classes of all threads unchanged, nothing recorded *)
Lemma PH_same st tr st' e : PH st tr -> b_corr st' = b_corr st -> (forall t, classify (b_thr st' t) = classify (b_thr st t)) ->
  T (tr ++ e) = T tr -> R (tr ++ e) = R tr -> (forall t, ~ In (EThrow t ThrewCorrupt) e /\ ~ In (ERet t ThrewCorrupt) e) -> PH st' (tr ++ e).
Proof.
  intros [HP HC] Ec Et E1 E2 HN. constructor; rewrite E1, ?E2.
  - destruct HP as [(A&B&C&D)|[(A&B&C&(t&D)&E)|[(A&B&C&D&t&E&F)|(A&B&C&D)]]].
    + left. repeat split; auto; try congruence.
    + right; left. repeat split; auto; try congruence; try (rewrite Et; apply E). exists t; congruence.
    + right; right; left. repeat split; auto; try congruence. exists t. split; [congruence|]. intros t' H. rewrite Et in H. auto.
    + right; right; right. repeat split; auto; try congruence; rewrite Et; apply D.
  - intros (t&H). apply HC. exists t. rewrite !in_app_iff in H. destruct (HN t). tauto.
Qed.

Lemma upd_classify (f : tid -> tst) t x : classify x = classify (f t) -> forall t', classify (upd_thr f t x t') = classify (f t').
Proof. intros H t'. destruct (Nat.eq_dec t' t) as [->|Hne]; [now rewrite upd_same|now rewrite upd_other]. Qed.

Ltac nocor := intros ?; cbn; split; intros H'; repeat match type of H' with _ \/ _ => destruct H' as [H'|H'] end; try discriminate; try contradiction; auto.
Ltac same H := eapply PH_same; [eassumption|reflexivity|
    cbn [with_thr b_thr]; apply upd_classify; cbn [with_own with_wait with_cnt b_thr]; rewrite H; try reflexivity
  |rewrite ?app_nil_r, ?snoc_T; cbn [is_timeout_throw b2n]; lia
  |rewrite ?app_nil_r, ?snoc_R; cbn [is_timeout_ret b2n]; lia|nocor].
Lemma PH_step st tr k e st' : mutex st -> PH st tr -> bstep st k e st' -> PH st' (tr ++ e).
Proof.
  intros HM HP HS. inv HS.
  - same H.
  - same H.
  - same H.
  - destruct h; cbn [hold_step] in H0.
    + inv H0. same H.
    + destruct (b_wait st =? b_n st)%Z; inv H0; same H.
    + inv H0. same H.
    + inv H0. eapply PH_same; [eassumption|reflexivity| |now rewrite app_nil_r|now rewrite app_nil_r|nocor].
      intro t'. cbn [with_thr b_thr]. rewrite upd_classify; [apply classify_notify|]. rewrite classify_notify, H. reflexivity.
    + destruct (old =? b_cnt st)%Z; inv H0; same H.
    + destruct (old =? b_cnt st)%Z; inv H0; same H.
    + (* HCorr *) assert (NM : forall t', classify (b_thr st t') <> CMid).
      { intros t' Hm. destruct (b_thr st t') as [| |o|o h|o nt|o td|[]] eqn:E; try discriminate.
        assert (t' = t) by (eapply mutex_unique; eauto). subst. rewrite H in E. inv E. discriminate. }
      destruct HP as [HP HC].
      destruct (b_corr st) eqn:Ec; inv H0.
      * (* throws Corrupt *)
        assert (U : forall t', t' <> t -> b_thr (with_thr st'0 t (THold old (HOut ThrewCorrupt))) t' = b_thr st'0 t') by (intros; now apply upd_other).
        assert (U0 : b_thr (with_thr st'0 t (THold old (HOut ThrewCorrupt))) t = THold old (HOut ThrewCorrupt)) by (now apply upd_same).
        constructor; rewrite snoc_T; cbn [is_timeout_throw b2n]; rewrite Nat.add_0_r; [rewrite snoc_R; cbn [is_timeout_ret b2n]; rewrite Nat.add_0_r|].
        -- destruct HP as [(A&_)|[(_&_&_&(t'&D)&_)|[(A&B&C&D&t'&E&F)|(A&B&C&D)]]]; [discriminate|exfalso; eapply NM; eauto| |].
           ++ right; right; left. assert (t' <> t) by (intros ->; rewrite H in E; discriminate).
              repeat split; auto. { intro u. destruct (Nat.eq_dec u t) as [->|Hne]; [rewrite U0; discriminate|rewrite U; auto]. }
              exists t'. rewrite U by auto. split; auto. intros u Hu. destruct (Nat.eq_dec u t) as [->|Hne]; [rewrite U0 in Hu; discriminate|]. rewrite U in Hu; auto.
           ++ right; right; right. repeat split; auto; destruct (Nat.eq_dec t0 t) as [->|Hne]; try (rewrite U0; discriminate); rewrite U by auto; apply D.
        -- intros _. destruct HP as [(A&_)|[(_&_&_&(t'&D)&_)|[(A&B&C&D&t'&E&F)|(A&B&C&D)]]]; auto; [discriminate|exfalso; eapply NM; eauto].
      * (* first to time out *)
        assert (U : forall t', t' <> t -> b_thr (with_thr (with_corr st) t (THold old HInf)) t' = b_thr st t') by (intros; now apply upd_other).
        assert (U0 : b_thr (with_thr (with_corr st) t (THold old HInf)) t = THold old HInf) by (now apply upd_same).
        rewrite app_nil_r. constructor; auto.
        destruct HP as [(A&B&C&D)|[(A&_)|[(A&_)|(A&_)]]]; try discriminate.
        right; left. repeat split; auto.
        -- exists t. now rewrite U0.
        -- destruct (Nat.eq_dec t0 t) as [->|Hne]; [rewrite U0; discriminate|rewrite U, D; auto; discriminate].
        -- destruct (Nat.eq_dec t0 t) as [->|Hne]; [rewrite U0; discriminate|rewrite U, D; auto; discriminate].
    + inv H0. same H.
    + inv H0. eapply PH_same; [eassumption|reflexivity| |now rewrite app_nil_r|now rewrite app_nil_r|nocor].
      intro t'. cbn [with_thr b_thr]. rewrite upd_classify; [apply classify_notify|]. rewrite classify_notify, H. reflexivity.
    + (* HThrow *) inv H0. destruct HP as [HP HC].
      assert (U : forall t', t' <> t -> b_thr (with_thr st'0 t (THold old (HOut ThrewTimeout))) t' = b_thr st'0 t') by (intros; now apply upd_other).
      assert (U0 : b_thr (with_thr st'0 t (THold old (HOut ThrewTimeout))) t = THold old (HOut ThrewTimeout)) by (now apply upd_same).
      assert (CT : classify (b_thr st'0 t) = CMid) by now rewrite H.
      assert (NM : forall t', t' <> t -> classify (b_thr st'0 t') <> CMid).
      { intros t' Hne Hm. destruct (b_thr st'0 t') as [| |o|o h|o nt|o td|[]] eqn:E; try discriminate.
        apply Hne. eapply mutex_unique; eauto. }
      destruct HP as [(A&B&C&D)|[(A&B&C&D&E)|[(A&B&C&D&t'&E&F)|(A&B&C&D)]]].
      1: rewrite D in CT; discriminate.
      2: exfalso; exact (D t CT).
      2: exfalso; exact (proj1 (D t) CT).
      constructor; rewrite snoc_T; cbn [is_timeout_throw b2n]; [rewrite snoc_R; cbn [is_timeout_ret b2n]|].
      * right; right; left. repeat split; auto; try lia.
        -- intro u. destruct (Nat.eq_dec u t) as [->|Hne]; [rewrite U0; discriminate|rewrite U; auto].
        -- exists t. rewrite U0. split; [reflexivity|]. intros u Hu. destruct (Nat.eq_dec u t) as [->|Hne]; auto. rewrite U in Hu by auto. exfalso. destruct (E u) as [E1 E2]. auto.
      * lia.
    + inv H0. destruct r; same H.
  - same H.
  - same H.
  - same H.
  - destruct timedout; same H.
  - assert (U : forall t', t' <> t -> b_thr (with_thr st t TIdle) t' = b_thr st t') by (intros; now apply upd_other).
    assert (U0 : b_thr (with_thr st t TIdle) t = TIdle) by (now apply upd_same).
    destruct r.
    + same H.
    + destruct HP as [HP HC]. assert (CT : classify (b_thr st t) = CFin) by now rewrite H.
      destruct HP as [(A&B&C&D)|[(A&B&C&D&E)|[(A&B&C&D&t'&E&F)|(A&B&C&D)]]].
      1: rewrite D in CT; discriminate.
      1: exfalso; exact (proj1 (E t) CT).
      2: exfalso; exact (proj2 (D t) CT).
      pose proof (F t CT). subst t'.
      constructor; rewrite snoc_T; cbn [is_timeout_throw b2n]; rewrite Nat.add_0_r; [rewrite snoc_R; cbn [is_timeout_ret b2n]|auto].
      right; right; right. repeat split; auto; try lia; destruct (Nat.eq_dec t0 t) as [->|Hne]; try (rewrite U0; discriminate); rewrite U by auto; auto.

    + destruct HP as [HP HC]. assert (CT : classify (b_thr st t) = CCor) by now rewrite H.
      constructor; rewrite snoc_T; cbn [is_timeout_throw b2n]; rewrite Nat.add_0_r; [rewrite snoc_R; cbn [is_timeout_ret b2n]; rewrite Nat.add_0_r|].
      * destruct HP as [(A&B&C&D)|[(A&B&C&D&E)|[(A&B&C&D&t'&E&F)|(A&B&C&D)]]].
        1: rewrite D in CT; discriminate.
        1: exfalso; exact (proj2 (E t) CT).
        -- right; right; left. assert (t' <> t) by (intros ->; congruence). repeat split; auto.
           ++ intro u. destruct (Nat.eq_dec u t) as [->|Hne]; [rewrite U0; discriminate|rewrite U; auto].
           ++ exists t'. rewrite U by auto. split; auto. intros u Hu. destruct (Nat.eq_dec u t) as [->|Hne]; [rewrite U0 in Hu; discriminate|]. rewrite U in Hu; auto.
        -- right; right; right. repeat split; auto; destruct (Nat.eq_dec t0 t) as [->|Hne]; try (rewrite U0; discriminate); rewrite U by auto; apply D.
      * intros _. destruct HP as [(A&B&C&D)|[(A&B&C&D&E)|[(A&B&C&D&t'&E&F)|(A&B&C&D)]]]; auto.
        -- rewrite D in CT; discriminate.
        -- exfalso; exact (proj2 (E t) CT).
Qed.
Lemma PH_execution n b0 ks tr st : execution n b0 ks tr st -> PH st tr.
Proof.
  unfold execution. remember (binit n b0) as s0. induction 1; subst.
  - constructor; [left; cbn; auto|]. intros (t&[[]|[]]).
  - eapply PH_step; eauto. eapply mutex_execution. unfold execution; eauto.
Qed.

Lemma one_timeout n b0 ks tr st : execution n b0 ks tr st -> R tr <= T tr <= 1.
Proof. intro H. destruct (PH_execution _ _ _ _ _ H) as [[(A&B&C&D)|[(A&B&C&D&E)|[(A&B&C&D&t'&E&F)|(A&B&C&D)]]] _]; lia. Qed.
Lemma corrupt_after_timeout n b0 ks tr st t tr1 tr2 : execution n b0 ks tr st ->
  (tr = tr1 ++ EThrow t ThrewCorrupt :: tr2 \/ tr = tr1 ++ ERet t ThrewCorrupt :: tr2) -> exists t', In (EThrow t' ThrewTimeout) tr1.
Proof.
  intros HE H.
  assert (exists e, is_timeout_throw e = false /\ tr = tr1 ++ e :: tr2 /\ (e = EThrow t ThrewCorrupt \/ e = ERet t ThrewCorrupt)) as (e&H1&H2&H3).
  { destruct H as [-> | ->]; eexists; (split; [|split; [reflexivity|auto]]); reflexivity. }
  destruct (execution_prefix _ _ _ _ _ _ _ _ HE H2) as (ks1&s1&HE1&_).
  assert (TT : T (tr1 ++ [e]) = 1).
  { apply (ph_cor _ _ (PH_execution _ _ _ _ _ HE1)). exists t. rewrite !in_app_iff. cbn. destruct H3 as [-> | ->]; auto. }
  rewrite snoc_T, H1 in TT. cbn in TT. rewrite Nat.add_0_r in TT. clear - TT. induction tr1 as [|x tr1 IH]; [discriminate|].
  unfold count in *. cbn in TT. destruct (is_timeout_throw x) eqn:E.
  - destruct x as [t'|t'|t'|t'|t'|t'|t' []|t' r]; try discriminate. exists t'. cbn; auto.
  - destruct (IH TT) as (t'&Ht'). exists t'. cbn; auto.
Qed.

(* ---- how a call ends ---- *)
Definition timing_out (x : tst) : bool :=
  match x with
  | TWake _ true => true
  | THold _ (HFinal | HCorr | HInf | HNotify2 | HThrow | HOut ThrewTimeout | HOut ThrewCorrupt) => true
  | TDone (ThrewTimeout | ThrewCorrupt) => true
  | _ => false
  end.
Definition in_call (x : tst) : bool := match x with TIdle => false | _ => true end.
Definition has_read (x : tst) : bool := match x with TIdle | TCalled => false | _ => true end.

(* the thread's last ECall is at a split point *)
Definition in_call_of (t : tid) (tr b : list bev) : Prop := exists a, tr = a ++ b /\ In (ECall t) a /\ ~ In (ECall t) b.

Lemma since_call_app t e tr x : since_call t e tr -> ~ In (ECall t) x -> since_call t e (tr ++ x).
Proof. intros (a&b&->&A&B&C) H. exists a, (b ++ x). rewrite app_assoc, !in_app_iff. tauto. Qed.
Lemma since_read_app t e tr x : since_read t e tr -> ~ In (ERead t) x -> since_read t e (tr ++ x).
Proof. intros (a&b&->&A&B) H. exists a, (b ++ x). rewrite <- app_assoc, app_comm_cons, !in_app_iff. tauto. Qed.

Record EN (st : bstate) (tr : list bev) : Prop := {
  en_call : forall t, in_call (b_thr st t) = true -> In (ECall t) tr;
  en_exp : forall t, timing_out (b_thr st t) = true -> since_call t (EExpire t) tr
}.
Lemma not_in_snoc_call t e : (forall t', e <> ECall t') -> ~ In (ECall t) [e].
Proof. intros H [X|[]]. eapply H; eauto. Qed.
Lemma since_call_mono t e tr x : since_call t e tr -> (forall t', ~ In (ECall t') x) -> since_call t e (tr ++ x).
Proof. intros. now apply since_call_app. Qed.

(* split off the trailing part after the last call *)
Lemma last_call_split t tr : In (ECall t) tr -> exists a b, tr = a ++ b /\ In (ECall t) a /\ ~ In (ECall t) b.
Proof.
  induction tr as [|x tr IH] using rev_ind; [intros []|]. intro H.
  assert (D : x = ECall t \/ x <> ECall t) by (destruct x; try (right; discriminate); destruct (Nat.eq_dec t0 t); [left; congruence|right; congruence]).
  destruct D as [->|D].
  - exists (tr ++ [ECall t]), []. rewrite app_nil_r. auto.
  - rewrite in_app_iff in H. destruct H as [H|[H|[]]]; [|congruence]. destruct (IH H) as (a&b&->&A&B).
    exists a, (b ++ [x]). rewrite app_assoc, in_app_iff. repeat split; auto. intros [X|[X|[]]]; auto.
Qed.

Lemma EN_one st tr st' t x e : EN st tr -> (forall t', t' <> t -> b_thr st' t' = b_thr st t' \/ (exists o n, b_thr st t' = TSleep o n /\ b_thr st' t' = TSleep o true)) ->
  b_thr st' t = x -> (forall t', t' <> t -> ~ In (ECall t') e) ->
  (in_call x = true -> In (ECall t) (tr ++ e)) -> (timing_out x = true -> since_call t (EExpire t) (tr ++ e)) -> EN st' (tr ++ e).
Proof.
  intros [H1 H2] HU H0 HN HC HE. constructor; intros t' H; destruct (Nat.eq_dec t' t) as [->|Hne]; try (rewrite H0 in H; auto).
  - apply in_app_iff. left. apply H1. destruct (HU t' Hne) as [E|(o&n&E&E')]; [congruence|]. now rewrite E.
  - apply since_call_app; auto. apply H2. destruct (HU t' Hne) as [E|(o&n&E&E')]; [congruence|]. rewrite E' in H. discriminate.
Qed.
Lemma upd_other_or f t x : forall t', t' <> t -> upd_thr f t x t' = f t' \/ (exists o n, f t' = TSleep o n /\ upd_thr f t x t' = TSleep o true).
Proof. intros t' H. left. now apply upd_other. Qed.
Lemma EN_upd st tr st' t x e : EN st tr -> b_thr st' = upd_thr (b_thr st) t x -> (forall t', t' <> t -> ~ In (ECall t') e) ->
  (in_call x = true -> In (ECall t) (tr ++ e)) -> (timing_out x = true -> since_call t (EExpire t) (tr ++ e)) -> EN st' (tr ++ e).
Proof. intros HI E. apply (EN_one st tr st' t x e HI); rewrite E; [apply upd_other_or|apply upd_same]. Qed.
Lemma EN_step st tr k e st' : EN st tr -> bstep st k e st' -> EN st' (tr ++ e).
Proof.
  intros HI HS. pose proof HI as [H1 H2]. inv HS.
  - eapply (EN_upd st tr _ t TCalled _ HI); [reflexivity| | |discriminate].
    + intros t' Hne [X|[]]. congruence.
    + intros _. apply in_app_iff. cbn; auto.
  - eapply (EN_upd st tr _ t _ _ HI); [reflexivity| | |discriminate].
    + intros t' Hne [X|[]]. congruence.
    + intros _. apply in_app_iff. left. apply H1. now rewrite H.
  - eapply (EN_upd st tr _ t _ _ HI); [reflexivity|auto| |discriminate].
    intros _. rewrite app_nil_r. apply H1. now rewrite H.
  - eapply (EN_one st tr _ t x).
    + exact HI.
    + intros t' Hne. cbn [with_thr b_thr]. rewrite upd_other by auto. eapply hold_step_thr; eauto.
    + cbn [with_thr b_thr]. apply upd_same.
    + intros t' Hne Hi. destruct h; cbn [hold_step] in H0; repeat match type of H0 with context [if ?b then _ else _] => destruct b end; inv H0; cbn in Hi; intuition discriminate.
    + intros _. apply in_app_iff. left. apply H1. now rewrite H.
    + intro Hx. apply since_call_app.
      * apply H2. rewrite H. destruct h; cbn [hold_step] in H0; repeat match type of H0 with context [if ?b then _ else _] => destruct b end; inv H0; try discriminate Hx; try reflexivity. exact Hx.
      * intro Hi. destruct h; cbn [hold_step] in H0; repeat match type of H0 with context [if ?b then _ else _] => destruct b end; inv H0; cbn in Hi; intuition discriminate.
  - eapply (EN_upd st tr _ t _ _ HI); [reflexivity|auto| |discriminate].
    intros _. rewrite app_nil_r. apply H1. now rewrite H.
  - eapply (EN_upd st tr _ t _ _ HI); [reflexivity|auto| |discriminate].
    intros _. rewrite app_nil_r. apply H1. now rewrite H.
  - eapply (EN_upd st tr _ t _ _ HI); [reflexivity|..].
    + intros t' Hne [X|[]]. congruence.
    + intros _. apply in_app_iff. left. apply H1. now rewrite H.
    + intros _. destruct (last_call_split t tr) as (a&b&->&A&B); [apply H1; now rewrite H|].
      exists a, (b ++ [EExpire t]). rewrite app_assoc, !in_app_iff. cbn. intuition discriminate.
  - eapply (EN_upd st tr _ t _ _ HI); [reflexivity|auto| |].
    + intros _. rewrite app_nil_r. apply H1. now rewrite H.
    + intro Hx. rewrite app_nil_r. apply H2. rewrite H. destruct timedout; auto.
  - eapply (EN_upd st tr _ t TIdle _ HI); [reflexivity| |discriminate|discriminate].
    intros t' Hne [X|[]]. congruence.
Qed.
Lemma EN_execution n b0 ks tr st : execution n b0 ks tr st -> EN st tr.
Proof. unfold execution. remember (binit n b0) as s0. induction 1; subst; [constructor; cbn; discriminate|]. eapply EN_step; eauto. Qed.

(* the state from which a return (or throw) is made *)
Lemma execution_split n b0 ks tr st tr1 e tr2 : execution n b0 ks tr st -> tr = tr1 ++ e :: tr2 ->
  exists ks1 st1 k st2, execution n b0 ks1 tr1 st1 /\ bstep st1 k [e] st2 /\ (forall k', In k' ks1 -> In k' ks).
Proof.
  unfold execution. intros HE. revert tr1 tr2. induction HE; intros tr1 tr2 E.
  - destruct tr1; discriminate.
  - assert (L : length e0 <= 1).
    { inv H; cbn; auto. destruct h; cbn [hold_step] in H1; repeat match type of H1 with context [if ?b then _ else _] => destruct b end; inv H1; cbn; auto. }
    destruct e0 as [|e0 [|]]; [| |cbn in L; lia].
    + rewrite app_nil_r in E. destruct (IHHE tr1 tr2 E) as (ks1&s1&k1&s2&A&B&C). exists ks1, s1, k1, s2. repeat split; auto.
      intros x Hx. apply in_app_iff; auto.
    + destruct (list_eq_dec_nil tr2) as [->|(tr3&x&->)].
      * apply app_inj_tail in E as [<- <-]. exists ks, st1, k, st2. repeat split; auto. intros x Hx. apply in_app_iff; auto.
      * rewrite app_comm_cons, app_assoc in E. apply app_inj_tail in E as [E <-].
        destruct (IHHE tr1 tr3 E) as (ks1&s1&k1&s2&A&B&C). exists ks1, s1, k1, s2. repeat split; auto. intros y Hy. apply in_app_iff; auto.
Qed.
Lemma ret_from st k t r st' : bstep st k [ERet t r] st' -> b_thr st t = TDone r.
Proof. intro H. inversion H; subst; auto. destruct h; cbn [hold_step] in H1; repeat match type of H1 with context [if ?b then _ else _] => destruct b end; inv H1. Qed.

Lemma throws_only_own_expiry n b0 ks tr st t r tr1 tr2 : execution n b0 ks tr st -> tr = tr1 ++ ERet t r :: tr2 -> r <> Passed ->
  since_call t (EExpire t) tr1.
Proof.
  intros HE E Hr. destruct (execution_split _ _ _ _ _ _ _ _ HE E) as (ks1&s1&k1&s2&A&B&_). apply ret_from in B.
  apply (en_exp _ _ (EN_execution _ _ _ _ _ A)). rewrite B. destruct r; [congruence|reflexivity|reflexivity].
Qed.

(* ---- passing needs a change of the counter ---- *)
Definition old_of (x : tst) : option Z :=
  match x with TGot o | THold o _ | TSleep o _ | TWake o _ => Some o | _ => None end.
Definition passing (x : tst) : bool :=
  match x with THold _ HNotify | THold _ (HOut Passed) | TDone Passed => true | _ => false end.
Definition changed_since (t : tid) (tr : list bev) : Prop := exists u, since_read t (EGen u) tr \/ since_read t (EBroke u) tr.
Record CH (st : bstate) (tr : list bev) : Prop := {
  ch_read : forall t, has_read (b_thr st t) = true -> exists a b, tr = a ++ ERead t :: b /\ ~ In (ERead t) b;
  ch_old : forall t o, old_of (b_thr st t) = Some o -> o <> b_cnt st -> changed_since t tr;
  ch_pass : forall t, passing (b_thr st t) = true -> changed_since t tr
}.
Lemma changed_app t tr x : changed_since t tr -> ~ In (ERead t) x -> changed_since t (tr ++ x).
Proof. intros (u&[H|H]) N; exists u; [left|right]; now apply since_read_app. Qed.
Lemma read_app t tr x : (exists a b, tr = a ++ ERead t :: b /\ ~ In (ERead t) b) -> ~ In (ERead t) x -> exists a b, tr ++ x = a ++ ERead t :: b /\ ~ In (ERead t) b.
Proof. intros (a&b&->&H) N. exists a, (b ++ x). rewrite <- app_assoc, app_comm_cons, in_app_iff. tauto. Qed.
Lemma read_change t tr e u : (exists a b, tr = a ++ ERead t :: b /\ ~ In (ERead t) b) -> (e = EGen u \/ e = EBroke u) -> changed_since t (tr ++ [e]).
Proof.
  intros (a&b&->&H) He. exists u.
  assert (N : ~ In (ERead t) (b ++ [e])) by (rewrite in_app_iff; cbn; intros [X|[X|[]]]; auto; destruct He; congruence).
  destruct He as [-> | ->]; [left|right]; exists a; eexists (b ++ [_]); rewrite <- app_assoc, in_app_iff; cbn; eauto.
Qed.

Lemma CH_one st tr st' t x e : CH st tr -> b_cnt st' = b_cnt st ->
  (forall t', t' <> t -> b_thr st' t' = b_thr st t' \/ (exists o n, b_thr st t' = TSleep o n /\ b_thr st' t' = TSleep o true)) ->
  b_thr st' t = x -> (forall t', ~ In (ERead t') e) ->
  (has_read x = true -> has_read (b_thr st t) = true) ->
  (forall o, old_of x = Some o -> old_of (b_thr st t) = Some o) ->
  (passing x = true -> passing (b_thr st t) = true \/ exists o, old_of (b_thr st t) = Some o /\ o <> b_cnt st) -> CH st' (tr ++ e).
Proof.
  intros [H1 H2 H3] Ec HU H0 HN HR HO HP. constructor.
  - intros t' H. apply read_app; auto. apply H1. destruct (Nat.eq_dec t' t) as [->|Hne]; [rewrite H0 in H; auto|].
    destruct (HU t' Hne) as [E|(o&n&E&E')]; [congruence|]. now rewrite E.
  - intros t' o H. rewrite Ec. intro Hne'. apply changed_app; auto. apply (H2 t' o); auto. destruct (Nat.eq_dec t' t) as [->|Hne]; [rewrite H0 in H; auto|].
    destruct (HU t' Hne) as [E|(o'&n&E&E')]; [congruence|]. rewrite E' in H. now rewrite E.
  - intros t' H. apply changed_app; auto. destruct (Nat.eq_dec t' t) as [->|Hne].
    + rewrite H0 in H. destruct (HP H) as [X|(o&X&Y)]; eauto.
    + destruct (HU t' Hne) as [E|(o&n&E&E')]; [apply H3; congruence|]. rewrite E' in H. discriminate.
Qed.
Ltac noread := intros t' Hi; cbn in Hi; repeat match type of Hi with _ \/ _ => destruct Hi as [Hi|Hi] end; try discriminate; try contradiction; auto.
Lemma CH_upd st tr st' t x e : CH st tr -> b_cnt st' = b_cnt st -> b_thr st' = upd_thr (b_thr st) t x -> (forall t', ~ In (ERead t') e) ->
  (has_read x = true -> has_read (b_thr st t) = true) ->
  (forall o, old_of x = Some o -> old_of (b_thr st t) = Some o) ->
  (passing x = true -> passing (b_thr st t) = true \/ exists o, old_of (b_thr st t) = Some o /\ o <> b_cnt st) -> CH st' (tr ++ e).
Proof. intros HI Ec E. apply (CH_one st tr st' t x e HI Ec); rewrite E; [apply upd_other_or|apply upd_same]. Qed.
Lemma CH_step st tr k e st' : CH st tr -> bstep st k e st' -> CH st' (tr ++ e).
Proof.
  intros HI HS. pose proof HI as [H1 H2 H3]. inv HS.
  - eapply (CH_upd st tr _ t TCalled _ HI); [reflexivity|reflexivity|noread|discriminate..].
  - assert (U : forall t', t' <> t -> b_thr (with_thr st t (TGot (b_cnt st))) t' = b_thr st t') by (intros; now apply upd_other).
    assert (U0 : b_thr (with_thr st t (TGot (b_cnt st))) t = TGot (b_cnt st)) by (now apply upd_same).
    constructor.
    + intros t' Hx. destruct (Nat.eq_dec t' t) as [->|Hne]; [exists tr, []; auto|]. rewrite U in Hx by auto.
      apply read_app; auto. intros [X|[]]; congruence.
    + intros t' o Hx Hy. cbn [with_thr b_cnt] in Hy. destruct (Nat.eq_dec t' t) as [->|Hne]; [rewrite U0 in Hx; inv Hx; congruence|]. rewrite U in Hx by auto.
      apply changed_app; eauto. intros [X|[]]; congruence.
    + intros t' Hx. destruct (Nat.eq_dec t' t) as [->|Hne]; [rewrite U0 in Hx; discriminate|]. rewrite U in Hx by auto.
      apply changed_app; eauto. intros [X|[]]; congruence.
  - eapply (CH_upd st tr _ t _ _ HI); [reflexivity|reflexivity|noread|..]; rewrite ?H; auto; discriminate.
  - assert (HU : forall t', t' <> t -> b_thr (with_thr st'0 t x) t' = b_thr st t' \/ (exists o n, b_thr st t' = TSleep o n /\ b_thr (with_thr st'0 t x) t' = TSleep o true)).
    { intros t' Hne. cbn [with_thr b_thr]. rewrite upd_other by auto. eapply hold_step_thr; eauto. }
    assert (H0' : b_thr (with_thr st'0 t x) t = x) by (cbn [with_thr b_thr]; apply upd_same).
    assert (SPECIAL : forall e0 c', (e0 = EGen t \/ e0 = EBroke t) -> e = [e0] -> st'0 = with_cnt st c' -> has_read x = true -> CH (with_thr st'0 t x) (tr ++ e)).
    { intros e0 c' He -> -> Hrd. assert (NR : forall t', ~ In (ERead t') [e0]) by (intros t' [X|[]]; destruct He; congruence).
      assert (RD : forall t', has_read (b_thr (with_thr (with_cnt st c') t x) t') = true -> exists a b, tr = a ++ ERead t' :: b /\ ~ In (ERead t') b).
      { intros t' Hx. apply H1. destruct (Nat.eq_dec t' t) as [->|Hne]; [now rewrite H|].
        destruct (HU t' Hne) as [E|(o&n&E&E')]; [congruence|]. now rewrite E. }
      constructor.
      - intros t' Hx. apply read_app; auto.
      - intros t' o Hx _. eapply read_change; eauto. apply RD. destruct (b_thr (with_thr (with_cnt st c') t x) t'); try discriminate; reflexivity.
      - intros t' Hx. eapply read_change; eauto. apply RD. destruct (b_thr (with_thr (with_cnt st c') t x) t'); try discriminate; reflexivity. }
    destruct h; cbn [hold_step] in H0.
    + inv H0. eapply (CH_one _ tr _ t _ _ HI); [reflexivity|exact HU|exact H0'|..]; rewrite ?H; [noread|cbn; auto..]; try discriminate.
    + destruct (b_wait st =? b_n st)%Z eqn:Ew; inv H0; (eapply (CH_one _ tr _ t _ _ HI); [reflexivity|exact HU|exact H0'|..]; rewrite ?H; [noread|cbn; auto..]; try discriminate).
    + inv H0. apply (SPECIAL (EGen t) (to_u32 (b_cnt st + 1))); auto.
    + inv H0. eapply (CH_one _ tr _ t _ _ HI); [reflexivity|exact HU|exact H0'|..]; rewrite ?H; [noread|cbn; auto..].
    + destruct (old =? b_cnt st)%Z eqn:Ep; inv H0; (eapply (CH_one _ tr _ t _ _ HI); [reflexivity|exact HU|exact H0'|..]; rewrite ?H; [noread|cbn; auto..]).
      all: try discriminate; intros _; right; exists old; split; auto; apply Z.eqb_neq; exact Ep.
    + destruct (old =? b_cnt st)%Z eqn:Ep; inv H0; (eapply (CH_one _ tr _ t _ _ HI); [reflexivity|exact HU|exact H0'|..]; rewrite ?H; [noread|cbn; auto..]).
      all: try discriminate; intros _; right; exists old; split; auto; apply Z.eqb_neq; exact Ep.
    + destruct (b_corr st) eqn:Ec; inv H0; (eapply (CH_one _ tr _ t _ _ HI); [reflexivity|exact HU|exact H0'|..]; rewrite ?H; [noread|cbn; auto..]; try discriminate).
    + inv H0. apply (SPECIAL (EBroke t) (two32 - 1)%Z); auto.
    + inv H0. eapply (CH_one _ tr _ t _ _ HI); [reflexivity|exact HU|exact H0'|..]; rewrite ?H; [noread|cbn; auto..]; try discriminate.
    + inv H0. eapply (CH_one _ tr _ t _ _ HI); [reflexivity|exact HU|exact H0'|..]; rewrite ?H; [noread|cbn; auto..]; try discriminate.
    + inv H0. eapply (CH_one _ tr _ t _ _ HI); [reflexivity|exact HU|exact H0'|..]; rewrite ?H; [noread|cbn; auto|discriminate|]. cbn. destruct r; auto; discriminate.
  - eapply (CH_upd st tr _ t _ _ HI); [reflexivity|reflexivity|noread|..]; rewrite ?H; auto; discriminate.
  - eapply (CH_upd st tr _ t _ _ HI); [reflexivity|reflexivity|noread|..]; rewrite ?H; auto; discriminate.
  - eapply (CH_upd st tr _ t _ _ HI); [reflexivity|reflexivity|noread|..]; rewrite ?H; auto; discriminate.
  - eapply (CH_upd st tr _ t _ _ HI); [reflexivity|reflexivity|noread|..]; rewrite ?H; auto; try (destruct timedout; discriminate).
  - eapply (CH_upd st tr _ t TIdle _ HI); [reflexivity|reflexivity|noread|discriminate..].
Qed.
Lemma CH_execution n b0 ks tr st : execution n b0 ks tr st -> CH st tr.
Proof. unfold execution. remember (binit n b0) as s0. induction 1; subst; [constructor; cbn; discriminate|]. eapply CH_step; eauto. Qed.
Lemma pass_needs_change n b0 ks tr st t tr1 tr2 : execution n b0 ks tr st -> tr = tr1 ++ ERet t Passed :: tr2 -> changed_since t tr1.
Proof.
  intros HE E. destruct (execution_split _ _ _ _ _ _ _ _ HE E) as (ks1&s1&k1&s2&A&B&_). apply ret_from in B.
  apply (ch_pass _ _ (CH_execution _ _ _ _ _ A)). now rewrite B.
Qed.

(* ---- arrivals ---- *)
Definition is_bump (x : tst) : Prop := exists o, x = THold o HBump.
Record AR (n : Z) (st : bstate) (tr : list bev) : Prop := {
  ar_n : b_n st = n;
  ar_pos : (0 <= b_wait st)%Z;
  ar_lt : (b_wait st < n)%Z \/ exists t o, b_thr st t = THold o HTest;
  ar_eq : (exists t, is_bump (b_thr st t) /\ Z.of_nat (count is_arrive tr) = n * Z.of_nat (count is_gen tr) + n /\ b_wait st = 0)%Z \/
          ((forall t, ~ is_bump (b_thr st t)) /\ Z.of_nat (count is_arrive tr) = n * Z.of_nat (count is_gen tr) + b_wait st)%Z;
  ar_le : (b_wait st <= n)%Z
}.
Definition special (x : tst) : bool := match x with THold _ HTest | THold _ HBump => true | _ => false end.
Lemma count_snoc p tr e : count p (tr ++ [e]) = count p tr + b2n (p e).
Proof. rewrite count_app. unfold count at 2. cbn. destruct (p e); reflexivity. Qed.
Lemma AR_same n st tr st' t x e : AR n st tr -> b_n st' = b_n st -> b_wait st' = b_wait st ->
  (forall t', t' <> t -> b_thr st' t' = b_thr st t' \/ (exists o n, b_thr st t' = TSleep o n /\ b_thr st' t' = TSleep o true)) ->
  b_thr st' t = x -> special x = false -> special (b_thr st t) = false ->
  count is_arrive (tr ++ e) = count is_arrive tr -> count is_gen (tr ++ e) = count is_gen tr -> AR n st' (tr ++ e).
Proof.
  intros [A1 A2 A3 A4 A5] En Ew HU H0 S1 S2 C1 C2. constructor; rewrite ?C1, ?C2, ?Ew; auto; try congruence.
  - destruct A3 as [|(t'&o&H)]; auto. right. exists t', o. destruct (Nat.eq_dec t' t) as [->|Hne]; [rewrite H in S2; discriminate|].
    destruct (HU t' Hne) as [E|(o'&n'&E&E')]; congruence.
  - destruct A4 as [(t'&(o&H)&B)|[A B]].
    + left. exists t'. split; auto. exists o. destruct (Nat.eq_dec t' t) as [->|Hne]; [rewrite H in S2; discriminate|].
      destruct (HU t' Hne) as [E|(o'&n'&E&E')]; congruence.
    + right. split; auto. intros t' (o&H). destruct (Nat.eq_dec t' t) as [->|Hne]; [rewrite H0 in H; rewrite H in S1; discriminate|].
      destruct (HU t' Hne) as [E|(o'&n'&E&E')]; [|congruence]. apply (A t'). exists o. congruence.
Qed.
Lemma AR_step n st tr k e st' : (1 <= n < two32)%Z -> mutex st -> AR n st tr -> bstep st k e st' -> AR n st' (tr ++ e).
Proof.
  intros Hn HM HA HS. pose proof HA as [A1 A2 A3 A4 A5].
  inv HS; try (eapply (AR_same _ _ tr _ t); [exact HA|reflexivity|reflexivity|apply upd_other_or|apply upd_same|try reflexivity|now rewrite H|rewrite ?app_nil_r, ?count_snoc; cbn; lia..]).
  - assert (HU : forall t', t' <> t -> b_thr (with_thr st'0 t x) t' = b_thr st t' \/ (exists o n, b_thr st t' = TSleep o n /\ b_thr (with_thr st'0 t x) t' = TSleep o true)).
    { intros t' Hne. cbn [with_thr b_thr]. rewrite upd_other by auto. eapply hold_step_thr; eauto. }
    assert (H0' : b_thr (with_thr st'0 t x) t = x) by (cbn [with_thr b_thr]; apply upd_same).
    pose proof (mutex_not_other _ _ _ _ HM H) as Hoth.
    assert (NB : forall t', t' <> t -> ~ is_bump (b_thr (with_thr st'0 t x) t')).
    { intros t' Hne (o&E). destruct (HU t' Hne) as [E'|(o'&n'&_&E')]; [|congruence]. rewrite E in E'. eapply Hoth; eauto. }
    assert (NB0 : h <> HBump -> forall t', ~ is_bump (b_thr st t')).
    { intros Hb t' (o&E). destruct (Nat.eq_dec t' t) as [->|Hne]; [congruence|]. eapply Hoth; eauto. }
    assert (LT : h <> HTest -> (b_wait st < b_n st)%Z).
    { intro Hb. destruct A3 as [|(t'&o&E)]; auto. exfalso. destruct (Nat.eq_dec t' t) as [->|Hne]; [congruence|]. eapply Hoth; eauto. }
    destruct h; cbn [hold_step] in H0;
      try (repeat match type of H0 with context [if ?b then _ else _] => destruct b end; inv H0;
           (eapply (AR_same _ _ tr _ t); [exact HA|reflexivity|reflexivity|exact HU|exact H0'|reflexivity|now rewrite H|rewrite ?app_nil_r, ?count_snoc; cbn; lia..])).
    + inv H0. specialize (LT ltac:(discriminate)).
      assert (Ew : to_u32 (b_wait st + 1) = (b_wait st + 1)%Z) by (unfold to_u32; apply Z.mod_small; lia).
      destruct A4 as [(t'&X&_)|[_ B]]; [exfalso; apply (NB0 ltac:(discriminate) _ X)|].
      constructor; cbn [with_thr with_wait b_wait b_n]; rewrite ?Ew; auto; try lia.
      * right. exists t, old. exact H0'.
      * right. split.
        -- intros t'. destruct (Nat.eq_dec t' t) as [->|Hne]; [|exact (NB t' Hne)]. intros (o&X). pose proof (eq_trans (eq_sym H0') X) as Y. discriminate Y.
        -- rewrite !count_snoc. cbn [is_arrive is_gen b2n]. lia.
    + destruct A4 as [(t'&X&_)|[_ B]]; [exfalso; apply (NB0 ltac:(discriminate) _ X)|].
      destruct (b_wait st =? b_n st)%Z eqn:E; inv H0; rewrite app_nil_r.
      * constructor; cbn [with_thr with_wait b_wait b_n]; auto; try lia.
        left. exists t. split; [exists old; exact H0'|]. lia.
      * constructor; cbn [with_thr with_wait b_wait b_n]; auto; try lia.
        right. split; [|exact B]. intros t'. destruct (Nat.eq_dec t' t) as [->|Hne]; [|exact (NB t' Hne)]. intros (o&X). pose proof (eq_trans (eq_sym H0') X) as Y. discriminate Y.
    + inv H0. destruct A4 as [(t'&X&B&C)|[B _]]; [|exfalso; apply (B t); exists old; auto].
      constructor; cbn [with_thr with_cnt b_wait b_n]; auto; try lia.
      right. split.
      * intros t''. destruct (Nat.eq_dec t'' t) as [->|Hne]; [|exact (NB t'' Hne)]. intros (o&X'). pose proof (eq_trans (eq_sym H0') X') as Y. discriminate Y.
      * rewrite !count_snoc. cbn [is_arrive is_gen b2n]. lia.
  - destruct timedout; reflexivity.
Qed.
Lemma AR_execution n b0 ks tr st : (1 <= n < two32)%Z -> execution n b0 ks tr st -> AR n st tr.
Proof.
  intro Hn. unfold execution. remember (binit n b0) as s0. induction 1; subst.
  - constructor; cbn; auto; try lia. right. split; [intros t (o&X); discriminate|]. unfold count; cbn. lia.
  - eapply AR_step; eauto. eapply mutex_execution. unfold execution; eauto.
Qed.
Definition busy (x : tst) : nat := match x with TIdle => 0 | _ => 1 end.
Lemma busy_notify st t : busy (b_thr (notify st) t) = busy (b_thr st t).
Proof. unfold notify. cbn. destruct (b_thr st t); reflexivity. Qed.
Lemma calls_rets n b0 ks tr st : execution n b0 ks tr st -> forall t, calls t tr = rets t tr + busy (b_thr st t).
Proof.
  unfold execution. remember (binit n b0) as s0. induction 1 as [st|st ks tr st1 k e st2 HS IH HB]; subst; [reflexivity|].
  specialize (IH eq_refl). intros u.
  assert (C : forall t x e, (forall v, is_call v e = false /\ is_ret v e = false) -> busy (b_thr st1 t) = 1 -> busy x = 1 ->
    calls u (tr ++ [e]) = rets u (tr ++ [e]) + busy (if Nat.eqb u t then x else b_thr st1 u)).
  { intros t x e1 N B1 B2. rewrite calls_snoc, rets_snoc. destruct (N u) as [-> ->]. cbn [b2n]. specialize (IH u).
    destruct (Nat.eqb_spec u t) as [->|D]; lia. }
  assert (C0 : forall t x, busy (b_thr st1 t) = 1 -> busy x = 1 ->
    calls u (tr ++ []) = rets u (tr ++ []) + busy (if Nat.eqb u t then x else b_thr st1 u)).
  { intros t x B1 B2. rewrite app_nil_r. specialize (IH u). destruct (Nat.eqb_spec u t) as [->|D]; lia. }
  inversion HB; subst; cbn [with_thr with_own b_thr]; unfold upd_thr.
  - rewrite calls_snoc, rets_snoc. cbn [is_call is_ret b2n]. specialize (IH u). destruct (Nat.eqb_spec u t) as [->|D].
    + rewrite H in IH. rewrite Nat.eqb_refl. cbn in *. lia.
    + destruct (Nat.eqb_spec t u); [congruence|]. cbn [b2n]. lia.
  - apply C; [intros; split; reflexivity|rewrite H; reflexivity|reflexivity].
  - apply C0; [rewrite H; reflexivity|reflexivity].
  - destruct h; cbn in H0; repeat match goal with H : context [if ?c then _ else _] |- _ => destruct c end; injection H0 as <- <- <-; cbn [with_wait with_cnt with_own with_corr b_thr];
      try (apply C; [intros; split; reflexivity|rewrite H; reflexivity|reflexivity]);
      try (apply C0; [rewrite H; reflexivity|reflexivity]);
      (pose proof (C0 t (THold old (HOut Passed)) ltac:(rewrite H; reflexivity) eq_refl) as X;
       destruct (Nat.eqb u t); [exact X|rewrite busy_notify; exact X]).
  - apply C0; [rewrite H; reflexivity|reflexivity].
  - apply C0; [rewrite H; reflexivity|reflexivity].
  - apply C; [intros; split; reflexivity|rewrite H; reflexivity|reflexivity].
  - apply C0; [rewrite H; reflexivity|reflexivity].
  - rewrite calls_snoc, rets_snoc. cbn [is_call is_ret b2n]. specialize (IH u). destruct (Nat.eqb_spec u t) as [->|D].
    + rewrite H in IH. rewrite Nat.eqb_refl. cbn in *. lia.
    + destruct (Nat.eqb_spec t u); [congruence|]. cbn [b2n]. lia.
Qed.
Lemma generations n b0 ks tr st : (1 <= n < two32)%Z -> execution n b0 ks tr st ->
  (n * Z.of_nat (count is_gen tr) <= Z.of_nat (count is_arrive tr) <= n * Z.of_nat (count is_gen tr) + n)%Z /\
  (Z.of_nat (count is_arrive tr) = (n * Z.of_nat (count is_gen tr) + n)%Z -> exists t, rets t tr < calls t tr).
Proof.
  intros Hn HE. pose proof (AR_execution _ _ _ _ _ Hn HE) as [A1 A2 A3 A4 A5]. pose proof (calls_rets _ _ _ _ _ HE) as CR.
  destruct A4 as [(t&(o&X)&Q&W)|[_ B]].
  - split; [lia|]. intros _. exists t. rewrite CR, X. cbn. lia.
  - split; [lia|]. intros E. destruct A3 as [A3|(t&o&X)]; [lia|]. exists t. rewrite CR, X. cbn. lia.
Qed.

(* ---- with timeouts, waiting always ends ---- *)
Lemma some_step n b0 ks tr st : execution n b0 ks tr st -> (exists t, b_thr st t <> TIdle) ->
  exists k e st', bstep st k e st' /\ (k = KRun \/ k = KExpire).
Proof.
  intros HE (t&Ht). pose proof (mutex_execution _ _ _ _ _ HE) as HM.
  destruct (b_own st) as [u|] eqn:Ho.
  { destruct (proj1 (HM u) Ho) as (old&h&E). destruct (hold_enabled _ _ _ _ E) as (e&s'&S). exists KRun, e, s'. auto. }
  destruct (b_thr st t) as [| |old|old h|old nt|old td|r] eqn:E; [congruence|..].
  - do 3 eexists; split; [apply b_read; exact E|auto].
  - do 3 eexists; split; [eapply b_lock; eauto|auto].
  - destruct (hold_enabled _ _ _ _ E) as (e&s'&S). exists KRun, e, s'. auto.
  - do 3 eexists; split; [eapply b_expire; eauto|auto].
  - do 3 eexists; split; [eapply b_relock; eauto|auto].
  - do 3 eexists; split; [eapply b_return; eauto|auto].
Qed.

Definition rank2 (N : nat) (x : tst) : nat :=
  match x with
  | TIdle => 0 | TDone _ => 1
  | THold _ (HOut _) => 2 | THold _ HThrow => 3 | THold _ HNotify => 3 * N + 3
  | THold _ HNotify2 => 3 * N + 4 | THold _ HBump => 3 * N + 4 | THold _ HInf => 3 * N + 5 | THold _ HCorr => 3 * N + 6
  | THold _ HFinal => 3 * N + 7 | TWake _ true => 3 * N + 8
  | TSleep _ false => 3 * N + 9 | THold _ HPred => 3 * N + 10 | TWake _ false => 3 * N + 11 | TSleep _ true => 3 * N + 12
  | THold _ HTest => 3 * N + 11 | THold _ HInc => 3 * N + 12 | TGot _ => 3 * N + 13 | TCalled => 3 * N + 14
  end.
Definition pot2 (N Rn : nat) (st : bstate) (tr : list bev) : nat :=
  sum N (fun t => rank2 N (b_thr st t) + (3 * N + 15) * (Rn - calls t tr)).

Lemma pot2_upd N Rn st tr st' t x e : t < N -> b_thr st' = upd_thr (b_thr st) t x ->
  (forall t', t' <> t -> calls t' (tr ++ e) = calls t' tr) ->
  pot2 N Rn st' (tr ++ e) + (rank2 N (b_thr st t) + (3 * N + 15) * (Rn - calls t tr)) =
  pot2 N Rn st tr + (rank2 N x + (3 * N + 15) * (Rn - calls t (tr ++ e))).
Proof.
  intros Ht Eth Hcl. unfold pot2.
  pose proof (sum_upd N (fun u => rank2 N (b_thr st' u) + (3 * N + 15) * (Rn - calls u (tr ++ e)))
                (fun u => rank2 N (b_thr st u) + (3 * N + 15) * (Rn - calls u tr)) t Ht) as SS. cbv beta in SS.
  rewrite Eth in *. rewrite upd_same in SS. apply SS. intros t' Hne. rewrite upd_other, Hcl; auto.
Qed.
Lemma sum_plus n p q : sum n (fun t => p t + q t) = sum n p + sum n q.
Proof. induction n; cbn; [reflexivity|]. rewrite IHn. lia. Qed.
(* a notification raises the others' ranks by at most 3 each *)
Lemma pot2_notify N Rn st tr st' t x : t < N -> (forall t', t' <> t -> b_thr st' t' = b_thr (notify st) t') -> b_thr st' t = x ->
  pot2 N Rn st' tr + rank2 N (b_thr st t) <= pot2 N Rn st tr + rank2 N x + 3 * N.
Proof.
  intros Ht HU H0. unfold pot2.
  pose proof (sum_upd_le N (fun u => rank2 N (b_thr st' u) + (3 * N + 15) * (Rn - calls u tr))
                (fun u => (rank2 N (b_thr st u) + (3 * N + 15) * (Rn - calls u tr)) + 3) t Ht) as SS. cbv beta in SS.
  rewrite H0 in SS. rewrite (sum_plus N (fun u => rank2 N (b_thr st u) + (3 * N + 15) * (Rn - calls u tr)) (fun _ => 3)), sum_const in SS.
  enough (HH : forall t', t' <> t -> rank2 N (b_thr st' t') + (3 * N + 15) * (Rn - calls t' tr) <= rank2 N (b_thr st t') + (3 * N + 15) * (Rn - calls t' tr) + 3) by (specialize (SS HH); lia).
  intros t' Hne. rewrite HU by auto. rewrite notify_thr. destruct (b_thr st t') as [| |o|o h|o [|]|o td|r]; cbn [rank2]; lia.
Qed.

Definition outside_idle (N : nat) (st : bstate) := forall t, N <= t -> b_thr st t = TIdle.
Lemma outside_step N st k e st' : outside_idle N st -> bstep st k e st' -> (forall t, In (ECall t) e -> t < N) -> outside_idle N st'.
Proof.
  intros HI HS Hc t' Ht'. pose proof (HI t' Ht') as E.
  inv HS; cbn [with_thr with_own b_thr]; try (destruct (Nat.eq_dec t' t) as [->|Hne]; [congruence|rewrite upd_other by auto; cbn [with_own b_thr]; exact E]).
  - destruct (Nat.eq_dec t' t) as [->|Hne]; [|rewrite upd_other; auto]. exfalso. pose proof (Hc t ltac:(cbn; auto)). lia.
  - destruct (Nat.eq_dec t' t) as [->|Hne]; [congruence|]. rewrite upd_other by auto. destruct (hold_step_thr _ _ _ _ _ _ _ t' H0) as [->|(o'&n'&A&B)]; congruence.
Qed.

Lemma pot2_step N Rn st tr k e st' : outside_idle N st -> bstep st k e st' ->
  (forall t, In (ECall t) e -> t < N) -> (forall t, calls t (tr ++ e) <= Rn) ->
  pot2 N Rn st' (tr ++ e) + b2n (is_forced k) <= pot2 N Rn st tr + 2 * b2n (is_spurious k).
Proof.
  intros HI HS Hc HR.
  assert (Hin : forall t, b_thr st t <> TIdle -> t < N).
  { intros t H. destruct (le_lt_dec N t) as [L|L]; auto. exfalso. apply H. now apply HI. }
  assert (ONE : forall t x st2, t < N -> b_thr st2 = upd_thr (b_thr st) t x -> (forall u, calls u (tr ++ e) = calls u tr) ->
    rank2 N x + b2n (is_forced k) <= rank2 N (b_thr st t) + 2 * b2n (is_spurious k) ->
    pot2 N Rn st2 (tr ++ e) + b2n (is_forced k) <= pot2 N Rn st tr + 2 * b2n (is_spurious k)).
  { intros t x st2 Ht Eth Hcl Hr. pose proof (pot2_upd N Rn st tr st2 t x e Ht Eth ltac:(auto)) as P. rewrite Hcl in P. lia. }
  inv HS.
  - assert (Ht : t < N) by (apply Hc; cbn; auto).
    pose proof (pot2_upd N Rn st tr (with_thr st t TCalled) t TCalled [ECall t] Ht eq_refl) as P.
    specialize (HR t). rewrite calls_snoc in *. cbn [is_call] in *. rewrite Nat.eqb_refl, H in *. cbn [b2n rank2 is_forced is_spurious] in *.
    assert (HC : forall t', t' <> t -> calls t' (tr ++ [ECall t]) = calls t' tr).
    { intros t' Hne. rewrite calls_snoc. cbn [is_call]. rewrite eqb_b2n_neq by auto. lia. }
    specialize (P HC). replace (Rn - calls t tr) with (S (Rn - (calls t tr + 1))) in P by lia. lia.
  - apply (ONE t (TGot (b_cnt st))); auto; [apply Hin; congruence|intro; rewrite calls_snoc; cbn; lia|rewrite H; cbn; lia].
  - apply (ONE t (THold old HInc)); auto; [apply Hin; congruence|intro; now rewrite app_nil_r|rewrite H; cbn; lia].
  - assert (Ht : t < N) by (apply Hin; congruence).
    assert (CL : forall u, calls u (tr ++ e) = calls u tr).
    { intro u. destruct h; cbn [hold_step] in H0; repeat match type of H0 with context [if ?b then _ else _] => destruct b end; inv H0;
        rewrite ?app_nil_r, ?calls_snoc; cbn; lia. }
    assert (NTF : forall y, h = HNotify \/ h = HNotify2 -> e = [] -> st'0 = notify st -> x = y -> rank2 N y + 3 * N + 1 <= rank2 N (THold old h) ->
      pot2 N Rn (with_thr st'0 t x) (tr ++ e) + b2n (is_forced KRun) <= pot2 N Rn st tr + 2 * b2n (is_spurious KRun)).
    { intros y _ -> -> -> Hr. rewrite app_nil_r.
      pose proof (pot2_notify N Rn st tr (with_thr (notify st) t y) t y Ht ltac:(intros; cbn [with_thr b_thr]; now apply upd_other) ltac:(cbn [with_thr b_thr]; apply upd_same)) as P.
      rewrite H in P. cbn [is_forced is_spurious b2n]. lia. }
    destruct h; cbn [hold_step] in H0;
      try (inv H0; (eapply NTF; [auto|reflexivity..|cbn [rank2]; lia]));
      repeat match type of H0 with context [if ?b then _ else _] => destruct b end; inv H0;
      (eapply (ONE t); [auto|reflexivity|exact CL|rewrite H; cbn [rank2 is_forced is_spurious b2n]; lia]).
  - apply (ONE t (TWake old false)); auto; [apply Hin; congruence|intro; now rewrite app_nil_r|rewrite H; cbn; lia].
  - apply (ONE t (TWake old false)); auto; [apply Hin; congruence|intro; now rewrite app_nil_r|rewrite H; cbn; lia].
  - apply (ONE t (TWake old true)); auto; [apply Hin; congruence|intro; rewrite calls_snoc; cbn; lia|rewrite H; destruct n; cbn; lia].
  - apply (ONE t (THold old (if timedout then HFinal else HPred))); auto; [apply Hin; congruence|intro; now rewrite app_nil_r|rewrite H; destruct timedout; cbn; lia].
  - apply (ONE t TIdle); auto; [apply Hin; congruence|intro; rewrite calls_snoc; cbn; lia|rewrite H; cbn; lia].
Qed.

Lemma steps_bounded N Rn n b0 ks tr st : execution n b0 ks tr st -> only_threads N tr -> at_most_calls Rn tr ->
  forced_steps ks <= (3 * N + 15) * N * Rn + 2 * spurious_steps ks.
Proof.
  intros HE HO HR.
  enough (outside_idle N st /\ pot2 N Rn st tr + forced_steps ks <= (3 * N + 15) * N * Rn + 2 * spurious_steps ks) by lia.
  revert HO HR. unfold execution in HE. remember (binit n b0) as s0. induction HE; subst; intros.
  - split; [intros t _; reflexivity|]. unfold pot2.
    rewrite (sum_ext N _ (fun _ => (3 * N + 15) * Rn)) by (intros; cbn [binit b_thr rank2 calls count filter length]; rewrite Nat.sub_0_r; lia).
    rewrite sum_const. unfold forced_steps, spurious_steps. cbn [filter length]. nia.
  - apply only_threads_app in HO as [HO1 HO2].
    assert (HR1 : at_most_calls Rn tr). { intro t. specialize (HR t). unfold calls in *. rewrite count_app in HR. lia. }
    destruct (IHHE eq_refl HO1 HR1) as [I1 I2]. split; [eapply outside_step; eauto|].
    pose proof (pot2_step N Rn st1 tr k e st2 I1 ltac:(auto) HO2 HR).
    unfold forced_steps, spurious_steps in *. rewrite !filter_snoc_len. lia.
Qed.
