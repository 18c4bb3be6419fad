(* L_ExchangeF.v -- under a fair scheduler the exchange program ends. *)
From Coq Require Import Classical_Prop.
From Verif Require Import Base M_MailBox M_MailBoxConc M_Barrier M_Exchange S_Barrier S_Exchange S_Fair S_ExchangeFair L_Seq L_Map L_Barrier L_MailBox L_MailBoxConc L_Exchange L_ExchangeK L_ExchangeG L_ExchangeP.
From Verif Require C_Barrier L_BarrierN.

Lemma brun_no_loop names b (mb : mbox xmsg) p mb' r : brun names b mb p mb' r -> M_MailBoxConc.bstep names b mb p <> (mb, inl p).
Proof. induction 1 as [mb p mb' r H|mb p mb1 p1 mb' r H HB IH]; intros X; [congruence|]. rewrite X in H. injection H as <- <-. contradiction. Qed.

Section F.
Variable c : cfg.
Notation T := (c_threads c). Notation M := (c_msgs c). Notation R := (c_trials c). Notation E := (expected_msgs c).
Hypothesis HF : fits c.

(* ---- how far a thread has got ---- *)
Definition stretch : nat := 2 * M + E + 4.
Definition rank (l : loc) : nat :=
  match l_at l with
  | PSubscribe => 0 | PSubscribing => 1 | PWait => 2 | PWaiting => 3
  | PTrial tr => 4 + tr * stretch
  | PSend tr i => 4 + tr * stretch + 1 + 2 * i
  | PSending tr i => 4 + tr * stretch + 2 + 2 * i
  | PRecv tr | PRecving tr => 4 + tr * stretch + 2 * M + 2 + length (l_cur l)
  | PCheck tr => 4 + tr * stretch + 2 * M + 3 + E
  | PExtra => 4 + R * stretch + 1 | PExtraing => 4 + R * stretch + 2
  | PMin => 4 + R * stretch + 3 | PMining => 4 + R * stretch + 4
  | PDrop _ => 4 + R * stretch + 5 | PDropping _ => 4 + R * stretch + 6
  | PEnd _ => 4 + R * stretch + 7
  | PDied => 0
  end.
Lemma rank_bound t l p : loc_ok c t l p -> rank l <= 4 + R * stretch + 7.
Proof.
  intros H. unfold loc_ok in H. unfold rank.
  assert (X : forall tr, tr < R -> tr * stretch + stretch <= R * stretch).
  { intros tr Q. replace R with (S tr + (R - S tr)) by lia. rewrite Nat.mul_add_distr_r. cbn [Nat.mul]. lia. }
  assert (Y : forall tr, tr <= R -> tr * stretch <= R * stretch) by (intros; apply Nat.mul_le_mono_r; assumption).
  destruct (l_at l); try lia; try (destruct H as (_ & _ & _ & H & H'); specialize (X tr H); unfold stretch in *; lia).
  - destruct H as (_ & _ & _ & H). specialize (Y tr H). lia.
  - destruct H as (_ & _ & H & H'). specialize (X tr H). unfold stretch in *. lia.
  - destruct H as (_ & _ & H & H'). specialize (X tr H). unfold stretch in *. lia.
  - destruct H as (_ & _ & H & H'). specialize (X tr H). unfold stretch in *. lia.
Qed.

(* waiting for messages in trial tr, in a call of get or between two of them *)
Definition spin (tr : nat) (l : loc) : Prop := l_at l = PRecv tr \/ l_at l = PRecving tr.
Definition kept (l l' : loc) : Prop :=
  l' = l \/ exists tr, spin tr l /\ spin tr l' /\ l_sub l' = l_sub l /\ l_cur l' = l_cur l /\ l_past l' = l_past l.
Lemma kept_refl l : kept l l. Proof. left. reflexivity. Qed.
Lemma spin_inj tr tr' l : spin tr l -> spin tr' l -> tr = tr'.
Proof. intros [A|A] [B|B]; rewrite A in B; congruence. Qed.
Lemma kept_trans a b d : kept a b -> kept b d -> kept a d.
Proof.
  intros [->|(tr & A1 & A2 & A3 & A4 & A5)] [->|(tr' & B1 & B2 & B3 & B4 & B5)]; [left; reflexivity|right; exists tr'; auto 6|right; exists tr; auto 6|].
  right. exists tr. assert (tr' = tr) by exact (spin_inj _ _ _ B1 A2). subst. repeat split; try assumption; congruence.
Qed.

Lemma rank_step g k g' t ks tr w ph L ks' tr' w' ph' L' : inv c g ks tr w ph L -> inv c g' ks' tr' w' ph' L' -> xstep c g k g' -> t < T ->
  kept (x_thr g t) (x_thr g' t) \/ rank (x_thr g t) < rank (x_thr g' t).
Proof.
  intros HI HI' HS Ht.
  pose proof (i_loc _ _ _ _ _ _ _ HI' t Ht) as LO'. pose proof (i_loc _ _ _ _ _ _ _ HI t Ht) as LO.
  assert (X : forall tr, tr < R -> tr * stretch + stretch <= R * stretch).
  { intros tr0 Q. replace R with (S tr0 + (R - S tr0)) by lia. rewrite Nat.mul_add_distr_r. cbn [Nat.mul]. lia. }
  inversion HS; subst; clear HS; cbn [x_thr] in *; try (left; apply kept_refl);
    (destruct (Nat.eq_dec t t0) as [->|D]; [rewrite set_loc_same in *|rewrite set_loc_other in * by exact D; left; apply kept_refl]).
  - (* local *)
    right. unfold local_step in H0. destruct (x_thr g t0) as [pl sb cu pa]. unfold loc_ok in LO. cbn [l_at l_sub l_cur l_past] in *. unfold rank. cbn [l_at l_cur].
    destruct pl; try discriminate.
    + destruct LO as (_ & _ & -> & Q). destruct (Nat.ltb_spec tr0 R); injection H0 as <-; cbn; [lia|].
      assert (tr0 = R) by lia. subst. lia.
    + destruct LO as (_ & _ & -> & Q & Q'). destruct (Nat.ltb_spec i M); [discriminate|]. injection H0 as <-. cbn. lia.
    + destruct LO as (_ & _ & Q & Q'). destruct (Nat.ltb_spec (length cu) E); [discriminate|]. injection H0 as <-. cbn. lia.
    + destruct LO as (_ & _ & Q & Q'). specialize (X tr0 Q). destruct (_ =? _)%Z; injection H0 as <-; cbn [l_at at_place Nat.mul]; unfold stretch in *; lia.
  - (* call *)
    unfold next_call in H0. destruct (x_thr g t0) as [pl sb cu pa]. unfold loc_ok in LO. cbn [l_at l_sub l_cur l_past] in *. unfold rank. cbn [l_at l_cur].
    destruct pl; try discriminate; try (injection H0 as <- <-; right; cbn; lia).
    + destruct (_ <? _); [|discriminate]. injection H0 as <- <-. right. cbn. lia.
    + destruct (_ <? _); [|discriminate]. injection H0 as <- <-. left. right. exists tr0. unfold spin. cbn. auto 6.
    + destruct sb; [|discriminate]. injection H0 as <- <-. right. cbn. lia.
  - (* return *)
    assert (HP : ph t0 = ADone r).
    { pose proof (n_thr _ _ _ _ (i_lin _ _ _ _ _ _ _ HI) t0) as N. inversion H; subst.
      match goal with H : thr (x_box g) t0 = _ |- _ => rewrite H in N end. exact N. }
    rewrite HP in LO. unfold after_call in *. destruct (x_thr g t0) as [pl sb cu pa]. unfold loc_ok in LO, LO'. cbn [l_at l_sub l_cur l_past] in *. unfold rank. cbn [l_at l_cur].
    destruct pl; try (destruct LO as [[=] _]); try contradiction; destruct r as [[| |[m0|]|]| | |]; cbn [l_at l_cur at_place] in *; try contradiction;
      try (right; rewrite ?app_length; cbn [length]; lia).
    left. right. exists tr0. unfold spin. cbn. auto 6.
  - (* call of wait *)
    right. unfold rank. rewrite H0. cbn. lia.
  - (* return from wait *)
    right. destruct (bar_ret _ _ _ _ H) as [HD _]. destruct (i_bar _ _ _ _ _ _ _ HI t0) as [Y|[_ Y]]; [congruence|].
    unfold rank. rewrite Y. unfold loc_ok in LO'. destruct r; cbn in *; try contradiction. lia.
Qed.
Lemma kept_rank l l' : kept l l' -> rank l' = rank l.
Proof.
  intros [->|(tr & A1 & A2 & A3 & A4 & A5)]; [reflexivity|]. unfold rank. destruct A1 as [->| ->], A2 as [->| ->]; rewrite A4; reflexivity.
Qed.

(* ---- a fair schedule ---- *)
Variable f : nat -> xst.
Variable kd : nat -> kind.
Hypothesis HSch : schedule (xstep c) (xinit c) f kd.
Hypothesis HFair : fair (xstep c) f.

Lemma F_reached n : reached c (f n).
Proof.
  destruct HSch as [S0 SS]. induction n as [|n IH].
  - rewrite S0. exists []. split; [constructor|intros []].
  - destruct (SS n) as [[S1 S2]|[S1 _]]; [|rewrite S1; exact IH]. eapply (reached_go c _ _ IH), go_one; eassumption.
Qed.
Lemma F_inv n : exists ks tr w ph L, inv c (f n) ks tr w ph L.
Proof. apply reached_inv; [exact HF|apply F_reached]. Qed.
Lemma F_step n : (exists k, xstep c (f n) k (f (S n)) /\ k <> KExpire) \/ f (S n) = f n.
Proof. destruct HSch as [_ SS]. destruct (SS n) as [[A B]|[A _]]; eauto. Qed.
Definition able (t n : nat) : Prop := exists g', xstep c (f n) KRun g' /\ turn t (f n) g'.
(* somebody who can always move on moves *)
Lemma moves t n : (forall N, n <= N -> exists m, N <= m /\ able t m) -> exists m, n <= m /\ turn t (f m) (f (S m)).
Proof.
  intros H. apply (HFair t). intros N. destruct (H (Nat.max n N)) as (m & A & g' & B); [lia|]. exists m, g'. split; [lia|exact B].
Qed.

(* ---- inside the mailbox ---- *)
Lemma own_inside n t b : owner (x_box (f n)) b = Some t -> exists p, thr (x_box (f n)) t = Inside b p.
Proof.
  intros H. destruct (F_inv n) as (ks & tr & w & ph & L & HI). pose proof (n_own _ _ _ _ (i_lin _ _ _ _ _ _ _ HI) b) as X. rewrite H in X. exact X.
Qed.
Lemma inside_own n t b p : thr (x_box (f n)) t = Inside b p -> owner (x_box (f n)) b = Some t.
Proof.
  intros H. destruct (F_inv n) as (ks & tr & w & ph & L & HI). pose proof (n_thr _ _ _ _ (i_lin _ _ _ _ _ _ _ HI) t) as X. rewrite H in X. apply X.
Qed.
Lemma busy_small n t : thr (x_box (f n)) t <> Idle -> t < T.
Proof.
  intros H. destruct (F_inv n) as (ks & tr & w & ph & L & HI). destruct (le_lt_dec T t) as [A|A]; [|exact A].
  elim H. eapply ph_idle; [exact HI|]. apply (i_out _ _ _ _ _ _ _ HI), A.
Qed.
Lemma busy_bar n t : thr (x_box (f n)) t <> Idle -> b_thr (x_bar (f n)) t = TIdle.
Proof.
  intros H. destruct (F_inv n) as (ks & tr & w & ph & L & HI). destruct (i_bar _ _ _ _ _ _ _ HI t) as [A|[A B]]; [exact A|].
  elim H. eapply ph_idle; [exact HI|]. pose proof (i_loc _ _ _ _ _ _ _ HI t A) as LO. unfold loc_ok in LO. rewrite B in LO. apply LO.
Qed.
(* what a step does to a thread inside a call *)
Lemma busy_step n t : thr (x_box (f n)) t <> Idle ->
  (thr (x_box (f (S n))) t = thr (x_box (f n)) t /\ x_thr (f (S n)) t = x_thr (f n) t /\
     forall b p, thr (x_box (f n)) t = Inside b p -> boxes (x_box (f (S n))) b = boxes (x_box (f n)) b) \/
  match thr (x_box (f n)) t with
  | Idle => False
  | Want b k => thr (x_box (f (S n))) t = Inside b (PStart k)
  | Inside b p =>
      match M_MailBoxConc.bstep names0 b (boxes (x_box (f n)) b) p with
      | (mb, inl p') => thr (x_box (f (S n))) t = Inside b p' /\ boxes (x_box (f (S n))) b = mb
      | (mb, inr r) => thr (x_box (f (S n))) t = Leaving r /\ owner (x_box (f (S n))) b = None
      end
  | Leaving r => thr (x_box (f (S n))) t = Idle /\ x_thr (f (S n)) t = after_call (x_thr (f n) t) r
  end.
Proof.
  intros HB. destruct (F_step n) as [(k & HS & _)|HS]; [|left; rewrite HS; auto].
  destruct (F_inv n) as (ks & tr & w & ph & L & HI). pose proof (i_lin _ _ _ _ _ _ _ HI) as HL. pose proof (n_names _ _ _ _ HL) as NN.
  pose proof (busy_small n t HB) as Ht. pose proof (busy_bar n t HB) as Hbar.
  pose proof (i_loc _ _ _ _ _ _ _ HI t Ht) as LO. pose proof (n_thr _ _ _ _ HL t) as NT.
  remember (f (S n)) as g' eqn:Eg'. clear Eg'. revert HB HS LO NT NN Hbar. generalize (inside_own n). revert HI. generalize (f n) as g. intros g HI IO HB HS LO NT NN Hbar.
  assert (PI : ph t <> AIdle) by (intros X; apply HB; eapply ph_idle; eassumption).
  inversion HS; subst; clear HS; cbn [x_box x_thr x_bar].
  - left. auto.
  - (* in the mailbox *)
    inversion H; subst; clear H; match goal with X : thr (x_box g) ?u = Want _ _ |- _ => rename X into HH1 | X : thr (x_box g) ?u = Inside _ _ |- _ => rename X into HH1 end;
      try (match goal with X : M_MailBoxConc.bstep _ _ _ _ = _ |- _ => rename X into HH2 end).
    + (* lock *) destruct (Nat.eq_dec t t0) as [->|D].
      * right. rewrite HH1. apply set_thr_same.
      * left. rewrite set_thr_other by exact D. auto.
    + (* work *) destruct (Nat.eq_dec t t0) as [->|D].
      * right. rewrite HH1. rewrite (bstep_ext _ names0) in HH2 by exact NN. rewrite HH2. split; [apply set_thr_same|]. cbn. apply upd_same.
      * left. rewrite set_thr_other by exact D. split; [reflexivity|]. split; [reflexivity|]. intros b0 p0 Hb. cbn. apply upd_other.
        intros ->. pose proof (IO _ _ _ Hb). pose proof (IO _ _ _ HH1). congruence.
    + (* unlock *) destruct (Nat.eq_dec t t0) as [->|D].
      * right. rewrite HH1. rewrite (bstep_ext _ names0) in HH2 by exact NN. rewrite HH2. split; [apply set_thr_same|]. cbn. rewrite Nat.eqb_refl. reflexivity.
      * left. rewrite set_thr_other by exact D. split; [reflexivity|]. split; [reflexivity|]. intros b0 p0 Hb. cbn. apply upd_other.
        intros ->. pose proof (IO _ _ _ Hb). pose proof (IO _ _ _ HH1). congruence.
  - (* local *) destruct (Nat.eq_dec t t0) as [->|D].
    + exfalso. unfold local_step in H0. unfold loc_ok in LO. destruct (l_at (x_thr g t0)); try discriminate; apply PI, LO.
    + left. rewrite set_loc_other by exact D. auto.
  - (* call *) inversion H1; subst; clear H1. destruct (Nat.eq_dec t t0) as [->|D]; [contradiction|].
    left. rewrite set_thr_other, set_loc_other by exact D. auto.
  - (* return *) inversion H; subst; clear H. destruct (Nat.eq_dec t t0) as [->|D].
    + right. match goal with X : thr (x_box g) t0 = Leaving r |- _ => rewrite X end. rewrite set_loc_same. split; [apply set_thr_same|reflexivity].
    + left. rewrite set_thr_other, set_loc_other by exact D. auto.
  - (* wait *) destruct (Nat.eq_dec t t0) as [->|D]; [|left; rewrite set_loc_other by exact D; auto].
    exfalso. unfold loc_ok in LO. rewrite H0 in LO. apply PI, LO.
  - (* return from wait *) destruct (Nat.eq_dec t t0) as [->|D]; [|left; rewrite set_loc_other by exact D; auto].
    destruct (bar_ret _ _ _ _ H) as [HD _]. congruence.
Qed.
Lemma only_return n t : thr (x_box (f n)) t <> Idle -> (forall r, thr (x_box (f n)) t <> Leaving r) -> x_thr (f (S n)) t = x_thr (f n) t.
Proof.
  intros HB NL. destruct (F_step n) as [(k & HS & _)|HS]; [|rewrite HS; reflexivity].
  destruct (F_inv n) as (ks & tr & w & ph & L & HI). pose proof (busy_small n t HB) as Ht. pose proof (busy_bar n t HB) as Hbar.
  pose proof (i_loc _ _ _ _ _ _ _ HI t Ht) as LO.
  remember (f (S n)) as g' eqn:Eg'. clear Eg'. revert HB NL HS LO Hbar HI. generalize (f n) as g. intros g HB NL HS LO Hbar HI.
  assert (PI : ph t <> AIdle) by (intros X; apply HB; eapply ph_idle; eassumption).
  inversion HS; subst; clear HS; cbn [x_thr]; try reflexivity; (destruct (Nat.eq_dec t t0) as [->|D]; [exfalso|rewrite set_loc_other by exact D; reflexivity]).
  - unfold local_step in H0. unfold loc_ok in LO. destruct (l_at (x_thr g t0)); try discriminate; apply PI, LO.
  - inversion H1; subst. contradiction.
  - inversion H; subst. eapply NL. eassumption.
  - unfold loc_ok in LO. rewrite H0 in LO. apply PI, LO.
  - destruct (bar_ret _ _ _ _ H) as [HD _]. congruence.
Qed.
(* and it is by such a step only that it has its turn *)
Lemma busy_turn n t : thr (x_box (f n)) t <> Idle -> turn t (f n) (f (S n)) ->
  thr (x_box (f (S n))) t <> thr (x_box (f n)) t \/
  exists b p, thr (x_box (f n)) t = Inside b p /\ boxes (x_box (f (S n))) b <> boxes (x_box (f n)) b.
Proof.
  intros HB HT. destruct (classic (thr (x_box (f (S n))) t = thr (x_box (f n)) t)) as [A|A]; [|auto]. right.
  destruct (classic (exists b p, thr (x_box (f n)) t = Inside b p)) as [(b & p & Hb)|NI].
  - destruct (classic (boxes (x_box (f (S n))) b = boxes (x_box (f n)) b)) as [B|B]; [|eauto]. exfalso.
    destruct HT as [H|[[H|(b' & O & H)]|[H _]]]; [|contradiction| |rewrite (busy_bar n t HB), (busy_bar (S n) t) in H by congruence; congruence].
    + destruct (busy_step n t HB) as [(_ & X & _)|X]; [contradiction|]. rewrite Hb in X.
      destruct (F_inv n) as (ks & tr & w & ph & L & HI).
      pose proof (n_thr _ _ _ _ (i_lin _ _ _ _ _ _ _ HI) t) as NT. rewrite Hb in NT. destruct NT as (_ & r & _ & BR). apply brun_no_loop in BR.
      destruct (M_MailBoxConc.bstep names0 b (boxes (x_box (f n)) b) p) as [mb [p'|r']]; destruct X as [X1 X2]; rewrite A, Hb in X1; [|discriminate].
      injection X1 as <-. congruence.
    + destruct (own_inside n t b' O) as (p' & O'). rewrite Hb in O'. injection O' as <- <-. contradiction.
  - exfalso. destruct HT as [H|[[H|(b' & O & H)]|[H _]]]; [|contradiction| |rewrite (busy_bar n t HB), (busy_bar (S n) t) in H by congruence; congruence].
    + destruct (busy_step n t HB) as [(_ & X & _)|X]; [contradiction|]. destruct (thr (x_box (f n)) t) as [|b k|b p|r]; [contradiction|congruence|eauto|].
      destruct X as [X _]. congruence.
    + destruct (own_inside n t b' O) as (p' & O'). eauto.
Qed.

Lemma leaves n t r : thr (x_box (f n)) t = Leaving r -> exists m, n < m /\ thr (x_box (f m)) t = Idle.
Proof.
  intros H. destruct (classic (forall m, n <= m -> thr (x_box (f m)) t = Leaving r)) as [A|A].
  - destruct (moves t n) as (m & Hm & HT).
    + intros N HN. exists N. split; [lia|]. eexists. split; [eapply x_ret_box, c_return, A, HN|].
      right. left. left. cbn [x_box]. rewrite set_thr_same, (A N HN). discriminate.
    + apply busy_turn in HT; [|rewrite A by exact Hm; discriminate]. rewrite !A in HT by lia. exfalso.
      destruct HT as [X|(b & p & X & _)]; [contradiction|discriminate].
  - apply NNPP. intros C. apply A. intros m Hm. induction Hm as [|m Hm IH]; [exact H|].
    assert (NI : thr (x_box (f m)) t <> Idle) by (rewrite IH; discriminate).
    destruct (busy_step m t NI) as [(X & _)|X]; [congruence|]. rewrite IH in X. elim C. exists (S m). split; [lia|apply X].
Qed.
Lemma inside_moves n t b p mb mb' r : brun names0 b mb p mb' r -> thr (x_box (f n)) t = Inside b p -> boxes (x_box (f n)) b = mb ->
  exists m, n <= m /\ match M_MailBoxConc.bstep names0 b mb p with
    | (mb, inl p') => thr (x_box (f (S m))) t = Inside b p' /\ boxes (x_box (f (S m))) b = mb
    | (mb, inr r) => thr (x_box (f (S m))) t = Leaving r /\ owner (x_box (f (S m))) b = None end.
Proof.
  intros HB H1 H2. apply NNPP. intros C.
    assert (A : forall m, n <= m -> thr (x_box (f m)) t = Inside b p /\ boxes (x_box (f m)) b = mb).
    { intros m Hm. induction Hm as [|m Hm [I1 I2]]; [auto|].
      assert (NI : thr (x_box (f m)) t <> Idle) by (rewrite I1; discriminate).
      destruct (busy_step m t NI) as [(X & _ & Y)|X]; [rewrite X, (Y b p I1); auto|]. rewrite I1, I2 in X. elim C. exists m. split; [lia|exact X]. }
    destruct (moves t n) as (m & Hm & HT).
    - intros N HN. exists N. split; [lia|]. destruct (A N HN) as [A1 A2].
      destruct (F_inv N) as (ks & tr & w & ph & L & HI). pose proof (n_names _ _ _ _ (i_lin _ _ _ _ _ _ _ HI)) as NN.
      assert (NX : forall x, names_of (boxes (x_box (f N))) x = names0 x) by exact NN.
      pose proof (brun_no_loop _ _ _ _ _ _ HB) as NL.
      destruct (M_MailBoxConc.bstep names0 b mb p) as [mb1 [p1|r1]] eqn:BS; rewrite <- A2, <- (bstep_ext _ names0) in BS by exact NX.
      + eexists. split; [eapply x_in_box, c_work; eassumption|]. unfold turn, box_moved. cbn [x_box]. rewrite set_thr_same, A1.
        destruct (classic (p1 = p)) as [->|D]; [|right; left; left; congruence].
        right. left. right. exists b. split; [eapply inside_own, A1|]. cbn. rewrite upd_same, A2. congruence.
      + eexists. split; [eapply x_in_box, c_unlock; eassumption|]. right. left. left. cbn [x_box]. rewrite set_thr_same, A1. discriminate.
    - destruct (A m Hm) as [A1 A2]. destruct (A (S m) ltac:(lia)) as [B1 B2].
      apply busy_turn in HT; [|rewrite A1; discriminate]. destruct HT as [X|(b1 & p1 & X & Y)]; [congruence|]. rewrite A1 in X. injection X as <- <-. congruence.
Qed.
Lemma runs n t b p mb mb' r : thr (x_box (f n)) t = Inside b p -> boxes (x_box (f n)) b = mb -> brun names0 b mb p mb' r ->
  exists m, n < m /\ thr (x_box (f m)) t = Leaving r /\ owner (x_box (f m)) b = None.
Proof.
  intros HT HM HB. revert n HT HM.
  induction HB as [mb p mb' r H|mb p mb1 p1 mb' r H HB IH]; intros n HT HM.
  - destruct (inside_moves n t b p mb _ _ (br_ret names0 b mb p mb' r H) HT HM) as (m & Hm & X). rewrite H in X. exists (S m). split; [lia|exact X].
  - destruct (inside_moves n t b p mb _ _ (br_step names0 b mb p mb1 p1 mb' r H HB) HT HM) as (m & Hm & X). rewrite H in X. destruct X as [X1 X2].
    destruct (IH (S m) X1 X2) as (m' & Hm' & Y). exists m'. split; [lia|exact Y].
Qed.
Lemma inside_leaves n t b p : thr (x_box (f n)) t = Inside b p -> exists m r, n < m /\ thr (x_box (f m)) t = Leaving r /\ owner (x_box (f m)) b = None.
Proof.
  intros H. destruct (F_inv n) as (ks & tr & w & ph & L & HI). pose proof (n_thr _ _ _ _ (i_lin _ _ _ _ _ _ _ HI) t) as NT. rewrite H in NT.
  destruct NT as (_ & r & _ & BR). destruct (runs n t b p _ _ r H eq_refl BR) as (m & A). exists m, r. exact A.
Qed.
Lemma lock_free n : exists m, n <= m /\ owner (x_box (f m)) 0 = None.
Proof.
  destruct (owner (x_box (f n)) 0) as [t|] eqn:O; [|eauto]. destruct (own_inside n t 0 O) as (p & H).
  destruct (inside_leaves n t 0 p H) as (m & r & A & _ & B). exists m. split; [lia|exact B].
Qed.
Lemma gets_lock n t b k : thr (x_box (f n)) t = Want b k -> exists m, n < m /\ thr (x_box (f m)) t = Inside b (PStart k).
Proof.
  intros H. destruct (F_inv n) as (ks & tr & w & ph & L & HI). pose proof (n_thr _ _ _ _ (i_lin _ _ _ _ _ _ _ HI) t) as NT. rewrite H in NT.
  destruct (want0 c _ _ _ _ _ _ _ _ _ HI NT) as [-> _].
  destruct (classic (forall m, n <= m -> thr (x_box (f m)) t = Want 0 k)) as [A|A].
  - destruct (moves t n) as (m & Hm & HT).
    + intros N HN. destruct (lock_free N) as (m & Hm & O). exists m. split; [exact Hm|]. eexists. split; [eapply x_in_box, c_lock; [apply A; lia|exact O]|].
      right. left. left. cbn [x_box]. rewrite set_thr_same, A by lia. discriminate.
    + apply busy_turn in HT; [|rewrite A by exact Hm; discriminate]. rewrite !A in HT by lia. exfalso.
      destruct HT as [X|(b & p & X & _)]; [contradiction|discriminate].
  - apply NNPP. intros C. apply A. intros m Hm. induction Hm as [|m Hm IH]; [exact H|].
    assert (NI : thr (x_box (f m)) t <> Idle) by (rewrite IH; discriminate).
    destruct (busy_step m t NI) as [(X & _)|X]; [congruence|]. rewrite IH in X. elim C. exists (S m). split; [lia|apply X].
Qed.
(* every call comes to an end *)
Lemma idle_again n t : exists m, n <= m /\ thr (x_box (f m)) t = Idle.
Proof.
  assert (A : forall n r, thr (x_box (f n)) t = Leaving r -> exists m, n <= m /\ thr (x_box (f m)) t = Idle).
  { intros n0 r H. destruct (leaves n0 t r H) as (m & A & B). exists m. split; [lia|exact B]. }
  assert (B : forall n b p, thr (x_box (f n)) t = Inside b p -> exists m, n <= m /\ thr (x_box (f m)) t = Idle).
  { intros n0 b p H. destruct (inside_leaves n0 t b p H) as (m & r & B1 & B2 & _). destruct (A m r B2) as (m' & C1 & C2). exists m'. split; [lia|exact C2]. }
  destruct (thr (x_box (f n)) t) as [|b k|b p|r] eqn:H; [exists n; auto| |eapply B, H|eapply A, H].
  destruct (gets_lock n t b k H) as (m & C1 & C2). destruct (B m _ _ C2) as (m' & D1 & D2). exists m'. split; [lia|exact D2].
Qed.

(* ---- outside the barrier a thread goes on ---- *)
Lemma idle_stays n t : thr (x_box (f n)) t = Idle -> x_thr (f (S n)) t = x_thr (f n) t -> thr (x_box (f (S n))) t = Idle.
Proof.
  intros H HX. destruct (F_step n) as [(k & HS & _)|HS]; [|rewrite HS; exact H].
  remember (f (S n)) as g' eqn:Eg'. clear Eg'. revert H HX HS. generalize (f n) as g. intros g H HX HS.
  inversion HS; subst; clear HS; cbn [x_box x_thr] in *; try exact H.
  - inversion H0; subst; (destruct (Nat.eq_dec t t0) as [->|D]; [congruence|rewrite set_thr_other by exact D; exact H]).
  - inversion H2; subst. destruct (Nat.eq_dec t t0) as [->|D]; [|rewrite set_thr_other by exact D; exact H].
    exfalso. rewrite set_loc_same in HX. unfold next_call in H1. destruct (x_thr g t0) as [pl sb cu pa]. unfold at_place in HX. cbn [l_at l_sub l_cur l_past] in *. injection HX as ->.
    destruct pl; try discriminate; try (destruct (_ <? _); discriminate). destruct sb; discriminate.
  - inversion H0; subst. destruct (Nat.eq_dec t t0) as [->|D]; [apply set_thr_same|rewrite set_thr_other by exact D; exact H].
Qed.
Lemma goes_on n t : t < T -> ~ ended (x_thr (f n) t) -> l_at (x_thr (f n) t) <> PWaiting -> exists m, n <= m /\ x_thr (f (S m)) t <> x_thr (f m) t.
Proof.
  intros Ht HE HW. apply NNPP. intros C.
  assert (A : forall m, n <= m -> x_thr (f m) t = x_thr (f n) t).
  { intros m Hm. induction Hm as [|m Hm IH]; [reflexivity|]. rewrite <- IH. apply NNPP. intros D. apply C. exists m. auto. }
  destruct (idle_again n t) as (n1 & H1 & I1).
  assert (I : forall m, n1 <= m -> thr (x_box (f m)) t = Idle).
  { intros m Hm. induction Hm as [|m Hm IH]; [exact I1|]. apply idle_stays; [exact IH|]. rewrite (A (S m)), (A m) by lia. reflexivity. }
  destruct (moves t n1) as (m & Hm & HT).
  - intros N HN. exists N. split; [lia|]. destruct (F_inv N) as (ks & tr & w & ph & L & HI).
    pose proof (idle_ph c _ _ _ _ _ _ _ HI (I N HN)) as PI. pose proof (i_loc _ _ _ _ _ _ _ HI t Ht) as LO. rewrite PI in LO.
    assert (BI : b_thr (x_bar (f N)) t = TIdle).
    { destruct (i_bar _ _ _ _ _ _ _ HI t) as [X|[_ X]]; [exact X|]. rewrite A in X by lia. contradiction. }
    assert (CB : forall k p, next_call c t (x_thr (f N) t) = Some (k, p) -> p <> l_at (x_thr (f N) t) -> able t N).
    { intros k p HN' D. eexists. split; [eapply x_call_box; [exact Ht|exact HN'|apply c_call, I, HN]|].
      left. cbn. rewrite set_loc_same. intros Q. apply D. rewrite <- Q at 1. reflexivity. }
    assert (CL : forall l, local_step c (x_thr (f N) t) = Some l -> l_at l <> l_at (x_thr (f N) t) -> able t N).
    { intros l HN' D. eexists. split; [eapply x_local; [exact Ht|exact HN']|]. left. cbn. rewrite set_loc_same. congruence. }
    assert (HE' : ~ ended (x_thr (f N) t)) by (rewrite A by lia; exact HE).
    assert (HW' : l_at (x_thr (f N) t) <> PWaiting) by (rewrite A by lia; exact HW).
    unfold loc_ok in LO. unfold next_call in CB. unfold local_step in CL.
    destruct (l_at (x_thr (f N) t)) eqn:PL; try contradiction;
      try (destruct LO as ([LO|LO] & _); try discriminate; try (destruct LO as (? & LO); try discriminate; destruct LO; discriminate)).
    + eapply CB; [reflexivity|discriminate].
    + eexists. split; [eapply x_call_bar; [exact Ht|exact PL|apply M_Barrier.b_call, BI]|].
      left. cbn. rewrite set_loc_same. intros Q. rewrite <- Q in PL. discriminate.
    + destruct (_ <? _); eapply CL; try reflexivity; discriminate.
    + destruct (_ <? _); [eapply CB; [reflexivity|discriminate]|eapply CL; [reflexivity|discriminate]].
    + destruct (_ <? _); [eapply CB; [reflexivity|discriminate]|eapply CL; [reflexivity|discriminate]].
    + destruct (_ =? _)%Z; eapply CL; try reflexivity; discriminate.
    + eapply CB; [reflexivity|discriminate].
    + eapply CB; [reflexivity|discriminate].
    + destruct LO as (_ & (s & Hs & _) & _). rewrite Hs in CB. eapply CB; [reflexivity|discriminate].
    + elim HE'. exists res. exact PL.
  - assert (BI : forall m, n <= m -> b_thr (x_bar (f m)) t = TIdle).
    { intros j Hj. destruct (F_inv j) as (ks & tr & w & ph & L & HI). destruct (i_bar _ _ _ _ _ _ _ HI t) as [X|[_ X]]; [exact X|]. rewrite A in X by lia. contradiction. }
    destruct HT as [H|[[H|(b & O & _)]|[H _]]].
    + rewrite (A (S m)), (A m) in H by lia. contradiction.
    + rewrite !I in H by lia. contradiction.
    + destruct (own_inside m t b O) as (p & X). rewrite I in X by lia. discriminate.
    + rewrite !BI in H by lia. contradiction.
Qed.

(* ---- from some time on nobody gets any further ---- *)
Definition settled (N : nat) : Prop := forall n t, N <= n -> t < T -> kept (x_thr (f N) t) (x_thr (f n) t).
Lemma F_rank n t : t < T -> kept (x_thr (f n) t) (x_thr (f (S n)) t) \/ rank (x_thr (f n) t) < rank (x_thr (f (S n)) t).
Proof.
  intros Ht. destruct (F_step n) as [(k & HS & _)|HS]; [|rewrite HS; left; apply kept_refl].
  destruct (F_inv n) as (ks & tr & w & ph & L & HI). destruct (F_inv (S n)) as (ks' & tr' & w' & ph' & L' & HI').
  eapply rank_step; eassumption.
Qed.
Lemma F_settled : exists N, settled N.
Proof.
  pose (s := fun n => list_sum (map (fun t => rank (x_thr (f n) t)) (seq 0 T))).
  assert (LE : forall n t, In t (seq 0 T) -> rank (x_thr (f n) t) <= rank (x_thr (f (S n)) t)).
  { intros n t Ht. apply in_seq in Ht. destruct (F_rank n t) as [A|A]; [lia|rewrite (kept_rank _ _ A); lia|lia]. }
  destruct (settles s (length (seq 0 T) * (4 + R * stretch + 7))) as (N & HN).
  - intros n. apply sum_le. apply LE.
  - intros n. rewrite <- sum_const. apply sum_le. intros t Ht. apply in_seq in Ht. destruct (F_inv n) as (ks & tr & w & ph & L & HI).
    eapply rank_bound, (i_loc _ _ _ _ _ _ _ HI). lia.
  - exists N. intros n t Hn Ht. induction Hn as [|n Hn IH]; [apply kept_refl|]. eapply kept_trans; [exact IH|].
    destruct (F_rank n t Ht) as [A|A]; [exact A|]. exfalso.
    assert (LT : s n < s (S n)) by (apply (sum_lt _ _ _ t); [apply LE|apply in_seq; lia|exact A]).
    rewrite (HN n), (HN (S n)) in LT by lia. lia.
Qed.
Lemma settled_later N n : settled N -> N <= n -> settled n.
Proof.
  intros H Hn m t Hm Ht. pose proof (H n t Hn Ht) as A. pose proof (H m t ltac:(lia) Ht) as B.
  destruct A as [A|(tr & A1 & A2 & A3 & A4 & A5)]; [rewrite A; exact B|]. destruct B as [B|(tr' & B1 & B2 & B3 & B4 & B5)].
  - rewrite B. right. exists tr. auto 6.
  - right. exists tr. assert (tr' = tr) by exact (spin_inj _ _ _ B1 A1). subst. repeat split; try assumption; congruence.
Qed.
Lemma settled_const N n t : settled N -> N <= n -> t < T -> (forall tr, ~ spin tr (x_thr (f N) t)) -> x_thr (f n) t = x_thr (f N) t.
Proof. intros H Hn Ht HS. destruct (H n t Hn Ht) as [A|(tr & A & _)]; [exact A|]. elim (HS tr A). Qed.
Lemma three N t : settled N -> t < T -> ended (x_thr (f N) t) \/ l_at (x_thr (f N) t) = PWaiting \/ exists tr, spin tr (x_thr (f N) t).
Proof.
  intros H Ht. destruct (ended_dec (x_thr (f N) t)) as [A|A]; [auto|].
  destruct (classic (l_at (x_thr (f N) t) = PWaiting)) as [B|B]; [auto|]. right. right.
  destruct (goes_on N t Ht A B) as (m & Hm & D). apply NNPP. intros C. apply D.
  rewrite (settled_const N (S m)), (settled_const N m) by (try assumption; try lia; intros tr X; apply C; eauto). reflexivity.
Qed.

(* ---- the barrier lets everybody through ---- *)
(* what a step does to a thread inside wait *)
Lemma bar_change st k e st' u : M_Barrier.bstep st k e st' -> k <> KExpire -> b_thr st u <> TIdle -> b_thr st' u <> b_thr st u ->
  match b_thr st u with
  | TIdle => False
  | TCalled => exists o, b_thr st' u = TGot o
  | TGot o => b_thr st' u = THold o HInc
  | THold o h => exists s x e, hold_step st u o h = (s, x, e) /\ b_thr st' u = x /\ b_own st' = b_own s
  | TSleep o n => b_thr st' u = TWake o false \/ b_thr st' u = TSleep o true
  | TWake o td => b_thr st' u = THold o (if td then HFinal else HPred)
  | TDone r => b_thr st' u = TIdle
  end.
Proof.
  intros S HK HN HD. inversion S; subst; clear S; try congruence;
    match goal with X : b_thr st ?v = _ |- _ => destruct (Nat.eq_dec u v) as [->|D] end;
    try (rewrite ?H in *; cbn; unfold upd_thr; rewrite Nat.eqb_refl; eauto; fail);
    try (exfalso; apply HD; cbn; unfold upd_thr; destruct (Nat.eqb_spec u t); [contradiction|reflexivity]); try congruence.
  - rewrite H. cbn. unfold upd_thr. rewrite Nat.eqb_refl. eauto 6.
  - cbn in HD |- *. unfold upd_thr in *. destruct (Nat.eqb_spec u t); [contradiction|].
    assert (X : b_thr st'0 u = b_thr st u \/ exists o n, b_thr st u = TSleep o n /\ b_thr st'0 u = TSleep o true).
    { destruct h; cbn [hold_step] in H0; repeat match type of H0 with context [if ?b then _ else _] => destruct b end; injection H0 as <- <- <-; cbn; auto;
        destruct (b_thr st u) eqn:BU; eauto. }
    destruct X as [X|(o & n0 & X & Y)]; [contradiction|]. rewrite X. auto.
Qed.
Definition brank (x : tst) : nat :=
  match x with
  | TCalled => 0 | TGot _ => 1 | THold _ HInc => 2 | THold _ HTest => 3
  | THold _ HPred | TSleep _ _ | TWake _ _ => 4
  | THold _ HBump => 5 | THold _ HNotify => 6 | THold _ (HOut _) => 7 | TDone _ => 8 | TIdle => 9
  | _ => 0
  end.
(* sleeping, or about to look whether it is time to go *)
Definition dozing (x : tst) : Prop := exists o, x = THold o HPred \/ (exists n, x = TSleep o n) \/ x = TWake o false.

Definition no_loop (x y : tst) : Prop := x = y \/ brank x < brank y \/ dozing x /\ dozing y.
Lemma barInv n : exists tr g, L_BarrierN.Inv T 0 (x_bar (f n)) tr g /\
  (forall t, t < T -> calls t tr = Nat.b2n (called_of (x_thr (f n) t)) /\ rets t tr = Nat.b2n (passed_of (x_thr (f n) t))).
Proof.
  destruct (F_inv n) as (ks & tr & w & ph & L & HI).
  assert (FT : 1 <= T /\ (Z.of_nat T < two32)%Z) by (destruct HF as (F1 & F2 & _); unfold two31, two32 in *; lia).
  destruct (L_BarrierN.Inv_execution T 0 ks tr (x_bar (f n))) as (g & G);
    [apply FT|apply FT|unfold two32; lia|apply (i_exec _ _ _ _ _ _ _ HI)|apply (i_only _ _ _ _ _ _ _ HI)|apply (i_time _ _ _ _ _ _ _ HI)|].
  exists tr, g. split; [exact G|]. apply (i_calls _ _ _ _ _ _ _ HI).
Qed.
Lemma bar_of_step n : x_bar (f (S n)) = x_bar (f n) \/ exists k e, M_Barrier.bstep (x_bar (f n)) k e (x_bar (f (S n))) /\ k <> KExpire.
Proof.
  destruct (F_step n) as [(k & HS & HK)|HS]; [|left; rewrite HS; reflexivity].
  inversion HS; subst; cbn [x_bar]; auto; right; eauto.
  - exists KCall. eexists. split; [eassumption|discriminate].
Qed.
Lemma bar_local n t : t < T -> b_thr (x_bar (f n)) t <> TIdle ->
  exists g cl rt, L_BarrierN.local 0 g cl rt (b_thr (x_bar (f n)) t).
Proof. intros Ht _. destruct (barInv n) as (tr & g & G & _). pose proof (L_BarrierN.i_loc _ _ _ _ _ G t Ht). eauto. Qed.
Lemma bar_moves_up n t : t < T -> b_thr (x_bar (f n)) t <> TIdle -> no_loop (b_thr (x_bar (f n)) t) (b_thr (x_bar (f (S n))) t).
Proof.
  intros Ht HN. destruct (classic (b_thr (x_bar (f (S n))) t = b_thr (x_bar (f n)) t)) as [A|A]; [left; symmetry; exact A|].
  destruct (bar_of_step n) as [B|(k & e & B & HK)]; [rewrite B in A; contradiction|]. right.
  pose proof (bar_change _ _ _ _ t B HK HN A) as C. destruct (bar_local n t Ht HN) as (g & cl & rt & LO).
  destruct (b_thr (x_bar (f n)) t) as [| |o|o h|o b|o td|r]; try contradiction.
  - destruct C as (o & ->). left. cbn. lia.
  - rewrite C. left. cbn. lia.
  - destruct C as (s & x & e' & C & -> & _). destruct h; try (cbn in LO; contradiction); cbn [hold_step] in C;
      repeat match type of C with context [if ?b then _ else _] => destruct b end; injection C as <- <- <-; try (left; cbn; lia).
    right. split; unfold dozing; eauto.
  - right. split; [unfold dozing; eauto|]. destruct C as [-> | ->]; unfold dozing; eauto.
  - destruct td; [cbn in LO; contradiction|]. right. rewrite C. split; unfold dozing; eauto.
  - rewrite C. left. cbn. lia.
Qed.
Lemma brank_bound x : brank x <= 9.
Proof. destruct x as [| |o|o []|o b|o td|r]; cbn; lia. Qed.
Lemma dozing_rank x : dozing x -> brank x = 4.
Proof. intros (o & [->|[(n & ->)| ->]]); reflexivity. Qed.

Lemma none_waits N : settled N -> forall t, t < T -> l_at (x_thr (f N) t) <> PWaiting.
Proof.
  intros HS0 t0 Ht0 HW0.
  pose (W := fun u => u < T /\ l_at (x_thr (f N) u) = PWaiting).
  assert (CU : forall u, W u -> forall m, N <= m -> x_thr (f m) u = x_thr (f N) u).
  { intros u [Hu PW] m Hm. apply settled_const; try assumption. intros tr1 [X|X]; congruence. }
  assert (IU : forall u, W u -> forall m, N <= m -> thr (x_box (f m)) u = Idle).
  { intros u HW m Hm. destruct (F_inv m) as (ks1 & tr1 & w1 & ph1 & L1 & HI1). eapply ph_idle; [exact HI1|].
    pose proof (i_loc _ _ _ _ _ _ _ HI1 u (proj1 HW)) as LO. unfold loc_ok in LO. rewrite (CU u HW m Hm), (proj2 HW) in LO. apply LO. }
  assert (CR : forall u tr g n, W u -> N <= n -> (forall t, t < T -> calls t tr = Nat.b2n (called_of (x_thr (f n) t)) /\ rets t tr = Nat.b2n (passed_of (x_thr (f n) t))) ->
    L_BarrierN.Inv T 0 (x_bar (f n)) tr g -> calls u tr = 1 /\ rets u tr = 0).
  { intros u tr g n HW Hn HC _. destruct (HC u (proj1 HW)) as [-> ->]. unfold called_of, passed_of. rewrite (CU u HW n Hn), (proj2 HW). auto. }
  assert (BN : forall u n, W u -> N <= n -> b_thr (x_bar (f n)) u <> TIdle).
  { intros u n HW Hn X. destruct (barInv n) as (tr & g & G & HC). destruct (CR u tr g n HW Hn HC G) as [C1 C2].
    pose proof (L_BarrierN.i_loc _ _ _ _ _ G u (proj1 HW)) as LO. rewrite X in LO. cbn in LO. lia. }
  assert (TB : forall u n, W u -> N <= n -> turn u (f n) (f (S n)) -> b_thr (x_bar (f (S n))) u <> b_thr (x_bar (f n)) u).
  { intros u n HW Hn [H|[[H|(b & O & _)]|[H _]]].
    - rewrite (CU u HW n), (CU u HW (S n)) in H by lia. contradiction.
    - rewrite !(IU u HW) in H by lia. contradiction.
    - destruct (own_inside n u b O) as (p & X). rewrite (IU u HW) in X by lia. discriminate.
    - exact H. }
  assert (WN : forall u n, N <= n -> b_thr (x_bar (f n)) u <> TIdle -> W u).
  { intros u n Hn X. destruct (F_inv n) as (ks & tr & w & ph & L & HI). destruct (i_bar _ _ _ _ _ _ _ HI u) as [Y|[Hu Y]]; [contradiction|].
    split; [exact Hu|]. destruct (HS0 n u Hn Hu) as [Q|(tr1 & _ & [Q|Q] & _)]; congruence. }
  (* from some time on nobody gets further in the barrier either *)
  assert (ST : exists N2, N <= N2 /\ forall n u, N2 <= n -> W u ->
    b_thr (x_bar (f (S n))) u = b_thr (x_bar (f n)) u \/ dozing (b_thr (x_bar (f n)) u) /\ dozing (b_thr (x_bar (f (S n))) u)).
  { pose (rk := fun n u => match l_at (x_thr (f N) u) with PWaiting => brank (b_thr (x_bar (f (N + n))) u) | _ => 0 end).
    pose (s := fun n => list_sum (map (rk n) (seq 0 T))).
    assert (LE : forall n u, In u (seq 0 T) -> rk n u <= rk (S n) u).
    { intros n u Hu. apply in_seq in Hu. unfold rk. destruct (l_at (x_thr (f N) u)) eqn:PW; try lia.
      assert (HW : W u) by (split; [lia|exact PW]). pose proof (bar_moves_up (N + n) u (proj1 HW) (BN u (N + n) HW ltac:(lia))) as X.
      rewrite Nat.add_succ_r. destruct X as [X|[X|[X Y]]]; [rewrite X; lia|lia|]. rewrite (dozing_rank _ X), (dozing_rank _ Y). lia. }
    destruct (settles s (length (seq 0 T) * 9)) as (M0 & HM).
    - intros n. apply sum_le, LE.
    - intros n. rewrite <- sum_const. apply sum_le. intros u _. unfold rk. destruct (l_at (x_thr (f N) u)); try lia. apply brank_bound.
    - exists (N + M0). split; [lia|]. intros n u Hn HW.
      pose proof (bar_moves_up n u (proj1 HW) (BN u n HW ltac:(lia))) as X. destruct X as [X|[X|X]]; [auto| |auto]. exfalso.
      assert (LT : s (n - N) < s (S (n - N))).
      { apply (sum_lt _ _ _ u); [apply LE|apply in_seq; destruct HW; lia|]. unfold rk. rewrite (proj2 HW).
        replace (N + (n - N)) with n by lia. replace (N + S (n - N)) with (S n) by lia. exact X. }
      rewrite (HM (n - N)), (HM (S (n - N))) in LT by lia. lia. }
  destruct ST as (N2 & H2 & ST).
  (* a thread that can move moves, and so is dozing *)
  assert (MV : forall u n, W u -> N2 <= n -> (forall m, n <= m -> b_thr (x_bar (f m)) u = b_thr (x_bar (f n)) u -> exists j, m <= j /\ (b_thr (x_bar (f j)) u = b_thr (x_bar (f n)) u -> able u j)) ->
    exists m, n <= m /\ b_thr (x_bar (f m)) u = b_thr (x_bar (f n)) u /\ b_thr (x_bar (f (S m))) u <> b_thr (x_bar (f n)) u).
  { intros u n HW Hn HA. apply NNPP. intros C.
    assert (A : forall m, n <= m -> b_thr (x_bar (f m)) u = b_thr (x_bar (f n)) u).
    { intros m Hm. induction Hm as [|m Hm IH]; [reflexivity|]. apply NNPP. intros D. apply C. exists m. auto. }
    destruct (moves u n) as (m & Hm & HT).
    - intros m Hm. destruct (HA m Hm (A m Hm)) as (j & Hj & HJ). exists j. split; [exact Hj|]. apply HJ, A. lia.
    - apply (TB u m HW ltac:(lia)) in HT. rewrite (A m), (A (S m)) in HT by lia. contradiction. }
  assert (AB : forall u n e st', W u -> N <= n -> M_Barrier.bstep (x_bar (f n)) KRun e st' -> bar_moved u (x_bar (f n)) st' -> able u n).
  { intros u n e st' HW Hn S D. destruct (ret_only _ _ _ _ S) as [NR|(v & r & -> & _)].
    - eexists. split; [eapply x_in_bar; [discriminate|exact S|exact NR]|]. right. right. exact D.
    - eexists. split; [eapply x_ret_bar, S|]. right. right. exact D. }
  assert (UP' : forall st s u x, x <> b_thr st u /\ (forall o, x <> TSleep o true) -> bar_moved u st (with_thr s u x)).
  { intros st s u x [D D']. unfold bar_moved. cbn. unfold upd_thr. rewrite Nat.eqb_refl. split; [exact D|]. intros (o & _ & X). exact (D' o X). }
  assert (HO : forall u n o h, W u -> N2 <= n -> b_thr (x_bar (f n)) u = THold o h -> h = HPred /\
    exists m, n <= m /\ b_thr (x_bar (f m)) u = THold o HPred /\ b_thr (x_bar (f (S m))) u = TSleep o false /\ b_own (x_bar (f (S m))) = None /\ o = b_cnt (x_bar (f m))).
  { intros u n o h HW Hn E. destruct (MV u n HW Hn) as (m & Hm & M1 & M2).
    - intros m Hm Q. exists m. split; [lia|]. intros _. rewrite E in Q. destruct (hold_step (x_bar (f m)) u o h) as [[s x] e] eqn:HS.
      eapply (AB u m _ _ HW ltac:(lia)); [eapply b_hold; [exact Q|exact HS]|]. apply UP'. rewrite Q.
      clear -HS. destruct h; cbn [hold_step] in HS; repeat match type of HS with context [if ?b then _ else _] => destruct b end; injection HS as <- <- <-; split; discriminate.
    - rewrite E in M1, M2. destruct (ST m u ltac:(lia) HW) as [X|[X Y]]; [congruence|]. rewrite M1 in X.
      assert (h = HPred) as -> by (destruct X as (o' & [X|[(b & X)|X]]); congruence). split; [reflexivity|].
      destruct (bar_of_step m) as [B|(k & e & B & HK)]; [rewrite B in M2; congruence|].
      pose proof (bar_change _ _ _ _ u B HK (BN u m HW ltac:(lia)) ltac:(congruence)) as C. rewrite M1 in C.
      destruct C as (s & x & e' & C1 & C2 & C3). cbn [hold_step] in C1. exists m. split; [exact Hm|]. split; [exact M1|].
      destruct (Z.eqb_spec o (b_cnt (x_bar (f m)))) as [Q|Q]; injection C1 as <- <- <-; [auto|]. rewrite C2 in Y.
      destruct Y as (o' & [Y|[(b & Y)|Y]]); discriminate. }
  assert (LF : forall n, N2 <= n -> exists m, n <= m /\ b_own (x_bar (f m)) = None).
  { intros n Hn. destruct (b_own (x_bar (f n))) as [u|] eqn:O; [|eauto].
    destruct (barInv n) as (tr & g & G & _). destruct (proj1 (L_BarrierN.i_mutex _ _ _ _ _ G u) O) as (o & h & E).
    destruct (HO u n o h (WN u n ltac:(lia) ltac:(congruence)) Hn E) as (_ & m & Hm & _ & _ & X & _). exists (S m). split; [lia|exact X]. }
  assert (DZ : forall u n, W u -> N2 <= n -> dozing (b_thr (x_bar (f n)) u)).
  { intros u n HW Hn. destruct (b_thr (x_bar (f n)) u) as [| |o|o h|o b|o td|r] eqn:E.
    - elim (BN u n HW ltac:(lia) E).
    - exfalso. destruct (MV u n HW Hn) as (m & Hm & M1 & M2).
      + intros m Hm Q. exists m. split; [lia|]. intros _. rewrite E in Q. eapply (AB u m _ _ HW ltac:(lia)); [apply b_read, Q|]. apply UP'. rewrite Q. split; discriminate.
      + destruct (ST m u ltac:(lia) HW) as [X|[X _]]; [congruence|]. rewrite M1, E in X. destruct X as (o' & [X|[(b' & X)|X]]); discriminate.
    - exfalso. destruct (MV u n HW Hn) as (m & Hm & M1 & M2).
      + intros m Hm Q. destruct (LF m ltac:(lia)) as (j & Hj & O). exists j. split; [exact Hj|]. intros Q'. rewrite E in Q'.
        eapply (AB u j _ _ HW ltac:(lia)); [eapply M_Barrier.b_lock; [exact Q'|exact O]|]. apply UP'. rewrite Q'. split; discriminate.
      + destruct (ST m u ltac:(lia) HW) as [X|[X _]]; [congruence|]. rewrite M1, E in X. destruct X as (o' & [X|[(b' & X)|X]]); discriminate.
    - destruct (HO u n o h HW Hn E) as [-> _]. exists o. auto.
    - exists o. eauto.
    - destruct td; [|exists o; auto]. destruct (bar_local n u (proj1 HW) ltac:(congruence)) as (g & cl & rt & LO). rewrite E in LO. contradiction.
    - exfalso. destruct (MV u n HW Hn) as (m & Hm & M1 & M2).
      + intros m Hm Q. exists m. split; [lia|]. intros _. rewrite E in Q. eapply (AB u m _ _ HW ltac:(lia)); [eapply b_return, Q|]. apply UP'. rewrite Q. split; discriminate.
      + destruct (ST m u ltac:(lia) HW) as [X|[X _]]; [congruence|]. rewrite M1, E in X. destruct X as (o' & [X|[(b' & X)|X]]); discriminate. }
  assert (W0 : W t0) by (split; assumption).
  (* all have arrived, so the generation has changed *)
  assert (GN : forall n o, N2 <= n -> (exists h, b_thr (x_bar (f n)) t0 = THold o h) \/ (exists b, b_thr (x_bar (f n)) t0 = TSleep o b) \/ (exists b, b_thr (x_bar (f n)) t0 = TWake o b) ->
    o <> b_cnt (x_bar (f n))).
  { intros n o Hn EO. destruct (barInv n) as (tr & g & G & HC).
    pose proof (fun u HW => L_BarrierN.i_loc _ _ _ _ _ G u (proj1 (HW : W u))) as LO.
    assert (DO : forall u, W u -> exists o, (L_BarrierN.enter 0 g (calls u tr) (rets u tr) o \/ L_BarrierN.leave 0 g (calls u tr) (rets u tr) o) /\
      (b_thr (x_bar (f n)) u = THold o HPred \/ (exists b, b_thr (x_bar (f n)) u = TSleep o b) \/ b_thr (x_bar (f n)) u = TWake o false)).
    { intros u HW. specialize (LO u HW). destruct (DZ u n HW Hn) as (o' & [X|[(b & X)|X]]); rewrite X in LO; exists o'; (split; [|eauto]).
      - exact LO.
      - destruct b; [right|]; exact LO.
      - exact LO. }
    destruct (Nat.eq_dec g 0) as [->|Hg].
    - exfalso.
      assert (AW : forall u, u < T -> W u).
      { intros u Hu. apply (WN u n ltac:(lia)). intros X. pose proof (L_BarrierN.i_loc _ _ _ _ _ G u Hu) as Q. rewrite X in Q. cbn in Q.
        destruct (HC u Hu) as [Q1 _]. assert (CA : called_of (x_thr (f n) u) = true).
        { unfold called_of. destruct (three n u (settled_later N n HS0 ltac:(lia)) Hu) as [(res & Y)|[Y|(tr1 & [Y|Y])]]; rewrite Y; reflexivity. }
        rewrite CA in Q1. cbn in Q1. lia. }
      assert (CA : cnt T (fun t => L_BarrierN.arr (b_cnt (x_bar (f n))) (b_thr (x_bar (f n)) t)) = T).
      { apply cnt_all. intros u Hu. destruct (DO u (AW u Hu)) as (o' & [(_ & _ & Q)|(_ & Q & _)] & Y); [|lia].
        rewrite <- (L_BarrierN.i_cnt _ _ _ _ _ G) in Q. subst o'. destruct Y as [Y|[(b & Y)|Y]]; rewrite Y; apply Z.eqb_refl. }
      assert (CB : cnt T (fun t => L_BarrierN.bmp (b_thr (x_bar (f n)) t)) = 0).
      { apply cnt_none. intros u Hu. destruct (DZ u n (AW u Hu) Hn) as (o' & [X|[(b & X)|X]]); rewrite X; reflexivity. }
      pose proof (L_BarrierN.i_wait _ _ _ _ _ G) as Q. rewrite CA, CB in Q.
      destruct (L_BarrierN.i_lt _ _ _ _ _ G) as [Q1|(u & o' & X)]; [lia|].
      destruct (DZ u n (WN u n ltac:(lia) ltac:(congruence)) Hn) as (o'' & [Y|[(b & Y)|Y]]); congruence.
    - destruct (DO t0 W0) as (o' & QQ & Y).
      assert (o' = o) as -> by (destruct EO as [(h & X)|[(b & X)|(b & X)]], Y as [Y|[(b' & Y)|Y]]; congruence).
      destruct (CR t0 tr g n W0 ltac:(lia) HC G) as [C1 C2]. rewrite (L_BarrierN.i_cnt _ _ _ _ _ G).
      destruct QQ as [(Q & _)|(_ & _ & g' & -> & ->)]; [lia|]. apply gen_neq. }
  (* whoever sleeps has been notified *)
  assert (SL : forall n o b, N2 <= n -> b_thr (x_bar (f n)) t0 = TSleep o b -> b = true).
  { intros n o b Hn E. destruct b; [reflexivity|]. exfalso. destruct (barInv n) as (tr & g & G & HC).
    destruct (L_BarrierN.i_slp _ _ _ _ _ G t0 o E) as (u & o' & X); [apply (GN n o Hn); eauto|].
    destruct (DZ u n (WN u n ltac:(lia) ltac:(congruence)) Hn) as (o'' & [Y|[(b & Y)|Y]]); congruence. }
  assert (F1 : forall n o, N2 <= n -> b_thr (x_bar (f n)) t0 = THold o HPred -> False).
  { intros n o Hn E. destruct (HO t0 n o HPred W0 Hn E) as (_ & m & Hm & X & _ & _ & Q). apply (GN m o ltac:(lia)); eauto. }
  assert (F2 : forall n o, N2 <= n -> b_thr (x_bar (f n)) t0 = TWake o false -> False).
  { intros n o Hn E. destruct (MV t0 n W0 Hn) as (m & Hm & M1 & M2).
    - intros m Hm Q. destruct (LF m ltac:(lia)) as (j & Hj & O). exists j. split; [exact Hj|]. intros Q'. rewrite E in Q'.
      eapply (AB t0 j _ _ W0 ltac:(lia)); [eapply b_relock; [exact Q'|exact O]|]. apply UP'. rewrite Q'. split; discriminate.
    - rewrite E in M1, M2. destruct (bar_of_step m) as [B|(k & e & B & HK)]; [rewrite B in M2; congruence|].
      pose proof (bar_change _ _ _ _ t0 B HK (BN t0 m W0 ltac:(lia)) ltac:(congruence)) as C. rewrite M1 in C.
      eapply (F1 (S m)); [lia|exact C]. }
  destruct (DZ t0 N2 W0 (le_n _)) as (o & [X|[(b & X)|X]]); [eapply F1; eauto| |eapply F2; eauto].
  assert (b = true) by (eapply SL; eauto). subst b. destruct (MV t0 N2 W0 (le_n _)) as (m & Hm & M1 & M2).
  - intros m Hm Q. exists m. split; [lia|]. intros _. rewrite X in Q. eapply (AB t0 m _ _ W0 ltac:(lia)); [eapply b_wake, Q|]. apply UP'. rewrite Q. split; discriminate.
  - rewrite X in M1, M2. destruct (bar_of_step m) as [B|(k & e & B & HK)]; [rewrite B in M2; congruence|].
    pose proof (bar_change _ _ _ _ t0 B HK (BN t0 m W0 ltac:(lia)) ltac:(congruence)) as C. rewrite M1 in C.
    destruct C as [C|C]; [|congruence]. eapply (F2 (S m)); [lia|exact C].
Qed.

(* ---- somebody who waits for messages gets one ---- *)
Lemma fed g ks trc w ph L t tr s : inv c g ks trc w ph L -> t < T -> spin tr (x_thr g t) -> length (l_cur (x_thr g t)) < E ->
  pending (x_thr g t) (ph t) = [] ->
  (forall u, u < T -> ended (x_thr g u) \/ exists tr', spin tr' (x_thr g u) /\ tr <= tr') ->
  l_sub (x_thr g t) = Some s -> exists m q, q_find (sub_idx s) (mb_queues (w 0)) = Some (Some m :: q).
Proof.
  intros HI Ht Hp Hl HPe HU Hs. pose proof (i_K _ _ _ _ _ _ _ HI) as HK.
  pose proof (i_loc _ _ _ _ _ _ _ HI t Ht) as LO. unfold loc_ok in LO.
  assert (HR' : tr < R) by (destruct Hp as [Hp|Hp]; rewrite Hp in LO; apply LO).
  assert (A : forall v, v < T -> S tr * M <= a_cnt (sums c (x_thr g) ph v)).
  { intros v Hv. unfold sums, summ_of. cbn [a_cnt]. unfold cnt_of. destruct (HU v Hv) as [(res & ->)|(tr' & [->| ->] & Q)]; apply Nat.mul_le_mono_r; lia. }
  assert (SM : a_sid (sums c (x_thr g) ph t) = Some (sub_idx s) /\ a_gone (sums c (x_thr g) ph t) = false /\
               a_trial (sums c (x_thr g) ph t) = tr /\ a_recv (sums c (x_thr g) ph t) = concat (a_past (sums c (x_thr g) ph t)) ++ l_cur (x_thr g t)).
  { unfold sums, summ_of. cbn [a_sid a_gone a_trial a_recv a_past]. rewrite HPe, app_nil_r. unfold sid_of, gone_of, trial_of.
    destruct Hp as [->| ->]; rewrite Hs; auto. }
  destruct SM as (S1 & S2 & S3 & S4).
  destruct (k_q _ _ _ _ HK t _ Ht S1 S2) as (q & Fq & V). destruct q as [|m q]; [|cbn [map] in Fq; eauto]. exfalso.
  pose proof (len_early c _ _ _ HK t (S tr) Ht A) as LE. pose proof (len_past c _ _ _ HK t Ht) as LP. rewrite S3 in LP.
  assert (LV : length (filter (early_ (S tr)) (views c t L)) <= length (views c t L)).
  { clear. induction (views c t L) as [|m l IH]; [reflexivity|]. cbn [filter length]. destruct (early_ (S tr) m); cbn [length]; lia. }
  rewrite LE, V, S4, !app_length, LP in LV. cbn in LV. lia.
Qed.

(* thread t is going to get a message from its current call of get, if any *)
Definition lucky (t n : nat) : Prop := exists ks trc w ph L, inv c (f n) ks trc w ph L /\
  match ph t with ADone r => exists m, r = MOk (RMsg (Some m)) | _ => True end.
Lemma lucky_step N t tr n : settled N -> N <= n -> t < T -> spin tr (x_thr (f N) t) -> length (l_cur (x_thr (f N) t)) < E ->
  (forall u, u < T -> ended (x_thr (f N) u) \/ exists tr', spin tr' (x_thr (f N) u) /\ tr <= tr') ->
  lucky t n -> lucky t (S n).
Proof.
  intros HS Hn Ht Hp Hl HU (ks & trc & w & ph & L & HI & HL).
  destruct HSch as [_ SS]. destruct (SS n) as [[S1 S2]|[S1 _]]; [|unfold lucky; rewrite S1; eauto 8].
  destruct (inv_step_full c _ _ _ _ _ _ _ _ HF HI S1 S2) as (ks' & tr' & w' & ph' & L' & HI' & (e & HA) & _).
  exists ks', tr', w', ph', L'. split; [exact HI'|].
  assert (KT : spin tr (x_thr (f n) t) /\ length (l_cur (x_thr (f n) t)) < E).
  { destruct (HS n t Hn Ht) as [->|(tr1 & A1 & A2 & A3 & A4 & A5)]; [auto|]. rewrite A4. rewrite (spin_inj _ _ _ Hp A1). auto. }
  destruct KT as [K1 K2].
  assert (KU : forall u, u < T -> ended (x_thr (f n) u) \/ exists tr', spin tr' (x_thr (f n) u) /\ tr <= tr').
  { intros u Hu. destruct (HS n u Hn Hu) as [->|(tr1 & A1 & A2 & _)]; [auto|]. right. exists tr1. split; [exact A2|].
    destruct (HU u Hu) as [(res & X)|(tr2 & X & Y)]; [destruct A1; congruence|]. rewrite (spin_inj _ _ _ A1 X). exact Y. }
  inversion HA; subst; try exact HL.
  - destruct (Nat.eq_dec t t0) as [->|D]; [rewrite set_ph_same; exact I|rewrite set_ph_other by exact D; exact HL].
  - destruct (Nat.eq_dec t t0) as [->|D]; [rewrite set_ph_same|rewrite set_ph_other by exact D; exact HL].
    pose proof (i_loc _ _ _ _ _ _ _ HI t0 Ht) as LO. unfold loc_ok in LO. rewrite H in LO.
    destruct K1 as [K1|K1]; rewrite K1 in LO; [destruct LO as [[=] _]|].
    destruct LO as ([[= -> ->]|(om & [=])] & (s & Hs & Hb) & _ & _).
    destruct (fed _ _ _ _ _ _ t0 tr s HI Ht (or_intror K1) K2) as (m & q & Fq); [unfold pending; rewrite K1, H; reflexivity|exact KU|exact Hs|].
    cbn [exec1] in H0. unfold get, getIndex in H0. rewrite Hs, Hb in H0. cbn [Nat.eqb obind] in H0. unfold getQueue in H0. rewrite Fq in H0.
    cbn [obind of_outcome] in H0. injection H0 as <- <-. eauto.
  - destruct (Nat.eq_dec t t0) as [->|D]; [rewrite set_ph_same; exact I|rewrite set_ph_other by exact D; exact HL].
Qed.

Lemma none_spins N : settled N -> forall t, t < T -> ended (x_thr (f N) t).
Proof.
  intros HS.
  assert (TW : forall t, t < T -> ended (x_thr (f N) t) \/ exists tr, spin tr (x_thr (f N) t)).
  { intros t Ht. destruct (three N t HS Ht) as [A|[A|A]]; [auto|elim (none_waits N HS t Ht A)|auto]. }
  destruct (bounded_dec (fun t => ended (x_thr (f N) t)) T) as [A|(t1 & Ht1 & HN1)]; [intros; apply ended_dec|exact A|]. exfalso.
  destruct (least (fun t => ~ ended (x_thr (f N) t)) (fun t => trial_of c (x_thr (f N) t)) T) as (t & Ht & HN & MN).
  { intros t. destruct (ended_dec (x_thr (f N) t)); tauto. }
  { eauto. }
  destruct (TW t Ht) as [X|(tr & Hp)]; [contradiction|].
  assert (TO : forall u tr, spin tr (x_thr (f N) u) -> trial_of c (x_thr (f N) u) = tr) by (intros u tr0 [X|X]; unfold trial_of; rewrite X; reflexivity).
  assert (HU : forall u, u < T -> ended (x_thr (f N) u) \/ exists tr', spin tr' (x_thr (f N) u) /\ tr <= tr').
  { intros u Hu. destruct (ended_dec (x_thr (f N) u)) as [X|X]; [auto|]. destruct (TW u Hu) as [Y|(tr' & Y)]; [auto|]. right. exists tr'. split; [exact Y|].
    specialize (MN u Hu X). rewrite (TO t tr Hp), (TO u tr' Y) in MN. exact MN. }
  assert (KP : forall n, N <= n -> spin tr (x_thr (f n) t) /\ l_cur (x_thr (f n) t) = l_cur (x_thr (f N) t)).
  { intros n Hn. destruct (HS n t Hn Ht) as [->|(tr1 & A1 & A2 & A3 & A4 & A5)]; [auto|]. rewrite (spin_inj _ _ _ Hp A1). auto. }
  (* it makes a call *)
  destruct (idle_again N t) as (n1 & H1 & I1).
  assert (L1 : lucky t n1).
  { destruct (F_inv n1) as (ks & trc & w & ph & L & HI). exists ks, trc, w, ph, L. split; [exact HI|].
    rewrite (idle_ph c _ _ _ _ _ _ _ HI I1). exact I. }
  assert (NE : forall n, N <= n -> ~ ended (x_thr (f n) t) /\ l_at (x_thr (f n) t) <> PWaiting).
  { intros n Hn. destruct (KP n Hn) as [[X|X] _]; (split; [intros (res & Y)|]); congruence. }
  assert (CE : forall n, N <= n -> l_at (x_thr (f n) t) = PRecving tr -> length (l_cur (x_thr (f N) t)) < E).
  { intros n Hn X. destruct (KP n Hn) as [_ <-]. destruct (F_inv n) as (ks & trc & w & ph & L & HI).
    pose proof (i_loc _ _ _ _ _ _ _ HI t Ht) as LO. unfold loc_ok in LO. rewrite X in LO. apply LO. }
  assert (C1 : exists n2, n1 <= n2 /\ l_at (x_thr (f n2) t) = PRecving tr).
  { destruct (goes_on n1 t Ht) as (m & Hm & D); try (apply NE; lia).
    destruct (KP m ltac:(lia)) as [[X|X] _]; [|eauto]. destruct (KP (S m) ltac:(lia)) as [[Y|Y] _]; [|exists (S m); split; [lia|exact Y]].
    exfalso. apply D. destruct (HS m t ltac:(lia) Ht) as [A|(ta & _ & A2 & A3 & A4 & A5)], (HS (S m) t ltac:(lia) Ht) as [B|(tb & _ & B2 & B3 & B4 & B5)];
      destruct (x_thr (f m) t), (x_thr (f (S m)) t), (x_thr (f N) t); cbn in *; congruence. }
  destruct C1 as (n2 & H2 & C2). pose proof (CE n2 ltac:(lia) C2) as LL.
  (* the call returns *)
  destruct (idle_again n2 t) as (n3 & H3 & I3).
  assert (C3 : l_at (x_thr (f n3) t) <> PRecving tr).
  { intros X. destruct (F_inv n3) as (ks & trc & w & ph & L & HI). pose proof (i_loc _ _ _ _ _ _ _ HI t Ht) as LO. unfold loc_ok in LO. rewrite X in LO.
    rewrite (idle_ph c _ _ _ _ _ _ _ HI I3) in LO. destruct LO as ([[=]|(om & [=])] & _). }
  destruct (first_change (fun n => l_at (x_thr (f n) t) = PRecving tr) n2 n3 H3 C2 C3) as (m & Hm & M1 & M2).
  assert (LM : forall n, n1 <= n -> lucky t n).
  { intros n Hn. induction Hn as [|n Hn IH]; [exact L1|]. apply (lucky_step N t tr n HS ltac:(lia) Ht Hp LL HU IH). }
  (* with a message *)
  destruct (LM m ltac:(lia)) as (ks & trc & w & ph & L & HI & HLu).
  assert (NI : thr (x_box (f m)) t <> Idle).
  { intros X. pose proof (i_loc _ _ _ _ _ _ _ HI t Ht) as LO. unfold loc_ok in LO. rewrite M1, (idle_ph c _ _ _ _ _ _ _ HI X) in LO.
    destruct LO as ([[=]|(om & [=])] & _). }
  assert (DX : x_thr (f (S m)) t <> x_thr (f m) t) by (intros X; apply M2; rewrite X; exact M1).
  destruct (busy_step m t NI) as [(_ & X & _)|X]; [contradiction|].
  pose proof (n_thr _ _ _ _ (i_lin _ _ _ _ _ _ _ HI) t) as NT.
  assert (XS : (exists b k, thr (x_box (f m)) t = Want b k) \/ (exists b p, thr (x_box (f m)) t = Inside b p) \/ exists r, thr (x_box (f m)) t = Leaving r).
  { destruct (thr (x_box (f m)) t); [contradiction|eauto..]. }
  assert (LV : exists r, thr (x_box (f m)) t = Leaving r).
  { destruct XS as [(b & k & Y)|[(b & p & Y)|Y]]; [..|exact Y]; exfalso; apply DX; apply (only_return m t NI); rewrite Y; discriminate. }
  destruct LV as (r & Y). rewrite Y in X, NT. destruct X as [_ X]. rewrite NT in HLu. destruct HLu as (m0 & ->).
  destruct (KP (S m) ltac:(lia)) as [_ K1]. destruct (KP m ltac:(lia)) as [_ K2].
  rewrite X in K1. unfold after_call in K1. rewrite M1 in K1. cbn in K1. rewrite K2 in K1.
  apply (f_equal (@length xmsg)) in K1. rewrite app_length in K1. cbn in K1. lia.
Qed.
Lemma all_finish : exists n, forall m t, n <= m -> t < T -> l_at (x_thr (f m) t) = PEnd 0%Z.
Proof.
  destruct F_settled as (N & HN). exists N. intros m t Hm Ht. destruct (none_spins N HN t Ht) as (res & X).
  rewrite (settled_const N m t HN Hm Ht) by (intros tr [Y|Y]; congruence).
  destruct (end_ok c (f N) t res HF (F_reached N) Ht X) as [-> _]. exact X.
Qed.
End F.

(* ---- there are fair schedules ---- *)
Section Exists.
Variable c : cfg.
Hypothesis HF : fits c.
(* when all threads have ended nothing more happens *)
Lemma end_still g k g' : reached c g -> (forall t, t < c_threads c -> ended (x_thr g t)) -> ~ xstep c g k g'.
Proof.
  intros HR HE HS. destruct (reached_inv c g HF HR) as (ks & tr & w & ph & L & HI).
  assert (PI : forall t, ph t = AIdle).
  { intros t. destruct (le_lt_dec (c_threads c) t) as [A|A]; [apply (i_out _ _ _ _ _ _ _ HI), A|].
    pose proof (i_loc _ _ _ _ _ _ _ HI t A) as LO. destruct (HE t A) as (res & X). unfold loc_ok in LO. rewrite X in LO. apply LO. }
  assert (TI : forall t, thr (x_box g) t = Idle) by (intros t; eapply ph_idle; [exact HI|apply PI]).
  assert (BI : forall t, b_thr (x_bar g) t = TIdle).
  { intros t. destruct (i_bar _ _ _ _ _ _ _ HI t) as [A|[A B]]; [exact A|]. destruct (HE t A) as (res & X). congruence. }
  inversion HS; subst.
  - inversion H0; subst; congruence.
  - inversion H; subst; congruence.
  - destruct (HE t H) as (res & X). unfold local_step in H0. rewrite X in H0. discriminate.
  - destruct (HE t H) as (res & X). unfold next_call in H0. rewrite X in H0. discriminate.
  - inversion H; subst; congruence.
  - destruct (HE t H) as (res & X). congruence.
  - destruct (bar_ret _ _ _ _ H) as [A _]. rewrite BI in A. discriminate.
Qed.
(* a finite execution, as a sequence *)
Lemma run_seq g ks g' : xrun c g ks g' -> in_time ks -> exists f kd N, f 0 = g /\ (forall n, N <= n -> f n = g' /\ kd n = KRun) /\
  forall n, (xstep c (f n) (kd n) (f (S n)) /\ kd n <> KExpire) \/ (f (S n) = f n /\ kd n = KRun).
Proof.
  induction 1 as [g|g ks g1 k g2 HR IH HS]; intros HT.
  - exists (fun _ => g), (fun _ => KRun), 0. auto.
  - destruct IH as (f & kd & N & F0 & FN & FS); [intros X; apply HT, in_app_iff; auto|].
    exists (fun n => if n <=? N then f n else g2), (fun n => if n =? N then k else kd n), (S N). split; [|split].
    + exact F0.
    + intros n Hn. destruct (Nat.leb_spec n N); [lia|]. destruct (Nat.eqb_spec n N); [lia|]. split; [reflexivity|]. apply FN. lia.
    + intros n. destruct (Nat.eqb_spec n N) as [->|D].
      * left. destruct (Nat.leb_spec N N); [|lia]. destruct (Nat.leb_spec (S N) N); [lia|]. destruct (FN N (le_n _)) as [-> _]. split; [exact HS|].
        intros ->. apply HT, in_app_iff. right. left. reflexivity.
      * destruct (Nat.leb_spec n N), (Nat.leb_spec (S n) N); try lia; [apply FS|]. right. split; [reflexivity|]. apply FN. lia.
Qed.
Lemma fair_exists : exists f kd, schedule (xstep c) (xinit c) f kd /\ fair (xstep c) f.
Proof.
  assert (R0 : reached c (xinit c)) by (exists []; split; [constructor|intros []]).
  destruct (can_finish c HF _ R0) as (g & (ks & HR & HT) & HE).
  assert (RG : reached c g) by (exists ks; auto).
  destruct (run_seq _ _ _ HR HT) as (f & kd & N & F0 & FN & FS). exists f, kd. split; [split; assumption|].
  intros t H. exfalso. destruct (H N) as (n & g' & Hn & S & _). destruct (FN n Hn) as [FX _]. rewrite FX in S. exact (end_still _ _ _ RG HE S).
Qed.
End Exists.
