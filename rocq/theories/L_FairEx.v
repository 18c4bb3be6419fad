(* L_FairEx.v -- every execution can be continued in a fair way. *)
From Coq Require Import Classical_Prop.
From Verif Require Import Base M_MailBox M_MailBoxConc M_Barrier S_Barrier S_MailBoxConc S_Fair L_Barrier L_FairBar.
From Verif Require L_BarrierT C_Barrier C_MailBoxConc P_Barrier P_MailBoxConc.
Local Open Scope nat_scope.

Lemma upto_ext {E} (e e' : nat -> list E) n : (forall i, i < n -> e i = e' i) -> upto e n = upto e' n.
Proof. intros H. unfold upto. f_equal. apply map_ext_in. intros i Hi. apply in_seq in Hi. apply H. lia. Qed.
Lemma upto_last {E} (e : nat -> list E) n : upto e (S n) = upto e n ++ e n.
Proof. unfold upto. rewrite seq_S, map_app, concat_app. cbn. rewrite app_nil_r. reflexivity. Qed.

(* ---- mailboxes ---- *)
Lemma box_seq {M} (s0 : cstate M) tr st : csteps s0 tr st -> exists f e N, box_for_ever s0 f e /\ upto e N = tr /\ forall n, N <= n -> f n = st /\ e n = [].
Proof.
  induction 1 as [st|st tr st1 ee st2 HR IH HS].
  - exists (fun _ => st), (fun _ => []), 0. split; [split; auto|]. auto.
  - destruct IH as (f & e & N & [F0 FS] & U & FN).
    exists (fun n => if n <=? N then f n else st2), (fun n => if n =? N then ee else e n), (S N). split; [split|split].
    + exact F0.
    + intros n. destruct (Nat.eqb_spec n N) as [->|D].
      * left. destruct (Nat.leb_spec N N); [|lia]. destruct (Nat.leb_spec (S N) N); [lia|]. destruct (FN N (le_n _)) as [-> _]. exact HS.
      * destruct (Nat.leb_spec n N), (Nat.leb_spec (S n) N); try lia; [apply FS|]. right. split; [reflexivity|]. apply FN. lia.
    + rewrite upto_last, Nat.eqb_refl. f_equal. rewrite <- U. apply upto_ext. intros i Hi. destruct (Nat.eqb_spec i N); [lia|reflexivity].
    + intros n Hn. destruct (Nat.leb_spec n N); [lia|]. destruct (Nat.eqb_spec n N); [lia|]. split; [reflexivity|]. apply FN. lia.
Qed.
Lemma csteps_trans {M} (a : cstate M) tr b tr' c : csteps a tr b -> csteps b tr' c -> csteps a (tr ++ tr') c.
Proof.
  intros H H'. induction H' as [st|st tr1 st1 ee st2 HR IH HS]; [rewrite app_nil_r; exact H|].
  rewrite app_assoc. econstructor; [apply IH, H|exact HS].
Qed.
Lemma box_fair_exists {M} names (tr : list (ev M)) st : csteps (cinit names) tr st ->
  exists f e tr' N, box_for_ever (cinit names) f e /\ box_fair f /\ upto e N = tr ++ tr'.
Proof.
  intros H. destruct (P_MailBoxConc.C80_no_deadlock _ _ _ _ H) as (st' & tr' & H' & _ & HI).
  destruct (box_seq _ _ _ (csteps_trans _ _ _ _ _ H H')) as (f & e & N & HF & U & FN). exists f, e, tr', N. split; [exact HF|]. split; [|exact U].
  intros t A. exfalso. destruct (A N) as (n & ee & s & Hn & NI & _). destruct (FN n Hn) as [X _]. rewrite X in NI. exact (NI (HI t)).
Qed.

(* ---- a barrier ---- *)
Lemma bar_seq s0 ks tr st : bsteps s0 ks tr st -> exists f k e N, bar_for_ever s0 f k e /\ upto e N = tr /\ map k (seq 0 N) = ks /\
  forall n, N <= n -> f n = st /\ e n = [] /\ k n = KRun.
Proof.
  induction 1 as [st|st ks tr st1 kk ee st2 HR IH HS].
  - exists (fun _ => st), (fun _ => KRun), (fun _ => []), 0. split; [split; auto|]. auto.
  - destruct IH as (f & k & e & N & [F0 FS] & U & K & FN).
    exists (fun n => if n <=? N then f n else st2), (fun n => if n =? N then kk else k n), (fun n => if n =? N then ee else e n), (S N). split; [split|split; [|split]].
    + exact F0.
    + intros n. destruct (Nat.eqb_spec n N) as [->|D].
      * left. destruct (Nat.leb_spec N N); [|lia]. destruct (Nat.leb_spec (S N) N); [lia|]. destruct (FN N (le_n _)) as [-> _]. exact HS.
      * destruct (Nat.leb_spec n N), (Nat.leb_spec (S n) N); try lia; [apply FS|]. right. split; [reflexivity|]. apply FN. lia.
    + rewrite upto_last, Nat.eqb_refl. f_equal. rewrite <- U. apply upto_ext. intros i Hi. destruct (Nat.eqb_spec i N); [lia|reflexivity].
    + rewrite seq_S, map_app. cbn. rewrite Nat.eqb_refl. f_equal. rewrite <- K. apply map_ext_in. intros i Hi. apply in_seq in Hi. destruct (Nat.eqb_spec i N); [lia|reflexivity].
    + intros n Hn. destruct (Nat.leb_spec n N); [lia|]. destruct (Nat.eqb_spec n N); [lia|]. split; [reflexivity|]. apply FN. lia.
Qed.
(* it runs until nobody can move *)
Lemma run_out N R B nw b0 ks tr st : execution nw b0 ks tr st -> only_threads N tr -> at_most_calls R tr ->
  (3 * N + 15) * N * R + 2 * spurious_steps ks <= B ->
  forall d, B - forced_steps ks <= d -> exists m tr' st', execution nw b0 (ks ++ repeat KRun m) (tr ++ tr') st' /\ (forall t, ~ In (ECall t) tr') /\ forall e s, ~ bstep st' KRun e s.
Proof.
  intros H HO HC HB d. revert ks tr st H HO HC HB. induction d as [|d IH]; intros ks tr st H HO HC HB HD.
  - exists 0, [], st. rewrite !app_nil_r. split; [exact H|]. split; [intros t []|]. intros e s S.
    assert (H' : execution nw b0 (ks ++ [KRun]) (tr ++ e) s) by (eapply bs_snoc; eassumption).
    assert (NC : forall t, ~ In (ECall t) e) by (intros t X; exact (run_no_call _ _ _ t S X)).
    pose proof (P_Barrier.C81_waiting_ends N R nw b0 _ _ _ H') as X.
    assert (Y : forced_steps (ks ++ [KRun]) <= (3 * N + 15) * N * R + 2 * spurious_steps (ks ++ [KRun])).
    { apply X; [intros t Q; apply in_app_or in Q as [Q|Q]; [exact (HO t Q)|elim (NC t Q)]|].
      intros t. unfold calls. rewrite count_app. rewrite (no_call_count t e NC). specialize (HC t). unfold calls in HC. lia. }
    unfold forced_steps, spurious_steps in *. rewrite !filter_app, !app_length in Y. cbn in Y. lia.
  - destruct (classic (exists e s, bstep st KRun e s)) as [(e & s & S)|N0].
    + assert (H' : execution nw b0 (ks ++ [KRun]) (tr ++ e) s) by (eapply bs_snoc; eassumption).
      assert (NC : forall t, ~ In (ECall t) e) by (intros t X; exact (run_no_call _ _ _ t S X)).
      destruct (IH _ _ _ H') as (m & tr' & st' & A & A1 & A2).
      * intros t Q. apply in_app_or in Q as [Q|Q]; [exact (HO t Q)|elim (NC t Q)].
      * intros t. unfold calls. rewrite count_app. rewrite (no_call_count t e NC). specialize (HC t). unfold calls in HC. lia.
      * unfold spurious_steps in *. rewrite filter_app, app_length. cbn. lia.
      * unfold forced_steps in *. rewrite filter_app, app_length. cbn. lia.
      * exists (Datatypes.S m), (e ++ tr'), st'. split; [rewrite <- app_assoc in A; cbn [repeat]; rewrite app_assoc; exact A|]. split; [|exact A2].
        intros t Q. apply in_app_or in Q as [Q|Q]; [elim (NC t Q)|exact (A1 t Q)].
    + exists 0, [], st. rewrite !app_nil_r. split; [exact H|]. split; [intros t []|]. intros e s S. apply N0. eauto.
Qed.
Lemma bar_fair_exists nw b0 ks tr st : execution nw b0 ks tr st ->
  exists f k e tr' N, bar_for_ever (binit nw b0) f k e /\ bar_fair f /\ upto e N = tr ++ tr' /\
    (forall t n, In (ECall t) (e n) -> In (ECall t) tr) /\ (forall n, k n = KRun \/ In (k n) ks).
Proof.
  intros H.
  assert (HN : exists N, only_threads N tr).
  { clear H. induction tr as [|x tr (N & IH)]; [exists 0; intros t []|]. pose (u := match x with ECall u => u | _ => 0 end).
    exists (S (Nat.max N u)). intros t [X|X]; [subst x; cbn in u; subst u; lia|specialize (IH t X); lia]. }
  destruct HN as (N & HO).
  assert (HC : at_most_calls (length tr) tr).
  { intros t. unfold calls, count. clear. induction tr as [|x tr IH]; cbn; [lia|]. destruct (is_call t x); cbn; lia. }
  destruct (run_out N (length tr) _ nw b0 ks tr st H HO HC (le_n _) _ (le_n _)) as (m & tr' & st' & H' & NC & ST).
  destruct (bar_seq _ _ _ _ H') as (f & k & e & N' & HF & U & K & FN). exists f, k, e, tr', N'. split; [exact HF|]. split; [|split; [exact U|split]].
  - intros t A. exfalso. destruct (A N') as (n & ee & s & Hn & S & _). destruct (FN n Hn) as [X _]. rewrite X in S. exact (ST _ _ S).
  - intros t n X. destruct (le_lt_dec N' n) as [L|L]; [destruct (FN n L) as (_ & Y & _); rewrite Y in X; destruct X|].
    assert (Y : In (ECall t) (upto e N')) by (unfold upto; apply in_concat; exists (e n); split; [apply in_map, in_seq; lia|exact X]).
    rewrite U in Y. apply in_app_or in Y as [Y|Y]; [exact Y|elim (NC t Y)].
  - intros n. destruct (le_lt_dec N' n) as [L|L]; [left; apply FN, L|].
    assert (Y : In (k n) (map k (seq 0 N'))) by (apply in_map, in_seq; lia). rewrite K in Y. apply in_app_or in Y as [Y|Y]; [auto|].
    apply repeat_spec in Y. auto.
Qed.
