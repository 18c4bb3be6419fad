(* L_ExchangeP.v -- the exchange program can always be brought to its end. *)
From Verif Require Import Base M_MailBox M_MailBoxConc M_Barrier M_Exchange S_Barrier S_Exchange L_Map L_MailBox L_MailBoxConc L_Exchange L_ExchangeK L_ExchangeG.
From Verif Require C_Barrier L_BarrierN.

Section P.
Variable c : cfg.
Notation T := (c_threads c). Notation M := (c_msgs c). Notation R := (c_trials c). Notation E := (expected_msgs c).
Hypothesis HF : fits c.

Definition go (g g' : xst) : Prop := exists ks, xrun c g ks g' /\ in_time ks.
Lemma go_refl g : go g g.
Proof. exists []. split; [constructor|intros []]. Qed.
Lemma go_snoc g g1 k g2 : go g g1 -> xstep c g1 k g2 -> k <> KExpire -> go g g2.
Proof.
  intros (ks & R1 & T1) S D. exists (ks ++ [k]). split; [econstructor; eassumption|].
  intros H. apply in_app_iff in H as [H|[H|[]]]; [exact (T1 H)|congruence].
Qed.
Lemma go_trans g g1 g2 : go g g1 -> go g1 g2 -> go g g2.
Proof.
  intros G1 (ks & R2 & T2). induction R2 as [g1|g1 ks g2 k g3 R2 IH S]; [exact G1|].
  eapply go_snoc; [apply IH; [exact G1|]|exact S|].
  - intros H. apply T2, in_app_iff. auto.
  - intros ->. apply T2, in_app_iff. right. left. reflexivity.
Qed.
Lemma go_one g k g' : xstep c g k g' -> k <> KExpire -> go g g'.
Proof. intros S D. eapply go_snoc; [apply go_refl|eassumption|exact D]. Qed.
Lemma reached_go g g' : reached c g -> go g g' -> reached c g'.
Proof. exact (go_trans (xinit c) g g'). Qed.

(* ---- the mailbox ---- *)
Definition bx (g : xst) (m : cstate xmsg) : xst := mkXst (x_bar g) m (x_thr g).
Lemma go_bx g m m' : go g (bx g m) -> cstep m [] m' -> go g (bx g m').
Proof. intros G S. eapply go_snoc; [exact G|exact (x_in_box c (bx g m) m' S)|discriminate]. Qed.

Lemma run_inside names g st t b p mb r : (forall x, names_of (boxes st) x = names x) -> thr st t = Inside b p ->
  brun names b (boxes st b) p mb r -> go g (bx g st) ->
  exists m, go g (bx g m) /\ thr m t = Leaving r /\ (forall u, u <> t -> thr m u = thr st u) /\ boxes m b = mb /\ owner m b = None /\
    (forall b', b' <> b -> owner m b' = owner st b').
Proof.
  intros N HT HB. remember (boxes st b) as m0 eqn:E0. revert st N HT E0. induction HB; intros st N HT E0 G; subst.
  - rewrite <- (bstep_ext _ names) in H by exact N.
    exists (set_thr (set_owner (set_box st b mb') b None) t (Leaving r)). split; [|split; [|split; [|split; [|split]]]].
    + eapply go_bx; [exact G|]. eapply c_unlock; eassumption.
    + apply set_thr_same.
    + intros u D. rewrite set_thr_other by exact D. reflexivity.
    + cbn. apply upd_same.
    + cbn. rewrite Nat.eqb_refl. reflexivity.
    + intros b' D. cbn. destruct (Nat.eqb_spec b' b); [contradiction|reflexivity].
  - pose proof (bstep_name names b (boxes st b) p) as BN. rewrite H in BN. cbn in BN.
    rewrite <- (bstep_ext _ names) in H by exact N.
    destruct (IHHB (set_thr (set_box st b mb1) t (Inside b p1))) as (m & A1 & A2 & A3 & A5 & A4 & A6).
    + intros x. unfold names_of. cbn. unfold upd. destruct (Nat.eqb_spec x b) as [->|D]; [|apply N]. rewrite BN. apply N.
    + apply set_thr_same.
    + cbn. symmetry. apply upd_same.
    + eapply go_bx; [exact G|]. eapply c_work; eassumption.
    + exists m. split; [exact A1|]. split; [exact A2|]. split; [|auto]. intros u D. rewrite A3 by exact D. rewrite set_thr_other by exact D. reflexivity.
Qed.

Lemma ph_idle g ks tr w ph L t : inv c g ks tr w ph L -> ph t = AIdle -> thr (x_box g) t = Idle.
Proof.
  intros HI H. pose proof (n_thr _ _ _ _ (i_lin _ _ _ _ _ _ _ HI) t) as N. destruct (thr (x_box g) t); try congruence; try reflexivity.
  destruct N as (_ & r & N & _). congruence.
Qed.
Lemma idle_ph g ks tr w ph L t : inv c g ks tr w ph L -> thr (x_box g) t = Idle -> ph t = AIdle.
Proof. intros HI H. pose proof (n_thr _ _ _ _ (i_lin _ _ _ _ _ _ _ HI) t) as N. rewrite H in N. exact N. Qed.
Lemma want0 g ks tr w ph L t b k : inv c g ks tr w ph L -> ph t = AWant b k -> b = 0 /\ t < T.
Proof.
  intros HI H. destruct (le_lt_dec T t) as [Ho|Ht]; [rewrite (i_out _ _ _ _ _ _ _ HI t Ho) in H; discriminate|]. split; [|exact Ht].
  pose proof (i_loc _ _ _ _ _ _ _ HI t Ht) as LO. unfold loc_ok in LO. rewrite H in LO.
  destruct (l_at (x_thr g t)); try contradiction; try (destruct LO as [[=] _]); destruct LO as [LO _]; destruct LO as [LO|LO];
    try (injection LO as ->; reflexivity); try discriminate; try (destruct LO as (? & LO); try discriminate; destruct LO; discriminate).
  destruct LO as (s & _ & [= -> _]). reflexivity.
Qed.

(* the mailbox's lock can be made free *)
Lemma free_lock g : reached c g -> exists m, go g (bx g m) /\ owner m 0 = None /\ (forall u, thr (x_box g) u = Idle -> thr m u = Idle).
Proof.
  intros HR. destruct (reached_inv c g HF HR) as (ks & tr & w & ph & L & HI). pose proof (i_lin _ _ _ _ _ _ _ HI) as [].
  assert (GI : go g (bx g (x_box g))) by (destruct g; apply go_refl).
  destruct (owner (x_box g) 0) as [t|] eqn:O.
  - pose proof (n_own 0) as P. rewrite O in P. destruct P as (p & P). pose proof (n_thr t) as Q. rewrite P in Q. destruct Q as (_ & r & _ & Q).
    destruct (run_inside names0 g (x_box g) t 0 p _ r n_names P Q GI) as (m & A1 & A2 & A3 & A5 & A4 & A6).
    exists m. split; [exact A1|]. split; [exact A4|]. intros u Hu. rewrite A3; [exact Hu|]. intros ->. congruence.
  - exists (x_box g). auto.
Qed.

Definition quiet (g : xst) : Prop := owner (x_box g) 0 = None /\ forall u, thr (x_box g) u = Idle.

Lemma settle_thread g t : reached c g -> owner (x_box g) 0 = None ->
  exists g', go g g' /\ owner (x_box g') 0 = None /\ thr (x_box g') t = Idle /\ (forall u, thr (x_box g) u = Idle -> thr (x_box g') u = Idle).
Proof.
  intros HR HO. destruct (reached_inv c g HF HR) as (ks & tr & w & ph & L & HI). pose proof (i_lin _ _ _ _ _ _ _ HI) as [].
  assert (GI : go g (bx g (x_box g))) by (destruct g; apply go_refl).
  assert (RT : forall m r, go g (bx g m) -> owner m 0 = None -> thr m t = Leaving r -> (forall u, u <> t -> thr m u = thr (x_box g) u) ->
    exists g', go g g' /\ owner (x_box g') 0 = None /\ thr (x_box g') t = Idle /\ (forall u, thr (x_box g) u = Idle -> thr (x_box g') u = Idle)).
  { intros m r G1 O1 L1 U1. eexists. split; [eapply go_snoc; [exact G1|eapply (x_ret_box c (bx g m)); eapply c_return; exact L1|discriminate]|].
    cbn [x_box]. split; [exact O1|]. split; [apply set_thr_same|]. intros u Hu. destruct (Nat.eq_dec u t) as [->|D]; [apply set_thr_same|].
    rewrite set_thr_other by exact D. rewrite U1; assumption. }
  pose proof (n_thr t) as P. destruct (thr (x_box g) t) as [|b k|b p|r] eqn:HT.
  - exists g. split; [apply go_refl|auto].
  - destruct (want0 _ _ _ _ _ _ _ _ _ HI P) as [-> Ht].
    pose proof (c_lock _ _ _ _ HT HO) as S. pose proof (n_own 0) as B. rewrite HO in B.
    destruct (run_inside names0 g (set_thr (set_owner (x_box g) 0 (Some t)) t (Inside 0 (PStart k))) t 0 (PStart k) _ _ n_names (set_thr_same _ _ _) ltac:(cbn; apply body_correct; rewrite B; apply n_sorted) (go_bx _ _ _ GI S))
      as (m & A1 & A2 & A3 & A5 & A4 & A6).
    eapply RT; try eassumption. intros u D. rewrite A3 by exact D. rewrite set_thr_other by exact D. reflexivity.
  - destruct P as (P & r & _ & Q). 
    destruct (run_inside names0 g (x_box g) t b p _ r n_names HT Q GI) as (m & A1 & A2 & A3 & A5 & A4 & A6).
    eapply RT; try eassumption. destruct (Nat.eq_dec 0 b) as [<-|D]; [exact A4|]. rewrite A6 by exact D. exact HO.
  - eapply RT; try eassumption. auto.
Qed.

Lemma settle g : reached c g -> exists g', go g g' /\ quiet g'.
Proof.
  intros HR.
  assert (G : forall n, exists g', go g g' /\ owner (x_box g') 0 = None /\ forall u, u < n -> thr (x_box g') u = Idle).
  { induction n as [|n (g1 & G1 & O1 & U1)].
    - destruct (free_lock g HR) as (m & G1 & O1 & _). exists (bx g m). split; [exact G1|]. split; [exact O1|]. intros u Hu. lia.
    - destruct (settle_thread g1 n (reached_go _ _ HR G1) O1) as (g2 & G2 & O2 & I2 & U2). exists g2. split; [eapply go_trans; eassumption|].
      split; [exact O2|]. intros u Hu. destruct (Nat.eq_dec u n) as [->|D]; [exact I2|]. apply U2, U1. lia. }
  destruct (G T) as (g' & G1 & O1 & U1). exists g'. split; [exact G1|]. split; [exact O1|]. intros u.
  destruct (le_lt_dec T u) as [H|H]; [|apply U1, H].
  destruct (reached_inv c g' HF (reached_go _ _ HR G1)) as (ks & tr & w & ph & L & HI).
  eapply ph_idle; [exact HI|]. apply (i_out _ _ _ _ _ _ _ HI), H.
Qed.

(* one whole call *)
Lemma do_call g t k p mb r : reached c g -> quiet g -> t < T -> next_call c t (x_thr g t) = Some (k, p) ->
  exec1 names0 0 (boxes (x_box g) 0) k = (mb, r) ->
  exists g', go g g' /\ quiet g' /\ x_bar g' = x_bar g /\ x_thr g' t = after_call (at_place (x_thr g t) p) r /\
    (forall u, u <> t -> x_thr g' u = x_thr g u).
Proof.
  intros HR [HO HQ] Ht HN HX. destruct (reached_inv c g HF HR) as (ks & tr & w & ph & L & HI). pose proof (i_lin _ _ _ _ _ _ _ HI) as [].
  pose proof (n_own 0) as B. rewrite HO in B.
  pose (g1 := mkXst (x_bar g) (set_thr (x_box g) t (Want 0 k)) (set_loc (x_thr g) t (at_place (x_thr g t) p))).
  assert (G1 : go g g1). { eapply (go_one _ KRun); [|discriminate]. apply (x_call_box c g t k p); auto. apply c_call, HQ. }
  pose (m2 := set_thr (set_owner (x_box g1) 0 (Some t)) t (Inside 0 (PStart k))).
  assert (G2 : go g1 (bx g1 m2)). { eapply (go_one _ KRun); [|discriminate]. apply (x_in_box c g1). apply c_lock; [apply set_thr_same|exact HO]. }
  assert (BC : brun names0 0 (boxes m2 0) (PStart k) mb r).
  { change (boxes m2 0) with (boxes (x_box g) 0). pose proof (body_correct names0 0 (boxes (x_box g) 0) k) as X. rewrite HX in X. apply X.
    rewrite B. apply n_sorted. }
  assert (N2 : forall x, names_of (boxes m2) x = names0 x) by exact n_names.
  destruct (run_inside names0 g1 m2 t 0 (PStart k) mb r N2 (set_thr_same _ _ _) BC G2) as (m & A1 & A2 & A3 & A5 & A4 & A6).
  eexists. split; [|split; [|split; [|split]]].
  - eapply go_trans; [exact G1|]. eapply (go_snoc _ _ KRun); [exact A1| |discriminate]. eapply (x_ret_box c (bx g1 m) t r). apply c_return, A2.
  - split; [exact A4|]. intros u. cbn [x_box]. destruct (Nat.eq_dec u t) as [->|D]; [apply set_thr_same|].
    rewrite set_thr_other, A3 by exact D. unfold m2, g1. cbn [x_box]. rewrite !set_thr_other by exact D. cbn. destruct (Nat.eqb_spec u t); [contradiction|]. apply HQ.
  - reflexivity.
  - cbn. rewrite !set_loc_same. reflexivity.
  - intros u D. cbn. rewrite !set_loc_other by exact D. reflexivity.
Qed.

(* everybody subscribes *)
Lemma all_subscribe g : reached c g -> quiet g -> exists g', go g g' /\ quiet g' /\ forall t, t < T -> l_at (x_thr g' t) <> PSubscribe.
Proof.
  intros HR HQ.
  assert (G : forall n, n <= T -> exists g', go g g' /\ quiet g' /\ forall t, t < n -> l_at (x_thr g' t) <> PSubscribe).
  { induction n as [|n IH]; intros Hn; [exists g; split; [apply go_refl|split; [exact HQ|intros; lia]]|].
    destruct IH as (g1 & G1 & Q1 & U1); [lia|].
    assert (D : l_at (x_thr g1 n) = PSubscribe \/ l_at (x_thr g1 n) <> PSubscribe) by (destruct (l_at (x_thr g1 n)); auto; right; discriminate).
    destruct D as [D|D].
    - assert (NC : next_call c n (x_thr g1 n) = Some (CSubscribe, PSubscribing)) by (unfold next_call; rewrite D; reflexivity).
      destruct (exec1 names0 0 (boxes (x_box g1) 0) CSubscribe) as [mb r] eqn:EX.
      destruct (do_call g1 n CSubscribe PSubscribing mb r (reached_go _ _ HR G1) Q1 Hn NC EX) as (g2 & G2 & Q2 & _ & A & B).
      exists g2. split; [eapply go_trans; eassumption|]. split; [exact Q2|]. intros t Ht. destruct (Nat.eq_dec t n) as [->|Dn].
      + rewrite A. unfold after_call. cbn [at_place l_at]. destruct r as [[]| | |]; discriminate.
      + rewrite B by exact Dn. apply U1. lia.
    - exists g1. split; [exact G1|]. split; [exact Q1|]. intros t Ht. destruct (Nat.eq_dec t n) as [->|Dn]; [exact D|]. apply U1. lia. }
  apply (G T). lia.
Qed.

(* everybody passes the barrier *)
Lemma bounded_dec (P : nat -> Prop) n : (forall t, P t \/ ~ P t) -> (forall t, t < n -> P t) \/ exists t, t < n /\ ~ P t.
Proof.
  intros D. induction n as [|n [IH|(t & A & B)]]; [left; intros; lia| |right; exists t; split; [lia|exact B]].
  destruct (D n) as [H|H]; [|right; exists n; split; [lia|exact H]]. left. intros t Ht. destruct (Nat.eq_dec t n) as [->|N]; [exact H|]. apply IH. lia.
Qed.
Lemma quiet_ok g ks tr w ph L t : inv c g ks tr w ph L -> quiet g -> t < T -> loc_ok c t (x_thr g t) AIdle.
Proof.
  intros HI [_ HQ] Ht. pose proof (i_loc _ _ _ _ _ _ _ HI t Ht) as LO. rewrite (idle_ph _ _ _ _ _ _ _ HI (HQ t)) in LO. exact LO.
Qed.
Lemma ret_only st k e st' : M_Barrier.bstep st k e st' -> (forallb (fun x => negb (is_bret x)) e = true) \/ exists t r, e = [ERet t r] /\ k = KRun.
Proof.
  intros S. inversion S; subst; try (left; reflexivity); [|right; eauto].
  left. apply forallb_forall. intros y Hy. destruct y; try reflexivity. exfalso. apply hold_events in H0. eapply H0; eauto.
Qed.
Lemma all_pass m : forall g ks tr w ph L, inv c g ks tr w ph L -> reached c g -> quiet g -> (forall t, t < T -> l_at (x_thr g t) <> PSubscribe) ->
  11 * T * 1 + 2 * spurious_steps ks - work_steps ks <= m ->
  exists g', go g g' /\ quiet g' /\ forall t, t < T -> passed_of (x_thr g' t) = true.
Proof.
  assert (FT : 1 <= T /\ (Z.of_nat T < two32)%Z) by (destruct HF as (F1 & F2 & _); unfold two31, two32 in *; lia).
  assert (AM : forall g ks tr w ph L, inv c g ks tr w ph L -> at_most_calls 1 tr).
  { intros g ks tr w ph L HI t. destruct (le_lt_dec T t) as [H|H].
    - unfold calls. rewrite count_zero; [lia|]. intros x Hx. destruct x; try reflexivity. cbn. apply Nat.eqb_neq. intros ->.
      specialize (i_only _ _ _ _ _ _ _ HI t Hx). lia.
    - destruct (i_calls _ _ _ _ _ _ _ HI t H) as [-> _]. destruct (called_of _); cbn; lia. }
  assert (WB : forall g ks tr w ph L, inv c g ks tr w ph L -> work_steps ks <= 11 * T * 1 + 2 * spurious_steps ks).
  { intros g ks tr w ph L HI. apply (L_BarrierN.work_bounded T 0 ks tr (x_bar g) 1);
      [apply FT|apply FT|unfold two32; lia|apply (i_exec _ _ _ _ _ _ _ HI)|apply (i_only _ _ _ _ _ _ _ HI)|apply (i_time _ _ _ _ _ _ _ HI)|eapply AM, HI]. }
  induction m as [m IH] using (well_founded_induction lt_wf). intros g ks tr w ph L HI HR HQ HS HM.
  destruct (bounded_dec (fun t => passed_of (x_thr g t) = true) T) as [A|(t & Ht & HP)]; [intros t; destruct (passed_of _); auto|..].
  { exists g. split; [apply go_refl|]. auto. }
  assert (PR : (exists e st', M_Barrier.bstep (x_bar g) KRun e st') \/
               (exists t st', t < T /\ calls t tr < 1 /\ M_Barrier.bstep (x_bar g) KCall [ECall t] st')).
  { apply (L_BarrierN.progress T 0 ks tr (x_bar g) 1);
      [apply FT|apply FT|unfold two32; lia|apply (i_exec _ _ _ _ _ _ _ HI)|apply (i_only _ _ _ _ _ _ _ HI)|apply (i_time _ _ _ _ _ _ _ HI)|eapply AM, HI|].
    exists t. split; [exact Ht|]. destruct (i_calls _ _ _ _ _ _ _ HI t Ht) as [_ ->]. destruct (passed_of _); [contradiction|cbn; lia]. }
  assert (GO : forall g' k e, xstep c g KRun g' -> (k = KRun \/ k = KCall) -> inv c g' (ks ++ [k]) (tr ++ e) w ph L -> quiet g' ->
    (forall t, t < T -> l_at (x_thr g' t) <> PSubscribe) -> exists g', go g g' /\ quiet g' /\ forall t, t < T -> passed_of (x_thr g' t) = true).
  { intros g' k e ST KK HI' HQ' HS'. assert (G1 : go g g') by (eapply go_one; [exact ST|discriminate]).
    assert (WS : work_steps (ks ++ [k]) = S (work_steps ks) /\ spurious_steps (ks ++ [k]) = spurious_steps ks).
    { unfold work_steps, spurious_steps. rewrite !filter_app, !app_length. destruct KK as [->| ->]; cbn; lia. }
    destruct WS as [W1 W2]. pose proof (WB _ _ _ _ _ _ HI') as W3. rewrite W1, W2 in W3.
    destruct (IH (pred m) ltac:(lia) g' _ _ _ _ _ HI' (reached_go _ _ HR G1) HQ' HS') as (g2 & G2 & X); [rewrite W1, W2; lia|].
    exists g2. split; [eapply go_trans; eassumption|exact X]. }
  destruct PR as [(e & st' & ST)|(u & st' & Hu & HC & ST)].
  - destruct (ret_only _ _ _ _ ST) as [NR|(u & r & -> & _)].
    + eapply GO; [eapply x_in_bar; [|exact ST|exact NR]; discriminate|left; reflexivity|eapply inv_in_bar; try eassumption; discriminate|exact HQ|exact HS].
    + pose proof (inv_ret_bar c _ _ _ _ _ _ _ _ _ HF HI ST) as HI'.
      eapply GO; [eapply x_ret_bar, ST|left; reflexivity|exact HI'|exact HQ|].
      intros v Hv. cbn [x_thr]. destruct (Nat.eq_dec v u) as [->|D]; [rewrite set_loc_same; destruct r; discriminate|]. rewrite set_loc_other by exact D. auto.
  - assert (PW : l_at (x_thr g u) = PWait).
    { destruct (i_calls _ _ _ _ _ _ _ HI u Hu) as [C _]. rewrite C in HC. pose proof (quiet_ok _ _ _ _ _ _ _ HI HQ Hu) as LO.
      specialize (HS u Hu). unfold called_of in HC. unfold loc_ok in LO. destruct (l_at (x_thr g u)); try (cbn in HC; lia); try reflexivity; try contradiction.
      destruct LO as [[LO|(s & LO & _)] _]; discriminate. }
    pose proof (inv_call_bar c _ _ _ _ _ _ _ _ HI Hu PW ST) as HI'.
    eapply GO; [eapply x_call_bar; eassumption|right; reflexivity|exact HI'|exact HQ|].
    intros v Hv. cbn [x_thr]. destruct (Nat.eq_dec v u) as [->|D]; [rewrite set_loc_same; discriminate|]. rewrite set_loc_other by exact D. auto.
Qed.

(* the trials *)
Definition ended (l : loc) : Prop := exists res, l_at l = PEnd res.
Definition wt (l : loc) : nat :=
  let B := M + E + 4 in
  match l_at l with
  | PTrial tr => (R - tr) * B + 9
  | PSend tr i => (R - S tr) * B + (M - i) + E + 12
  | PRecv tr => (R - S tr) * B + (E - length (l_cur l)) + 11
  | PCheck tr => (R - S tr) * B + 10
  | PExtra => 5 | PMin => 4 | PDrop _ => 3
  | _ => 0
  end.
(* waiting for messages *)
Definition hungry (l : loc) : Prop := exists tr, l_at l = PRecv tr /\ length (l_cur l) < E.
Definition moved (g g' : xst) (t : nat) : Prop :=
  go g g' /\ quiet g' /\ passed_of (x_thr g' t) = true /\ wt (x_thr g' t) < wt (x_thr g t) /\ forall u, u <> t -> x_thr g' u = x_thr g u.

Lemma move_local g t l : quiet g -> t < T -> local_step c (x_thr g t) = Some l -> passed_of l = true -> wt l < wt (x_thr g t) ->
  exists g', moved g g' t.
Proof.
  intros HQ Ht HL HP HW. exists (mkXst (x_bar g) (x_box g) (set_loc (x_thr g) t l)). split; [|split; [|split; [|split]]].
  - eapply go_one; [eapply x_local; eassumption|discriminate].
  - exact HQ.
  - cbn. rewrite set_loc_same. exact HP.
  - cbn. rewrite set_loc_same. exact HW.
  - intros u D. cbn. apply set_loc_other, D.
Qed.
(* a call by a thread: the result is what the invariant allows *)
Lemma move_call g t k p : reached c g -> quiet g -> t < T -> next_call c t (x_thr g t) = Some (k, p) ->
  (forall r, loc_ok c t (after_call (at_place (x_thr g t) p) r) AIdle ->
     (exists mb, exec1 names0 0 (boxes (x_box g) 0) k = (mb, r)) ->
     passed_of (after_call (at_place (x_thr g t) p) r) = true /\ wt (after_call (at_place (x_thr g t) p) r) < wt (x_thr g t)) ->
  exists g', moved g g' t.
Proof.
  intros HR HQ Ht HN HW. destruct (exec1 names0 0 (boxes (x_box g) 0) k) as [mb r] eqn:EX.
  destruct (do_call g t k p mb r HR HQ Ht HN EX) as (g' & G & Q & _ & A & B). exists g'.
  destruct (reached_inv c g' HF (reached_go _ _ HR G)) as (ks & tr & w & ph & L & HI).
  pose proof (quiet_ok _ _ _ _ _ _ _ HI Q Ht) as LO. rewrite A in LO. destruct (HW r LO ltac:(eauto)) as [W1 W2].
  split; [exact G|]. split; [exact Q|]. rewrite A. auto.
Qed.

Lemma move g t : reached c g -> quiet g -> t < T -> passed_of (x_thr g t) = true -> ~ ended (x_thr g t) ->
  (hungry (x_thr g t) -> forall s, l_sub (x_thr g t) = Some s -> q_find (sub_idx s) (mb_queues (boxes (x_box g) 0)) <> Some []) ->
  exists g', moved g g' t.
Proof.
  intros HR HQ Ht HP HE HH. destruct (reached_inv c g HF HR) as (ks & tr & w & ph & L & HI).
  pose proof (quiet_ok _ _ _ _ _ _ _ HI HQ Ht) as LO. pose proof (i_K _ _ _ _ _ _ _ HI) as HK.
  assert (PI : ph t = AIdle) by (eapply idle_ph; [exact HI|apply HQ]).
  assert (B0 : boxes (x_box g) 0 = w 0).
  { destruct HQ as [O _]. pose proof (n_own _ _ _ _ (i_lin _ _ _ _ _ _ _ HI) 0) as X. rewrite O in X. exact X. }
  assert (SM : sums c (x_thr g) ph t = summ_of c (x_thr g t) (ph t)) by reflexivity.
  destruct (x_thr g t) as [pl sb cu pa] eqn:El. unfold loc_ok in LO. cbn [l_at l_sub l_cur l_past] in *. unfold passed_of in HP. cbn [l_at] in HP.
  destruct pl; try discriminate; try contradiction; try (destruct LO as ([LO|LO] & _); discriminate).
  - (* PTrial *)
    destruct LO as (_ & _ & -> & HR'). destruct (Nat.ltb_spec tr0 R) as [L1|L1].
    + apply (move_local g t (mkLoc (PSend tr0 0) sb [] pa) HQ Ht).
      * rewrite El. unfold local_step. cbn [l_at l_cur l_sub l_past]. destruct (Nat.ltb_spec tr0 R); [reflexivity|lia].
      * reflexivity.
      * rewrite El. unfold wt. cbn [l_at l_cur length]. replace (R - tr0) with (S (R - S tr0)) by lia. cbn [Nat.mul]. lia.
    + apply (move_local g t (mkLoc PExtra sb [] pa) HQ Ht).
      * rewrite El. unfold local_step. cbn [l_at l_cur l_sub l_past]. destruct (Nat.ltb_spec tr0 R); [lia|reflexivity].
      * reflexivity.
      * rewrite El. unfold wt. cbn [l_at]. lia.
  - (* PSend *)
    destruct LO as (_ & _ & -> & HR' & HM). destruct (Nat.ltb_spec i M) as [L1|L1].
    + eapply (move_call g t _ (PSending tr0 i) HR HQ Ht).
      * rewrite El. unfold next_call. cbn [l_at l_cur l_sub l_past]. destruct (Nat.ltb_spec i M); [reflexivity|lia].
      * rewrite El. intros r LR _. unfold after_call in *. cbn [at_place l_at] in *. destruct r as [v| | |]; try contradiction.
        split; [reflexivity|]. unfold wt. cbn [l_at at_place]. lia.
    + apply (move_local g t (mkLoc (PRecv tr0) sb [] pa) HQ Ht).
      * rewrite El. unfold local_step. cbn [l_at l_cur l_sub l_past]. destruct (Nat.ltb_spec i M); [lia|reflexivity].
      * reflexivity.
      * rewrite El. unfold wt. cbn [l_at l_cur length]. lia.
  - (* PRecv *)
    destruct LO as (_ & (s & Hs & Hb) & HR' & HM). cbn [l_sub] in Hs. subst sb. destruct (Nat.ltb_spec (length cu) E) as [L1|L1].
    + eapply (move_call g t _ (PRecving tr0) HR HQ Ht).
      * rewrite El. unfold next_call. cbn [l_at l_cur l_sub l_past]. destruct (Nat.ltb_spec (length cu) E); [reflexivity|lia].
      * rewrite El. intros r LR (mb & EX). unfold exec1, get, getIndex in EX. cbn [l_sub] in EX. rewrite Hb in EX. cbn [Nat.eqb obind] in EX.
        unfold getQueue in EX. rewrite B0 in EX, HH.
        destruct (k_q _ _ _ _ HK t (sub_idx s) Ht) as (q & Fq & _); [rewrite SM, PI; reflexivity..|].
        rewrite Fq in EX. cbn [obind of_outcome] in EX. destruct q as [|m q].
        { exfalso. apply (HH ltac:(exists tr0; split; [reflexivity|exact L1]) s eq_refl). exact Fq. }
        cbn [map] in EX. injection EX as _ <-. unfold after_call. cbn [at_place l_at]. split; [reflexivity|]. unfold wt. cbn [l_at l_cur at_place]. rewrite app_length. cbn [length]. lia.
    + apply (move_local g t (mkLoc (PCheck tr0) (Some s) cu pa) HQ Ht).
      * rewrite El. unfold local_step. cbn [l_at l_cur l_sub l_past]. destruct (Nat.ltb_spec (length cu) E); [lia|reflexivity].
      * reflexivity.
      * rewrite El. unfold wt. cbn [l_at l_cur]. lia.
  - (* PRecving *) destruct LO as ([LO|(om & LO)] & _); discriminate.
  - (* PCheck *)
    destruct LO as (_ & _ & HR' & HM).
    assert (exists l, local_step c (x_thr g t) = Some l) as (l & HL) by (rewrite El; unfold local_step; cbn; destruct (_ =? _)%Z; eauto).
    pose proof (inv_local c _ _ _ _ _ _ _ _ HF HI Ht HL) as HI'. pose proof (i_loc _ _ _ _ _ _ _ HI' t Ht) as LO'. cbn [x_thr] in LO'. rewrite set_loc_same in LO'.
    apply (move_local g t l HQ Ht HL); rewrite ?El in *; unfold local_step in HL; cbn [l_at l_cur l_sub l_past] in HL; destruct (_ =? _)%Z; injection HL as <-; try reflexivity.
    + unfold wt. cbn [l_at]. lia.
    + unfold loc_ok in LO'. cbn in LO'. destruct LO' as (_ & _ & _ & X). discriminate.
  - (* PExtra *)
    eapply (move_call g t _ PExtraing HR HQ Ht).
    + rewrite El. reflexivity.
    + rewrite El. intros r LR _. unfold after_call in *. cbn [at_place l_at] in *. destruct r as [[| |[m|]|]| | |]; try contradiction.
      * unfold loc_ok in LR. cbn in LR. destruct LR as (_ & _ & _ & X). discriminate.
      * split; [reflexivity|]. unfold wt. cbn [l_at at_place]. lia.
  - (* PMin *)
    eapply (move_call g t _ PMining HR HQ Ht).
    + rewrite El. reflexivity.
    + rewrite El. intros r LR _. unfold after_call in *. cbn [at_place l_at] in *. destruct r as [[| |[m|]|]| | |]; try contradiction.
      split; [reflexivity|]. unfold wt. cbn [l_at at_place]. lia.
  - (* PDrop *)
    destruct LO as (_ & (s & Hs & Hb) & _). cbn [l_sub] in Hs. subst sb. eapply (move_call g t _ (PDropping res) HR HQ Ht).
    + rewrite El. reflexivity.
    + rewrite El. intros r LR _. unfold after_call in *. cbn [at_place l_at] in *. destruct r as [v| | |]; try contradiction.
      split; [reflexivity|]. unfold wt. cbn [l_at at_place]. lia.
  - (* PDropping *) destruct LO as ([(s & _ & LO)|LO] & _); discriminate.
  - (* PEnd *) exfalso. apply HE. exists res. reflexivity.
Qed.

(* somebody who has got fewer than the others has something to get *)
Lemma hungry_fed g t tr : reached c g -> quiet g -> t < T -> l_at (x_thr g t) = PRecv tr -> length (l_cur (x_thr g t)) < E ->
  (forall u, u < T -> ended (x_thr g u) \/ exists tr', l_at (x_thr g u) = PRecv tr' /\ tr <= tr') ->
  forall s, l_sub (x_thr g t) = Some s -> q_find (sub_idx s) (mb_queues (boxes (x_box g) 0)) <> Some [].
Proof.
  intros HR HQ Ht Hp Hl HU s Hs F. destruct (reached_inv c g HF HR) as (ks & tr0 & w & ph & L & HI).
  pose proof (quiet_ok _ _ _ _ _ _ _ HI HQ Ht) as LO. pose proof (i_K _ _ _ _ _ _ _ HI) as HK.
  assert (PI : ph t = AIdle) by (eapply idle_ph; [exact HI|apply HQ]).
  assert (B0 : boxes (x_box g) 0 = w 0).
  { destruct HQ as [O _]. pose proof (n_own _ _ _ _ (i_lin _ _ _ _ _ _ _ HI) 0) as X. rewrite O in X. exact X. }
  rewrite B0 in F. unfold loc_ok in LO. rewrite Hp in LO. destruct LO as (_ & _ & HR' & _).
  assert (A : forall v, v < T -> S tr * M <= a_cnt (sums c (x_thr g) ph v)).
  { intros v Hv. unfold sums, summ_of. cbn [a_cnt]. unfold cnt_of. destruct (HU v Hv) as [(res & ->)|(tr' & -> & Q)]; apply Nat.mul_le_mono_r; lia. }
  assert (SM : a_sid (sums c (x_thr g) ph t) = Some (sub_idx s) /\ a_gone (sums c (x_thr g) ph t) = false /\
               a_trial (sums c (x_thr g) ph t) = tr /\ a_recv (sums c (x_thr g) ph t) = concat (a_past (sums c (x_thr g) ph t)) ++ l_cur (x_thr g t)).
  { unfold sums, summ_of, sid_of, gone_of, trial_of, pending. cbn. rewrite Hp, Hs, app_nil_r. auto. }
  destruct SM as (S1 & S2 & S3 & S4).
  destruct (k_q _ _ _ _ HK t _ Ht S1 S2) as (q & Fq & V). rewrite F in Fq. destruct q; [|discriminate].
  pose proof (len_early c _ _ _ HK t (S tr) Ht A) as LE. pose proof (len_past c _ _ _ HK t Ht) as LP. rewrite S3 in LP.
  assert (LV : length (filter (early_ (S tr)) (views c t L)) <= length (views c t L)).
  { clear. induction (views c t L) as [|m l IH]; [reflexivity|]. cbn [filter length]. destruct (early_ (S tr) m); cbn [length]; lia. }
  rewrite LE, V, S4, !app_length, LP in LV. cbn in LV. lia.
Qed.

Lemma least (P : nat -> Prop) (f : nat -> nat) n : (forall t, P t \/ ~ P t) -> (exists t, t < n /\ P t) ->
  exists t, t < n /\ P t /\ forall u, u < n -> P u -> f t <= f u.
Proof.
  intros D. induction n as [|n IH]; intros (t & Ht & HP); [lia|].
  destruct (bounded_dec (fun t => ~ P t) n) as [A|(v & Hv & HV)]; [intros u; destruct (D u); [right; tauto|left; assumption]|..].
  - assert (t = n) as -> by (destruct (Nat.eq_dec t n); [assumption|]; elim (A t); [lia|exact HP]).
    exists n. split; [lia|]. split; [exact HP|]. intros u Hu HU. destruct (Nat.eq_dec u n) as [->|N]; [lia|]. elim (A u); [lia|exact HU].
  - assert (PV : P v) by (destruct (D v); tauto). destruct IH as (a & Ha & PA & MA); [exists v; auto|].
    destruct (D n) as [Pn|Pn]; [destruct (le_lt_dec (f a) (f n)) as [C|C]|].
    + exists a. split; [lia|]. split; [exact PA|]. intros u Hu HU. destruct (Nat.eq_dec u n) as [->|N]; [exact C|]. apply MA; [lia|exact HU].
    + exists n. split; [lia|]. split; [exact Pn|]. intros u Hu HU. destruct (Nat.eq_dec u n) as [->|N]; [lia|]. transitivity (f a); [lia|apply MA; [lia|exact HU]].
    + exists a. split; [lia|]. split; [exact PA|]. intros u Hu HU. destruct (Nat.eq_dec u n) as [->|N]; [contradiction|]. apply MA; [lia|exact HU].
Qed.
Lemma ended_dec l : ended l \/ ~ ended l.
Proof. unfold ended. destruct (l_at l); try (right; intros (? & ?); discriminate). left. eauto. Qed.
Lemma hungry_dec l : hungry l \/ ~ hungry l.
Proof.
  unfold hungry. destruct (l_at l) eqn:E0; try (right; intros (? & ? & _); discriminate).
  destruct (le_lt_dec E (length (l_cur l))); [right; intros (? & _ & ?); lia|left; eauto].
Qed.
Definition tr_of (l : loc) : nat := match l_at l with PRecv tr => tr | _ => 0 end.

Lemma one_move g : reached c g -> quiet g -> (forall t, t < T -> passed_of (x_thr g t) = true) -> (exists t, t < T /\ ~ ended (x_thr g t)) ->
  exists t g', t < T /\ moved g g' t.
Proof.
  intros HR HQ HP HE.
  destruct (bounded_dec (fun t => ended (x_thr g t) \/ hungry (x_thr g t)) T) as [A|(t & Ht & HN)].
  { intros t. destruct (ended_dec (x_thr g t)), (hungry_dec (x_thr g t)); tauto. }
  - destruct (least (fun t => ~ ended (x_thr g t)) (fun t => tr_of (x_thr g t)) T) as (t & Ht & N & MN); [|exact HE|].
    { intros t. destruct (ended_dec (x_thr g t)); tauto. }
    exists t. destruct (A t Ht) as [X|(tr & X1 & X2)]; [contradiction|].
    destruct (move g t HR HQ Ht (HP t Ht) N) as (g' & G); [|eauto].
    intros _. eapply (hungry_fed g t tr); try eassumption. intros u Hu.
    destruct (ended_dec (x_thr g u)) as [Eu|Nu]; [auto|]. right. destruct (A u Hu) as [Y|(tr' & Y1 & _)]; [contradiction|].
    exists tr'. split; [exact Y1|]. specialize (MN u Hu Nu). unfold tr_of in MN. rewrite X1, Y1 in MN. exact MN.
  - exists t. destruct (move g t HR HQ Ht (HP t Ht)) as (g' & G); [tauto|tauto|eauto].
Qed.
Lemma all_end m : forall g, reached c g -> quiet g -> (forall t, t < T -> passed_of (x_thr g t) = true) ->
  list_sum (map (fun t => wt (x_thr g t)) (seq 0 T)) <= m -> exists g', go g g' /\ forall t, t < T -> ended (x_thr g' t).
Proof.
  induction m as [m IH] using (well_founded_induction lt_wf). intros g HR HQ HP HM.
  destruct (bounded_dec (fun t => ended (x_thr g t)) T) as [A|X]; [intros; apply ended_dec|..].
  - exists g. split; [apply go_refl|exact A].
  - destruct (one_move g HR HQ HP X) as (t & g1 & Ht & G1 & Q1 & P1 & W1 & U1).
    assert (LT : list_sum (map (fun t => wt (x_thr g1 t)) (seq 0 T)) < list_sum (map (fun t => wt (x_thr g t)) (seq 0 T))).
    { apply (sum_lt _ _ _ t); [|apply in_seq; lia|exact W1]. intros u _. destruct (Nat.eq_dec u t) as [->|D]; [lia|]. rewrite U1 by exact D. lia. }
    destruct (IH (pred m) ltac:(lia) g1 (reached_go _ _ HR G1) Q1) as (g2 & G2 & E2); [|lia|].
    + intros u Hu. destruct (Nat.eq_dec u t) as [->|D]; [exact P1|]. rewrite U1 by exact D. auto.
    + exists g2. split; [eapply go_trans; eassumption|exact E2].
Qed.

Lemma can_finish g : reached c g -> exists g', go g g' /\ forall t, t < T -> ended (x_thr g' t).
Proof.
  intros HR. destruct (settle g HR) as (g1 & G1 & Q1). pose proof (reached_go _ _ HR G1) as R1.
  destruct (all_subscribe g1 R1 Q1) as (g2 & G2 & Q2 & S2). pose proof (reached_go _ _ R1 G2) as R2.
  destruct (reached_inv c g2 HF R2) as (ks & tr & w & ph & L & HI).
  destruct (all_pass _ g2 ks tr w ph L HI R2 Q2 S2 (le_n _)) as (g3 & G3 & Q3 & P3). pose proof (reached_go _ _ R2 G3) as R3.
  destruct (all_end _ g3 R3 Q3 P3 (le_n _)) as (g4 & G4 & E4). exists g4. split; [|exact E4].
  eauto using go_trans.
Qed.
End P.
