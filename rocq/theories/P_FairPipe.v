(* P_FairPipe.v -- C139: under a fair scheduler every message put into the first
   mailbox of a chain reaches the reader at its end. *)
From Verif Require Import Base M_MailBox M_MailBoxConc S_MailBox S_MailBoxConc S_Pipeline S_Fair L_MailBox L_FairPipe L_FairCycle C_MailBox P_MailBoxConc P_Pipeline.
Local Open Scope nat_scope.

(* n relays, which go on calling get (and put what they get into the next
   mailbox), a reader that goes on calling get, and any other threads, for ever.
   Whatever has been put into mailbox 0 before time N (o1 has it all) has been
   received, in that order, by some later time m; nothing else comes out *)
Theorem C139_delivered_in_time : forall (M : Type) names (tr0 : list (ev M)) st0 f e n s rel rd,
  csteps (cinit names) tr0 st0 -> (forall t, thr st0 t = Idle) -> (forall t r, In (Ret t r) tr0 -> r <> MUB) ->
  (forall i, i <= n -> pending (boxes st0) (s i) []) ->
  box_for_ever st0 f e -> box_fair f ->
  (forall k, pipeline n s rel rd (upto e k)) ->
  (forall i k, i < n -> exists m, k <= m /\ In (Inv (rel i) (sub_mbox (s i)) (CGet (Some (s i)))) (e m)) ->
  (forall k, exists m, k <= m /\ In (Inv rd (sub_mbox (s n)) (CGet (Some (s n)))) (e m)) ->
  forall N, exists m o1 o2, N <= m /\ entry_order (s 0) (upto e m) (o1 ++ o2) /\
    (forall t, prefix (fed (s 0) (firstn (length (rets_of t (upto e N))) (calls_of t (upto e N)))) (of_t t o1)) /\
    prefix (map snd o1) (messages (rets_of rd (upto e m))) /\
    prefix (messages (rets_of rd (upto e m))) (map snd (o1 ++ o2)).
Proof.
  intros M names tr0 st0 f e n s rel rd HR HI HU HP HS HA HL G1 G2. apply (delivery names f e tr0 st0 n s rel rd HR HI HU HP HS HA HL).
  intros i Li k. unfold who. destruct (Nat.ltb_spec i n) as [H|H]; [apply G1, H|]. assert (i = n) as -> by lia. apply G2.
Qed.
Print Assumptions C139_delivered_in_time.

(* a message whose put has returned is received *)
Corollary C139_received : forall (M : Type) names (tr0 : list (ev M)) st0 f e n s rel rd,
  csteps (cinit names) tr0 st0 -> (forall t, thr st0 t = Idle) -> (forall t r, In (Ret t r) tr0 -> r <> MUB) ->
  (forall i, i <= n -> pending (boxes st0) (s i) []) ->
  box_for_ever st0 f e -> box_fair f ->
  (forall k, pipeline n s rel rd (upto e k)) ->
  (forall i k, i < n -> exists m, k <= m /\ In (Inv (rel i) (sub_mbox (s i)) (CGet (Some (s i)))) (e m)) ->
  (forall k, exists m, k <= m /\ In (Inv rd (sub_mbox (s n)) (CGet (Some (s n)))) (e m)) ->
  forall N t x, In (Inv t (sub_mbox (s 0)) (CPut (Some x) None)) (e N) ->
  exists m, N < m /\ In (Ret rd (MOk (RMsg (Some x)))) (upto e m).
Proof.
  intros M names tr0 st0 f e n s rel rd HR HI HU HP HS HA HL G1 G2 N t x J.
  destruct (all_back names f e tr0 st0 HR HI HU HS HA (S N)) as (N' & LN & AB).
  destruct (C139_delivered_in_time M names tr0 st0 f e n s rel rd HR HI HU HP HS HA HL G1 G2 N') as (m & o1 & o2 & Lm & _ & FD & [c PR] & _).
  exists m. split; [lia|].
  assert (JX : In x (map snd o1)).
  { assert (JC : In (sub_mbox (s 0), CPut (Some x) None) (calls_of t (upto e (S N)))).
    { rewrite (L_FairBox.upto_S e), L_MailBoxConc.calls_app. apply in_or_app. right. unfold calls_of. apply in_flat_map. eexists. split; [exact J|]. cbn. rewrite Nat.eqb_refl. left. reflexivity. }
    assert (JF : In x (fed (s 0) (firstn (length (rets_of t (upto e N'))) (calls_of t (upto e N'))))).
    { unfold fed. apply in_flat_map. exists (sub_mbox (s 0), CPut (Some x) None). split; [|cbn; rewrite Nat.eqb_refl; left; reflexivity].
      destruct (upto_more e _ _ LN) as (z & Z). rewrite Z at 2. rewrite L_MailBoxConc.calls_app, firstn_app. apply in_or_app. left. rewrite firstn_all2 by apply AB. exact JC. }
    apply (prefix_in _ _ _ (FD t)) in JF. apply in_of_t in JF. apply (in_map snd) in JF. exact JF. }
  assert (JM : In x (messages (rets_of rd (upto e m)))) by (rewrite PR; apply in_or_app; auto).
  unfold messages in JM. apply in_flat_map in JM as (r & JR & JX'). destruct r as [[| |[y|]|]| | |]; try (destruct JX'; fail). destruct JX' as [->|[]].
  unfold rets_of in JR. apply in_flat_map in JR as (v & JV & JW). destruct v as [|u r]; [destruct JW|]. destruct (Nat.eqb_spec u rd) as [->|]; [|destruct JW].
  destruct JW as [->|[]]. exact JV.
Qed.
Print Assumptions C139_received.

(* thread 2 puts 7 again and again, relay 0 carries it from mailbox 0 to mailbox
   1, thread 1 reads there, at first too early; thread 3 made the subscriptions *)
Definition fp_setup : list move := pl_go 3 0 CSubscribe 4 ++ pl_go 3 1 CSubscribe 4.
Definition fp_start : cstate nat :=
  match drive (cinit (fun _ => lit "relay")) fp_setup with Some (a, _) => a | None => cinit (fun _ => lit "relay") end.
Definition fp_first : list (ev nat) :=
  match drive (cinit (fun _ => lit "relay")) fp_setup with Some (_, t) => t | None => [] end.
Definition fp_round : list move :=
  [DCall 2 0 (CPut (Some 7) None); DCall 0 0 (CGet (Some (pl_sub 0))); DGo 2; DCall 1 1 (CGet (Some (pl_sub 1))); DGo 1; DGo 2; DGo 1; DGo 2; DGo 2; DGo 1; DGo 2; DGo 1] ++
  repeat (DGo 0) 5 ++ pl_go 0 1 (CPut (Some 7) None) 5 ++ pl_go 1 1 (CGet (Some (pl_sub 1))) 5.
Definition fp_tr : list (ev nat) := match drive fp_start fp_round with Some (_, t) => t | None => [] end.
Lemma fp_back : drive fp_start fp_round = Some (fp_start, fp_tr).
Proof.
  assert (X : match drive fp_start fp_round with Some _ => true | None => false end = true) by (vm_compute; reflexivity).
  unfold fp_tr. destruct (drive fp_start fp_round) as [[a t]|] eqn:D; [|discriminate X]. f_equal. f_equal.
  assert (E : forall {A} (g : cstate nat -> A) v, match drive fp_start fp_round with Some (c, _) => Some (g c) | None => None end = Some v -> g a = v).
  { intros A g v Y. rewrite D in Y. injection Y. auto. }
  apply same_state.
  - intros b. apply (E _ (fun c => boxes c b)). destruct b as [|[|b]]; vm_compute; reflexivity.
  - intros b. apply (E _ (fun c => owner c b)). destruct b as [|[|b]]; vm_compute; reflexivity.
  - intros t'. apply (E _ (fun c => thr c t')). destruct t' as [|[|[|[|t']]]]; vm_compute; reflexivity.
Qed.
Example C139_nonvacuous : exists names tr0 st0 f e,
  csteps (cinit names) tr0 st0 /\ (forall t, thr st0 t = Idle) /\ (forall t r, In (Ret t r) tr0 -> r <> MUB) /\
  (forall i, i <= 1 -> pending (boxes st0) (pl_sub i) []) /\
  box_for_ever st0 f e /\ box_fair f /\
  (forall k, pipeline 1 pl_sub (fun i => i) 1 (upto e k)) /\
  (forall i k, i < 1 -> exists m, k <= m /\ In (Inv i (sub_mbox (pl_sub i)) (CGet (Some (pl_sub i)))) (e m)) /\
  (forall k, exists m, k <= m /\ In (Inv 1 (sub_mbox (pl_sub 1)) (CGet (Some (pl_sub 1)))) (e m)) /\
  forall k, exists m, k <= m /\ In (Inv 2 0 (CPut (Some 7) None)) (e m).
Proof.
  exists (fun _ => lit "relay"), fp_first, fp_start, (c_f fp_start fp_round), (c_e fp_start fp_round).
  assert (LN : 0 < length fp_round) by (vm_compute; lia).
  assert (D0 : drive (cinit (fun _ => lit "relay")) fp_setup = Some (fp_start, fp_first)).
  { unfold fp_start, fp_first. assert (X : match drive (cinit (fun _ => lit "relay")) fp_setup with Some _ => true | None => false end = true) by (vm_compute; reflexivity).
    destruct (drive (cinit (fun _ => lit "relay")) fp_setup) as [[a t]|]; [reflexivity|discriminate X]. }
  assert (I0 : forall t, thr fp_start t = Idle) by (intros t; destruct t as [|[|[|[|t]]]]; vm_compute; reflexivity).
  assert (X0 : fp_first = ltac:(let v := eval vm_compute in fp_first in exact v)) by (vm_compute; reflexivity).
  assert (X : fp_tr = ltac:(let v := eval vm_compute in fp_tr in exact v)) by (vm_compute; reflexivity).
  split; [exact (drive_sound _ _ _ _ D0)|]. split; [exact I0|]. split.
  { rewrite X0. intros t r J. cbn in J. repeat (destruct J as [J|J]; [try discriminate J; injection J as <- <-; discriminate|]). destruct J. }
  split.
  { intros i L. apply pending_waiting. destruct i as [|[|i]]; [..|lia]; vm_compute; reflexivity. }
  split; [exact (c_for_ever _ _ _ fp_back LN)|]. split; [exact (c_fair _ _ LN I0)|]. split.
  - intros k.
    assert (Q : relaying (pl_sub 0) 0 1 None (calls_of 0 (upto (c_e fp_start fp_round) k)) (rets_of 0 (upto (c_e fp_start fp_round) k)) /\
      reading (pl_sub 1) 1 (calls_of 1 (upto (c_e fp_start fp_round) k)) /\
      forall t bc, t <> 1 -> t <> 0 -> In bc (calls_of t (upto (c_e fp_start fp_round) k)) -> bc = (0, CPut (Some 7) None)).
    { apply (c_induct _ _ _ fp_back LN (fun l => relaying (pl_sub 0) 0 1 None (calls_of 0 l) (rets_of 0 l) /\ reading (pl_sub 1) 1 (calls_of 1 l) /\
        forall t bc, t <> 1 -> t <> 0 -> In bc (calls_of t l) -> bc = (0, CPut (Some 7) None))).
      - assert (LL : length fp_round = 29) by reflexivity. rewrite LL. intros j Hj.
        assert (PF : exists d, fp_tr = c_tr fp_start fp_round j ++ d) by (do 29 (destruct j as [|j]; [eexists; vm_compute; reflexivity|]); lia).
        split; [|split].
        + do 29 (destruct j as [|j]; [vm_compute; repeat split|]). lia.
        + intros bc J. assert (J' : In bc (calls_of 1 fp_tr)) by (destruct PF as [d ->]; rewrite L_MailBoxConc.calls_app; apply in_or_app; auto).
          rewrite X in J'. cbn in J'. repeat (destruct J' as [<-|J']; [reflexivity|]). destruct J'.
        + intros t bc N1 N2 J. assert (J' : In bc (calls_of t fp_tr)) by (destruct PF as [d ->]; rewrite L_MailBoxConc.calls_app; apply in_or_app; auto).
          rewrite X in J'. unfold calls_of in J'. apply in_flat_map in J' as (v & J1 & J2). cbn in J1.
          repeat (destruct J1 as [<-|J1]; [try (destruct J2; fail); cbn in J2; destruct t as [|[|[|t]]]; try congruence; cbn in J2; try (destruct J2; fail); destruct J2 as [<-|[]]; reflexivity|]). destruct J1.
      - intros l (A & B & C). rewrite X. split; [|split].
        + rewrite L_MailBoxConc.calls_app, L_MailBoxConc.rets_app. cbn. repeat split. exact A.
        + intros bc J. rewrite L_MailBoxConc.calls_app in J. apply in_app_or in J as [J|J]; [|exact (B bc J)]. cbn in J. repeat (destruct J as [<-|J]; [reflexivity|]). destruct J.
        + intros t bc N1 N2 J. rewrite L_MailBoxConc.calls_app in J. apply in_app_or in J as [J|J]; [|exact (C t bc N1 N2 J)].
          unfold calls_of in J. apply in_flat_map in J as (v & J1 & J2). cbn in J1.
          repeat (destruct J1 as [<-|J1]; [try (destruct J2; fail); cbn in J2; destruct t as [|[|[|t]]]; try congruence; cbn in J2; try (destruct J2; fail); destruct J2 as [<-|[]]; reflexivity|]). destruct J1. }
    destruct Q as (Q1 & Q2 & Q3). split.
    + intros i j _ _ E. exact E.
    + intros i j _ _ E. exact E.
    + intros i L. lia.
    + intros i L. assert (i = 0) as -> by lia. exact Q1.
    + exact Q2.
    + intros t bc N1 N2 J. rewrite (Q3 t bc N1 (N2 0 ltac:(lia)) J). split; [exact I|]. intros i L. split; [intros []|]. intros Li m o E. injection E as E _ _. cbn in E. lia.
  - split; [|split].
    + intros i k L. assert (i = 0) as -> by lia. apply (c_for_ever_in _ _ _ fp_back LN). rewrite X. cbn. auto 20.
    + apply (c_for_ever_in _ _ _ fp_back LN). rewrite X. cbn. auto 20.
    + apply (c_for_ever_in _ _ _ fp_back LN). rewrite X. cbn. auto 20.
Qed.
