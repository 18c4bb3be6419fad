(* P_MailBox.v -- C54 to C61 and C63 for the model of include/MailBox.hxx.
   Histories are arbitrary sequences of calls on arbitrarily many mailboxes. *)
From Verif Require Import Base M_MailBox S_MailBox C_MailBox.

(* the running example: two mailboxes, three subscribers on mailbox 0 *)
Definition names0 (b : nat) : str := if Nat.eqb b 0 then lit "cmds" else lit "data".
Definition A : sub := mkSub 0 0.
Definition B : sub := mkSub 0 1.
Definition h0 : list (nat * call nat) :=
  [(0, CSubscribe); (0, CSubscribe); (1, CSubscribe); (0, CPut (Some 7) None); (0, CPut (Some 8) (Some B)); (0, CGet (Some A))].
Definition w0 : world nat := fst (run (fresh names0) h0).
Definition rs0 : list (mret nat) := snd (run (fresh names0) h0).
Lemma reach0 : reach names0 h0 rs0 w0.
Proof.
  split; [apply surjective_pairing|]. intros r H. vm_compute in H.
  repeat (destruct H as [<-|H]; [discriminate|]). destruct H.
Qed.

(* C54: from the moment a subscriber subscribes (or clears its queue), for any
   further history in which its queue is not cleared or removed, the messages
   it got, then those still waiting for it, are the messages sent to it, each
   once and in order.  Nulls are forgotten since get() also returns null for an
   empty queue. *)
Theorem C54_each_message_once_in_order : forall (M : Type) names h1 (rs1 : list (mret M)) w1 b c r w2 s h2 rs2 w,
  reach names h1 rs1 w1 ->
  exec w1 b c = (w2, r) -> r <> MUB -> starts b s c r ->
  run w2 h2 = (w, rs2) -> no_ub rs2 ->
  (forall e, In e h2 -> discards b (sub_idx s) e = false) ->
  sub_mbox s = b /\
  exists q, pending w s q /\
    nonnull (flat_map (got_by b (sub_idx s)) (combine h2 rs2)) ++ nonnull q =
    nonnull (flat_map (sent_to b (sub_idx s)) (combine h2 rs2)).
Proof. intros. eapply c54; eauto. Qed.
Print Assumptions C54_each_message_once_in_order.

(* A subscribed at w1, then everything else happened: A got 7, 8 is waiting *)
Example C54_nonvacuous :
  let h2 := tl h0 in
  let w1 := fst (run (fresh names0) [(0, CSubscribe)]) in
  exec (fresh names0) 0 CSubscribe = (w1, MOk (RSub A)) /\
  starts 0 A (CSubscribe : call nat) (MOk (RSub A)) /\
  forallb (fun e => negb (discards 0 0 e)) h2 = true /\
  nonnull (flat_map (got_by 0 0) (combine h2 (snd (run w1 h2)))) = [7] /\
  nonnull (flat_map (sent_to 0 0) (combine h2 (snd (run w1 h2)))) = [7; 8] /\
  future w0 A 3 = [msg (Some 8); msg None; msg None].
Proof. cbv zeta. repeat split; try (vm_compute; reflexivity). left; split; reflexivity. Qed.

(* C55 *)
Theorem C55_no_echo : forall (M : Type) names h (rs : list (mret M)) w b m o w',
  reach names h rs w -> exec w b (CPut m o) = (w', MOk RUnit) ->
  forall s n, sub_mbox s = b -> answer w b (CReadyCount (Some s)) = MOk (RNum n) ->
  exists q, pending w s q /\
    pending w' s (if match o with Some s' => (sub_idx s' =? sub_idx s)%Z | None => false end then q else q ++ [m]).
Proof. intros; eapply c55; eauto. Qed.
Theorem C55_put_accepted : forall (M : Type) (w : world M) b m o,
  (forall s, o = Some s -> sub_mbox s = b) ->
  exists w', exec w b (CPut m o) = (w', MOk RUnit) /\
             forall s, sub_mbox s <> b -> forall n, future w' s n = future w s n.
Proof. intros; apply c55_accepts; auto. Qed.
Print Assumptions C55_no_echo.
Print Assumptions C55_put_accepted.
Example C55_nonvacuous :
  reach names0 h0 rs0 w0 /\
  snd (exec w0 0 (CPut (Some 9) (Some B))) = MOk RUnit /\
  answer w0 0 (CReadyCount (Some B)) = MOk (RNum 1) /\
  future (fst (exec w0 0 (CPut (Some 9) (Some B)))) A 3 = [msg (Some 8); msg (Some 9); msg None] /\
  future (fst (exec w0 0 (CPut (Some 9) (Some B)))) B 3 = [msg (Some 7); msg None; msg None].
Proof. split; [exact reach0|]. repeat split; vm_compute; reflexivity. Qed.

(* C56; the history is shorter than 2^32 calls and puts no null pointers *)
Theorem C56_get_null_iff_nothing_waiting : forall (M : Type) names h (rs : list (mret M)) w s n,
  reach names h rs w -> (Z.of_nat (length h) < two32)%Z -> puts_nonnull h ->
  answer w (sub_mbox s) (CReadyCount (Some s)) = MOk (RNum n) ->
  exists w' m, exec w (sub_mbox s) (CGet (Some s)) = (w', msg m) /\
    (m = None <-> n = 0%Z) /\
    exists q, pending w s q /\ pending w' s (tl q) /\ m = hd None q.
Proof. intros; eapply c56; eauto. Qed.
Print Assumptions C56_get_null_iff_nothing_waiting.
Example C56_nonvacuous :
  reach names0 h0 rs0 w0 /\ puts_nonnull h0 /\
  answer w0 0 (CReadyCount (Some A)) = MOk (RNum 1) /\ answer w0 0 (CGet (Some A)) = msg (Some 8).
Proof.
  split; [exact reach0|]. split; [|split; vm_compute; reflexivity].
  intros b s H. unfold h0 in H. repeat (destruct H as [H|H]; [discriminate H|]). destruct H.
Qed.

(* C57: any state, any call by or about another subscriber *)
Theorem C57_subscribers_isolated : forall (M : Type) (w : world M) b c s,
  of_other b c s -> forall n, future (fst (exec w b c)) s n = future w s n.
Proof. intros; apply c57; auto. Qed.
Print Assumptions C57_subscribers_isolated.
Example C57_nonvacuous :
  of_other 0 (CClear (Some B) : call nat) A /\ future w0 A 2 = [msg (Some 8); msg None] /\
  answer w0 0 (CClear (Some B)) = MOk RUnit /\ of_other 0 (CUnsubscribe 1 : call nat) A.
Proof. repeat split; try discriminate; vm_compute; reflexivity. Qed.

(* C58 *)
Theorem C58_readyCount_is_number_of_gets : forall (M : Type) names h (rs : list (mret M)) w s n,
  reach names h rs w -> (Z.of_nat (length h) < two32)%Z -> puts_nonnull h ->
  answer w (sub_mbox s) (CReadyCount (Some s)) = MOk (RNum n) ->
  (0 <= n)%Z /\ forall k, successes (future w s k) = Nat.min k (Z.to_nat n).
Proof. intros; eapply c58_ready_count; eauto. Qed.
Theorem C58_subscriberCount : forall (M : Type) names h (rs : list (mret M)) w b,
  reach names h rs w ->
  answer w b CSubscriberCount = MOk (RNum (Z.of_nat (length (members b (combine h rs))))) /\
  NoDup (members b (combine h rs)) /\
  forall i, In i (members b (combine h rs)) <-> exists n, answer w b (CReadyCount (Some (mkSub b i))) = MOk (RNum n).
Proof. intros; eapply c58_subscribers; eauto. Qed.
Theorem C58_minReadyCount : forall (M : Type) names h (rs : list (mret M)) w b,
  reach names h rs w -> (Z.of_nat (length h) < two32)%Z ->
  exists m, answer w b CMinReadyCount = MOk (RNum m) /\
    (members b (combine h rs) = [] -> m = (2^32 - 1)%Z) /\
    (forall i, In i (members b (combine h rs)) ->
       exists n, answer w b (CReadyCount (Some (mkSub b i))) = MOk (RNum n) /\ (m <= n)%Z) /\
    (members b (combine h rs) <> [] ->
       exists i, In i (members b (combine h rs)) /\ answer w b (CReadyCount (Some (mkSub b i))) = MOk (RNum m)).
Proof. intros; eapply c58_min; eauto. Qed.
Print Assumptions C58_readyCount_is_number_of_gets.
Print Assumptions C58_subscriberCount.
Print Assumptions C58_minReadyCount.
Example C58_nonvacuous :
  reach names0 h0 rs0 w0 /\ members 0 (combine h0 rs0) = [1; 0]%Z /\
  answer w0 0 CSubscriberCount = MOk (RNum 2) /\ answer w0 0 CMinReadyCount = MOk (RNum 1) /\
  answer w0 5 CMinReadyCount = MOk (RNum (2^32 - 1)).
Proof. split; [exact reach0|]. repeat split; vm_compute; reflexivity. Qed.

(* C59 *)
Theorem C59_foreign_subscription_refused : forall (M : Type) (w : world M) b s c,
  sub_mbox s <> b ->
  (c = CGet (Some s) \/ (exists m, c = CPut m (Some s)) \/ c = CClear (Some s) \/ c = CReadyCount (Some s)) ->
  exists w' e, exec w b c = (w', MThrow e) /\ ex_class e = SubscriptionMismatch /\ (forall b', w' b' = w b').
Proof. intros; eapply c59; eauto. Qed.
Print Assumptions C59_foreign_subscription_refused.
(* both mailboxes have a subscriber number 0; each refuses the other's *)
Example C59_nonvacuous :
  In (MOk (RSub (mkSub 1 0))) rs0 /\ sub_mbox (mkSub 1 0) <> 0 /\
  (exists e, answer w0 0 (CGet (Some (mkSub 1 0))) = MThrow e /\ ex_class e = SubscriptionMismatch).
Proof. split; [vm_compute; tauto|]. split; [discriminate|]. eexists. split; vm_compute; reflexivity. Qed.

(* C60 *)
Theorem C60_ids_never_reused : forall (M : Type) names h (rs : list (mret M)) w b,
  reach names h rs w -> NoDup (flat_map (new_ids b) (combine h rs)).
Proof. intros; eapply c60; eauto. Qed.
Print Assumptions C60_ids_never_reused.
Example C60_nonvacuous :
  let h := [(0, CSubscribe : call nat); (0, CUnsubscribe 0); (0, CSubscribe)] in
  flat_map (new_ids 0) (combine h (snd (run (fresh names0) h))) = [0; 1]%Z.
Proof. vm_compute. reflexivity. Qed.

(* C61 *)
Theorem C61_held_iff_waiting : forall (M : Type) names h (rs : list (mret M)) w b m,
  reach names h rs w ->
  held w b m <-> exists i k, In i (members b (combine h rs)) /\
                 nth_error (future w (mkSub b i) (S k)) k = Some (msg (Some m)).
Proof. intros; eapply c61; eauto. Qed.
Theorem C61_released : forall (M : Type) names h (rs : list (mret M)) w b,
  reach names h rs w -> (Z.of_nat (length h) < two32)%Z ->
  (forall i, In i (members b (combine h rs)) -> answer w b (CReadyCount (Some (mkSub b i))) = MOk (RNum 0)) ->
  forall m, ~ held w b m.
Proof. intros; eapply c61_released; eauto. Qed.
Theorem C61_only_what_was_put : forall (M : Type) names h (rs : list (mret M)) w b m,
  reach names h rs w -> held w b m -> exists o, In (b, CPut (Some m) o) h.
Proof. intros; eapply c61_origin; eauto. Qed.
Print Assumptions C61_held_iff_waiting.
Print Assumptions C61_released.
Print Assumptions C61_only_what_was_put.
Example C61_nonvacuous :
  held w0 0 8 /\
  (let h := h0 ++ [(0, CGet (Some A)); (0, CUnsubscribe 1)] in
   let '(w, rs) := run (fresh names0) h in
   members 0 (combine h rs) = [0%Z] /\ answer w 0 (CReadyCount (Some A)) = MOk (RNum 0)).
Proof. split; [exists 0%Z, [Some 8]; split; vm_compute; tauto|]. vm_compute. split; reflexivity. Qed.

(* C63.  The property as documented is false: after unsubscribe(id), letting
   the Subscription go throws out of a destructor. *)
Theorem C63_drop_terminates_refuted :
  exists h (rs : list (mret nat)) w s, reach names0 h rs w /\
    rs = [MOk (RSub s); MOk RUnit] /\ h = [(0, CSubscribe); (0, CUnsubscribe (sub_idx s))] /\
    snd (exec w 0 (CDrop s)) = MTerminate.
Proof.
  exists [(0, CSubscribe); (0, CUnsubscribe 0)]. eexists _, _, A. split.
  - split; [apply surjective_pairing|]. intros r H. vm_compute in H. repeat (destruct H as [<-|H]; [discriminate|]). destruct H.
  - repeat split; vm_compute; reflexivity.
Qed.
(* what does hold: if subscriptions come from subscribe, each is dropped at
   most once, and nobody calls unsubscribe(id), no drop terminates *)
Theorem C63_drop_safe_partial : forall (M : Type) names h (rs : list (mret M)) w,
  reach names h rs w -> owner_ok [] (combine h rs) -> forall r, In r rs -> r <> MTerminate.
Proof. intros; eapply c63; eauto. Qed.
(* and a drop that returns has removed the queue *)
Theorem C63_drop_removes_partial : forall (M : Type) names h (rs : list (mret M)) w s w',
  reach names h rs w -> exec w (sub_mbox s) (CDrop s) = (w', MOk RUnit) ->
  exists e, answer w' (sub_mbox s) (CReadyCount (Some s)) = MThrow e /\ ex_class e = MissingSubscriber.
Proof. intros; eapply c63_removes; eauto. Qed.
Print Assumptions C63_drop_terminates_refuted.
Print Assumptions C63_drop_safe_partial.
Print Assumptions C63_drop_removes_partial.
Example C63_nonvacuous :
  let h := h0 ++ [(0, CDrop B); (0, CPut (Some 9) None); (0, CDrop A)] in
  let rs := snd (run (fresh names0) h) in
  owner_ok [] (combine h rs) /\ forallb (fun r => match r with MOk _ => true | _ => false end) rs = true.
Proof. vm_compute. intuition. Qed.
