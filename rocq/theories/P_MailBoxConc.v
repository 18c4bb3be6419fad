(* P_MailBoxConc.v -- C62 and C80: mailbox methods called from any number of
   threads, any schedule. *)
From Verif Require Import Base M_MailBox M_MailBoxConc S_MailBox S_MailBoxConc C_MailBoxConc P_MailBox.

(* C62: for every interleaving there is one sequential order of the calls (o),
   in which each call takes effect between its invocation and its return, each
   thread's calls are in its program order, the results every thread saw are
   those of the sequential run, and every mailbox whose mutex is free has
   the contents the sequential run gives it. *)
Theorem C62_linearizable : forall (M : Type) names (tr : list (ev M)) st,
  csteps (cinit names) tr st ->
  exists o w rs, sequential names o w rs /\ respects_time tr o /\
    (forall t, prefix (of_t t o) (calls_of t tr)) /\
    (forall t, prefix (rets_of t tr) (of_t t rs)) /\
    (forall t, thr st t = Idle -> of_t t o = calls_of t tr /\ of_t t rs = rets_of t tr) /\
    (forall b, owner st b = None -> boxes st b = w b).
Proof. intros; eapply c62; eauto. Qed.
Print Assumptions C62_linearizable.

(* no two threads are ever inside the same mailbox: no data race *)
Theorem C62_mutual_exclusion : forall (M : Type) names (tr : list (ev M)) st t1 t2 b p1 p2,
  csteps (cinit names) tr st ->
  thr st t1 = Inside b p1 -> thr st t2 = Inside b p2 -> t1 = t2.
Proof. intros; eapply c62_mutex; eauto. Qed.
Print Assumptions C62_mutual_exclusion.

(* C80: whatever has happened, all pending calls can finish without any new
   call being made: the mailbox cannot deadlock *)
Theorem C80_no_deadlock : forall (M : Type) names (tr : list (ev M)) st,
  csteps (cinit names) tr st ->
  exists st' tr', csteps st tr' st' /\ (forall t, calls_of t tr' = []) /\ forall t, thr st' t = Idle.
Proof. intros; eapply progress; eauto. Qed.
Print Assumptions C80_no_deadlock.

(* a concrete schedule *)
Inductive move := DCall (t b : nat) (c : call nat) | DGo (t : nat).
Definition drive1 (st : cstate nat) (m : move) : option (cstate nat * list (ev nat)) :=
  match m with
  | DCall t b c => match thr st t with Idle => Some (set_thr st t (Want b c), [Inv t b c]) | _ => None end
  | DGo t =>
    match thr st t with
    | Idle => None
    | Want b c => match owner st b with
                  | None => Some (set_thr (set_owner st b (Some t)) t (Inside b (PStart c)), [])
                  | Some _ => None end
    | Inside b p => match bstep (names_of (boxes st)) b (boxes st b) p with
                    | (mb, inl p') => Some (set_thr (set_box st b mb) t (Inside b p'), [])
                    | (mb, inr r) => Some (set_thr (set_owner (set_box st b mb) b None) t (Leaving r), [])
                    end
    | Leaving r => Some (set_thr st t Idle, [Ret t r])
    end
  end.
Fixpoint drive (st : cstate nat) (l : list move) : option (cstate nat * list (ev nat)) :=
  match l with
  | [] => Some (st, [])
  | m :: l' => match drive1 st m with
               | Some (st1, e) => match drive st1 l' with Some (st2, tr) => Some (st2, e ++ tr) | None => None end
               | None => None
               end
  end.
Lemma drive1_sound st m st' e : drive1 st m = Some (st', e) -> cstep st e st'.
Proof.
  destruct m as [t b c|t]; cbn; destruct (thr st t) as [|b0 c0|b0 p0|r0] eqn:T; try discriminate.
  - intros [= <- <-]. constructor; exact T.
  - destruct (owner st b0) eqn:O; [discriminate|]. intros [= <- <-]. constructor; assumption.
  - destruct (bstep _ b0 _ p0) as [mb [p'|r]] eqn:B; intros [= <- <-]; econstructor; eassumption.
  - intros [= <- <-]. constructor; exact T.
Qed.
Lemma drive_sound l : forall st st' tr, drive st l = Some (st', tr) -> csteps st tr st'.
Proof.
  induction l as [|m l IH]; intros st st' tr; cbn.
  - intros [= <- <-]. constructor.
  - destruct (drive1 st m) as [[st1 e]|] eqn:D; [|discriminate]. destruct (drive st1 l) as [[st2 tr2]|] eqn:E; [|discriminate].
    intros [= <- <-]. eapply csteps_trans; [apply csteps_one, (drive1_sound _ _ _ _ D)|apply IH, E].
Qed.

(* thread 0 subscribes; while it is between making its queue and advancing the
   counter, threads 1 (put) and 2 (subscriberCount) call and wait for the
   mutex; then 1 puts, then 0 gets. *)
Definition sched0 : list move :=
  [DCall 0 0 CSubscribe; DGo 0; DGo 0; DCall 1 0 (CPut (Some 7) None); DCall 2 0 CSubscriberCount;
   DGo 0; DGo 1; DGo 0; DGo 1; DGo 1; DCall 0 0 (CGet (Some A)); DGo 1; DGo 2; DGo 2; DGo 0; DGo 0; DGo 1; DGo 0; DGo 0; DGo 2; DGo 0].
Example C62_nonvacuous :
  exists st tr, csteps (cinit names0) tr st /\
    tr = [Inv 0 0 CSubscribe; Inv 1 0 (CPut (Some 7) None); Inv 2 0 CSubscriberCount; Ret 0 (MOk (RSub A));
          Inv 0 0 (CGet (Some A)); Ret 1 (MOk RUnit); Ret 2 (MOk (RNum 1)); Ret 0 (MOk (RMsg (Some 7)))] /\
    (* in the middle, thread 0 holds the mutex and 1 is blocked *)
    (exists stm trm, csteps (cinit names0) trm stm /\ owner stm 0 = Some 0 /\ thr stm 1 = Want 0 (CPut (Some 7) None)).
Proof.
  destruct (drive (cinit names0) sched0) as [[st tr]|] eqn:D; [|vm_compute in D; discriminate D].
  exists st, tr. split; [eapply drive_sound; exact D|]. split.
  - match goal with |- tr = ?T => assert (E : option_map snd (drive (cinit names0) sched0) = Some T) by (vm_compute; reflexivity) end.
    rewrite D in E. cbn [option_map snd] in E. injection E as ->. reflexivity.
  - destruct (drive (cinit names0) (firstn 5 sched0)) as [[stm trm]|] eqn:Dm; [|vm_compute in Dm; discriminate Dm].
    exists stm, trm. split; [eapply drive_sound; exact Dm|].
    assert (E : option_map (fun x => (owner (fst x) 0, thr (fst x) 1)) (drive (cinit names0) (firstn 5 sched0)) =
                Some (Some 0, Want 0 (CPut (Some 7) None))) by (vm_compute; reflexivity).
    rewrite Dm in E. cbn [option_map fst] in E. injection E as -> ->. split; reflexivity.
Qed.

(* thread 0 has made a queue and not yet advanced the counter, 1 and 2 wait for the mutex *)
Example C80_nonvacuous : exists st tr, csteps (cinit names0) tr st /\ owner st 0 = Some 0 /\
  thr st 1 = Want 0 (CPut (Some 7) None) /\ thr st 2 = Want 0 CSubscriberCount.
Proof.
  destruct (drive (cinit names0) (firstn 5 sched0)) as [[stm trm]|] eqn:Dm; [|vm_compute in Dm; discriminate Dm].
  exists stm, trm. split; [eapply drive_sound; exact Dm|].
  assert (E : option_map (fun x => (owner (fst x) 0, thr (fst x) 1, thr (fst x) 2)) (drive (cinit names0) (firstn 5 sched0)) =
              Some (Some 0, Want 0 (CPut (Some 7) None), Want 0 CSubscriberCount)) by (vm_compute; reflexivity).
  rewrite Dm in E. cbn [option_map fst] in E. injection E as -> -> ->. repeat split; reflexivity.
Qed.
