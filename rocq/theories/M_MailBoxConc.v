(* M_MailBoxConc.v -- the methods of include/MailBox.hxx as threads run them:
   each takes the mailbox's mutex (std::lock_guard), performs its accesses to
   message_queues and subscription_counter one at a time, and releases the
   mutex on return or exception.  Threads may interleave between any two of
   these steps.  Simplification: a step of the C++ abstract machine touching
   one queue (push, pop, size) or the counter is atomic; threads are sequentially
   consistent (justified by data-race freedom, C62_mutual_exclusion). *)
From Verif Require Import Base M_Stream M_Format M_MailBox.

Section Conc.
Context {M : Type}.
Notation mbox := (mbox M). Notation world := (world M). Notation call := (call M). Notation mret := (mret M).

(* where a thread is inside the critical section *)
Inductive pc :=
| PStart (c : call)                         (* mutex just taken *)
| PSubCount (i : Z)                         (* 313-316: queue made, counter not yet advanced *)
| PGet (i : Z)                              (* 330: queue found *)
| PGetPop (i : Z) (m : option M)            (* 336: front copied, not yet popped *)
| PPut (omit : Z) (m : option M) (ks : list Z)   (* 356: queues still to be visited *)
| PReady (i : Z)                            (* 372 *)
| PMin (ret : Z) (ks : list Z)              (* 391: queues still to be visited *)
| PClear (i : Z)                            (* 407: while(!empty) pop *)
| PUnsub (i : Z).                           (* 414: while(!empty) pop; then erase *)

(* the subscriptions the loops 356 and 391 visit *)
Definition keys (mb : mbox) : list Z := map fst (mb_queues mb).
(* message_queues[i] (431) *)
Definition queue (mb : mbox) (i : Z) : list (option M) :=
  match q_find i (mb_queues mb) with Some q => q | None => [] end.
(* the same, changed (336, 358, 407, 414) *)
Definition set_queue (mb : mbox) (i : Z) q := set_queues mb (q_set i q (mb_queues mb)).

(* getQueue(subs) (434-437), which may throw *)
Definition lookup {A} (o : outcome A) (mb : mbox) (k : A -> mbox * (pc + mret)) : mbox * (pc + mret) :=
  match o with
  | Ok a => k a
  | Throw e => (mb, inr (MThrow e))
  | UB => (mb, inr MUB)
  end.
(* an exception leaving ~SubscriptionCl (278-280), which is noexcept *)
Definition terminate_on_throw (x : mbox * (pc + mret)) : mbox * (pc + mret) :=
  match x with (mb, inr (MThrow _)) => (mb, inr MTerminate) | _ => x end.

(* one access by the thread holding the mutex of mailbox self *)
Definition bstep (names : nat -> str) (self : nat) (mb : mbox) (p : pc) : mbox * (pc + mret) :=
  match p with
  | PStart CSubscribe =>                                          (* 306-314 *)
    (set_queue mb (mb_counter mb) [], inl (PSubCount (mb_counter mb)))
  | PSubCount i =>                                                (* 315-316 *)
    if (mb_counter mb <? two31 - 1)%Z
    then (mkBox (mb_name mb) (mb_queues mb) (mb_counter mb + 1), inr (MOk (RSub (mkSub self i))))
    else (mb, inr MUB)
  | PStart (CGet s) =>                                            (* 327-329 *)
    lookup (do i <- getIndex names self s; do q <- getQueue mb i; Ok i) mb (fun i => (mb, inl (PGet i)))
  | PGet i =>                                                     (* 330-335 *)
    match queue mb i with
    | [] => (mb, inr (MOk (RMsg None)))
    | m :: _ => (mb, inl (PGetPop i m))
    end
  | PGetPop i m =>                                                (* 336-337 *)
    (set_queue mb i (tl (queue mb i)), inr (MOk (RMsg m)))
  | PStart (CPut m s) =>                                          (* 350-355 *)
    lookup (match s with None => Ok (mb_counter mb) | Some _ => getIndex names self s end) mb
      (fun omit => (mb, inl (PPut omit m (keys mb))))
  | PPut omit m [] => (mb, inr (MOk RUnit))
  | PPut omit m (k :: ks) =>                                      (* 356-360 *)
    ((if (k =? omit)%Z then mb else set_queue mb k (queue mb k ++ [m])), inl (PPut omit m ks))
  | PStart (CReadyCount s) =>                                     (* 370-372 *)
    lookup (do i <- getIndex names self s; do q <- getQueue mb i; Ok i) mb (fun i => (mb, inl (PReady i)))
  | PReady i =>                                                   (* 373-378 *)
    (mb, inr (MOk (RNum (to_u32 (Z.of_nat (length (queue mb i)))))))
  | PStart CMinReadyCount => (mb, inl (PMin (two32 - 1) (keys mb)))   (* 388-390 *)
  | PMin ret [] => (mb, inr (MOk (RNum ret)))
  | PMin ret (k :: ks) =>                                         (* 391-394 *)
    let qs := Z.of_nat (length (queue mb k)) in
    (mb, inl (PMin (if (ret <? qs)%Z then ret else to_u32 qs) ks))
  | PStart (CClear s) =>                                          (* 404-406 *)
    lookup (do i <- getIndex names self s; do q <- getQueue mb i; Ok i) mb (fun i => (mb, inl (PClear i)))
  | PClear i =>                                                   (* 407 *)
    match queue mb i with
    | [] => (mb, inr (MOk RUnit))
    | _ :: q => (set_queue mb i q, inl (PClear i))
    end
  | PStart (CUnsubscribe i) =>                                    (* 410-413 *)
    lookup (getQueue mb i) mb (fun _ => (mb, inl (PUnsub i)))
  | PStart (CDrop s) =>                                           (* 278-280 *)
    terminate_on_throw (lookup (getQueue mb (sub_idx s)) mb (fun _ => (mb, inl (PUnsub (sub_idx s)))))
  | PUnsub i =>                                                   (* 414-416 *)
    match queue mb i with
    | [] => (set_queues mb (q_erase i (mb_queues mb)), inr (MOk RUnit))
    | _ :: q => (set_queue mb i q, inl (PUnsub i))
    end
  | PStart CSubscriberCount =>                                    (* 419-422 *)
    (mb, inr (MOk (RNum (to_u32 (Z.of_nat (length (mb_queues mb)))))))
  end.

(* threads (bookkeeping) *)
Definition tid := nat.
(* where a thread is between its call and its return (std::lock_guard: 307, 328, 351, 371, 389, 405, 411, 420) *)
Inductive tstate :=
| Idle
| Want (b : nat) (c : call)       (* called, blocked on the mutex or about to take it *)
| Inside (b : nat) (p : pc)       (* holds the mutex of mailbox b *)
| Leaving (r : mret).             (* mutex released, not yet back in the caller *)

(* MailBox.hxx 424-425, 440: the mailboxes, the owner of each mtx, the threads *)
Record cstate := mkC { boxes : world; owner : nat -> option tid; thr : tid -> tstate }.

(* thread t is now at x (bookkeeping of the model) *)
Definition set_thr (st : cstate) t x := mkC (boxes st) (owner st) (fun t' => if Nat.eqb t' t then x else thr st t').
(* mtx (MailBox.hxx 440) of mailbox b is taken or released *)
Definition set_owner (st : cstate) b o := mkC (boxes st) (fun b' => if Nat.eqb b' b then o else owner st b') (thr st).
(* mailbox b changed (bookkeeping) *)
Definition set_box (st : cstate) b x := mkC (upd (boxes st) b x) (owner st) (thr st).

(* what is visible outside: calls and returns of threads (bookkeeping) *)
Inductive ev :=
| Inv (t : tid) (b : nat) (c : call)
| Ret (t : tid) (r : mret).

(* one scheduling step (MailBox.hxx 306-422).  A thread may call anything at any time: programs are
   not restricted. *)
Inductive cstep : cstate -> list ev -> cstate -> Prop :=
| c_call : forall st t b c, thr st t = Idle ->
    cstep st [Inv t b c] (set_thr st t (Want b c))
| c_lock : forall st t b c, thr st t = Want b c -> owner st b = None ->
    cstep st [] (set_thr (set_owner st b (Some t)) t (Inside b (PStart c)))
| c_work : forall st t b p mb p', thr st t = Inside b p ->
    bstep (names_of (boxes st)) b (boxes st b) p = (mb, inl p') ->
    cstep st [] (set_thr (set_box st b mb) t (Inside b p'))
| c_unlock : forall st t b p mb r, thr st t = Inside b p ->
    bstep (names_of (boxes st)) b (boxes st b) p = (mb, inr r) ->
    cstep st [] (set_thr (set_owner (set_box st b mb) b None) t (Leaving r))
| c_return : forall st t r, thr st t = Leaving r ->
    cstep st [Ret t r] (set_thr st t Idle).

(* executions and what is visible of them (bookkeeping) *)
Inductive csteps : cstate -> list ev -> cstate -> Prop :=
| cs_nil : forall st, csteps st [] st
| cs_snoc : forall st tr st1 e st2, csteps st tr st1 -> cstep st1 e st2 -> csteps st (tr ++ e) st2.

(* MailBox.hxx 259-261: fresh mailboxes, no thread inside *)
Definition cinit (names : nat -> str) : cstate := mkC (fresh names) (fun _ => None) (fun _ => Idle).
End Conc.
Arguments cstate : clear implicits.
Arguments pc : clear implicits.
Arguments tstate : clear implicits.
Arguments ev : clear implicits.
