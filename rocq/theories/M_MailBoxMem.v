(* M_MailBoxMem.v -- include/MailBox.hxx when memory runs out, and the lifetime
   of the messages themselves. *)
From Verif Require Import Base M_MailBox.

Section Mem.
Context {M : Type}.

(* how a call that may run out of memory ends (MailBox.hxx 306-422) *)
Inductive ores :=
| Done (r : mret M)     (* as without a shortage *)
| NoMemory              (* std::bad_alloc reaches the caller *)
| SelfLock.             (* the thread locks a std::mutex it owns: undefined, in practice it hangs *)

(* MailBox.hxx 356-360, with the first n pushes succeeding and the next
   throwing std::bad_alloc; the flag tells whether all pushes succeeded.
   Simplification: every push may need memory (libstdc++'s deque needs some on
   every 32nd push). *)
Fixpoint put_upto (n : nat) (omit : Z) (m : option M) (qs : list (Z * list (option M))) :=
  match qs with
  | [] => ([], true)
  | (k, q) :: t =>
    if (k =? omit)%Z then let '(t', ok) := put_upto n omit m t in ((k, q) :: t', ok)
    else match n with
         | O => ((k, q) :: t, false)
         | S n' => let '(t', ok) := put_upto n' omit m t in ((k, q ++ [m]) :: t', ok)
         end
  end.

(* a call that needs no memory, except for the text of an exception it throws *)
Definition frugal (n : nat) (mb : mbox M) (x : mbox M * mret M) : mbox M * ores :=
  match snd x, n with
  | MThrow _, O => (mb, NoMemory)
  | _, _ => (fst x, Done (snd x))
  end.

(* one call (MailBox.hxx 278-280, 306-422) during which n allocations succeed and the next would fail *)
Definition exec1_mem (n : nat) names (self : nat) (mb : mbox M) (c : call M) : mbox M * ores :=
  match c with
  | CSubscribe =>
    (* 306-317: the SubscriptionCl (309), a queue (313), a node of the map (313).
       Once ret (309) exists, unwinding destroys it before it destroys lock
       (307): ~SubscriptionCl calls unsubscribe (279), which locks mtx (411). *)
    match n with
    | 0 => (mb, NoMemory)
    | 1 | 2 => (mb, SelfLock)
    | _ => let '(mb', r) := subscribe self mb in (mb', Done r)
    end
  | CPut m s =>
    match (match s with None => Ok (mb_counter mb) | Some _ => getIndex names self s end) with
    | Ok omit => let '(qs, ok) := put_upto n omit m (mb_queues mb) in
                 (set_queues mb qs, if ok then Done (MOk RUnit) else NoMemory)
    | Throw e => match n with O => (mb, NoMemory) | _ => (mb, Done (MThrow e)) end
    | UB => (mb, Done MUB)
    end
  | CMinReadyCount =>
    (* 391: "auto q" copies each queue in turn *)
    if Nat.ltb n (length (mb_queues mb)) then (mb, NoMemory)
    else (fst (minReadyCount mb), Done (snd (minReadyCount mb)))
  | CDrop s =>
    (* 278-280: whatever leaves the destructor terminates the program *)
    (fst (drop mb s), Done (snd (drop mb s)))
  | _ => frugal n mb (exec1 names self mb c)      (* 327-340, 370-379, 404-422 *)
  end.

(* the call in the world of all mailboxes (bookkeeping) *)
Definition exec_mem (n : nat) (w : world M) (b : nat) (c : call M) : world M * ores :=
  let '(mb, r) := exec1_mem n (names_of w) b (w b) c in (upd w b mb, r).
End Mem.
Arguments ores : clear implicits.

(* ---- messages are objects kept alive by shared pointers ---- *)
Section Reclaim.
Context {M : Type}.

(* the mailboxes (MailBox.hxx 424) and the message pointers in the hands of the program *)
Record rstate := mkR { r_world : world M; r_hands : list M }.

(* some shared_ptr points to m: in a queue (MailBox.hxx 424) or in the program's hands *)
Definition referenced (st : rstate) (m : M) : Prop :=
  In m (r_hands st) \/ exists b k q, In (k, q) (mb_queues (r_world st b)) /\ In (Some m) q.

(* what a program does with messages and mailboxes *)
Inductive rop :=
| RNew (m : M)                        (* std::make_shared<T>(...) *)
| RCopy (m : M)                       (* copy of a pointer *)
| RRelease (m : M)                    (* a pointer is reset or leaves its scope *)
| RCall (b : nat) (c : call M)        (* a mailbox function *)
| REnd (b : nat).                     (* ~MailBox, MailBox.hxx 263-268: every queue is emptied *)

(* what a call hands to the program (MailBox.hxx 337) *)
Definition handed (r : mret M) : list M := match r with MOk (RMsg (Some m)) => [m] | _ => [] end.

(* put takes its message by value from a pointer in the program's hands (MailBox.hxx 350) *)
Definition may_call (st : rstate) (c : call M) : Prop :=
  match c with CPut (Some m) _ => In m (r_hands st) | _ => True end.

(* one such action; calls are those of M_MailBox (MailBox.hxx 306-422) *)
Inductive rstep : rstate -> rop -> mret M -> rstate -> Prop :=
| r_new : forall w hs m, rstep (mkR w hs) (RNew m) (MOk RUnit) (mkR w (m :: hs))
| r_copy : forall w hs m, In m hs -> rstep (mkR w hs) (RCopy m) (MOk RUnit) (mkR w (m :: hs))
| r_release : forall w l1 m l2, rstep (mkR w (l1 ++ m :: l2)) (RRelease m) (MOk RUnit) (mkR w (l1 ++ l2))
| r_call : forall w hs b c w' r, may_call (mkR w hs) c -> exec w b c = (w', r) ->
    rstep (mkR w hs) (RCall b c) r (mkR w' (handed r ++ hs))
| r_end : forall w hs b, rstep (mkR w hs) (REnd b) (MOk RUnit) (mkR (upd w b (set_queues (w b) [])) hs).

(* ~T runs in a step in which the last pointer goes (std::shared_ptr; MailBox.hxx 265, 336, 407, 414) *)
Definition destroyed_by (st st' : rstate) (m : M) : Prop := referenced st m /\ ~ referenced st' m.

(* the mutexes the thread holds while the destructors of that step run:
   clear and unsubscribe pop with lock held (405-407, 411-414), also out of
   ~SubscriptionCl; put pushes copies of a pointer its caller keeps (350); get
   pops what it is about to return (334-336); ~MailBox takes no lock (263) *)
Definition locked_in (op : rop) : list nat :=
  match op with
  | RCall b (CClear _) | RCall b (CUnsubscribe _) | RCall b (CDrop _) => [b]
  | RCall b (CGet _) | RCall b (CPut _ _) => [b]
  | _ => []
  end.

(* uses m: the mailboxes ~T calls when m is destroyed.  The step hangs if a
   destructor calls a mailbox its own thread has locked. *)
Definition self_locks (uses : M -> list nat) (st : rstate) (op : rop) (st' : rstate) : Prop :=
  exists m b, destroyed_by st st' m /\ In b (uses m) /\ In b (locked_in op).

(* executions, from freshly made mailboxes and no messages; what was done, the
   results and the states passed through (latest first) *)
Inductive rsteps (names : nat -> str) : list (rop * mret M) -> list rstate -> rstate -> Prop :=
| rs_init : rsteps names [] [] (mkR (fresh names) [])
| rs_step : forall tr ss st op r st', rsteps names tr ss st -> rstep st op r st' -> r <> MUB ->
    (forall m, op = RNew m -> ~ In op (map fst tr)) ->      (* every new message is another object *)
    rsteps names (tr ++ [(op, r)]) (st :: ss) st'.
End Reclaim.
Arguments rstate : clear implicits.
Arguments rop : clear implicits.
