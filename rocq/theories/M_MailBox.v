(* M_MailBox.v -- model of include/MailBox.hxx.
   Message pointers are [option M]: None is a null std::shared_ptr.  The
   mailboxes of one message type live in a [world], addressed by a number
   (their this pointer). *)
From Verif Require Import Base M_Stream M_Format.

Section MailBox.
Context {M : Type}.

(* MailBox.hxx 271-297: SubscriptionCl.  A Subscription (std::unique_ptr) is
   null or points to one of these. *)
Record sub := mkSub { sub_mbox : nat; sub_idx : Z }.

(* MailBox.hxx 233 (name), 424-425.  std::map is a sorted association
   list. *)
Record mbox := mkBox { mb_name : str; mb_queues : list (Z * list (option M)); mb_counter : Z }.

(* all mailboxes, by address (MailBox.hxx 246) *)
Definition world := nat -> mbox.
(* the mailbox at b changed (bookkeeping of the model; no line of /repo) *)
Definition upd (w : world) (b : nat) (x : mbox) : world :=
  fun b' => if Nat.eqb b' b then x else w b'.

(* what a call returns to its caller (MailBox.hxx 306-422) *)
Inductive rval :=
| RUnit | RSub (s : sub) | RMsg (m : option M) | RNum (n : Z).
(* how a call ends (MailBox.hxx 306-422) *)
Inductive mret :=
| MOk (v : rval)
| MThrow (e : exn)
| MUB                   (* undefined behaviour *)
| MTerminate.           (* std::terminate: exception leaving a destructor *)

(* MailBox.hxx 174-179 *)
Definition mb_what (name problem : str) : str :=
  lit "SoDa::MailBox[" ++ name ++ lit "] " ++ problem.
(* MailBox.hxx 185-190; std::to_string(int) *)
Definition missingSubscriber (name op : str) (id : Z) : exn :=
  mkExn MissingSubscriber (mb_what name (lit "::" ++ op ++ lit " Subscriber ID " ++ put_int id ++ lit " not found.")).
(* Format(tmpl).addS(..)...str() (MailBox.hxx 196, 207); the templates are ASCII so the scan cannot fail *)
Definition format_with (tmpl : str) (vals : list str) : str :=
  match newFormat Glibc tmpl with
  | Ok f => match fmt_str (fold_left insertField vals f) false with Ok s => s | _ => [] end
  | _ => []
  end.
(* MailBox.hxx 192-199 *)
Definition subscriptionMismatch (should_be was : str) : exn :=
  mkExn SubscriptionMismatch
    (mb_what should_be (format_with (lit "caller specified the wrong mailbox") [was])).

(* MailBox.hxx 282-289; names are those of the mailboxes in the world.  A null
   unique_ptr is dereferenced: undefined. *)
Definition getIndex (names : nat -> str) (self : nat) (s : option sub) : outcome Z :=
  match s with
  | None => UB
  | Some s => if Nat.eqb (sub_mbox s) self then Ok (sub_idx s)
              else Throw (subscriptionMismatch (names self) (names (sub_mbox s)))
  end.

(* message_queues.find, count (MailBox.hxx 428, 431) *)
Definition q_find := @smap_find Z (list (option M)) Z.compare.
(* message_queues[i] = q (MailBox.hxx 313, 336, 407) *)
Definition q_set := @smap_insert Z (list (option M)) Z.compare.
(* message_queues.erase(i) (MailBox.hxx 416) *)
Definition q_erase := @smap_erase Z (list (option M)) Z.compare.

(* MailBox.hxx 427-432: map::count then operator[] *)
Definition getQueue (mb : mbox) (i : Z) : outcome (list (option M)) :=
  match q_find i (mb_queues mb) with
  | None => Throw (missingSubscriber (mb_name mb) (lit "get()") i)
  | Some q => Ok q
  end.

(* message_queues replaced (bookkeeping) *)
Definition set_queues (mb : mbox) q := mkBox (mb_name mb) q (mb_counter mb).

(* the member functions, MailBox.hxx 306-422 *)
Inductive call :=
| CSubscribe                                   (* subscribe()        306-317 *)
| CGet (s : option sub)                        (* get(subs)          327-340 *)
| CPut (m : option M) (s : option sub)         (* put(msg, subs)     350-361 *)
| CReadyCount (s : option sub)                 (* readyCount(subs)   370-379 *)
| CMinReadyCount                               (* minReadyCount()    388-396 *)
| CClear (s : option sub)                      (* clear(subs)        404-408 *)
| CUnsubscribe (i : Z)                         (* unsubscribe(subid) 410-417 *)
| CSubscriberCount                             (* subscriberCount()  419-422 *)
| CDrop (s : sub).                             (* ~SubscriptionCl()  278-280, for a subscription of this mailbox *)

(* an exception leaves the mailbox as it is (bookkeeping) *)
Definition of_outcome {A} (mb : mbox) (o : outcome A) (k : A -> mbox * mret) : mbox * mret :=
  match o with
  | Ok a => k a
  | Throw e => (mb, MThrow e)
  | UB => (mb, MUB)
  end.

(* MailBox.hxx 306-317.  subscription_counter++ overflows at INT_MAX. *)
Definition subscribe (self : nat) (mb : mbox) : mbox * mret :=
  let q := q_set (mb_counter mb) [] (mb_queues mb) in
  if (mb_counter mb <? two31 - 1)%Z
  then (mkBox (mb_name mb) q (mb_counter mb + 1), MOk (RSub (mkSub self (mb_counter mb))))
  else (mkBox (mb_name mb) q (mb_counter mb), MUB).

(* MailBox.hxx 327-340 *)
Definition get names self (mb : mbox) (s : option sub) : mbox * mret :=
  of_outcome mb (do i <- getIndex names self s; do q <- getQueue mb i; Ok (i, q))
    (fun '(i, q) =>
       match q with
       | [] => (mb, MOk (RMsg None))
       | m :: q' => (set_queues mb (q_set i q' (mb_queues mb)), MOk (RMsg m))
       end).

(* MailBox.hxx 350-361 *)
Definition put_all (omit : Z) (m : option M) (qs : list (Z * list (option M))) :=
  map (fun '(k, q) => if (k =? omit)%Z then (k, q) else (k, q ++ [m])) qs.
(* MailBox.hxx 350-361: omit_key, then the loop *)
Definition put names self (mb : mbox) (m : option M) (s : option sub) : mbox * mret :=
  of_outcome mb (match s with None => Ok (mb_counter mb) | Some _ => getIndex names self s end)
    (fun omit => (set_queues mb (put_all omit m (mb_queues mb)), MOk RUnit)).

(* MailBox.hxx 370-379: size_t converted to unsigned int *)
Definition readyCount names self (mb : mbox) (s : option sub) : mbox * mret :=
  of_outcome mb (do i <- getIndex names self s; getQueue mb i)
    (fun q => (mb, MOk (RNum (to_u32 (Z.of_nat (length q)))))).

(* MailBox.hxx 388-396: comparison in size_t, result in unsigned int *)
Definition minReadyCount (mb : mbox) : mbox * mret :=
  (mb, MOk (RNum (fold_left (fun ret '(_, q) =>
      let qs := Z.of_nat (length (q : list (option M))) in if (ret <? qs)%Z then ret else to_u32 qs)
    (mb_queues mb) (two32 - 1)%Z))).

(* MailBox.hxx 404-408 *)
Definition clear names self (mb : mbox) (s : option sub) : mbox * mret :=
  of_outcome mb (do i <- getIndex names self s; do q <- getQueue mb i; Ok i)
    (fun i => (set_queues mb (q_set i [] (mb_queues mb)), MOk RUnit)).

(* MailBox.hxx 410-417 *)
Definition unsubscribe (mb : mbox) (i : Z) : mbox * mret :=
  of_outcome mb (getQueue mb i)
    (fun _ => (set_queues mb (q_erase i (mb_queues mb)), MOk RUnit)).

(* MailBox.hxx 419-422 *)
Definition subscriberCount (mb : mbox) : mbox * mret :=
  (mb, MOk (RNum (to_u32 (Z.of_nat (length (mb_queues mb)))))).

(* MailBox.hxx 278-280: ~SubscriptionCl calls unsubscribe on its own mailbox;
   destructors are noexcept, so an exception terminates the program *)
Definition drop (mb : mbox) (s : sub) : mbox * mret :=
  let '(mb', r) := unsubscribe mb (sub_idx s) in
  (mb', match r with MThrow _ => MTerminate | _ => r end).

(* one call on mailbox [self] (MailBox.hxx 278-280, 306-422) *)
Definition exec1 names (self : nat) (mb : mbox) (c : call) : mbox * mret :=
  match c with
  | CSubscribe => subscribe self mb
  | CGet s => get names self mb s
  | CPut m s => put names self mb m s
  | CReadyCount s => readyCount names self mb s
  | CMinReadyCount => minReadyCount mb
  | CClear s => clear names self mb s
  | CUnsubscribe i => unsubscribe mb i
  | CSubscriberCount => subscriberCount mb
  | CDrop s => drop mb s
  end.

(* getName() of every mailbox, MailBox.hxx 231 *)
Definition names_of (w : world) : nat -> str := fun b => mb_name (w b).

(* the call in the world of all mailboxes (bookkeeping) *)
Definition exec (w : world) (b : nat) (c : call) : world * mret :=
  let '(mb, r) := exec1 (names_of w) b (w b) c in (upd w b mb, r).

(* a history of calls, and what each returned (bookkeeping) *)
Fixpoint run (w : world) (h : list (nat * call)) : world * list mret :=
  match h with
  | [] => (w, [])
  | (b, c) :: h' =>
    let '(w1, r) := exec w b c in
    let '(w2, rs) := run w1 h' in (w2, r :: rs)
  end.

(* MailBox.hxx 259-261: freshly constructed mailboxes *)
Definition newBox (name : str) : mbox := mkBox name [] 0%Z.
(* all of them (bookkeeping) *)
Definition fresh (names : nat -> str) : world := fun b => newBox (names b).

End MailBox.
Arguments sub : clear implicits.
Arguments mbox : clear implicits.
Arguments world : clear implicits.
Arguments call : clear implicits.
Arguments mret : clear implicits.
Arguments rval : clear implicits.

(* MailBox.hxx 201-210 *)
Definition badConversion (name from_type to_type : str) : exn :=
  mkExn BadConversion
    (mb_what name
       (format_with (lit "MailBoxBase::convert attempted to promote from %0 to %1. That isn't right." ++ ["010"%char])
          [from_type; to_type])).

(* MailBox.hxx 212-225: MailBoxBase::convert<T>.  A pointer is null or an
   object with a name and a dynamic type; dynamic_pointer_cast succeeds iff the
   dynamic type is T (MailBox<T> has no further subclasses here).  typeid(p) is
   the static type of p, shared_ptr<MailBoxBase>. *)
Definition convert {A} (type_of : A -> nat) (name_of : A -> str) (tyname : nat -> str) (base_ty : str)
           (T : nat) (p : option A) : outcome A :=
  match p with
  | None => UB
  | Some x => if Nat.eqb (type_of x) T then Ok x
              else Throw (badConversion (name_of x) base_ty (tyname T))
  end.
