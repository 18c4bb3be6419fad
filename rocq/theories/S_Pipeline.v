(* S_Pipeline.v -- vocabulary for C129: threads that pass messages on from one
   mailbox to the next.  Only calls and returns of threads are looked at. *)
From Verif Require Import Base M_MailBox M_MailBoxConc S_MailBox S_MailBoxConc.

Section S.
Context {M : Type}.

(* a relay thread:  for(;;) { auto p = in->get(s); if(p != nullptr) out->put(p); }
   hand is the message it has got and not yet put; the thread makes these calls,
   one after the other has returned *)
Definition relay_next (hand : option M) (r : mret M) : option M :=
  match hand, r with
  | None, MOk (RMsg m) => m
  | _, _ => None
  end.
Fixpoint relaying (s : sub) (from to : nat) (hand : option M) (calls : list (nat * call M)) (rets : list (mret M)) : Prop :=
  match calls with
  | [] => True
  | bc :: cs =>
    bc = match hand with None => (from, CGet (Some s)) | Some m => (to, CPut (Some m) None) end /\
    match rets with
    | [] => cs = []
    | r :: rs => relaying s from to (relay_next hand r) cs rs
    end
  end.
(* what it has in hand after those returns *)
Definition in_hand (rets : list (mret M)) : option M := fold_left relay_next rets None.

(* a thread that only reads *)
Definition reading (s : sub) (from : nat) (calls : list (nat * call M)) : Prop :=
  forall bc, In bc calls -> bc = (from, CGet (Some s)).
(* the messages among those returns *)
Definition messages (rets : list (mret M)) : list M :=
  flat_map (fun r => match r with MOk (RMsg (Some m)) => [m] | _ => [] end) rets.

(* a message this call sends to subscription s: a put into its mailbox, with no
   subscription or with another one of the same mailbox *)
Definition enters (s : sub) (bc : nat * call M) : list M :=
  match bc with
  | (b, CPut (Some m) None) => if Nat.eqb b (sub_mbox s) then [m] else []
  | (b, CPut (Some m) (Some s')) =>
    if Nat.eqb b (sub_mbox s) && Nat.eqb (sub_mbox s') b && negb (sub_idx s' =? sub_idx s)%Z then [m] else []
  | _ => []
  end.
Definition fed (s : sub) (calls : list (nat * call M)) : list M := flat_map (enters s) calls.

(* the call has a subscription where it needs one, and makes none *)
Definition plain_call (c : call M) : Prop :=
  match c with
  | CSubscribe | CGet None | CClear None | CReadyCount None => False
  | _ => True
  end.
(* the call uses subscription s: takes from it, empties or ends it *)
Definition uses (s : sub) (bc : nat * call M) : Prop :=
  match bc with
  | (b, CGet (Some s')) | (b, CClear (Some s')) | (b, CDrop s') => b = sub_mbox s /\ sub_idx s' = sub_idx s
  | (b, CUnsubscribe j) => b = sub_mbox s /\ j = sub_idx s
  | _ => False
  end.

(* n + 1 mailboxes in a row: subscription (s i) of mailbox i is read by relay
   thread (rel i), for i < n, and the last one by thread rd *)
Record pipeline (n : nat) (s : nat -> sub) (rel : nat -> nat) (rd : nat) (tr : list (ev M)) : Prop := {
  p_boxes : forall i j, i <= n -> j <= n -> sub_mbox (s i) = sub_mbox (s j) -> i = j;
  p_threads : forall i j, i < n -> j < n -> rel i = rel j -> i = j;
  p_reader : forall i, i < n -> rel i <> rd;
  p_relays : forall i, i < n ->
    relaying (s i) (sub_mbox (s i)) (sub_mbox (s (S i))) None (calls_of (rel i) tr) (rets_of (rel i) tr);
  p_reads : reading (s n) (sub_mbox (s n)) (calls_of rd tr);
  (* everybody else: no use of these subscriptions, no put after mailbox 0 *)
  p_others : forall t bc, t <> rd -> (forall i, i < n -> t <> rel i) -> In bc (calls_of t tr) ->
    plain_call (snd bc) /\ forall i, i <= n -> ~ uses (s i) bc /\
      (0 < i -> forall m o, bc <> (sub_mbox (s i), CPut m o)) }.

(* o lists the messages that went into mailbox 0 with the thread that put each:
   at any moment a first part of o has everything whose put has returned, and
   nothing whose put has not been called *)
Definition entry_order (s : sub) (tr : list (ev M)) (o : list (nat * M)) : Prop :=
  (forall t, prefix (of_t t o) (fed s (calls_of t tr))) /\
  forall tr1 tr2, tr = tr1 ++ tr2 -> exists o1 o2, o = o1 ++ o2 /\
    forall t, prefix (fed s (firstn (length (rets_of t tr1)) (calls_of t tr1))) (of_t t o1) /\
              prefix (of_t t o1) (fed s (calls_of t tr1)).

Definition of_option (m : option M) : list M := match m with Some m => [m] | None => [] end.
(* what is on its way: waiting in mailbox n, in the hand of relay n-1, waiting
   in mailbox n-1, ..., waiting in mailbox 0 *)
Fixpoint on_the_way (q : nat -> list (option M)) (hand : nat -> option M) (n : nat) : list M :=
  match n with
  | O => nonnull (q O)
  | S k => nonnull (q n) ++ of_option (hand k) ++ on_the_way q hand k
  end.
End S.
