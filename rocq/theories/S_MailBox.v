(* S_MailBox.v -- what a user of a mailbox sees: a trace of calls (on mailbox
   number b) with their results. *)
From Verif Require Import Base M_MailBox.

Section S.
Context {M : Type}.
Definition event := (nat * call M * mret M)%type.

(* the messages that call sent to subscriber i of mailbox b *)
Definition sent_to (b : nat) (i : Z) (e : event) : list (option M) :=
  match e with
  | (b', CPut m None, MOk _) => if Nat.eqb b' b then [m] else []
  | (b', CPut m (Some s), MOk _) => if Nat.eqb b' b && negb (sub_idx s =? i)%Z then [m] else []
  | _ => []
  end.

(* what subscriber i of mailbox b obtained by that call *)
Definition got_by (b : nat) (i : Z) (e : event) : list (option M) :=
  match e with
  | (b', CGet (Some s), MOk (RMsg m)) => if Nat.eqb b' b && (sub_idx s =? i)%Z then [m] else []
  | _ => []
  end.

(* the call empties or removes subscriber i's queue in mailbox b *)
Definition discards (b : nat) (i : Z) (bc : nat * call M) : bool :=
  match bc with
  | (b', CClear (Some s)) => Nat.eqb b' b && (sub_idx s =? i)%Z
  | (b', CUnsubscribe j) => Nat.eqb b' b && (j =? i)%Z
  | (b', CDrop s) => Nat.eqb b' b && (sub_idx s =? i)%Z
  | _ => false
  end.

(* forget null pointers *)
Definition nonnull (l : list (option M)) : list M :=
  flat_map (fun o => match o with Some m => [m] | None => [] end) l.

(* the identities handed out by subscribe on mailbox b *)
Definition new_ids (b : nat) (e : event) : list Z :=
  match e with
  | (b', CSubscribe, MOk (RSub s)) => if Nat.eqb b' b then [sub_idx s] else []
  | _ => []
  end.

(* nothing undefined happened *)
Definition no_ub (rs : list (mret M)) : Prop := forall r, In r rs -> r <> MUB.

(* subscriptions are obtained from subscribe, dropped at most once, and nobody
   calls unsubscribe(id) behind their back *)
Fixpoint owner_ok (own : list sub) (tr : list event) : Prop :=
  match tr with
  | [] => True
  | (b, CUnsubscribe _, _) :: _ => False
  | (b, CDrop s, _) :: t =>
    In s own /\ sub_mbox s = b /\ owner_ok (filter (fun s' => negb (Nat.eqb (sub_mbox s') (sub_mbox s) && (sub_idx s' =? sub_idx s)%Z)) own) t
  | (b, CSubscribe, MOk (RSub s)) :: t => owner_ok (s :: own) t
  | _ :: t => owner_ok own t
  end.

(* a history of calls on freshly made mailboxes, its results and the state it
   leads to; nothing undefined (null subscription handed in, more than 2^31 - 1
   subscribe calls) happened on the way *)
Definition reach (names : nat -> str) (h : list (nat * call M)) (rs : list (mret M)) (w : world M) : Prop :=
  run (fresh names) h = (w, rs) /\ no_ub rs.

(* what one more call would return in state w *)
Definition answer (w : world M) (b : nat) (c : call M) : mret M := snd (exec w b c).

(* what the next n gets by subscription s would return *)
Definition future (w : world M) (s : sub) (n : nat) : list (mret M) :=
  snd (run w (repeat (sub_mbox s, CGet (Some s)) n)).
Definition msg (m : option M) : mret M := MOk (RMsg m).

(* q is waiting for s: that is what gets return, then nothing *)
Definition pending (w : world M) (s : sub) (q : list (option M)) : Prop :=
  (forall n, future w s n = map msg (firstn n q ++ repeat None (n - length q))) /\
  answer w (sub_mbox s) (CReadyCount (Some s)) = MOk (RNum (to_u32 (Z.of_nat (length q)))).

(* the call makes subscription s start with nothing waiting *)
Definition starts (b : nat) (s : sub) (c : call M) (r : mret M) : Prop :=
  (c = CSubscribe /\ r = MOk (RSub s)) \/ (c = CClear (Some s) /\ r = MOk RUnit).

(* the ids subscribed to mailbox b after that trace, latest first *)
Definition member_step (b : nat) (ids : list Z) (e : event) : list Z :=
  match e with
  | (b', CSubscribe, MOk (RSub s)) => if Nat.eqb b' b then sub_idx s :: ids else ids
  | (b', CUnsubscribe i, MOk _) => if Nat.eqb b' b then filter (fun j => negb (j =? i)%Z) ids else ids
  | (b', CDrop s, MOk _) => if Nat.eqb b' b then filter (fun j => negb (j =? sub_idx s)%Z) ids else ids
  | _ => ids
  end.
Definition members (b : nat) (tr : list event) : list Z := fold_left (member_step b) tr [].

(* no null pointer is ever put *)
Definition puts_nonnull (h : list (nat * call M)) : Prop :=
  forall b s, ~ In (b, CPut None s) h.

(* how many of those results are messages *)
Definition successes (rs : list (mret M)) := length (filter (fun r => match r with MOk (RMsg (Some _)) => true | _ => false end) rs).

(* the call is made by (or about) a subscriber other than s *)
Definition of_other (b : nat) (c : call M) (s : sub) : Prop :=
  match c with
  | CGet (Some s') | CClear (Some s') | CReadyCount (Some s') | CDrop s' => s' <> s /\ sub_mbox s' = b
  | CUnsubscribe i => mkSub b i <> s
  | CSubscriberCount | CMinReadyCount => True
  | _ => False
  end.

(* some queue of mailbox b holds a reference to message m *)
Definition held (w : world M) (b : nat) (m : M) : Prop :=
  exists k q, In (k, q) (mb_queues (w b)) /\ In (Some m) q.
End S.
