(* S_Fair.v -- executions that go on for ever, and what it means that the
   scheduler is fair. *)
From Verif Require Import Base M_MailBox M_MailBoxConc M_Barrier S_Barrier.

(* what has been recorded before time n *)
Definition upto {E} (e : nat -> list E) (n : nat) : list E := concat (map e (seq 0 n)).

(* ---- mailboxes ---- *)
Section Box.
Context {M : Type}.

(* f n: the state at time n; from time n to n + 1 some thread makes a step, of
   which e n is visible, or nothing happens *)
Definition box_for_ever (start : cstate M) (f : nat -> cstate M) (e : nat -> list (ev M)) : Prop :=
  f 0 = start /\ forall n, M_MailBoxConc.cstep (f n) (e n) (f (S n)) \/ (f (S n) = f n /\ e n = []).

(* thread t has moved: it is elsewhere in its call, or the mailbox whose mutex it
   holds has changed *)
Definition box_moved (t : nat) (st st' : cstate M) : Prop :=
  thr st' t <> thr st t \/ exists b, owner st b = Some t /\ boxes st' b <> boxes st b.

(* a thread inside a call that again and again could move does again and again
   move; whether and when threads make calls is up to them *)
Definition box_fair (f : nat -> cstate M) : Prop := forall t,
  (forall N, exists n e st', N <= n /\ thr (f n) t <> Idle /\ M_MailBoxConc.cstep (f n) e st' /\ box_moved t (f n) st') ->
  forall N, exists n, N <= n /\ box_moved t (f n) (f (S n)).
End Box.

(* ---- a barrier ---- *)
(* k n: the kind of the step from time n to n + 1 *)
Definition bar_for_ever (start : bstate) (f : nat -> bstate) (k : nat -> kind) (e : nat -> list bev) : Prop :=
  f 0 = start /\ forall n, M_Barrier.bstep (f n) (k n) (e n) (f (S n)) \/ (f (S n) = f n /\ e n = [] /\ k n = KRun).

(* thread t has moved (being notified is not a move) *)
Definition bar_moved (t : nat) (st st' : bstate) : Prop :=
  b_thr st' t <> b_thr st t /\ ~ exists old, b_thr st t = TSleep old false /\ b_thr st' t = TSleep old true.

(* a thread inside wait that again and again could move, without waking up for no
   reason and without a timeout, does again and again move *)
Definition bar_fair (f : nat -> bstate) : Prop := forall t,
  (forall N, exists n e st', N <= n /\ M_Barrier.bstep (f n) KRun e st' /\ bar_moved t (f n) st') ->
  forall N, exists n, N <= n /\ bar_moved t (f n) (f (S n)).

(* time limits run out: a call that does not return and sleeps again and again is
   told so once *)
Definition time_passes (f : nat -> bstate) (e : nat -> list bev) : Prop := forall t n,
  In (ECall t) (e n) -> (forall m r, n < m -> ~ In (ERet t r) (e m)) ->
  (forall N, exists m old b, N <= m /\ b_thr (f m) t = TSleep old b) ->
  exists m, n < m /\ In (EExpire t) (e m).
