(* S_ExchangeFair.v -- executions of the exchange program (or of one with the
   same states) that go on for ever, and what it means that the scheduler is
   fair. *)
From Verif Require Import Base M_MailBox M_MailBoxConc M_Barrier M_Exchange S_Fair.

(* between g and g' thread t has done something: it is elsewhere in the program,
   or has moved in the mailbox's method or in the barrier's *)
Definition turn (t : nat) (g g' : xst) : Prop :=
  x_thr g' t <> x_thr g t \/ box_moved t (x_box g) (x_box g') \/ bar_moved t (x_bar g) (x_bar g').

(* f n: the state at time n.  At each time there is one step of some thread, or
   nothing happens (step: the program's steps).  k n is the kind of the step.  The
   condition variable may wake sleepers for no reason, any number of times; the
   barrier's timeout of a thousand days does not run out *)
Definition schedule (step : xst -> kind -> xst -> Prop) (start : xst) (f : nat -> xst) (k : nat -> kind) : Prop :=
  f 0 = start /\
  forall n, (step (f n) (k n) (f (S n)) /\ k n <> KExpire) \/ (f (S n) = f n /\ k n = KRun).

(* a thread that can do something again and again does something again and again *)
Definition fair (step : xst -> kind -> xst -> Prop) (f : nat -> xst) : Prop :=
  forall t, (forall N, exists n g', N <= n /\ step (f n) KRun g' /\ turn t (f n) g') ->
            forall N, exists n, N <= n /\ turn t (f n) (f (S n)).
