(* S_FairUse.v -- executions of a program with a barrier that go on for ever, and
   what it means that the scheduler is fair to its threads. *)
From Verif Require Import Base M_Barrier S_Barrier S_Fair M_BarrierUse.

(* f n: the program at time n; from time n to n + 1 a step of kind k n happens, of
   which e n is visible, or nothing (then k n says nothing) *)
Definition use_for_ever (P : bprog) (start : cst) (f : nat -> cst) (k : nat -> ckind) (e : nat -> list cev) : Prop :=
  f 0 = start /\ forall n, M_BarrierUse.cstep P (f n) (k n) (e n) (f (S n)) \/ (f (S n) = f n /\ e n = [] /\ k n = KAct).

(* thread t has moved: in its code, or inside wait (being created or notified is
   not a move) *)
Definition use_moved (t : nat) (c c' : cst) : Prop :=
  (c_thr c t <> None /\ c_thr c' t <> c_thr c t) \/ bar_moved t (c_bar c) (c_bar c').

(* a thread that again and again could move, without waking up for no reason and
   without a timeout, does again and again move *)
Definition use_fair (P : bprog) (f : nat -> cst) : Prop := forall t,
  (forall N, exists n k e c', N <= n /\ M_BarrierUse.cstep P (f n) k e c' /\ k <> KBar KSpurious /\ k <> KBar KExpire /\ use_moved t (f n) c') ->
  forall N, exists n, N <= n /\ use_moved t (f n) (f (S n)).

(* what the calls of wait show *)
Definition of_wait (l : list cev) : list bev := flat_map (fun x => match x with InBar b => [b] | _ => [] end) l.
(* the time limits of the calls of wait run out *)
Definition use_time_passes (f : nat -> cst) (e : nat -> list cev) : Prop :=
  time_passes (fun n => c_bar (f n)) (fun n => of_wait (e n)).
(* from time m on nothing happens any more *)
Definition over (f : nat -> cst) (e : nat -> list cev) (m : nat) : Prop := forall n, m <= n -> f n = f m /\ e n = [].
