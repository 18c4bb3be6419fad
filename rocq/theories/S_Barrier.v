(* S_Barrier.v -- vocabulary for the barrier's properties: counting and
   ordering of the events of an execution *)
From Verif Require Import Base M_Barrier.

Definition is_call (t : tid) (e : bev) : bool := match e with ECall t' => Nat.eqb t' t | _ => false end.
Definition is_ret (t : tid) (e : bev) : bool := match e with ERet t' _ => Nat.eqb t' t | _ => false end.
Definition count (p : bev -> bool) (tr : list bev) : nat := length (filter p tr).
(* how often thread t has called wait, and how often it came back *)
Definition calls (t : tid) (tr : list bev) : nat := count (is_call t) tr.
Definition rets (t : tid) (tr : list bev) : nat := count (is_ret t) tr.

Definition is_arrive (e : bev) : bool := match e with EArrive _ => true | _ => false end.
Definition is_gen (e : bev) : bool := match e with EGen _ => true | _ => false end.
Definition is_timeout_ret (e : bev) : bool := match e with ERet _ ThrewTimeout => true | _ => false end.
Definition is_timeout_throw (e : bev) : bool := match e with EThrow _ ThrewTimeout => true | _ => false end.

(* an execution of a fresh barrier for n threads whose counter starts at b0 *)
Definition execution (n b0 : Z) ks tr st : Prop := bsteps (binit n b0) ks tr st.
(* only threads 0 .. n-1 call wait *)
Definition only_threads (n : nat) (tr : list bev) : Prop := forall t, In (ECall t) tr -> t < n.
(* no thread calls wait more than R times *)
Definition at_most_calls (R : nat) (tr : list bev) : Prop := forall t, calls t tr <= R.
(* no timeout expires *)
Definition no_expiry (ks : list kind) : Prop := ~ In KExpire ks.

Definition is_work (k : kind) : bool := match k with KRun | KCall => true | _ => false end.
Definition is_spurious (k : kind) : bool := match k with KSpurious => true | _ => false end.
Definition work_steps (ks : list kind) : nat := length (filter is_work ks).
Definition spurious_steps (ks : list kind) : nat := length (filter is_spurious ks).

(* event e of thread t's current call: e comes after the thread's last ECall *)
Definition since_call (t : tid) (e : bev) (tr : list bev) : Prop :=
  exists a b, tr = a ++ b /\ In e b /\ In (ECall t) a /\ ~ In (ECall t) b.

(* the unlocked read and the write of the generation counter *)
Definition reading (st : bstate) (t : tid) : Prop := b_thr st t = TCalled.
Definition writing (st : bstate) (t : tid) : Prop :=
  exists old, b_thr st t = THold old HBump \/ b_thr st t = THold old HInf.
(* event e comes after thread t's last reading of the counter *)
Definition since_read (t : tid) (e : bev) (tr : list bev) : Prop :=
  exists a b, tr = a ++ ERead t :: b /\ In e b /\ ~ In (ERead t) b.
Definition is_forced (k : kind) : bool := match k with KSpurious => false | _ => true end.
(* steps other than spurious wakeups *)
Definition forced_steps (ks : list kind) : nat := length (filter is_forced ks).
