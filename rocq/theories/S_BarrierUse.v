(* S_BarrierUse.v -- vocabulary for the programs that use a barrier *)
From Verif Require Import Base M_Barrier S_Barrier M_BarrierUse.

Definition is_said (t : tid) (s : str) (e : cev) : bool :=
  match e with Said u s' => Nat.eqb u t && str_eqb s' s | _ => false end.
Definition is_napped (t : tid) (e : cev) : bool := match e with Napped u => Nat.eqb u t | _ => false end.
Definition tally (p : cev -> bool) (tr : list cev) : nat := length (filter p tr).
(* how often thread t has written s; how often it has finished its nap *)
Definition said (t : tid) (s : str) (tr : list cev) : nat := tally (is_said t s) tr.
Definition naps (t : tid) (tr : list cev) : nat := tally (is_napped t) tr.
(* no timeout expires *)
Definition calm (ks : list ckind) : Prop := ~ In (KBar KExpire) ks.
(* nothing can happen any more, spurious wakeups (and, in stopped, expiries) aside *)
Definition stopped (P : bprog) (c : cst) : Prop :=
  forall k e c', cstep P c k e c' -> k = KBar KSpurious \/ k = KBar KExpire.
Definition stopped_for_good (P : bprog) (c : cst) : Prop := forall k e c', cstep P c k e c' -> k = KBar KSpurious.
Definition is_extra (k : ckind) : bool := match k with KBar KSpurious => true | _ => false end.
Definition spurious (ks : list ckind) : nat := length (filter is_extra ks).
(* steps other than spurious wakeups *)
Definition effort (ks : list ckind) : nat := length (filter (fun k => negb (is_extra k)) ks).
(* how many of thread t's calls of wait have ended *)
Definition is_return (t : tid) (e : cev) : bool := match e with InBar (ERet u _) => Nat.eqb u t | _ => false end.
Definition returns (t : tid) (tr : list cev) : nat := tally (is_return t) tr.
