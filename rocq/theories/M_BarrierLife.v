(* M_BarrierLife.v -- threads that share a barrier through BarrierPtr
   (std::shared_ptr, Barrier.hxx; makeBarrier, Barrier.cxx 102-104) and let their
   pointers go.  The barrier is M_Barrier; a thread calls wait through a pointer
   of its own, which it cannot let go during the call. *)
From Verif Require Import Base M_Barrier.

(* the barrier, and who has let the pointer go (Barrier.hxx 257: BarrierPtr) *)
Record pstate := mkP { p_bar : bstate; p_gone : tid -> bool }.
(* thread t lets its BarrierPtr go (Barrier.hxx 257; bookkeeping) *)
Definition set_gone (g : tid -> bool) t : tid -> bool := fun t' => if Nat.eqb t' t then true else g t'.

(* N threads share it (Barrier.hxx 257: BarrierPtr) *)
Inductive pstep (N : nat) : pstate -> pstate -> Prop :=
| p_run : forall x k e b, k <> KCall -> bstep (p_bar x) k e b -> pstep N x (mkP b (p_gone x))
| p_call : forall x t b, t < N -> p_gone x t = false -> bstep (p_bar x) KCall [ECall t] b -> pstep N x (mkP b (p_gone x))
| p_letgo : forall x t, t < N -> p_gone x t = false -> b_thr (p_bar x) t = TIdle ->
    pstep N x (mkP (p_bar x) (set_gone (p_gone x) t)).
(* executions (bookkeeping of the model; no line of /repo) *)
Inductive psteps (N : nat) : pstate -> pstate -> Prop :=
| ps_nil : forall x, psteps N x x
| ps_snoc : forall x y z, psteps N x y -> pstep N y z -> psteps N x z.
(* makeBarrier (Barrier.cxx 102-104); nobody has let go *)
Definition pinit (n b0 : Z) : pstate := mkP (binit n b0) (fun _ => false).

(* the last pointer has gone: the barrier is destroyed (Barrier.hxx 257) *)
Definition destroyed (N : nat) (x : pstate) : Prop := forall t, t < N -> p_gone x t = true.
