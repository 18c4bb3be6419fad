(* S_Publish.v -- happens-before, as C++ defines it for programs that
   synchronise with mutexes only, computed with vector clocks: what a thread
   did before happens before what it does later, and unlocking a mutex happens
   before every later locking of it.  [clock t u] = m: the first m calls of
   thread u, with everything u did before making them, happen before the point
   thread t has reached. *)
From Verif Require Import Base M_Barrier M_MailBox.
From Verif Require M_MailBoxConc.

Definition clock := nat -> nat.
Definition join_clock (a b : clock) : clock := fun u => Nat.max (a u) (b u).
Definition set_clock {A} (f : nat -> A) (t : nat) (c : A) : nat -> A := fun t' => if Nat.eqb t' t then c else f t'.
(* thread t makes its next call *)
Definition tick (f : nat -> clock) (t : nat) : nat -> clock := set_clock f t (fun u => if Nat.eqb u t then S (f t u) else f t u).

(* ---- Barrier: one mutex ---- *)
Record clocks := mkK { k_thr : nat -> clock; k_mtx : clock }.
Definition clocks0 : clocks := mkK (fun _ _ => 0) (fun _ => 0).
(* from the step's events and from who owns the mutex before and after it *)
Definition clock_step (st : bstate) (e : list bev) (st' : bstate) (K : clocks) : clocks :=
  let K := match e with [ECall t] => mkK (tick (k_thr K) t) (k_mtx K) | _ => K end in
  match b_own st, b_own st' with
  | None, Some t => mkK (set_clock (k_thr K) t (join_clock (k_thr K t) (k_mtx K))) (k_mtx K)
  | Some t, None => mkK (k_thr K) (join_clock (k_mtx K) (k_thr K t))
  | _, _ => K
  end.
(* executions with their clocks *)
Inductive clocked (n b0 : Z) : list kind -> list bev -> bstate -> clocks -> Prop :=
| ck_nil : clocked n b0 [] [] (binit n b0) clocks0
| ck_snoc : forall ks tr st K k e st', clocked n b0 ks tr st K -> bstep st k e st' ->
    clocked n b0 (ks ++ [k]) (tr ++ e) st' (clock_step st e st' K).

(* ---- MailBox: one mutex for each mailbox ---- *)
Import M_MailBoxConc.
Record mclocks := mkMK { mk_thr : nat -> clock; mk_mtx : nat -> clock }.
Definition mclocks0 : mclocks := mkMK (fun _ _ => 0) (fun _ _ => 0).
Inductive mclock_step {M : Type} (st : cstate M) (e : list (ev M)) (st' : cstate M) (K : mclocks) : mclocks -> Prop :=
| mk_call : forall t b c, e = [Inv t b c] -> mclock_step st e st' K (mkMK (tick (mk_thr K) t) (mk_mtx K))
| mk_lock : forall t b, owner st b = None -> owner st' b = Some t ->
    mclock_step st e st' K (mkMK (set_clock (mk_thr K) t (join_clock (mk_thr K t) (mk_mtx K b))) (mk_mtx K))
| mk_unlock : forall t b, owner st b = Some t -> owner st' b = None ->
    mclock_step st e st' K (mkMK (mk_thr K) (set_clock (mk_mtx K) b (join_clock (mk_mtx K b) (mk_thr K t))))
| mk_other : (forall b, owner st' b = owner st b) -> (forall t b c, ~ In (Inv t b c) e) -> mclock_step st e st' K K.
Inductive mclocked {M : Type} (names : nat -> str) : list (ev M) -> cstate M -> mclocks -> Prop :=
| mck_nil : mclocked names [] (cinit names) mclocks0
| mck_snoc : forall tr st K e st' K', mclocked names tr st K -> cstep st e st' -> mclock_step st e st' K K' ->
    mclocked names (tr ++ e) st' K'.
