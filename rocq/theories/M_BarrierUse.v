(* M_BarrierUse.v -- two programs of /repo that use a barrier: the one of the
   manual, examples/BarrierExample.cxx (its snippets are included in
   Barrier.hxx), and test/BarrierTest.cxx.  The barrier is M_Barrier with its
   own steps; here are the threads that call it. *)
From Verif Require Import Base M_Stream M_Format M_Barrier.

(* what a thread does between and around the calls of wait (BarrierExample.cxx
   9-61, BarrierTest.cxx 12-65) *)
Inductive act :=
| Say (s : str)       (* std::cerr << s *)
| Nap                 (* sleep_for: takes an arbitrary time *)
| Wait (ms : Z)       (* barrier_p->wait; ms: the count wait_for will see *)
| Spawn (u : tid)     (* new std::thread(...) *)
| Join (u : tid).     (* t->join() *)

(* a program: the code of each thread, what a thread's catch block does (None:
   there is none), the thread that runs main, the barrier's name *)
Record bprog := mkP { p_code : tid -> list act; p_catch : option (exn -> list act); p_main : tid; p_name : str }.

(* c_thr: what a thread still has to do; None: not created yet.  A thread is in
   wait when the barrier says so; the Wait stays in front until it returns.
   c_dead: an exception left a thread function, so std::terminate was called. *)
Record cst := mkC { c_bar : bstate; c_thr : tid -> option (list act); c_dead : bool }.
(* thread t goes on as x (bookkeeping of the model; no line of /repo) *)
Definition put_thr (f : tid -> option (list act)) t x : tid -> option (list act) := fun u => if Nat.eqb u t then x else f u.

(* observations (bookkeeping of the model) *)
Inductive cev := Said (t : tid) (s : str) | Napped (t : tid) | Created (u : tid) | Joined (u : tid) | InBar (e : bev).
(* a step of a thread outside the barrier, or one inside wait (bookkeeping) *)
Inductive ckind := KAct | KBar (k : kind).

(* the exception wait throws (Barrier.cxx 87, 95) *)
Definition thrown (P : bprog) (ms : Z) (r : bres) : exn :=
  match r with ThrewTimeout => timeout_exn (p_name P) ms | _ => corrupt_exn (p_name P) end.
(* how a thread goes on when wait has ended with r: after the call, in the catch
   block (BarrierTest.cxx 29-32), or not at all *)
Definition go_on (P : bprog) (ms : Z) (p : list act) (r : bres) : option (list act) :=
  match r with
  | Passed => Some p
  | _ => match p_catch P with Some h => Some (h (thrown P ms r)) | None => None end
  end.

(* one step of BarrierExample.cxx 9-61 or BarrierTest.cxx 12-65.  Simplification:
   an insertion into std::cerr is one step *)
Inductive cstep (P : bprog) : cst -> ckind -> list cev -> cst -> Prop :=
| c_say : forall b f t s p, f t = Some (Say s :: p) ->
    cstep P (mkC b f false) KAct [Said t s] (mkC b (put_thr f t (Some p)) false)
| c_nap : forall b f t p, f t = Some (Nap :: p) ->
    cstep P (mkC b f false) KAct [Napped t] (mkC b (put_thr f t (Some p)) false)
| c_spawn : forall b f t u p, f t = Some (Spawn u :: p) -> f u = None ->
    cstep P (mkC b f false) KAct [Created u] (mkC b (put_thr (put_thr f t (Some p)) u (Some (p_code P u))) false)
| c_join : forall b f t u p, f t = Some (Join u :: p) -> f u = Some [] ->
    cstep P (mkC b f false) KAct [Joined u] (mkC b (put_thr f t (Some p)) false)
| c_call : forall b f t ms p b', f t = Some (Wait ms :: p) -> bstep b KCall [ECall t] b' ->
    cstep P (mkC b f false) (KBar KCall) [InBar (ECall t)] (mkC b' f false)
| c_in : forall b f k e b', k <> KCall -> (forall t r, ~ In (ERet t r) e) -> bstep b k e b' ->
    cstep P (mkC b f false) (KBar k) (map InBar e) (mkC b' f false)
| c_back : forall b f t ms p r b' q, f t = Some (Wait ms :: p) -> bstep b KRun [ERet t r] b' -> go_on P ms p r = Some q ->
    cstep P (mkC b f false) (KBar KRun) [InBar (ERet t r)] (mkC b' (put_thr f t (Some q)) false)
| c_die : forall b f t ms p r b', f t = Some (Wait ms :: p) -> bstep b KRun [ERet t r] b' -> go_on P ms p r = None ->
    cstep P (mkC b f false) (KBar KRun) [InBar (ERet t r)] (mkC b' f true).

(* main has just made the barrier, for n waiters (BarrierExample.cxx 29, BarrierTest.cxx 37) *)
Definition cstart (P : bprog) (n : Z) : cst :=
  mkC (binit n 0) (fun t => if Nat.eqb t (p_main P) then Some (p_code P t) else None) false.

(* executions (bookkeeping) *)
Inductive csteps (P : bprog) : cst -> list ckind -> list cev -> cst -> Prop :=
| cs_nil : forall c, csteps P c [] [] c
| cs_snoc : forall c ks tr c1 k e c2, csteps P c ks tr c1 -> cstep P c1 k e c2 -> csteps P c (ks ++ [k]) (tr ++ e) c2.

(* '\n' and what std::endl writes *)
Definition nl : ascii := "010"%char.

(* ---- examples/BarrierExample.cxx, with n threads instead of five (26) ---- *)
(* 9-20: barrierExample(barrier_p, my_id) *)
Definition example_thread (t : tid) : list act :=
  [Say (put_int (Z.of_nat t)); Wait (wait_ulong 0); Wait (wait_duration 60000); Say (put_int (Z.of_nat t))].
(* 34-58: main; it is thread n *)
Definition example_main (n : nat) : list act :=
  flat_map (fun t => [Nap; Spawn t]) (seq 0 n) ++
  [Nap; Say (lit " wait at the barrier" ++ [nl]); Wait (wait_ulong 0); Wait (wait_ulong 0)] ++
  map Join (seq 0 n) ++ [Say (lit " clear the barrier" ++ [nl])].
(* 22-61: main and the threads it makes; no try block; the name is that of 29 *)
Definition example_prog (n : nat) : bprog :=
  mkP (fun t => if Nat.eqb t n then example_main n else example_thread t) None n (lit "test barrier").
(* 28: num_waiters = num_threads + 1; 29: makeBarrier *)
Definition example_start (n : nat) : cst := cstart (example_prog n) (Z.of_nat n + 1).

(* ---- test/BarrierTest.cxx ---- *)
(* 12-33: threadBarrierTest, trial_count = R.  The random number generator is
   left out: it only chooses the length of the naps (14-16: M_TestMain). *)
Definition test_thread (R : nat) : list act := concat (repeat [Nap; Wait (wait_duration 100)] R).
(* 29-32 *)
Definition test_catch (e : exn) : list act := [Say (lit "Ooops, dang!: " ++ ex_what e ++ [nl])].
(* 35-65: testBarrier.  43 and 56 write what
   Format("Spawning %0 threads\n").addI(n) and Format("Waiting to join threads\n")
   come to.  n and R are arbitrary; main's options (69-76) are in M_TestMain. *)
Definition test_main (n : nat) : list act :=
  [Say (lit "Creating threads" ++ [nl]); Say (lit "Spawning " ++ put_int (Z.of_nat n) ++ lit " threads" ++ [nl])] ++
  map Spawn (seq 0 n) ++ [Say (lit "Waiting to join threads" ++ [nl])] ++
  map Join (seq 0 n) ++ [Say (lit "Joined all threads" ++ [nl])].
(* 12-65: testBarrier and its threads; the try block is 19-32 *)
Definition test_prog (n R : nat) : bprog :=
  mkP (fun t => if Nat.eqb t n then test_main n else test_thread R) (Some test_catch) n (lit "test barrier").
(* 37: makeBarrier for num_threads *)
Definition test_start (n R : nat) : cst := cstart (test_prog n R) (Z.of_nat n).
