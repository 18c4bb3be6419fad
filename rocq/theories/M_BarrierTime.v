(* M_BarrierTime.v -- Barrier::wait (src/Barrier.cxx 40-105) with a clock.  The
   barrier is M_Barrier; a timeout may expire only when the clock has reached
   the deadline that wait_for computed. *)
From Verif Require Import Base M_Barrier.

(* the argument of wait: Barrier.hxx 220 (unsigned long, milliseconds), 241
   (a duration in milliseconds) *)
Inductive warg := WMs (n : Z) | WDur (c : Z).
(* what reaches wait_for: Barrier.cxx 40-48 (whose calls go to 52), 52-55 *)
Definition arg_count (a : warg) : Z := match a with WMs n => wait_duration (wait_ulong n) | WDur c => wait_duration c end.

(* t_now: steady_clock, in nanoseconds; t_arg: the argument of the call a thread
   is in; t_dl: the time its wait_for lasts until; t_bad: computing that time
   overflowed, which is undefined (no line of /repo: what libstdc++'s
   condition_variable::wait_for keeps, Barrier.cxx 74) *)
Record tstate := mkT { t_bar : bstate; t_now : Z; t_arg : tid -> warg; t_dl : tid -> Z; t_bad : bool }.
(* assignment to one thread's entry (bookkeeping) *)
Definition fset {A} (f : tid -> A) t x : tid -> A := fun u => if Nat.eqb u t then x else f u.

(* an event with the time it happened at and the argument of the call it belongs
   to (bookkeeping) *)
Record obs := mkObs { o_at : Z; o_arg : warg; o_ev : bev }.
(* the thread of an event (bookkeeping) *)
Definition who (e : bev) : tid :=
  match e with ECall t | ERead t | EArrive t | EGen t | EBroke t | EExpire t | EThrow t _ | ERet t _ => t end.
(* the events of a step (bookkeeping) *)
Definition stamp (now : Z) (args : tid -> warg) (e : list bev) : list obs := map (fun x => mkObs now (args (who x)) x) e.
(* the step goes from 63 to 74: a thread that is not the last one enters wait_for *)
Definition enters (b b' : bstate) : Prop := exists t old, b_thr b t = THold old HTest /\ b_thr b' t = THold old HPred.

(* steps of Barrier.cxx 40-105 with a clock *)
Inductive tstep : tstate -> list obs -> tstate -> Prop :=
| ts_tick : forall b now args dl now', (now <= now')%Z -> tstep (mkT b now args dl false) [] (mkT b now' args dl false)
| ts_call : forall b now args dl t a b', bstep b KCall [ECall t] b' ->
    tstep (mkT b now args dl false) [mkObs now a (ECall t)] (mkT b' now (fset args t a) dl false)
(* 74: wait_for adds the timeout to the clock *)
| ts_enter : forall b now args dl t old b' d, b_thr b t = THold old HTest -> b_thr b' t = THold old HPred -> bstep b KRun [] b' ->
    wait_deadline now (arg_count (args t)) = Ok d -> tstep (mkT b now args dl false) [] (mkT b' now args (fset dl t d) false)
| ts_overflow : forall b now args dl t old b', b_thr b t = THold old HTest -> b_thr b' t = THold old HPred -> bstep b KRun [] b' ->
    wait_deadline now (arg_count (args t)) = UB -> tstep (mkT b now args dl false) [] (mkT b now args dl true)
| ts_run : forall b now args dl k e b', (k = KRun \/ k = KSpurious) -> bstep b k e b' -> ~ enters b b' ->
    tstep (mkT b now args dl false) (stamp now args e) (mkT b' now args dl false)
(* 74: condition_variable::wait_until reports a timeout when the clock has
   reached the time given *)
| ts_expire : forall b now args dl t b', bstep b KExpire [EExpire t] b' -> (dl t <= now)%Z ->
    tstep (mkT b now args dl false) (stamp now args [EExpire t]) (mkT b' now args dl false).

(* a new barrier (Barrier.cxx 33-38); the clock and the unused entries are arbitrary *)
Definition tinit (n cnt now : Z) : tstate := mkT (binit n cnt) now (fun _ => WMs 0) (fun _ => 0%Z) false.
(* executions (bookkeeping) *)
Inductive tsteps : tstate -> list obs -> tstate -> Prop :=
| tss_nil : forall st, tsteps st [] st
| tss_snoc : forall st tr st1 e st2, tsteps st tr st1 -> tstep st1 e st2 -> tsteps st (tr ++ e) st2.
