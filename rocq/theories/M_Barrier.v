(* M_Barrier.v -- model of src/Barrier.cxx and include/Barrier.hxx *)
From Verif Require Import Base M_Stream M_Format M_MailBox.

(* ---- timeout arguments ---- *)
(* Barrier.cxx 40-48: the std::chrono::duration<long, milli> count handed on.
   std::chrono::seconds(3600 * 24 * 1000) converts to milliseconds; the
   unsigned long converts to the duration's signed 64-bit count. *)
Definition forever_ms : Z := (3600 * 24 * 1000 * 1000)%Z.
(* wait(unsigned long), Barrier.cxx 40-48 *)
Definition wait_ulong (timeout_ms : Z) : Z :=
  if (timeout_ms =? 0)%Z then forever_ms else to_i64 timeout_ms.
(* Barrier.cxx 52-55 *)
Definition wait_duration (count : Z) : Z := if (count =? 0)%Z then forever_ms else count.
(* cv.wait_for (Barrier.cxx 74): libstdc++ computes steady_clock::now() plus the
   timeout in nanoseconds, in signed 64-bit arithmetic; overflow is undefined. *)
Definition wait_deadline (now_ns count : Z) : outcome Z :=
  let ns := (count * 1000000)%Z in
  if ((- two63 <=? ns) && (ns <? two63) && (- two63 <=? now_ns + ns) && (now_ns + ns <? two63))%Z
  then Ok (now_ns + ns)%Z else UB.

(* ---- exceptions ---- *)
(* the text str() gives (Barrier.hxx 180-182, 198-199) *)
Definition fmt_text (o : outcome fmt) : str :=
  match o with Ok f => match fmt_str f false with Ok s => s | _ => [] end | _ => [] end.
(* Barrier.hxx 176-184: Timeout(b, timeout); addU's defaults are 'd', 0, '\0', 4 *)
Definition timeout_exn (name : str) (count : Z) : exn :=
  mkExn BarrierTimeout
    (fmt_text (do f <- newFormat Glibc (lit "Barrier %0 timed out after %1 ms. Current state is dangerous" ++ ["010"%char]);
               do f <- addS f name 0;
               Ok (addU f (Z.to_N (to_u64 count)) "d"%char 0 nul 4))).
(* Barrier.hxx 195-202: Corrupt(b) *)
Definition corrupt_exn (name : str) : exn :=
  mkExn BarrierCorrupt
    (fmt_text (do f <- newFormat Glibc (lit "Barrier %0 is corrupted." ++ ["010"%char]);
               addS f name 0)).

(* ---- the barrier as threads run it ---- *)
(* One step per access to the shared fields; the mutex is taken and released
   as in Barrier.cxx; the condition variable may wake a sleeper when notified,
   spuriously, or because its timeout expired.  Simplification: sequentially
   consistent interleaving (justified in the no-timeout case by C66). *)
Definition tid := nat.

(* results of a wait call (Barrier.cxx 87, 95, 99) *)
Inductive bres := Passed | ThrewTimeout | ThrewCorrupt.

(* where a thread is while it holds the mutex *)
Inductive hold :=
| HInc                (* 62: waiting++ *)
| HTest               (* 63: if(waiting == num_waiters) *)
| HBump               (* 66: barrier_count++ (waiting has been reset, 65) *)
| HNotify             (* 67: cv.notify_all() *)
| HPred               (* 74-78: wait_for evaluates its predicate *)
| HFinal              (* 74-78: predicate evaluated after a timeout *)
| HCorr               (* 85-91: test corrupted, perhaps set it *)
| HInf                (* 93: barrier_count = 0xffffffff *)
| HNotify2            (* 94: cv.notify_all() *)
| HThrow              (* 95: throw Timeout *)
| HOut (r : bres).    (* leaving: unique_lock's destructor *)

Inductive tst :=
| TIdle
| TCalled                                (* 58: about to read barrier_count, unlocked *)
| TGot (old : Z)                         (* 60: about to lock *)
| THold (old : Z) (h : hold)
| TSleep (old : Z) (notified : bool)     (* asleep in wait_for, mutex released *)
| TWake (old : Z) (timedout : bool)      (* woken, waiting for the mutex *)
| TDone (r : bres).                      (* mutex released, about to return *)

(* Barrier.hxx 245-252: num_waiters, waiting, barrier_count, corrupted, the owner of mtx; and where each thread is *)
Record bstate := mkB { b_n : Z; b_wait : Z; b_cnt : Z; b_corr : bool; b_own : option tid; b_thr : tid -> tst }.

(* what is recorded of an execution of Barrier.cxx 52-99 *)
Inductive bev :=
| ECall (t : tid)               (* wait called *)
| ERead (t : tid)               (* barrier_count read on entry *)
| EArrive (t : tid)             (* counted in waiting *)
| EGen (t : tid)                (* barrier_count advanced by the last arrival *)
| EBroke (t : tid)              (* barrier_count overwritten after a timeout *)
| EExpire (t : tid)             (* timeout expired while asleep *)
| EThrow (t : tid) (r : bres)   (* exception thrown, mutex still held *)
| ERet (t : tid) (r : bres).    (* back in the caller *)

(* thread t moves to x (bookkeeping of the model; no line of /repo) *)
Definition upd_thr (f : tid -> tst) t x : tid -> tst := fun t' => if Nat.eqb t' t then x else f t'.
(* the same in a state (bookkeeping) *)
Definition with_thr st t x := mkB (b_n st) (b_wait st) (b_cnt st) (b_corr st) (b_own st) (upd_thr (b_thr st) t x).
(* mtx is taken or released (Barrier.cxx 60, 74) *)
Definition with_own st o := mkB (b_n st) (b_wait st) (b_cnt st) (b_corr st) o (b_thr st).
(* assignment to waiting (Barrier.cxx 62, 65) *)
Definition with_wait st w := mkB (b_n st) w (b_cnt st) (b_corr st) (b_own st) (b_thr st).
(* assignment to barrier_count (Barrier.cxx 66, 93) *)
Definition with_cnt st c := mkB (b_n st) (b_wait st) c (b_corr st) (b_own st) (b_thr st).
(* corrupted = true (Barrier.cxx 91) *)
Definition with_corr st := mkB (b_n st) (b_wait st) (b_cnt st) true (b_own st) (b_thr st).
(* cv.notify_all() (Barrier.cxx 67, 94) *)
Definition notify (st : bstate) : bstate :=
  mkB (b_n st) (b_wait st) (b_cnt st) (b_corr st) (b_own st)
      (fun t => match b_thr st t with TSleep old _ => TSleep old true | x => x end).

(* what the thread holding the mutex does next: the new shared state, its own
   new position, what is recorded *)
Definition hold_step (st : bstate) (t : tid) (old : Z) (h : hold) : bstate * tst * list bev :=
  match h with
  | HInc => (with_wait st (to_u32 (b_wait st + 1)), THold old HTest, [EArrive t])
  | HTest => if (b_wait st =? b_n st)%Z
             then (with_wait st 0, THold old HBump, [])                     (* 63-65 *)
             else (st, THold old HPred, [])
  | HBump => (with_cnt st (to_u32 (b_cnt st + 1)), THold old HNotify, [EGen t])
  | HNotify => (notify st, THold old (HOut Passed), [])
  | HPred => if (old =? b_cnt st)%Z then (with_own st None, TSleep old false, [])
             else (st, THold old (HOut Passed), [])
  | HFinal => if (old =? b_cnt st)%Z then (st, THold old HCorr, [])
              else (st, THold old (HOut Passed), [])
  | HCorr => if b_corr st then (st, THold old (HOut ThrewCorrupt), [EThrow t ThrewCorrupt])
             else (with_corr st, THold old HInf, [])
  | HInf => (with_cnt st (two32 - 1)%Z, THold old HNotify2, [EBroke t])
  | HNotify2 => (notify st, THold old HThrow, [])
  | HThrow => (st, THold old (HOut ThrewTimeout), [EThrow t ThrewTimeout])
  | HOut r => (with_own st None, TDone r, [])
  end.

(* the kinds of steps (bookkeeping of the model) *)
Inductive kind := KCall | KRun | KSpurious | KExpire.

(* one step of one thread through Barrier.cxx 52-99, lines as at tst and hold *)
Inductive bstep : bstate -> kind -> list bev -> bstate -> Prop :=
| b_call : forall st t, b_thr st t = TIdle -> bstep st KCall [ECall t] (with_thr st t TCalled)
| b_read : forall st t, b_thr st t = TCalled -> bstep st KRun [ERead t] (with_thr st t (TGot (b_cnt st)))
| b_lock : forall st t old, b_thr st t = TGot old -> b_own st = None ->
    bstep st KRun [] (with_thr (with_own st (Some t)) t (THold old HInc))
| b_hold : forall st t old h st' x e, b_thr st t = THold old h -> hold_step st t old h = (st', x, e) ->
    bstep st KRun e (with_thr st' t x)
| b_wake : forall st t old, b_thr st t = TSleep old true ->
    bstep st KRun [] (with_thr st t (TWake old false))
| b_spurious : forall st t old, b_thr st t = TSleep old false ->
    bstep st KSpurious [] (with_thr st t (TWake old false))
| b_expire : forall st t old n, b_thr st t = TSleep old n ->
    bstep st KExpire [EExpire t] (with_thr st t (TWake old true))
| b_relock : forall st t old (timedout : bool), b_thr st t = TWake old timedout -> b_own st = None ->
    bstep st KRun [] (with_thr (with_own st (Some t)) t (THold old (if timedout then HFinal else HPred)))
| b_return : forall st t r, b_thr st t = TDone r ->
    bstep st KRun [ERet t r] (with_thr st t TIdle).

(* Barrier.cxx 33-38, with an arbitrary starting generation *)
Definition binit (n cnt : Z) : bstate := mkB n 0 cnt false None (fun _ => TIdle).

(* executions: the kinds of the steps and the trace (bookkeeping) *)
Inductive bsteps : bstate -> list kind -> list bev -> bstate -> Prop :=
| bs_nil : forall st, bsteps st [] [] st
| bs_snoc : forall st ks tr st1 k e st2, bsteps st ks tr st1 -> bstep st1 k e st2 -> bsteps st (ks ++ [k]) (tr ++ e) st2.
