(* M_TestMain.v -- the programs test/BarrierTest.cxx and test/MailBoxTest.cxx as a
   whole: main, its options, and the test run with the int numbers the options give. *)
From Verif Require Import Base M_Stream M_Split M_Format M_Options M_BarrierUse M_MailBox M_MailBoxConc M_Barrier M_Exchange.

(* the default test_func of Options.hxx 235 *)
Definition any_value (v : val) : bool := true.
(* the value of an int variable of main (BarrierTest.cxx 71, MailBoxTest.cxx 182);
   all variables in question hold one *)
Definition int_at (s : st) (a : nat) : Z := match mem s a with VInt z => z | _ => 0%Z end.
(* the value of the bool variable no_echo (MailBoxTest.cxx 183) *)
Definition bool_at (s : st) (a : nat) : bool := match mem s a with VBool b => b | _ => false end.
(* is the number an int?  (BarrierTest.cxx 14, MailBoxTest.cxx 63-81; bookkeeping) *)
Definition in_int (z : Z) : bool := ((- two31 <=? z) && (z <? two31))%Z.

(* ---- test/BarrierTest.cxx ---- *)
(* 69-74: trial_count, num_threads and max_duration at addresses 0 to 2; m is
   what the uninitialised variables hold *)
Definition bt_options (m : nat -> val) : st :=
  let cmd := newOptions false m (fun _ => []) in
  let cmd := add_def cmd ty_int 0 (lit "trials") "r" (VInt 100) (lit "Number of passes through the barrier") any_value [] in
  let cmd := add_def cmd ty_int 1 (lit "threads") "t" (VInt 10) (lit "Number of threads in test.") any_value [] in
  add_def cmd ty_int 2 (lit "maddur") "m" (VInt 50) (lit "Max time in us for the random wait between barriers") any_value [].
(* how main goes on: exit(-1), having written err to std::cerr, or the test is
   called with these numbers *)
Inductive started (A : Type) := Quits (err : str) | Calls (a : A) (err : str).
Arguments Quits {A}. Arguments Calls {A}.
(* 67-80 *)
Definition bt_main (m : nat -> val) (argv : list str) : outcome (started (Z * Z * Z)) :=
  do p <- parse_argv (bt_options m) (Z.of_nat (length argv)) argv;
  let (ok, s) := p in
  if negb ok then Ok (Quits (cerr s)) else Ok (Calls (int_at s 0, int_at s 1, int_at s 2) (cerr s)).
(* 14-16: a thread's first lines are undefined if the seed overflows, or if the
   distribution's limits are not in order (max_duration becomes unsigned) *)
Definition bt_bad_thread (max_duration : Z) (my_idx : nat) : bool :=
  negb (in_int (Z.of_nat my_idx * 234525 + 23919)) || (to_u32 max_duration <? 1)%Z.
(* 35-65: testBarrier; the loops run while i < num_threads, i < trial_count *)
Definition bt_code (num_threads : Z) : list act :=
  [Say (lit "Creating threads" ++ [nl]); Say (lit "Spawning " ++ put_int num_threads ++ lit " threads" ++ [nl])] ++
  map Spawn (seq 0 (Z.to_nat num_threads)) ++ [Say (lit "Waiting to join threads" ++ [nl])] ++
  map Join (seq 0 (Z.to_nat num_threads)) ++ [Say (lit "Joined all threads" ++ [nl])].
(* 12-65: as test_prog (M_BarrierUse), for int numbers *)
Definition bt_prog (trial_count num_threads : Z) : bprog :=
  mkP (fun t => if Nat.eqb t (Z.to_nat num_threads) then bt_code num_threads else test_thread (Z.to_nat trial_count))
      (Some test_catch) (Z.to_nat num_threads) (lit "test barrier").
(* 37: the number of waiters is unsigned (Barrier.hxx 271) *)
Definition bt_start (trial_count num_threads : Z) : cst := cstart (bt_prog trial_count num_threads) (to_u32 num_threads).

(* ---- test/MailBoxTest.cxx ---- *)
(* the arguments of testObjMessage (109) *)
Record mt_args := mkMT { a_msgs : Z; a_threads : Z; a_trials : Z; a_noecho : bool }.
(* 180-187: msg_count, num_threads, num_trials and no_echo at addresses 0 to 3 *)
Definition mt_options (m : nat -> val) : st :=
  let cmd := newOptions false m (fun _ => []) in
  let cmd := add_def cmd ty_int 0 (lit "msgs") "m" (VInt 1) (lit "Number of messages to send from each thread") any_value [] in
  let cmd := add_def cmd ty_int 1 (lit "th") "t" (VInt 2) (lit "Number of threads in test.") any_value [] in
  let cmd := add_def cmd ty_int 2 (lit "trials") "r" (VInt 1) (lit "Number of trials to run.") any_value [] in
  addP cmd 3 (lit "noecho") "n" (lit "When present, a thread will not ""see"" its own outbound messages.").
(* 153-176: testMBoxConversion: whether the bad conversion was noticed, and what is written.  Type 0 is MailBox<MyMsg>, type 1 MailBox<int>;
   tyname gives the typeid names *)
Definition mt_conversion (tyname : nat -> str) (base_ty : str) : outcome (bool * str) :=
  let type_of := fun _ : unit => 0 in
  let name_of := fun _ : unit => lit "MessageMailbox" in
  do p <- convert type_of name_of tyname base_ty 0 (Some tt);
  match convert type_of name_of tyname base_ty 1 (Some tt) with
  | Throw e => Ok (true, ex_what e ++ [nl])
  | Ok _ => Ok (false, lit "testMBoxConversion: bad pointer conversion did not throw an exception" ++ [nl])
  | UB => UB
  end.
(* 178-198.  The check for messages that are still alive (200-204) is left out:
   when the threads have ended and the mailbox is gone there are none (C113, C118). *)
Definition mt_main (tyname : nat -> str) (base_ty : str) (m : nat -> val) (argv : list str) : outcome (started mt_args) :=
  do p <- parse_argv (mt_options m) (Z.of_nat (length argv)) argv;
  let (ok, s) := p in
  if negb ok then Ok (Quits (cerr s)) else
  do v <- mt_conversion tyname base_ty;
  let (found, t) := v in
  if negb found then Ok (Quits (cerr s ++ t)) else
  Ok (Calls (mkMT (int_at s 0) (int_at s 1) (int_at s 2) (bool_at s 3)) (cerr s ++ t ++ lit "test 2" ++ [nl])).

(* 67-68: expected_msgs.  The product is computed in int, the rest in unsigned long *)
Definition mt_expected (c : mt_args) : Z :=
  to_u64 (to_u64 (a_msgs c * a_threads c) - (if a_noecho c then to_u64 (a_msgs c) else 0)).
(* 81-83 *)
Definition mt_expected_sum (c : mt_args) : Z :=
  let N := to_u64 (a_msgs c - 1) in
  let actual := to_u64 (a_threads c - (if a_noecho c then 1 else 0)) in
  (to_u64 (actual * to_u64 (N * to_u64 (N + 1))) / 2)%Z.
(* steps between library calls, as local_step (M_Exchange) but for int numbers;
   overflow of int (63, 67, 81) is undefined and ends the thread in PDied *)
Definition mt_local (c : mt_args) (l : loc) : option loc :=
  match l_at l with
  | PTrial tr => Some (if (Z.of_nat tr <? a_trials c)%Z then at_place l (PSend tr 0) else at_place l PExtra)   (* 48 *)
  | PSend tr i => if (Z.of_nat i <? a_msgs c)%Z then None                                                      (* 51 *)
                  else if in_int (a_msgs c * a_threads c) then Some (at_place l (PRecv tr)) else Some (at_place l PDied)  (* 63 *)
  | PRecv tr => if (Z.of_nat (length (l_cur l)) <? mt_expected c)%Z then None else Some (at_place l (PCheck tr)) (* 70 *)
  | PCheck tr => if in_int (a_msgs c - 1) then
                   if (msg_sum (l_cur l) =? mt_expected_sum c)%Z                                               (* 85 *)
                   then Some (mkLoc (PTrial (S tr)) (l_sub l) [] (l_past l ++ [l_cur l]))
                   else Some (at_place l (PDrop (-1)))
                 else Some (at_place l PDied)
  | _ => None
  end.
(* the next call, as next_call (M_Exchange) (44, 51-59, 72, 97, 105, 106) *)
Definition mt_call (c : mt_args) (t : nat) (l : loc) : option (call xmsg * place) :=
  match l_at l with
  | PSubscribe => Some (CSubscribe, PSubscribing)
  | PSend tr i => if (Z.of_nat i <? a_msgs c)%Z
                  then Some (CPut (Some (mkX t tr i)) (if a_noecho c then l_sub l else None), PSending tr i)
                  else None
  | PRecv tr => if (Z.of_nat (length (l_cur l)) <? mt_expected c)%Z then Some (CGet (l_sub l), PRecving tr) else None
  | PExtra => Some (CGet (l_sub l), PExtraing)
  | PMin => Some (CMinReadyCount, PMining)
  | PDrop res => match l_sub l with Some s => Some (CDrop s, PDropping res) | None => None end
  | _ => None
  end.
(* the threads there are (131-140) *)
Definition mt_threads (c : mt_args) : nat := Z.to_nat (a_threads c).
(* one step of the test, as xstep (M_Exchange): MailBoxTest.cxx 36-151 *)
Inductive mt_step (c : mt_args) : xst -> kind -> xst -> Prop :=
| mt_in_bar : forall g k e b, k <> KCall -> bstep (x_bar g) k e b -> forallb (fun x => negb (is_bret x)) e = true ->
    mt_step c g k (mkXst b (x_box g) (x_thr g))
| mt_in_box : forall g m, cstep (x_box g) [] m -> mt_step c g KRun (mkXst (x_bar g) m (x_thr g))
| mt_alone : forall g t l, t < mt_threads c -> mt_local c (x_thr g t) = Some l ->
    mt_step c g KRun (mkXst (x_bar g) (x_box g) (set_loc (x_thr g) t l))
| mt_call_box : forall g t k p m, t < mt_threads c -> mt_call c t (x_thr g t) = Some (k, p) ->
    cstep (x_box g) [Inv t 0 k] m ->
    mt_step c g KRun (mkXst (x_bar g) m (set_loc (x_thr g) t (at_place (x_thr g t) p)))
| mt_ret_box : forall g t r m, cstep (x_box g) [Ret t r] m ->
    mt_step c g KRun (mkXst (x_bar g) m (set_loc (x_thr g) t (after_call (x_thr g t) r)))
| mt_call_bar : forall g t b, t < mt_threads c -> l_at (x_thr g t) = PWait -> bstep (x_bar g) KCall [ECall t] b ->
    mt_step c g KRun (mkXst b (x_box g) (set_loc (x_thr g) t (at_place (x_thr g t) PWaiting)))
| mt_ret_bar : forall g t r b, bstep (x_bar g) KRun [ERet t r] b ->
    mt_step c g KRun (mkXst b (x_box g)
      (set_loc (x_thr g) t (at_place (x_thr g t) (match r with Passed => PTrial 0 | _ => PDied end)))).
(* 109-122: the mailbox and the barrier, whose number of waiters is unsigned *)
Definition mt_start (c : mt_args) : xst :=
  mkXst (binit (to_u32 (a_threads c)) 0) (cinit (fun _ => lit "MessageMailbox")) (fun _ => mkLoc PSubscribe None [] []).
(* executions of MailBoxTest.cxx 36-151, with the kinds of their steps (bookkeeping) *)
Inductive mt_run (c : mt_args) : xst -> list kind -> xst -> Prop :=
| mr_nil : forall g, mt_run c g [] g
| mr_snoc : forall g ks g1 k g2, mt_run c g ks g1 -> mt_step c g1 k g2 -> mt_run c g (ks ++ [k]) g2.
