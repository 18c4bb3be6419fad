(* M_Exchange.v -- the program of test/MailBoxTest.cxx, which is also the
   documented way of using the library (its snippets are included in the
   manual, MailBox.hxx): a number of threads subscribe to one mailbox, meet at
   a barrier, and then repeatedly send messages and collect everybody else's.
   The mailbox is M_MailBoxConc, the barrier M_Barrier, both with their own
   steps; here are the threads that call them. *)
From Verif Require Import Base M_MailBox M_MailBoxConc M_Barrier.

(* MailBoxTest.cxx 14-32: a message.  x_from and x_i are its data (from, v);
   x_trial stands for the identity of the object: the trial it was made in. *)
Record xmsg := mkX { x_from : nat; x_trial : nat; x_i : nat }.

(* the arguments of objMailBoxTest (36-41): num_threads, num_msgs, num_trials, no_echo *)
Record cfg := mkCfg { c_threads : nat; c_msgs : nat; c_trials : nat; c_noecho : bool }.

(* 67-68: expected_msgs *)
Definition expected_msgs (c : cfg) : nat :=
  if c_noecho c then c_msgs c * c_threads c - c_msgs c else c_msgs c * c_threads c.
(* 81-83, in unsigned long *)
Definition expected_sum (c : cfg) : Z :=
  let N := to_u64 (Z.of_nat (c_msgs c) - 1) in
  let actual := to_u64 (Z.of_nat (c_threads c) - (if c_noecho c then 1 else 0)) in
  (to_u64 (actual * to_u64 (N * to_u64 (N + 1))) / 2)%Z.
(* 65, 75 *)
Definition msg_sum (l : list xmsg) : Z := fold_left (fun s m => to_u64 (s + Z.of_nat (x_i m)))%Z l 0%Z.

(* where a thread is; the second of each pair: inside the library call *)
Inductive place :=
| PSubscribe | PSubscribing               (* 44 *)
| PWait | PWaiting                        (* 45 *)
| PTrial (tr : nat)                       (* 48: head of the loop *)
| PSend (tr i : nat) | PSending (tr i : nat)   (* 51-59 *)
| PRecv (tr : nat) | PRecving (tr : nat)  (* 70-79 *)
| PCheck (tr : nat)                       (* 81-93 *)
| PExtra | PExtraing                      (* 97 *)
| PMin | PMining                          (* 105 *)
| PDrop (res : Z) | PDropping (res : Z)   (* leaving: the destructor of subs *)
| PEnd (res : Z)
| PDied.                                  (* an exception left the thread, or worse *)

(* place, subs (MailBoxTest.cxx 44), the messages got in this trial (72) and in the
   trials before *)
Record loc := mkLoc { l_at : place; l_sub : option sub; l_cur : list xmsg; l_past : list (list xmsg) }.
(* a thread moves on (bookkeeping of the model) *)
Definition at_place (l : loc) (p : place) : loc := mkLoc p (l_sub l) (l_cur l) (l_past l).

(* steps between library calls *)
Definition local_step (c : cfg) (l : loc) : option loc :=
  match l_at l with
  | PTrial tr => Some (if tr <? c_trials c then at_place l (PSend tr 0) else at_place l PExtra)     (* 48 *)
  | PSend tr i => if i <? c_msgs c then None else Some (at_place l (PRecv tr))                      (* 51 *)
  | PRecv tr => if length (l_cur l) <? expected_msgs c then None else Some (at_place l (PCheck tr)) (* 70 *)
  | PCheck tr => if (msg_sum (l_cur l) =? expected_sum c)%Z                                         (* 85 *)
                 then Some (mkLoc (PTrial (S tr)) (l_sub l) [] (l_past l ++ [l_cur l]))
                 else Some (at_place l (PDrop (-1)))
  | _ => None
  end.

(* the mailbox call a thread makes next (MailBoxTest.cxx 44, 51-59, 72, 97, 105, and the
   destructor of subs, 106) *)
Definition next_call (c : cfg) (t : nat) (l : loc) : option (call xmsg * place) :=
  match l_at l with
  | PSubscribe => Some (CSubscribe, PSubscribing)
  | PSend tr i => if i <? c_msgs c
                  then Some (CPut (Some (mkX t tr i)) (if c_noecho c then l_sub l else None), PSending tr i)
                  else None
  | PRecv tr => if length (l_cur l) <? expected_msgs c then Some (CGet (l_sub l), PRecving tr) else None
  | PExtra => Some (CGet (l_sub l), PExtraing)
  | PMin => Some (CMinReadyCount, PMining)
  | PDrop res => match l_sub l with Some s => Some (CDrop s, PDropping res) | None => None end
  | _ => None
  end.

(* what it does with the result (MailBoxTest.cxx 44, 72-77, 97-102, 105) *)
Definition after_call (l : loc) (r : mret xmsg) : loc :=
  match l_at l, r with
  | PSubscribing, MOk (RSub s) => mkLoc PWait (Some s) (l_cur l) (l_past l)
  | PSending tr i, MOk _ => at_place l (PSend tr (S i))
  | PRecving tr, MOk (RMsg None) => at_place l (PRecv tr)
  | PRecving tr, MOk (RMsg (Some m)) => mkLoc (PRecv tr) (l_sub l) (l_cur l ++ [m]) (l_past l)
  | PExtraing, MOk (RMsg None) => at_place l PMin
  | PExtraing, MOk (RMsg (Some _)) => at_place l (PDrop (-1))                                      (* 98-101 *)
  | PMining, MOk (RNum n) => at_place l (PDrop (to_i32 n))
  | PDropping res, MOk _ => at_place l (PEnd res)
  | _, _ => at_place l PDied
  end.

(* ---- the whole program: barrier, mailbox, threads ---- *)
Record xst := mkXst { x_bar : bstate; x_box : cstate xmsg; x_thr : nat -> loc }.
(* thread t is now at l (bookkeeping of the model) *)
Definition set_loc (f : nat -> loc) t l : nat -> loc := fun t' => if Nat.eqb t' t then l else f t'.

(* the return of wait, MailBoxTest.cxx 45 (bookkeeping) *)
Definition is_bret (e : bev) : bool := match e with ERet _ _ => true | _ => false end.

(* one step of the program MailBoxTest.cxx 36-151, its threads interleaved *)
Inductive xstep (c : cfg) : xst -> kind -> xst -> Prop :=
(* inside the barrier; the condition variable and the clock included *)
| x_in_bar : forall g k e b, k <> KCall -> bstep (x_bar g) k e b -> forallb (fun x => negb (is_bret x)) e = true ->
    xstep c g k (mkXst b (x_box g) (x_thr g))
(* inside the mailbox *)
| x_in_box : forall g m, cstep (x_box g) [] m -> xstep c g KRun (mkXst (x_bar g) m (x_thr g))
(* a thread by itself *)
| x_local : forall g t l, t < c_threads c -> local_step c (x_thr g t) = Some l ->
    xstep c g KRun (mkXst (x_bar g) (x_box g) (set_loc (x_thr g) t l))
| x_call_box : forall g t k p m, t < c_threads c -> next_call c t (x_thr g t) = Some (k, p) ->
    cstep (x_box g) [Inv t 0 k] m ->
    xstep c g KRun (mkXst (x_bar g) m (set_loc (x_thr g) t (at_place (x_thr g t) p)))
| x_ret_box : forall g t r m, cstep (x_box g) [Ret t r] m ->
    xstep c g KRun (mkXst (x_bar g) m (set_loc (x_thr g) t (after_call (x_thr g t) r)))
| x_call_bar : forall g t b, t < c_threads c -> l_at (x_thr g t) = PWait -> bstep (x_bar g) KCall [ECall t] b ->
    xstep c g KRun (mkXst b (x_box g) (set_loc (x_thr g) t (at_place (x_thr g t) PWaiting)))
| x_ret_bar : forall g t r b, bstep (x_bar g) KRun [ERet t r] b ->
    xstep c g KRun (mkXst b (x_box g)
      (set_loc (x_thr g) t (at_place (x_thr g t) (match r with Passed => PTrial 0 | _ => PDied end)))).

(* testObjMessage (109-151): the mailbox, the barrier for num_threads, the threads *)
Definition xinit (c : cfg) : xst :=
  mkXst (binit (Z.of_nat (c_threads c)) 0) (cinit (fun _ => lit "MessageMailbox"))
        (fun _ => mkLoc PSubscribe None [] []).

(* executions, with the kinds of their steps (bookkeeping) *)
Inductive xrun (c : cfg) : xst -> list kind -> xst -> Prop :=
| xr_nil : forall g, xrun c g [] g
| xr_snoc : forall g ks g1 k g2, xrun c g ks g1 -> xstep c g1 k g2 -> xrun c g (ks ++ [k]) g2.
