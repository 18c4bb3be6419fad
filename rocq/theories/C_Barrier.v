(* C_Barrier.v -- the barrier's properties in their final form, and an executor
   for concrete schedules *)
From Verif Require Import Base M_Stream M_Format M_Barrier S_Barrier L_Barrier L_BarrierN L_BarrierT.
From Coq Require Import ZifyBool Setoid.
Local Open Scope nat_scope.

(* ---- running a concrete schedule ---- *)
Definition exec1 (st : bstate) (k : kind) (t : tid) : option (list bev * bstate) :=
  match k, b_thr st t with
  | KCall, TIdle => Some ([ECall t], with_thr st t TCalled)
  | KRun, TCalled => Some ([ERead t], with_thr st t (TGot (b_cnt st)))
  | KRun, TGot old => match b_own st with None => Some ([], with_thr (with_own st (Some t)) t (THold old HInc)) | _ => None end
  | KRun, THold old h => let '(st', x, e) := hold_step st t old h in Some (e, with_thr st' t x)
  | KRun, TSleep old true => Some ([], with_thr st t (TWake old false))
  | KSpurious, TSleep old false => Some ([], with_thr st t (TWake old false))
  | KExpire, TSleep old _ => Some ([EExpire t], with_thr st t (TWake old true))
  | KRun, TWake old td => match b_own st with None => Some ([], with_thr (with_own st (Some t)) t (THold old (if td then HFinal else HPred))) | _ => None end
  | KRun, TDone r => Some ([ERet t r], with_thr st t TIdle)
  | _, _ => None
  end.
Lemma exec1_sound st k t e st' : exec1 st k t = Some (e, st') -> bstep st k e st'.
Proof.
  unfold exec1. intro H. destruct k, (b_thr st t) as [| |old|old h|old [|]|old td|r] eqn:E; try discriminate.
  - inv H. now apply b_call.
  - inv H. now apply b_read.
  - destruct (b_own st) eqn:O; inv H. eapply b_lock; eauto.
  - destruct (hold_step st t old h) as [[s x] ev] eqn:HH. inv H. eapply b_hold; eauto.
  - inv H. eapply b_wake; eauto.
  - destruct (b_own st) eqn:O; inv H. eapply b_relock; eauto.
  - inv H. eapply b_return; eauto.
  - inv H. eapply b_spurious; eauto.
  - inv H. eapply b_expire; eauto.
  - inv H. eapply b_expire; eauto.
Qed.
Fixpoint exec (st : bstate) (ks : list kind) (tr : list bev) (l : list (kind * tid)) : option (list kind * list bev * bstate) :=
  match l with
  | [] => Some (ks, tr, st)
  | (k, t) :: l => match exec1 st k t with Some (e, st') => exec st' (ks ++ [k]) (tr ++ e) l | None => None end
  end.
Lemma exec_sound s0 l : forall st ks tr ks' tr' st', bsteps s0 ks tr st -> exec st ks tr l = Some (ks', tr', st') -> bsteps s0 ks' tr' st'.
Proof.
  induction l as [|[k t] l IH]; cbn [exec]; intros st ks tr ks' tr' st' HB H.
  - inv H. exact HB.
  - destruct (exec1 st k t) as [[e s]|] eqn:E; [|discriminate]. eapply IH; [|exact H]. eapply bs_snoc; eauto. eapply exec1_sound; eauto.
Qed.
Definition trace_of (n b0 : Z) l := match exec (binit n b0) [] [] l with Some (_, tr, _) => Some tr | None => None end.
Lemma trace_sound n b0 l tr : trace_of n b0 l = Some tr -> exists ks st, execution n b0 ks tr st /\ ks = map fst l.
Proof.
  unfold trace_of. destruct (exec (binit n b0) [] [] l) as [[[ks tr'] st]|] eqn:E; [|discriminate]. intro H. inv H.
  exists ks, st. split; [eapply exec_sound; [apply bs_nil|exact E]|].
  assert (G : forall l st ks tr ks' tr' st', exec st ks tr l = Some (ks', tr', st') -> ks' = ks ++ map fst l).
  { clear. induction l as [|[k t] l IH]; cbn [exec]; intros st ks tr ks' tr' st' H.
    - inv H. cbn. now rewrite app_nil_r.
    - destruct (exec1 st k t) as [[e s]|]; [|discriminate]. apply IH in H. rewrite H, <- app_assoc. reflexivity. }
  apply G in E. exact E.
Qed.

(* the steps of an uncontended arrival up to falling asleep: call, read, lock,
   waiting++, test, predicate *)
Definition arrive_sleep (t : tid) := [(KCall, t); (KRun, t); (KRun, t); (KRun, t); (KRun, t); (KRun, t)].
(* the last arrival: call, read, lock, waiting++, test, barrier_count++, notify, unlock, return *)
Definition arrive_last (t : tid) := [(KCall, t); (KRun, t); (KRun, t); (KRun, t); (KRun, t); (KRun, t); (KRun, t); (KRun, t); (KRun, t)].
(* a notified sleeper: wake, lock, predicate, unlock, return *)
Definition wake_leave (t : tid) := repeat (KRun, t) 5.
(* a sleeper whose timeout expires: expire, lock, predicate, corrupted, counter, notify, throw, unlock, return *)
Definition time_out (t : tid) := (KExpire, t) :: repeat (KRun, t) 8.
(* one whose timeout expires on a corrupted barrier *)
Definition time_out_again (t : tid) := (KExpire, t) :: repeat (KRun, t) 5.

(* ---- no exception without an expiry ---- *)
Lemma expire_kind s0 ks tr st t : bsteps s0 ks tr st -> In (EExpire t) tr -> In KExpire ks.
Proof.
  induction 1; intro Hi; [destruct Hi|]. apply in_app_iff. apply in_app_iff in Hi as [Hi|Hi]; [left; auto|right].
  inv H0; cbn in Hi |- *; try tauto; try (destruct Hi as [Hi|[]]; discriminate).
  exfalso. destruct h; cbn [hold_step] in H2; repeat match type of H2 with context [if ?b then _ else _] => destruct b end; inv H2; cbn in Hi; intuition discriminate.
Qed.
Lemma bres_dec (r : bres) : r = Passed \/ r <> Passed. Proof. destruct r; auto; right; discriminate. Qed.
Lemma early n b0 ks tr st t1 t2 a b r : 1 <= n -> (Z.of_nat n < two32)%Z -> (0 <= b0 < two32)%Z ->
  execution (Z.of_nat n) b0 ks tr st -> only_threads n tr -> no_expiry ks -> t1 < n -> t2 < n ->
  tr = a ++ ERet t1 r :: b -> rets t1 a < calls t2 a /\ r = Passed.
Proof.
  intros H1 H2 H3 HE HO HX T1 T2 E. split.
  - destruct (execution_prefix _ _ _ _ _ _ _ _ HE E) as (ks1&s1&HE1&HK).
    assert (HO1 : only_threads n (a ++ [ERet t1 r])).
    { intros t Hi. apply HO. rewrite E. apply in_app_iff in Hi as [Hi|[Hi|[]]]; [apply in_app_iff; auto|discriminate]. }
    assert (HX1 : no_expiry ks1) by (intro X; apply HX; auto).
    pose proof (not_early n b0 ks1 _ s1 t1 t2 H1 H2 H3 HE1 HO1 HX1 T1 T2) as L.
    rewrite rets_snoc, calls_snoc in L. cbn [is_ret is_call b2n] in L. rewrite Nat.eqb_refl in L. cbn in L. lia.
  - destruct (bres_dec r) as [|Hr]; auto. exfalso.
    destruct (throws_only_own_expiry _ _ _ _ _ t1 r a b HE E Hr) as (x&y&Ey&Hi&_).
    apply HX. eapply expire_kind; [exact HE|]. rewrite E, Ey. apply in_app_iff. left. apply in_app_iff. right. exact Hi.
Qed.

Lemma finish n b0 ks tr st R : 1 <= n -> (Z.of_nat n < two32)%Z -> (0 <= b0 < two32)%Z ->
  execution (Z.of_nat n) b0 ks tr st -> only_threads n tr -> no_expiry ks -> at_most_calls R tr ->
  (forall e st', ~ bstep st KRun e st') -> (forall t st', t < n -> calls t tr < R -> ~ bstep st KCall [ECall t] st') ->
  forall t, t < n -> rets t tr = R.
Proof.
  intros H1 H2 H3 HE HO HX HR N1 N2 t Ht.
  destruct (Inv_execution n b0 ks tr st) as [g HI]; auto.
  pose proof (local_bounds _ _ _ _ _ (i_loc _ _ _ _ _ HI t Ht)). pose proof (HR t).
  destruct (le_lt_dec R (rets t tr)) as [L|L]; [lia|]. exfalso.
  destruct (progress n b0 ks tr st R H1 H2 H3 HE HO HX HR ltac:(eauto)) as [(e&s'&S)|(t'&s'&A&B&C)]; [eapply N1; eauto|eapply N2; eauto].
Qed.

Lemma pass_needs_gen n b0 ks tr st t tr1 tr2 : execution n b0 ks tr st -> no_expiry ks -> tr = tr1 ++ ERet t Passed :: tr2 ->
  exists u, since_read t (EGen u) tr1.
Proof.
  intros HE HX E. destruct (pass_needs_change _ _ _ _ _ _ _ _ HE E) as (u&[H|H]); eauto. exfalso.
  destruct H as (x&y&Ey&Hi&_).
  assert (B : In (EBroke u) tr) by (rewrite E, Ey; apply in_app_iff; left; apply in_app_iff; right; right; exact Hi).
  apply in_split in B as (a&b&B). destruct (execution_split _ _ _ _ _ _ _ _ HE B) as (ks1&s1&k&s2&HE1&S&HK).
  assert (exists o, b_thr s1 u = THold o HInf) as (o&Eu).
  { clear - S. inversion S; subst; match goal with X : hold_step _ _ _ ?h = _ |- _ => destruct h; cbn [hold_step] in X; repeat match type of X with context [if ?b then _ else _] => destruct b end; inv X end. eauto. }
  destruct (en_exp _ _ (EN_execution _ _ _ _ _ HE1) u) as (a1&b1&E1&I1&_); [now rewrite Eu|].
  apply HX, HK. eapply expire_kind; [exact HE1|]. rewrite E1. apply in_app_iff. right; exact I1.
Qed.

(* ---- timeout arguments ---- *)
Definition wait_call_deadline (now_ns timeout_ms : Z) : outcome Z := wait_deadline now_ns (wait_duration (wait_ulong timeout_ms)).
Definition meant (ms : Z) : Z := if (ms =? 0)%Z then 86400000000%Z else ms.
Lemma count_of ms : (0 <= ms < two64)%Z -> wait_duration (wait_ulong ms) = if (ms <? two63)%Z then meant ms else (ms - two64)%Z.
Proof.
  intros Hm. unfold wait_ulong, wait_duration, forever_ms, to_i64, meant. destruct (ms =? 0)%Z eqn:E.
  - replace ms with 0%Z by lia. reflexivity.
  - cbv zeta. rewrite Z.mod_small by lia. destruct (ms <? two63)%Z eqn:B.
    + now rewrite E.
    + destruct (ms - two64 =? 0)%Z eqn:F; auto. lia.
Qed.
Lemma deadline_exact now ms : (0 <= now < two63)%Z -> (0 <= ms < two64)%Z ->
  (wait_call_deadline now ms = Ok (now + meant ms * 1000000)%Z <-> (now + meant ms * 1000000 < two63)%Z).
Proof.
  intros Hn Hm. unfold wait_call_deadline. rewrite count_of by auto. unfold wait_deadline. cbv zeta.
  destruct (ms <? two63)%Z eqn:B.
  - match goal with |- context [if ?b then _ else _] => destruct b eqn:C end.
    + split; auto. lia.
    + split; [discriminate|]. intro H. exfalso. unfold meant in *. destruct (ms =? 0)%Z; unfold two63 in *; lia.
  - unfold meant. destruct (ms =? 0)%Z eqn:E; [unfold two63 in *; lia|].
    match goal with |- context [if ?b then _ else _] => destruct b eqn:C end.
    + split; [intro X; inversion X; unfold two64 in *; lia|]. unfold two63 in *; lia.
    + split; [discriminate|]. unfold two63 in *; lia.
Qed.
