(* L_BarrierUse.v -- programs that use a barrier: their threads' histories *)
From Verif Require Import Base M_Barrier S_Barrier L_Barrier L_BarrierN L_BarrierT C_Barrier M_BarrierUse S_BarrierUse L_Map.

Definition btr (tr : list cev) : list bev := flat_map (fun e => match e with InBar x => [x] | _ => [] end) tr.
Definition bks (ks : list ckind) : list kind := flat_map (fun k => match k with KBar x => [x] | _ => [] end) ks.
Lemma btr_app a b : btr (a ++ b) = btr a ++ btr b. Proof. apply flat_map_app. Qed.
Lemma bks_app a b : bks (a ++ b) = bks a ++ bks b. Proof. apply flat_map_app. Qed.
Lemma btr_in e : btr (map InBar e) = e. Proof. induction e; [reflexivity|]. change (a :: btr (map InBar e) = a :: e). now rewrite IHe. Qed.
Lemma calm_bks ks : calm ks -> no_expiry (bks ks).
Proof.
  unfold calm, no_expiry, bks. intros H I. apply in_flat_map in I as (k&I&J). destruct k; [destruct J|].
  destruct J as [->|[]]. auto.
Qed.

(* ---- what a list of acts contains ---- *)
Definition is_wait (a : act) : bool := match a with Wait _ => true | _ => false end.
Definition is_nap (a : act) : bool := match a with Nap => true | _ => false end.
Definition is_say (s : str) (a : act) : bool := match a with Say s' => str_eqb s' s | _ => false end.
Definition num (p : act -> bool) (l : list act) : nat := length (filter p l).
Lemma num_app p a b : num p (a ++ b) = num p a + num p b.
Proof. unfold num. now rewrite filter_app, app_length. Qed.
Lemma num_one p a : num p [a] = b2n (p a).
Proof. unfold num. cbn. destruct (p a); reflexivity. Qed.
Lemma num_cons p a l : num p (a :: l) = b2n (p a) + num p l.
Proof. unfold num. cbn. destruct (p a); reflexivity. Qed.
Lemma num_in p l : 1 <= num p l -> exists a, In a l /\ p a = true.
Proof.
  induction l as [|a l IH]; [cbn; lia|]. rewrite num_cons. destruct (p a) eqn:E; cbn [b2n]; [exists a; cbn; auto|].
  intros H. destruct IH as (x&A&B); [lia|]. exists x. cbn. auto.
Qed.
Lemma num_zero p l : num p l = 0 -> forall a, In a l -> p a = false.
Proof.
  induction l as [|x l IH]; [intros _ a []|]. rewrite num_cons. intros H a [<-|I]; [destruct (p x); cbn in H; [lia|reflexivity]|].
  apply IH; auto. lia.
Qed.
Lemma num_none p l : (forall a, In a l -> p a = false) -> num p l = 0.
Proof.
  induction l as [|x l IH]; intros H; [reflexivity|]. rewrite num_cons, (H x) by (cbn; auto). cbn. apply IH. intros; apply H; cbn; auto.
Qed.

Lemma tally_app p a b : tally p (a ++ b) = tally p a + tally p b.
Proof. unfold tally. now rewrite filter_app, app_length. Qed.
Lemma tally_bar p e : (forall x, p (InBar x) = false) -> tally p (map InBar e) = 0.
Proof. intros H. unfold tally. induction e; cbn; [reflexivity|]. now rewrite H. Qed.

Lemma put_same f t x : put_thr f t x t = x. Proof. unfold put_thr. now rewrite Nat.eqb_refl. Qed.
Lemma put_other f t x u : u <> t -> put_thr f t x u = f u.
Proof. unfold put_thr. intro H. apply Nat.eqb_neq in H. now rewrite H. Qed.
Definition updl (D : tid -> list act) t l : tid -> list act := fun u => if Nat.eqb u t then l else D u.
Lemma updl_same D t x : updl D t x t = x. Proof. unfold updl. now rewrite Nat.eqb_refl. Qed.
Lemma updl_other D t x u : u <> t -> updl D t x u = D u.
Proof. unfold updl. intro H. apply Nat.eqb_neq in H. now rewrite H. Qed.

(* ---- one step of the barrier, seen from outside ---- *)
Lemma bstep_one b k e b' : bstep b k e b' -> length e <= 1.
Proof.
  intros H. inv H; cbn; try lia. revert H1. cases_hold h; intros H1; inv H1; cbn; lia.
Qed.
Lemma hold_idle st t old h st' x e : hold_step st t old h = (st', x, e) ->
  x <> TIdle /\ (forall u, ~ In (ECall u) e) /\ (forall u r, ~ In (ERet u r) e).
Proof. cases_hold h; intros H; inv H; cbn; intuition discriminate. Qed.
Lemma bstep_inner b k e b' t : bstep b k e b' -> ~ In (ECall t) e -> (forall r, ~ In (ERet t r) e) ->
  (b_thr b' t = TIdle <-> b_thr b t = TIdle).
Proof.
  intros H N1 N2. inv H; cbn [with_thr with_own b_thr];
    try (destruct (Nat.eq_dec t t0) as [->|NE]; [rewrite upd_same|rewrite upd_other by auto]);
    try tauto; try (rewrite H0; split; discriminate).
  - destruct N1. cbn; auto.
  - rewrite H0. pose proof (hold_idle _ _ _ _ _ _ _ H1). split; [tauto|discriminate].
  - destruct (hold_step_thr _ _ _ _ _ _ _ t H1) as [->|(o&n&->&->)]; [tauto|split; discriminate].
  - edestruct N2. cbn; eauto.
Qed.
Lemma bstep_call b k b' t : bstep b k [ECall t] b' -> k = KCall /\ b_thr b t = TIdle /\ b_thr b' t <> TIdle.
Proof.
  intros H. inv H; [|pose proof (hold_idle _ _ _ _ _ _ _ H1) as (_&A&_); edestruct A; cbn; eauto].
  cbn [with_thr b_thr]. rewrite upd_same. repeat split; auto. discriminate.
Qed.
Lemma bstep_ret b k b' t r : bstep b k [ERet t r] b' -> k = KRun /\ b_thr b t = TDone r /\ b_thr b' t = TIdle.
Proof.
  intros H. inv H; [pose proof (hold_idle _ _ _ _ _ _ _ H1) as (_&_&A); edestruct A; cbn; eauto|].
  cbn [with_thr b_thr]. rewrite upd_same. auto.
Qed.
Lemma bstep_called b k e b' t : bstep b k e b' -> In (ECall t) e -> e = [ECall t].
Proof. intros H I. pose proof (bstep_one _ _ _ _ H). destruct e as [|x [|y e]]; cbn in *; try lia; try tauto. destruct I as [->|[]]. reflexivity. Qed.
Lemma bstep_returned b k e b' t r : bstep b k e b' -> In (ERet t r) e -> e = [ERet t r].
Proof. intros H I. pose proof (bstep_one _ _ _ _ H). destruct e as [|x [|y e]]; cbn in *; try lia; try tauto. destruct I as [->|[]]. reflexivity. Qed.

(* ---- the programs considered: N threads, the first Nw of them call wait R times ---- *)
Definition plain (a : act) : Prop := match a with Say _ | Nap | Wait _ => True | _ => False end.
Record wf (P : bprog) (N Nw R : nat) (pre mid post : list act) : Prop := mkWf {
  w_main : p_main P < N;
  w_code : p_code P (p_main P) = pre ++ mid ++ post;
  w_pre : forall a, In a pre -> match a with Say _ | Nap | Spawn _ => True | _ => False end;
  w_mid : forall a, In a mid -> plain a;
  w_post : forall a, In a post -> match a with Say _ | Nap | Join _ => True | _ => False end;
  w_spawn : forall u, In (Spawn u) pre <-> u < N /\ u <> p_main P;
  w_once : forall a u b, pre = a ++ Spawn u :: b -> ~ In (Spawn u) a;
  w_join : forall u, In (Join u) post -> u < N /\ u <> p_main P;
  w_other : forall t, t <> p_main P -> forall a, In a (p_code P t) -> plain a;
  w_waits : forall t, t < N -> num is_wait (p_code P t) = if t <? Nw then R else 0;
  w_say : forall h e, p_catch P = Some h -> exists s, h e = [Say s]
}.

Lemma w_catch P N Nw R pre mid post : wf P N Nw R pre mid post -> forall h e a, p_catch P = Some h -> In a (h e) -> exists s, a = Say s.
Proof. intros W h e a H I. destruct (w_say _ _ _ _ _ _ _ W h e H) as (s&E). rewrite E in I. destruct I as [<-|[]]. eauto. Qed.

(* ---- the invariant: D t is what thread t has done ---- *)
Definition b2i (x : tst) : nat := match x with TIdle => 0 | _ => 1 end.
Lemma b2i_idle x : x = TIdle -> b2i x = 0. Proof. now intros ->. Qed.
Lemma b2i_busy x : x <> TIdle -> b2i x = 1. Proof. destruct x; cbn; congruence. Qed.
Definition shape (P : bprog) (tr : list cev) (t : tid) (x : tst) (d : list act) (f : option (list act)) : Prop :=
  match f with
  | None => d = [] /\ x = TIdle
  | Some rest =>
      (p_code P t = d ++ rest /\ (x = TIdle \/ exists ms p, rest = Wait ms :: p)) \/
      (x = TIdle /\ exists d1 ms r rest0 d2 h, r <> Passed /\ p_catch P = Some h /\ p_code P t = d1 ++ Wait ms :: rest0 /\
         d = d1 ++ Wait ms :: d2 /\ h (thrown P ms r) = d2 ++ rest /\ In (ERet t r) (btr tr))
  end.
Definition nact (l : list act) : nat := num (fun a => negb (is_wait a)) l.
Definition acts (ks : list ckind) : nat := length (filter (fun k => match k with KAct => true | _ => false end) ks).
Lemma acts_app a b : acts (a ++ b) = acts a + acts b. Proof. unfold acts. now rewrite filter_app, app_length. Qed.

Record Inv (P : bprog) (N : nat) (ks : list ckind) (tr : list cev) (c : cst) (D : tid -> list act) : Prop := mkInv {
  i_shape : forall t, shape P tr t (b_thr (c_bar c) t) (D t) (c_thr c t);
  i_said : forall t s, said t s tr = num (is_say s) (D t);
  i_naps : forall t, naps t tr = num is_nap (D t);
  i_rets : forall t, rets t (btr tr) = num is_wait (D t);
  i_calls : forall t, calls t (btr tr) = num is_wait (D t) + b2i (b_thr (c_bar c) t);
  i_joined : forall t u, In (Join u) (D t) -> c_thr c u = Some [];
  i_made : forall u, c_thr c u <> None -> u = p_main P \/ exists t, In (Spawn u) (D t);
  i_here : forall t u, In (Spawn u) (D t) -> c_thr c u <> None;
  i_mainl : c_thr c (p_main P) <> None;
  i_below : forall t, c_thr c t <> None -> t < N;
  i_acts : acts ks = sum N (fun t => nact (D t))
}.

Lemma b2n_neqb a b : a <> b -> Nat.eqb a b = false. Proof. apply Nat.eqb_neq. Qed.
Lemma shape_mono P tr e t x d f : shape P tr t x d f -> shape P (tr ++ e) t x d f.
Proof.
  unfold shape. destruct f; auto. intros [A|(A&d1&ms&r&r0&d2&h&B)]; [auto|right]. split; [exact A|].
  exists d1, ms, r, r0, d2, h. rewrite btr_app, in_app_iff. tauto.
Qed.
Lemma shape_snoc P tr t x d a p : is_wait a = false -> shape P tr t x d (Some (a :: p)) -> shape P tr t x (d ++ [a]) (Some p) /\ x = TIdle.
Proof.
  intros W [[A B]|(A&d1&ms&r&r0&d2&h&B1&B2&B3&B4&B5&B6)].
  - assert (x = TIdle) by (destruct B as [B|(ms&q&E)]; [exact B|inv E; discriminate]). split; [|assumption].
    left. rewrite <- app_assoc. auto.
  - split; [|assumption]. right. split; [exact A|]. exists d1, ms, r, r0, (d2 ++ [a]), h.
    rewrite <- app_assoc. cbn. rewrite B4, <- app_assoc. cbn. auto 10.
Qed.

Lemma calls_none t e : ~ In (ECall t) e -> calls t e = 0.
Proof.
  intros H. unfold calls, count. induction e as [|x e IH]; [reflexivity|]. cbn. destruct (is_call t x) eqn:E.
  - destruct H. destruct x; try discriminate. apply Nat.eqb_eq in E as ->. cbn; auto.
  - apply IH. cbn in H. tauto.
Qed.
Lemma rets_none t e : (forall r, ~ In (ERet t r) e) -> rets t e = 0.
Proof.
  intros H. unfold rets, count. induction e as [|x e IH]; [reflexivity|]. cbn. destruct (is_ret t x) eqn:E.
  - destruct x; try discriminate. apply Nat.eqb_eq in E as ->. edestruct H. cbn; eauto.
  - apply IH. intros r I. apply (H r). cbn; auto.
Qed.

Lemma idle_b2i x y : (x = TIdle <-> y = TIdle) -> b2i x = b2i y.
Proof. intros [A B]. destruct x, y; cbn; auto; exfalso; first [discriminate (A eq_refl) | discriminate (B eq_refl)]. Qed.

Lemma call_other b k b' t u : bstep b k [ECall t] b' -> u <> t -> b_thr b' u = TIdle <-> b_thr b u = TIdle.
Proof. intros S Ne. eapply bstep_inner; [exact S| |]; cbn; [intros [E|[]]; congruence|intros r [E|[]]; discriminate]. Qed.
Lemma ret_other b k b' t r u : bstep b k [ERet t r] b' -> u <> t -> b_thr b' u = TIdle <-> b_thr b u = TIdle.
Proof. intros S Ne. eapply bstep_inner; [exact S| |]; cbn; [intros [E|[]]; discriminate|intros q [E|[]]; congruence]. Qed.

(* a thread is in wait exactly when it has called once more than it has returned *)
Lemma calls_rets n b0 ks tr st t : execution n b0 ks tr st -> calls t tr = rets t tr + b2i (b_thr st t).
Proof.
  unfold execution. remember (binit n b0) as s0. induction 1 as [|s0 ks tr s1 k e s2 H IH S]; subst; [reflexivity|].
  specialize (IH eq_refl). unfold calls, rets in *. rewrite !count_app.
  assert (Q : (exists u, e = [ECall u]) \/ (exists u r, e = [ERet u r]) \/ ((forall u, ~ In (ECall u) e) /\ (forall u r, ~ In (ERet u r) e))).
  { pose proof (bstep_one _ _ _ _ S) as L. destruct e as [|x [|y e]]; cbn in L; [right; right; cbn; tauto| |lia].
    destruct x; eauto; right; right; cbn; intuition discriminate. }
  destruct Q as [(u&->)|[(u&r&->)|[A B]]].
  - destruct (bstep_call _ _ _ _ S) as (_&X&Y). unfold count at 2 4. cbn. destruct (Nat.eqb_spec u t) as [->|Ne]; cbn.
    + rewrite (b2i_idle _ X) in IH. rewrite (b2i_busy _ Y). lia.
    + rewrite (idle_b2i _ _ (call_other _ _ _ _ t S ltac:(congruence))). lia.
  - destruct (bstep_ret _ _ _ _ _ S) as (_&X&Y). unfold count at 2 4. cbn. destruct (Nat.eqb_spec u t) as [->|Ne]; cbn.
    + rewrite X in IH. cbn in IH. rewrite (b2i_idle _ Y). lia.
    + rewrite (idle_b2i _ _ (ret_other _ _ _ _ _ t S ltac:(congruence))). lia.
  - fold (calls t e) (rets t e). rewrite (calls_none t e), (rets_none t e) by auto.
    rewrite (idle_b2i _ _ (bstep_inner _ _ _ _ t S (A t) (B t))). lia.
Qed.

Section Run.
  Variables (P : bprog) (N Nw R : nat) (pre mid post : list act).
  Hypothesis W : wf P N Nw R pre mid post.

  Lemma Inv_act ks tr b f D t a p f' e : Inv P N ks tr (mkC b f false) D ->
    f t = Some (a :: p) -> is_wait a = false -> f' t = Some p ->
    (forall u, u <> t -> f' u = f u \/ (f u = None /\ a = Spawn u /\ f' u = Some (p_code P u))) ->
    (forall u, a = Spawn u -> u < N /\ u <> t /\ f' u <> None) -> (forall u, a = Join u -> f u = Some []) ->
    (forall u s, tally (is_said u s) [e] = if Nat.eqb u t then b2n (is_say s a) else 0) ->
    (forall u, tally (is_napped u) [e] = if Nat.eqb u t then b2n (is_nap a) else 0) -> btr [e] = [] ->
    Inv P N (ks ++ [KAct]) (tr ++ [e]) (mkC b f' false) (updl D t (D t ++ [a])).
  Proof.
    intros I Ft Wa Ft' Fo Sp Jo Es En Eb. destruct I as [I1 I2 I3 I4 I5 I6 I7 I8 I9 I10 I11]. cbn [c_thr c_bar] in *.
    assert (Tn : t < N) by (apply I10; congruence).
    assert (K : forall u, f u <> None -> f' u <> None).
    { intros u Hu. destruct (Nat.eq_dec u t) as [->|Ne]; [congruence|]. destruct (Fo u Ne) as [->|(_&_&->)]; [exact Hu|discriminate]. }
    assert (DI : forall (p : act -> bool) u, num p (updl D t (D t ++ [a]) u) = num p (D u) + if Nat.eqb u t then b2n (p a) else 0).
    { intros q u. unfold updl. destruct (Nat.eqb_spec u t) as [->|Ne]; [rewrite num_app, num_one; reflexivity|lia]. }
    assert (IN : forall x u, In x (updl D t (D t ++ [a]) u) -> In x (D u) \/ x = a).
    { intros x u. unfold updl. destruct (Nat.eqb_spec u t) as [->|Ne]; [|auto]. rewrite in_app_iff. cbn. intuition. }
    constructor; cbn [c_thr c_bar].
    - intros u. apply shape_mono. destruct (Nat.eq_dec u t) as [->|Ne].
      + rewrite updl_same, Ft'. specialize (I1 t). rewrite Ft in I1. exact (proj1 (shape_snoc _ _ _ _ _ _ _ Wa I1)).
      + rewrite updl_other by exact Ne. destruct (Fo u Ne) as [->|(A&B&->)]; [apply I1|]. specialize (I1 u). rewrite A in I1.
        destruct I1 as [-> ->]. left. cbn. auto.
    - intros u s. unfold said. rewrite tally_app, Es, DI. f_equal. apply I2.
    - intros u. unfold naps. rewrite tally_app, En, DI. f_equal. apply I3.
    - intros u. rewrite btr_app, Eb, app_nil_r, DI, Wa, I4. destruct (Nat.eqb u t); cbn; lia.
    - intros u. rewrite btr_app, Eb, app_nil_r, DI, Wa, I5. destruct (Nat.eqb u t); cbn; lia.
    - intros v u J. apply IN in J as [J|J].
      + specialize (I6 _ _ J). destruct (Nat.eq_dec u t) as [->|Ne]; [congruence|]. destruct (Fo u Ne) as [->|(A&_)]; congruence.
      + symmetry in J. pose proof (Jo _ J) as Q. destruct (Nat.eq_dec u t) as [->|Ne]; [congruence|].
        destruct (Fo u Ne) as [->|(A&_)]; congruence.
    - intros u Hu. destruct (Nat.eq_dec u t) as [->|Ne].
      + destruct (I7 t) as [A|(v&A)]; [congruence|auto|]. right. exists v. unfold updl. destruct (Nat.eqb_spec v t) as [->|]; [apply in_app_iff|]; auto.
      + destruct (Fo u Ne) as [Q|(_&Q&_)].
        * rewrite Q in Hu. destruct (I7 u Hu) as [A|(v&A)]; [auto|]. right. exists v. unfold updl. destruct (Nat.eqb_spec v t) as [->|]; [apply in_app_iff|]; auto.
        * right. exists t. rewrite updl_same, in_app_iff. cbn. auto.
    - intros v u J. apply IN in J as [J|J]; [apply K; eapply I8; eauto|]. exact (proj2 (proj2 (Sp u (eq_sym J)))).
    - apply K. exact I9.
    - intros u Hu. destruct (Nat.eq_dec u t) as [->|Ne]; [exact Tn|]. destruct (Fo u Ne) as [Q|(_&Q&_)]; [apply I10; congruence|].
      exact (proj1 (Sp u Q)).
    - rewrite acts_app, I11. change (acts [KAct]) with 1.
      pose proof (sum_upd N (fun u => nact (D u)) (fun u => nact (updl D t (D t ++ [a]) u)) t Tn) as Q.
      cbv beta in Q. unfold nact in *. rewrite !DI, Nat.eqb_refl, Wa in Q. cbn [negb b2n] in Q.
      enough (forall x y z : nat, x + (z + 1) = y + z -> x + 1 = y) as HH by (eapply HH; apply Q; intros u Ne; now rewrite updl_other).
      lia.
  Qed.

  Lemma Inv_in ks tr b f D k e b' : Inv P N ks tr (mkC b f false) D -> k <> KCall -> (forall t r, ~ In (ERet t r) e) -> bstep b k e b' ->
    Inv P N (ks ++ [KBar k]) (tr ++ map InBar e) (mkC b' f false) D.
  Proof.
    intros I Hk Hr S. assert (Hc : forall t, ~ In (ECall t) e).
    { intros t J. pose proof (bstep_called _ _ _ _ _ S J) as ->. destruct (bstep_call _ _ _ _ S) as [E _]. auto. }
    assert (ID : forall t, b_thr b' t = TIdle <-> b_thr b t = TIdle) by (intros t; eapply bstep_inner; eauto).
    assert (IB : forall t, b2i (b_thr b' t) = b2i (b_thr b t)).
    { intros t. apply idle_b2i, ID. }
    destruct I as [I1 I2 I3 I4 I5 I6 I7 I8 I9 I10 I11]. cbn [c_thr c_bar] in *.
    constructor; cbn [c_thr c_bar]; auto.
    - intros t. apply shape_mono. specialize (I1 t). specialize (ID t). unfold shape in *. destruct (f t); intuition.
    - intros t s. unfold said. rewrite tally_app, tally_bar by reflexivity. rewrite Nat.add_0_r. apply I2.
    - intros t. unfold naps. rewrite tally_app, tally_bar by reflexivity. rewrite Nat.add_0_r. apply I3.
    - intros t. rewrite btr_app, btr_in. unfold rets. rewrite count_app. fold (rets t (btr tr)) (rets t e). rewrite (rets_none t e) by auto. rewrite I4. lia.
    - intros t. rewrite btr_app, btr_in. unfold calls. rewrite count_app. fold (calls t (btr tr)) (calls t e). rewrite (calls_none t e) by auto. rewrite I5, IB. lia.
    - rewrite acts_app. change (acts [KBar k]) with 0. lia.
  Qed.

  Lemma Inv_call ks tr b f D t ms p b' : Inv P N ks tr (mkC b f false) D -> f t = Some (Wait ms :: p) -> bstep b KCall [ECall t] b' ->
    Inv P N (ks ++ [KBar KCall]) (tr ++ [InBar (ECall t)]) (mkC b' f false) D.
  Proof.
    intros I Ft S. destruct (bstep_call _ _ _ _ S) as (_&A&B).
    destruct I as [I1 I2 I3 I4 I5 I6 I7 I8 I9 I10 I11]. cbn [c_thr c_bar] in *.
    constructor; cbn [c_thr c_bar]; auto.
    - intros u. apply shape_mono. destruct (Nat.eq_dec u t) as [->|Ne].
      + specialize (I1 t). rewrite Ft in *. destruct I1 as [[C D']|(C&d1&m&r&r0&d2&h&B1&B2&B3&B4&B5&B6)].
        * left. split; [exact C|right; eauto].
        * exfalso. pose proof (w_catch _ _ _ _ _ _ _ W h (thrown P m r) (Wait ms) B2) as Q. rewrite B5, in_app_iff in Q. destruct Q as (s&Q); [cbn; auto|discriminate].
      + specialize (I1 u). pose proof (call_other _ _ _ _ u S Ne). unfold shape in *. destruct (f u); intuition.
    - intros u s. unfold said. rewrite tally_app. change (tally (is_said u s) [InBar (ECall t)]) with 0. rewrite Nat.add_0_r. apply I2.
    - intros u. unfold naps. rewrite tally_app. change (tally (is_napped u) [InBar (ECall t)]) with 0. rewrite Nat.add_0_r. apply I3.
    - intros u. rewrite btr_app. change (btr [InBar (ECall t)]) with [ECall t]. rewrite rets_snoc. cbn. rewrite I4. lia.
    - intros u. rewrite btr_app. change (btr [InBar (ECall t)]) with [ECall t]. rewrite calls_snoc. cbn [is_call]. rewrite I5.
      destruct (Nat.eqb_spec t u) as [<-|Ne]; cbn [b2n].
      + rewrite (b2i_idle _ A), (b2i_busy _ B). lia.
      + rewrite (idle_b2i _ _ (call_other _ _ _ _ u S ltac:(congruence))). lia.
    - rewrite acts_app. change (acts [KBar KCall]) with 0. lia.
  Qed.

  Lemma Inv_back ks tr b f D t ms p r b' q : Inv P N ks tr (mkC b f false) D -> f t = Some (Wait ms :: p) -> bstep b KRun [ERet t r] b' ->
    go_on P ms p r = Some q ->
    Inv P N (ks ++ [KBar KRun]) (tr ++ [InBar (ERet t r)]) (mkC b' (put_thr f t (Some q)) false) (updl D t (D t ++ [Wait ms])).
  Proof.
    intros I Ft S G. destruct (bstep_ret _ _ _ _ _ S) as (_&A&B).
    destruct I as [I1 I2 I3 I4 I5 I6 I7 I8 I9 I10 I11]. cbn [c_thr c_bar] in *.
    assert (C : p_code P t = D t ++ Wait ms :: p).
    { specialize (I1 t). rewrite Ft, A in I1. destruct I1 as [[C _]|[C _]]; [exact C|discriminate]. }
    assert (DI : forall (p : act -> bool) u, num p (updl D t (D t ++ [Wait ms]) u) = num p (D u) + if Nat.eqb u t then b2n (p (Wait ms)) else 0).
    { intros x u. unfold updl. destruct (Nat.eqb_spec u t) as [->|Ne]; [rewrite num_app, num_one; reflexivity|lia]. }
    assert (IN : forall x u, In x (updl D t (D t ++ [Wait ms]) u) -> In x (D u) \/ x = Wait ms).
    { intros x u. unfold updl. destruct (Nat.eqb_spec u t) as [->|Ne]; [|auto]. rewrite in_app_iff. cbn. intuition. }
    assert (FN : forall u, put_thr f t (Some q) u <> None <-> f u <> None).
    { intros u. unfold put_thr. destruct (Nat.eqb_spec u t) as [->|]; [|tauto]. rewrite Ft. split; discriminate. }
    constructor; cbn [c_thr c_bar].
    - intros u. destruct (Nat.eq_dec u t) as [->|Ne].
      + rewrite updl_same, put_same, B. unfold go_on in G. destruct r.
        * inv G. left. rewrite <- app_assoc. cbn. auto.
        * destruct (p_catch P) as [h|] eqn:Ph; [|discriminate]. inv G. right. split; [reflexivity|].
          exists (D t), ms, ThrewTimeout, p, [], h. cbn [app]. repeat split; auto; [discriminate|]. rewrite btr_app, in_app_iff. right. cbn. auto.
        * destruct (p_catch P) as [h|] eqn:Ph; [|discriminate]. inv G. right. split; [reflexivity|].
          exists (D t), ms, ThrewCorrupt, p, [], h. cbn [app]. repeat split; auto; [discriminate|]. rewrite btr_app, in_app_iff. right. cbn. auto.
      + rewrite updl_other, put_other by exact Ne. apply shape_mono. specialize (I1 u). pose proof (ret_other _ _ _ _ _ u S Ne). unfold shape in *. destruct (f u); intuition.
    - intros u s. unfold said. rewrite tally_app, DI. change (tally (is_said u s) [InBar (ERet t r)]) with 0. rewrite Nat.add_0_r. cbn.
      fold (said u s tr). rewrite I2. destruct (Nat.eqb u t); lia.
    - intros u. unfold naps. rewrite tally_app, DI. change (tally (is_napped u) [InBar (ERet t r)]) with 0. rewrite Nat.add_0_r. cbn.
      fold (naps u tr). rewrite I3. destruct (Nat.eqb u t); lia.
    - intros u. rewrite btr_app, DI. change (btr [InBar (ERet t r)]) with [ERet t r]. rewrite rets_snoc. cbn. rewrite I4, Nat.eqb_sym. destruct (Nat.eqb u t); cbn; lia.
    - intros u. rewrite btr_app, DI. change (btr [InBar (ERet t r)]) with [ERet t r]. rewrite calls_snoc. cbn [is_call b2n is_wait]. rewrite I5.
      destruct (Nat.eqb_spec u t) as [->|Ne].
      + rewrite (b2i_idle _ B), A. cbn. lia.
      + rewrite (idle_b2i _ _ (ret_other _ _ _ _ _ u S Ne)). lia.
    - intros v u J. apply IN in J as [J|J]; [|discriminate]. specialize (I6 _ _ J). unfold put_thr. destruct (Nat.eqb_spec u t) as [->|]; [congruence|exact I6].
    - intros u Hu. apply FN in Hu. destruct (I7 u Hu) as [Q|(v&Q)]; [auto|]. right. exists v. unfold updl. destruct (Nat.eqb_spec v t) as [->|]; [apply in_app_iff|]; auto.
    - intros v u J. apply IN in J as [J|J]; [|discriminate]. apply FN. eapply I8; eauto.
    - apply FN. exact I9.
    - intros u Hu. apply I10. now apply FN.
    - rewrite acts_app, I11. change (acts [KBar KRun]) with 0. rewrite Nat.add_0_r. apply sum_ext. intros u _. unfold nact. rewrite DI. cbn. destruct (Nat.eqb u t); lia.
  Qed.

  Lemma spawn_in ks tr b f D t u p : Inv P N ks tr (mkC b f false) D -> f t = Some (Spawn u :: p) -> t = p_main P /\ u < N /\ u <> p_main P.
  Proof.
    intros I Ft. pose proof (i_shape _ _ _ _ _ _ I t) as S. cbn [c_thr c_bar] in S. rewrite Ft in S.
    destruct S as [[C _]|(C&d1&m&r&r0&d2&h&B1&B2&B3&B4&B5&B6)].
    - assert (J : In (Spawn u) (p_code P t)) by (rewrite C, in_app_iff; cbn; auto).
      destruct (Nat.eq_dec t (p_main P)) as [E|E]; [|destruct (w_other _ _ _ _ _ _ _ W t E _ J)]. rewrite E in *. split; [reflexivity|].
      rewrite (w_code _ _ _ _ _ _ _ W), !in_app_iff in J. destruct J as [J|[J|J]].
      + now apply (w_spawn _ _ _ _ _ _ _ W).
      + destruct (w_mid _ _ _ _ _ _ _ W _ J).
      + destruct (w_post _ _ _ _ _ _ _ W _ J).
    - exfalso. pose proof (w_catch _ _ _ _ _ _ _ W h (thrown P m r) (Spawn u) B2) as Q. rewrite B5, in_app_iff in Q. destruct Q as (s&Q); [cbn; auto|discriminate].
  Qed.

  Definition most (t : tid) : nat := if t <? Nw then R else 0.
  Lemma Inv_start n : Inv P N [] [] (cstart P n) (fun _ => []).
  Proof.
    unfold cstart. constructor; cbn [c_thr c_bar binit b_thr]; auto.
    - intros t. destruct (Nat.eqb_spec t (p_main P)) as [->|]; cbn; auto.
    - intros t u [].
    - intros u Hu. destruct (Nat.eqb_spec u (p_main P)); [auto|congruence].
    - rewrite Nat.eqb_refl. discriminate.
    - intros t Hu. destruct (Nat.eqb_spec t (p_main P)) as [E|]; [rewrite E; apply (w_main _ _ _ _ _ _ _ W)|congruence].
    - unfold nact, num. cbn. rewrite sum_const. lia.
  Qed.
  Lemma Inv_most ks tr c D : Inv P N ks tr c D -> forall t, calls t (btr tr) <= most t /\ (b_thr (c_bar c) t <> TIdle -> num is_wait (D t) < most t).
  Proof.
    intros I t. rewrite (i_calls _ _ _ _ _ _ I). pose proof (i_shape _ _ _ _ _ _ I t) as S. unfold shape in S. destruct (c_thr c t) as [rest|] eqn:E.
    - assert (T : t < N) by (apply (i_below _ _ _ _ _ _ I); congruence). pose proof (w_waits _ _ _ _ _ _ _ W t T) as Q. fold (most t) in Q.
      destruct S as [[C B]|(C&d1&m&r&r0&d2&h&B1&B2&B3&B4&B5&B6)].
      + rewrite C, num_app in Q. destruct B as [B|(ms&p&->)]; [rewrite B; cbn; split; [lia|congruence]|]. rewrite num_cons in Q. cbn in Q.
        split; [destruct (b_thr (c_bar c) t); cbn; lia|intros _; lia].
      + rewrite C. split; [|congruence]. cbn. rewrite B4, num_app, num_cons. rewrite B3, num_app, num_cons in Q. cbn in *.
        assert (num is_wait d2 = 0); [|lia]. apply num_none. intros a J. destruct (w_catch _ _ _ _ _ _ _ W h (thrown P m r) a B2) as (s&->); [|reflexivity].
        rewrite B5, in_app_iff. auto.
    - destruct S as [-> B]. rewrite B. cbn. split; [lia|congruence].
  Qed.

  Definition caught_acts : nat := match p_catch P with Some _ => 1 | None => 0 end.
  Lemma Inv_nact ks tr c D : Inv P N ks tr c D -> acts ks <= sum N (fun t => nact (p_code P t) + caught_acts).
  Proof.
    intros I. rewrite (i_acts _ _ _ _ _ _ I). apply sum_le. intros t _. pose proof (i_shape _ _ _ _ _ _ I t) as S. unfold shape, nact in *. destruct (c_thr c t) as [rest|].
    - destruct S as [[C B]|(C&d1&m&r&r0&d2&h&B1&B2&B3&B4&B5&B6)].
      + rewrite C, num_app. lia.
      + rewrite B4, B3, !num_app, !num_cons. cbn. unfold caught_acts. rewrite B2. destruct (w_say _ _ _ _ _ _ _ W h (thrown P m r) B2) as (s&E).
        rewrite E in B5. destruct d2 as [|a [|a' d2]]; cbn in *; [unfold num; cbn; lia|inv B5; unfold num; cbn; lia|destruct d2; discriminate].
    - destruct S as [-> _]. cbn. lia.
  Qed.

  Lemma run n ks tr c : csteps P (cstart P n) ks tr c ->
    execution n 0 (bks ks) (btr tr) (c_bar c) /\ (forall t, calls t (btr tr) <= most t) /\
    acts ks <= sum N (fun t => nact (p_code P t) + caught_acts) /\
    (c_dead c = false -> exists D, Inv P N ks tr c D) /\
    (c_dead c = true -> p_catch P = None /\ exists t r, r <> Passed /\ In (ERet t r) (btr tr)).
  Proof.
    remember (cstart P n) as c0. induction 1 as [c|c0 ks tr c1 k e c2 H IH S]; subst.
    - split; [apply bs_nil|]. split; [intros; cbn; lia|]. split; [cbn; lia|]. split; [|discriminate]. intros _. eexists. apply Inv_start.
    - destruct (IH eq_refl) as (E&M&A&L&_). clear IH.
      assert (AL : c_dead c1 = false) by (inv S; reflexivity). destruct (L AL) as (D&I). clear L.
      assert (X : execution n 0 (bks (ks ++ [k])) (btr (tr ++ e)) (c_bar c2)).
      { rewrite bks_app, btr_app. inv S; cbn [c_bar] in *; try (cbn; rewrite !app_nil_r; exact E);
          try rewrite btr_in; eapply bs_snoc; eauto. }
      split; [exact X|].
      enough (Z : (c_dead c2 = false -> exists D, Inv P N (ks ++ [k]) (tr ++ e) c2 D) /\
                  (c_dead c2 = true -> p_catch P = None /\ (exists t r, r <> Passed /\ In (ERet t r) (btr (tr ++ e))) /\
                     (forall t, calls t (btr (tr ++ e)) = calls t (btr tr)) /\ acts (ks ++ [k]) = acts ks)).
      { destruct Z as [Z1 Z2]. destruct (c_dead c2).
        - destruct (Z2 eq_refl) as (U1&U2&U3&U4). rewrite U4. split; [intros t; rewrite U3; apply M|]. split; [exact A|]. split; [discriminate|auto].
        - destruct (Z1 eq_refl) as (D'&I'). split; [intros t; apply (Inv_most _ _ _ _ I')|]. split; [exact (Inv_nact _ _ _ _ I')|]. split; eauto; discriminate. }
      clear X M A. inv S; cbn [c_dead]; (split; [intros _|discriminate]) || (split; [discriminate|intros _]).
      + eexists. eapply Inv_act; eauto; try discriminate.
        * apply put_same.
        * intros u Ne. left. now apply put_other.
        * intros u s'. unfold tally. cbn. rewrite (Nat.eqb_sym t u). destruct (Nat.eqb u t); cbn; [destruct (str_eqb s s')|]; reflexivity.
        * intros u. cbn. destruct (Nat.eqb u t); reflexivity.
      + eexists. eapply Inv_act; eauto; try discriminate.
        * apply put_same.
        * intros u Ne. left. now apply put_other.
        * intros u s'. cbn. destruct (Nat.eqb u t); reflexivity.
        * intros u. unfold tally. cbn. rewrite (Nat.eqb_sym t u). destruct (Nat.eqb u t); reflexivity.
      + destruct (spawn_in _ _ _ _ _ _ _ _ I H0) as (T1&T2&T3). eexists. eapply Inv_act; eauto; try discriminate.
        * rewrite put_other by congruence. apply put_same.
        * intros v Ne. destruct (Nat.eq_dec v u) as [->|Nu]; [right; rewrite put_same; auto|left; rewrite !put_other by auto; reflexivity].
        * intros v Q. inv Q. rewrite put_same. repeat split; auto. discriminate.
        * intros v s'. cbn. destruct (Nat.eqb v t); reflexivity.
        * intros v. cbn. destruct (Nat.eqb v t); reflexivity.
      + eexists. eapply Inv_act; eauto; try discriminate.
        * apply put_same.
        * intros v Ne. left. now apply put_other.
        * intros v Q. now inv Q.
        * intros v s'. cbn. destruct (Nat.eqb v t); reflexivity.
        * intros v. cbn. destruct (Nat.eqb v t); reflexivity.
      + eexists. eapply Inv_call; eauto.
      + eexists. eapply Inv_in; eauto.
      + eexists. eapply Inv_back; eauto.
      + unfold go_on in H2. destruct r; [discriminate| |]; destruct (p_catch P); try discriminate; rewrite btr_app, acts_app;
          (split; [reflexivity|split; [|split; [|cbn; lia]]]);
          [exists t, ThrewTimeout| |exists t, ThrewCorrupt| ]; try (split; [discriminate|apply in_app_iff; right; cbn; auto]);
          intros u; unfold calls; rewrite count_app; cbn; lia.
  Qed.

  Lemma called_once t l : In (ECall t) l -> 1 <= calls t l.
  Proof.
    intros I. apply in_split in I as (a&b&->). unfold calls, count. rewrite filter_app, app_length. cbn. rewrite Nat.eqb_refl. cbn. lia.
  Qed.
  Lemma run_only n ks tr c : csteps P (cstart P n) ks tr c -> only_threads Nw (btr tr) /\ at_most_calls R (btr tr).
  Proof.
    intros H. destruct (run _ _ _ _ H) as (_&M&_). split.
    - intros t I. specialize (M t). apply called_once in I. unfold most in M. destruct (Nat.ltb_spec t Nw); [assumption|lia].
    - intros t. specialize (M t). unfold most in M. destruct (t <? Nw); lia.
  Qed.
  Lemma ret_passed ks tr c t r : 1 <= Nw -> (Z.of_nat Nw < two32)%Z -> csteps P (cstart P (Z.of_nat Nw)) ks tr c -> calm ks ->
    In (ERet t r) (btr tr) -> r = Passed.
  Proof.
    intros H1 H2 H C I. destruct (run _ _ _ _ H) as (E&M&_). destruct (run_only _ _ _ _ H) as [O A]. pose proof I as I0. apply in_split in I as (a&b&Q).
    assert (T : t < Nw).
    { destruct (le_lt_dec Nw t) as [L|L]; [exfalso|exact L].
      specialize (M t). unfold most in M. destruct (Nat.ltb_spec t Nw) as [|_]; [lia|].
      rewrite Q in *.
      destruct (execution_prefix _ _ _ _ _ _ _ _ E eq_refl) as (k1&s1&E1&_).
      pose proof (calls_rets _ _ _ _ _ t E1) as RC. rewrite calls_snoc, rets_snoc in RC. cbn [is_call is_ret] in RC. rewrite Nat.eqb_refl in RC.
      unfold calls in M, RC. rewrite count_app in M. cbn [b2n] in RC. lia. }
    exact (proj2 (early Nw 0 _ _ _ t t a b r H1 H2 ltac:(unfold two32; lia) E O (calm_bks _ C) T T Q)).
  Qed.

  Lemma calm_alive ks tr c : 1 <= Nw -> (Z.of_nat Nw < two32)%Z -> csteps P (cstart P (Z.of_nat Nw)) ks tr c -> calm ks -> c_dead c = false.
  Proof.
    intros H1 H2 H C. destruct (c_dead c) eqn:E; [|reflexivity]. destruct (run _ _ _ _ H) as (_&_&_&_&L). destruct (L E) as (_&t&r&Q&I).
    destruct Q. eapply ret_passed; eauto.
  Qed.
  (* without expiries: each thread has done a part of its code, in order *)
  Lemma calm_run ks tr c : 1 <= Nw -> (Z.of_nat Nw < two32)%Z -> csteps P (cstart P (Z.of_nat Nw)) ks tr c -> calm ks ->
    exists D, Inv P N ks tr c D /\ (forall t rest, c_thr c t = Some rest -> p_code P t = D t ++ rest) /\
      (forall t u, t < Nw -> u < Nw -> rets t (btr tr) <= calls u (btr tr)).
  Proof.
    intros H1 H2 H C. destruct (run _ _ _ _ H) as (E&_&_&L&_). destruct (L (calm_alive _ _ _ H1 H2 H C)) as (D&I). exists D. split; [exact I|split].
    - intros t rest Q. pose proof (i_shape _ _ _ _ _ _ I t) as S. rewrite Q in S. destruct S as [[S _]|(_&d1&m&r&r0&d2&h&B1&B2&B3&B4&B5&B6)]; [exact S|].
      destruct B1. eapply ret_passed; eauto.
    - intros t u Ht Hu. eapply (not_early Nw 0); eauto; [unfold two32; lia|apply (run_only _ _ _ _ H)|apply calm_bks; exact C].
  Qed.

  (* splitting an execution at an event *)
  Lemma csteps_trans c0 k1 t1 c1 k2 t2 c2 : csteps P c0 k1 t1 c1 -> csteps P c1 k2 t2 c2 -> csteps P c0 (k1 ++ k2) (t1 ++ t2) c2.
  Proof. intros A. induction 1; [now rewrite !app_nil_r|]. rewrite !app_assoc. econstructor; eauto. Qed.
  Lemma cstep_one c k e c' : cstep P c k e c' -> length e <= 1.
  Proof. intros S. inv S; cbn; try lia. rewrite map_length. eapply bstep_one; eauto. Qed.
  Lemma csteps_split c0 ks tr c : csteps P c0 ks tr c -> forall a e b, tr = a ++ e :: b ->
    exists k1 c1 k c2 k2, csteps P c0 k1 a c1 /\ cstep P c1 k [e] c2 /\ csteps P c2 k2 b c /\ ks = k1 ++ k :: k2.
  Proof.
    induction 1 as [|c0 ks tr c1 k x c2 H IH S]; intros a e b E; [destruct a; discriminate|].
    pose proof (cstep_one _ _ _ _ S) as L. destruct x as [|y [|z x]]; cbn in L; [| |lia].
    - rewrite app_nil_r in E. destruct (IH _ _ _ E) as (k1&s1&k'&s2&k2&A&B&C&D). exists k1, s1, k', s2, (k2 ++ [k]).
      split; [exact A|split; [exact B|split]]; [|rewrite D, <- app_assoc; reflexivity].
      replace b with (b ++ []) by apply app_nil_r. econstructor; eauto.
    - destruct (list_eq_dec_nil b) as [->|(b'&w&->)].
      + apply app_inj_tail in E as [-> ->]. exists ks, c1, k, c2, []. repeat split; auto. constructor.
      + rewrite app_comm_cons, app_assoc in E. apply app_inj_tail in E as [E ->].
        destruct (IH _ _ _ E) as (k1&s1&k'&s2&k2&A&B&C&D). exists k1, s1, k', s2, (k2 ++ [k]).
        split; [exact A|split; [exact B|split]]; [|rewrite D, <- app_assoc; reflexivity]. econstructor; eauto.
  Qed.

  (* ---- when nothing is left to do ---- *)
  Definition idle_all (c : cst) : Prop := forall t, b_thr (c_bar c) t = TIdle.
  Lemma can_call b f t ms p : f t = Some (Wait ms :: p) -> b_thr b t = TIdle -> exists k e c', cstep P (mkC b f false) k e c' /\ k = KBar KCall.
  Proof. intros A B. do 3 eexists. split; [eapply c_call; [exact A|constructor; exact B]|reflexivity]. Qed.
  Lemma plain_goes b f t a p : f t = Some (a :: p) -> plain a -> b_thr b t = TIdle -> exists k e c', cstep P (mkC b f false) k e c' /\ (k = KAct \/ k = KBar KCall).
  Proof.
    intros A B C. destruct a; try destruct B.
    - do 3 eexists. split; [eapply c_say; exact A|auto].
    - do 3 eexists. split; [eapply c_nap; exact A|auto].
    - destruct (can_call _ _ _ _ _ A C) as (k&e&c'&S&E). eauto 6.
  Qed.
  Lemma head_of {A} (X Y : list A) : forall d a p, X ++ Y = d ++ a :: p ->
    (exists q, X = d ++ a :: q /\ p = q ++ Y) \/ (exists Y1, d = X ++ Y1 /\ Y = Y1 ++ a :: p).
  Proof.
    induction X as [|x X IH]; intros d a p E; cbn in E.
    - right. exists d. auto.
    - destruct d as [|y d]; cbn in E; injection E as -> E; [left; exists X; auto|].
      destruct (IH d a p E) as [(q&->&->)|(Y1&->&->)]; [left; exists q; auto|right; exists Y1; auto].
  Qed.

  (* where main stands *)
  Lemma main_goes ks tr b f D : Inv P N ks tr (mkC b f false) D -> forall a p, f (p_main P) = Some (a :: p) ->
    p_code P (p_main P) = D (p_main P) ++ a :: p -> b_thr b (p_main P) = TIdle ->
    (exists k e c', cstep P (mkC b f false) k e c' /\ (k = KAct \/ k = KBar KCall)) \/
    (exists u, a = Join u /\ (exists r, f u = Some r /\ r <> []) /\ (forall v, v < N -> f v <> None) /\ num is_wait (D (p_main P)) = num is_wait (p_code P (p_main P))).
  Proof.
    intros I a p F C Z. pose proof (w_code _ _ _ _ _ _ _ W) as WC.
    rewrite C in WC. symmetry in WC. destruct (head_of _ _ _ _ _ WC) as [(q&E&_)|(Y1&J2&J1)].
    - left. assert (J : In a pre) by (rewrite E, in_app_iff; cbn; auto). pose proof (w_pre _ _ _ _ _ _ _ W _ J) as K.
      destruct a; try destruct K.
      + eapply plain_goes; eauto; exact Logic.I.
      + eapply plain_goes; eauto; exact Logic.I.
      + do 3 eexists. split; [eapply c_spawn; [exact F|]|auto].
        destruct (f u) eqn:Fu; [exfalso|reflexivity]. destruct (i_made _ _ _ _ _ _ I u) as [M|(t&M)]; [cbn; congruence| |].
        * apply (w_spawn _ _ _ _ _ _ _ W) in J. tauto.
        * destruct (Nat.eq_dec t (p_main P)) as [->|Ne]; [exact (w_once _ _ _ _ _ _ _ W _ _ _ E M)|].
          pose proof (i_shape _ _ _ _ _ _ I t) as S. cbn [c_thr c_bar] in S. unfold shape in S. destruct (f t).
          { destruct S as [[S _]|(_&d1&m&r&r0&d2&h&B1&B2&B3&B4&B5&B6)].
            - destruct (w_other _ _ _ _ _ _ _ W t Ne (Spawn u)). rewrite S. apply in_app_iff; auto.
            - rewrite B4, in_app_iff in M. destruct M as [M|[M|M]]; [|discriminate|].
              + destruct (w_other _ _ _ _ _ _ _ W t Ne (Spawn u)). rewrite B3. apply in_app_iff; auto.
              + destruct (w_catch _ _ _ _ _ _ _ W h (thrown P m r) (Spawn u) B2) as (s&Q); [rewrite B5; apply in_app_iff; auto|discriminate]. }
          { destruct S as [S _]. rewrite S in M. destruct M. }
    - symmetry in J1. rename J1 into J3. destruct (head_of _ _ _ _ _ (eq_sym J3)) as [(q&E&_)|(Y2&J4&J5)].
      { left. eapply plain_goes; eauto. apply (w_mid _ _ _ _ _ _ _ W). rewrite E, in_app_iff. cbn; auto. }
      assert (J1 : In a post) by (rewrite J5, in_app_iff; cbn; auto).
      pose proof (w_post _ _ _ _ _ _ _ W _ J1) as K. destruct a; try destruct K.
      + left. eapply plain_goes; eauto; exact Logic.I.
      + left. eapply plain_goes; eauto; exact Logic.I.
      + assert (AL : forall v, v < N -> f v <> None).
        { intros v Hv. destruct (Nat.eq_dec v (p_main P)) as [->|Ne]; [congruence|]. eapply (i_here _ _ _ _ _ _ I (p_main P)).
          rewrite J2, in_app_iff. left. apply (w_spawn _ _ _ _ _ _ _ W). auto. }
        pose proof (AL u (proj1 (w_join _ _ _ _ _ _ _ W _ J1))) as Fu. destruct (f u) as [[|x r]|] eqn:Eu; [| |congruence].
        * left. do 3 eexists. split; [eapply c_join; eauto|auto].
        * right. exists u. split; [reflexivity|]. split; [exists (x :: r); split; [exact Eu|discriminate]|]. split; [exact AL|].
          rewrite C, num_app, num_cons. cbn. enough (num is_wait p = 0) by lia. apply num_none. intros y Iy. destruct y; try reflexivity.
          destruct (w_post _ _ _ _ _ _ _ W (Wait ms)). rewrite J5, in_app_iff. cbn; auto.
  Qed.
  Lemma main_spawns ks tr b f D : Inv P N ks tr (mkC b f false) D -> f (p_main P) = Some [] -> p_code P (p_main P) = D (p_main P) ->
    forall v, v < N -> f v <> None.
  Proof.
    intros I F C v Hv. destruct (Nat.eq_dec v (p_main P)) as [->|Ne]; [congruence|]. eapply (i_here _ _ _ _ _ _ I (p_main P)).
    rewrite <- C, (w_code _ _ _ _ _ _ _ W), in_app_iff. left. apply (w_spawn _ _ _ _ _ _ _ W). auto.
  Qed.

  (* nobody in wait and nothing possible: everybody is through *)
  Lemma finished ks tr b f D : Inv P N ks tr (mkC b f false) D -> idle_all (mkC b f false) ->
    (forall rest, f (p_main P) = Some rest -> p_code P (p_main P) = D (p_main P) ++ rest) ->
    (forall k e c', cstep P (mkC b f false) k e c' -> k <> KAct /\ k <> KBar KCall) ->
    forall t, t < N -> f t = Some [].
  Proof.
    intros I Z MC St. unfold idle_all in Z. cbn [c_bar] in Z.
    assert (OT : forall t rest, t <> p_main P -> f t = Some rest -> rest = []).
    { intros t rest Ne Ft. destruct rest as [|a p]; [reflexivity|exfalso]. assert (PL : plain a).
      { pose proof (i_shape _ _ _ _ _ _ I t) as S. cbn [c_thr c_bar] in S. rewrite Ft in S. destruct S as [[S _]|(_&d1&m&r&r0&d2&h&B1&B2&B3&B4&B5&B6)].
        - apply (w_other _ _ _ _ _ _ _ W t Ne). rewrite S, in_app_iff. cbn; auto.
        - destruct (w_catch _ _ _ _ _ _ _ W h (thrown P m r) a B2) as (s&->); [rewrite B5; apply in_app_iff; cbn; auto|exact Logic.I]. }
      destruct (plain_goes b f t a p Ft PL (Z t)) as (k&e&c'&S&Q). destruct (St _ _ _ S). intuition. }
    assert (M : f (p_main P) = Some []).
    { pose proof (i_mainl _ _ _ _ _ _ I) as ML. cbn in ML. destruct (f (p_main P)) as [[|a p]|] eqn:F; [reflexivity| |congruence]. exfalso.
      destruct (main_goes _ _ _ _ _ I a p F (MC _ eq_refl) (Z _)) as [(k&e&c'&S&Q)|(u&->&(r&Fu&Nr)&_)].
      - destruct (St _ _ _ S). intuition.
      - destruct (Nat.eq_dec u (p_main P)) as [->|Ne].
        + assert (J : In (Join (p_main P)) post).
          { pose proof (MC _ eq_refl) as C. pose proof (w_code _ _ _ _ _ _ _ W) as WC. assert (J : In (Join (p_main P)) (pre ++ mid ++ post)) by (rewrite <- WC, C, in_app_iff; cbn; auto).
            rewrite !in_app_iff in J. destruct J as [J|[J|J]]; [destruct (w_pre _ _ _ _ _ _ _ W _ J)|destruct (w_mid _ _ _ _ _ _ _ W _ J)|exact J]. }
          apply (w_join _ _ _ _ _ _ _ W) in J. tauto.
        + apply Nr. eapply OT; eauto. }
    intros t Ht. destruct (Nat.eq_dec t (p_main P)) as [->|Ne]; [exact M|].
    pose proof (MC _ M) as C. rewrite app_nil_r in C.
    pose proof (main_spawns _ _ _ _ _ I M C t Ht) as F. destruct (f t) as [rest|] eqn:Ft; [|congruence]. f_equal. eapply OT; eauto.
  Qed.
  Lemma bar_goes ks tr b f D k e b' : Inv P N ks tr (mkC b f false) D -> bstep b k e b' -> k <> KCall -> exists e c', cstep P (mkC b f false) (KBar k) e c'.
  Proof.
    intros I S K.
    assert (Q : (exists t r, e = [ERet t r]) \/ (forall t r, ~ In (ERet t r) e)).
    { pose proof (bstep_one _ _ _ _ S) as L. destruct e as [|x [|y e]]; cbn in L; [right; cbn; tauto| |lia].
      destruct x; eauto; right; cbn; intuition discriminate. }
    destruct Q as [(t&r&->)|Q].
    - destruct (bstep_ret _ _ _ _ _ S) as (->&A&_). pose proof (i_shape _ _ _ _ _ _ I t) as H. cbn [c_thr c_bar] in H. rewrite A in H. unfold shape in H.
      destruct (f t) as [rest|] eqn:Ft; [|destruct H; discriminate]. destruct H as [[_ [H|(ms&p&->)]]|[H _]]; try discriminate.
      destruct (go_on P ms p r) as [q|] eqn:G; do 2 eexists; [eapply c_back; eauto|eapply c_die; eauto].
    - do 2 eexists. eapply c_in; eauto.
  Qed.
  Lemma waiting_main ks tr b f D ms p : Inv P N ks tr (mkC b f false) D -> f (p_main P) = Some (Wait ms :: p) ->
    p_code P (p_main P) = D (p_main P) ++ Wait ms :: p -> forall v, v < N -> f v <> None.
  Proof.
    intros I F C v Hv. destruct (Nat.eq_dec v (p_main P)) as [->|Ne]; [congruence|].
    pose proof (w_code _ _ _ _ _ _ _ W) as WC. rewrite C in WC. symmetry in WC. destruct (head_of _ _ _ _ _ WC) as [(q&E&_)|(Y1&J2&J1)].
    - destruct (w_pre _ _ _ _ _ _ _ W (Wait ms)). rewrite E, in_app_iff; cbn; auto.
    - eapply (i_here _ _ _ _ _ _ I (p_main P)). rewrite J2, in_app_iff. left. apply (w_spawn _ _ _ _ _ _ _ W). auto.
  Qed.

  Hypothesis Nw_N : Nw <= N.
  Lemma calm_end ks tr c : 1 <= Nw -> (Z.of_nat Nw < two32)%Z -> csteps P (cstart P (Z.of_nat Nw)) ks tr c -> calm ks -> stopped P c ->
    (forall t, t < N -> c_thr c t = Some []) /\ idle_all c.
  Proof.
    intros H1 H2 H C St. pose proof (calm_alive _ _ _ H1 H2 H C) as AL. destruct (calm_run _ _ _ H1 H2 H C) as (D&I&CR&_).
    destruct (run _ _ _ _ H) as (E&M&_). destruct (run_only _ _ _ _ H) as [O A].
    destruct c as [b f d]. cbn in AL. subst d. cbn [c_bar c_thr] in *.
    assert (NR : forall e st', ~ bstep b KRun e st').
    { intros e b' S. destruct (bar_goes _ _ _ _ _ _ _ _ I S) as (e'&c'&Q); [discriminate|]. destruct (St _ _ _ Q); discriminate. }
    assert (ST : forall k e c', cstep P (mkC b f false) k e c' -> k <> KAct /\ k <> KBar KCall).
    { intros k e c' Q. destruct (St _ _ _ Q) as [->| ->]; split; discriminate. }
    assert (NC : forall t st', t < Nw -> calls t (btr tr) < R -> ~ bstep b KCall [ECall t] st').
    { intros t b' Ht Hc S. destruct (bstep_call _ _ _ _ S) as (_&Z&_). rewrite (i_calls _ _ _ _ _ _ I) in Hc. cbn [c_bar] in Hc. rewrite Z in Hc. cbn [b2i] in Hc.
      destruct (f t) as [rest|] eqn:Ft.
      - pose proof (CR _ _ Ft) as Co. pose proof (w_waits _ _ _ _ _ _ _ W t ltac:(lia)) as Q. destruct (Nat.ltb_spec t Nw); [|lia].
        rewrite Co, num_app in Q. destruct rest as [|a p]; [cbn in Q; lia|].
        destruct (Nat.eq_dec t (p_main P)) as [->|Ne].
        + destruct (main_goes _ _ _ _ _ I a p Ft Co Z) as [(k&e&c'&X&Y)|(u&_&_&_&X)]; [destruct (ST _ _ _ X); intuition|].
          rewrite Co, num_app in X. lia.
        + assert (PL : plain a) by (apply (w_other _ _ _ _ _ _ _ W t Ne); rewrite Co, in_app_iff; cbn; auto).
          destruct (plain_goes b f t a p Ft PL Z) as (k&e&c'&X&Y). destruct (ST _ _ _ X); intuition.
      - pose proof (i_mainl _ _ _ _ _ _ I) as ML. cbn in ML. destruct (f (p_main P)) as [rest|] eqn:F; [|congruence]. pose proof (CR _ _ F) as Co.
        destruct rest as [|a p].
        + rewrite app_nil_r in Co. exact (main_spawns _ _ _ _ _ I F Co t ltac:(lia) Ft).
        + pose proof (i_shape _ _ _ _ _ _ I (p_main P)) as S'. cbn [c_thr c_bar] in S'. rewrite F in S'.
          assert (Q : b_thr b (p_main P) = TIdle \/ exists ms, a = Wait ms).
          { destruct S' as [[_ [S'|(ms&q&S')]]|[S' _]]; [auto|injection S' as -> _; right; eauto|auto]. }
          destruct Q as [Q|(ms&->)]; [|exact (waiting_main _ _ _ _ _ _ _ I F Co t ltac:(lia) Ft)].
          destruct (main_goes _ _ _ _ _ I a p F Co Q) as [(k&e&c'&X&Y)|(u&_&_&X&_)]; [destruct (ST _ _ _ X); intuition|].
          exact (X t ltac:(lia) Ft). }
    pose proof (finish Nw 0 _ _ _ R H1 H2 ltac:(unfold two32; lia) E O (calm_bks _ C) A NR NC) as RT.
    assert (Z : forall t, b_thr b t = TIdle).
    { intros t. pose proof (calls_rets _ _ _ _ _ t E) as Q. specialize (M t). unfold most in M. destruct (Nat.ltb_spec t Nw) as [L|L].
      - rewrite (RT t L) in Q. destruct (b_thr b t); cbn in Q; auto; lia.
      - destruct (b_thr b t); cbn in Q; auto; lia. }
    split; [|exact Z]. eapply finished; eauto.
  Qed.

  Lemma caught_end n ks tr c : p_catch P <> None -> Nw <= p_main P -> csteps P (cstart P n) ks tr c -> stopped_for_good P c ->
    (forall t, t < N -> c_thr c t = Some []) /\ idle_all c.
  Proof.
    intros Hc Hm H St. destruct (run _ _ _ _ H) as (E&M&_&L&L2).
    assert (AL : c_dead c = false) by (destruct (c_dead c) eqn:Q; [destruct (L2 eq_refl); congruence|reflexivity]).
    destruct (L AL) as (D&I). destruct c as [b f d]. cbn in AL. subst d. cbn [c_bar c_thr] in *.
    assert (Z : forall t, b_thr b t = TIdle).
    { intros t. destruct (b_thr b t) eqn:Q; [reflexivity| | | | | |]; exfalso;
        (destruct (some_step _ _ _ _ _ E) as (k&e&b'&S&K); [exists t; rewrite Q; discriminate|];
         destruct (bar_goes _ _ _ _ _ _ _ _ I S) as (e'&c'&X); [destruct K as [->| ->]; discriminate|];
         pose proof (St _ _ _ X) as Y; destruct K as [->| ->]; discriminate). }
    split; [|exact Z]. eapply finished; eauto.
    - intros rest F. pose proof (i_shape _ _ _ _ _ _ I (p_main P)) as S. cbn [c_thr c_bar] in S. rewrite F in S.
      destruct S as [[S _]|(_&d1&m&r&r0&d2&h&B1&B2&B3&B4&B5&B6)]; [exact S|exfalso].
      pose proof (i_calls _ _ _ _ _ _ I (p_main P)) as Q. specialize (M (p_main P)). unfold most in M. destruct (Nat.ltb_spec (p_main P) Nw); [lia|].
      rewrite B4, num_app, num_cons in Q. cbn in Q. lia.
    - intros k e c' X. pose proof (St _ _ _ X) as ->. split; discriminate.
  Qed.

  (* how many steps there can be *)
  Lemma effort_split ks : effort ks = acts ks + forced_steps (bks ks) /\ spurious ks = spurious_steps (bks ks) /\ (calm ks -> work_steps (bks ks) = forced_steps (bks ks)).
  Proof.
    induction ks as [|k ks (A&B&C)]; [cbn; auto|]. replace (bks (k :: ks)) with (bks [k] ++ bks ks) by (symmetry; apply (bks_app [k] ks)).
    assert (Q : calm (k :: ks) -> calm ks /\ k <> KBar KExpire) by (unfold calm; cbn; intuition).
    unfold effort, acts, forced_steps, spurious, spurious_steps, work_steps in *. rewrite !filter_app, !app_length.
    destruct k as [|[]]; cbn [filter is_extra negb length bks flat_map app is_forced is_spurious is_work]; repeat split; try lia;
      intros X; destruct (Q X) as [X1 X2]; specialize (C X1); try lia. congruence.
  Qed.
  Lemma calm_effort ks tr c : 1 <= Nw -> (Z.of_nat Nw < two32)%Z -> csteps P (cstart P (Z.of_nat Nw)) ks tr c -> calm ks ->
    effort ks <= sum N (fun t => nact (p_code P t) + caught_acts) + 11 * Nw * R + 2 * spurious ks.
  Proof.
    intros H1 H2 H C. destruct (run _ _ _ _ H) as (E&_&A&_). destruct (run_only _ _ _ _ H) as [O M]. destruct (effort_split ks) as (X&Y&Z).
    pose proof (work_bounded Nw 0 _ _ _ R H1 H2 ltac:(unfold two32; lia) E O (calm_bks _ C) M). rewrite (Z C) in *. lia.
  Qed.
  Lemma any_effort n ks tr c : csteps P (cstart P n) ks tr c ->
    effort ks <= sum N (fun t => nact (p_code P t) + caught_acts) + (3 * Nw + 15) * Nw * R + 2 * spurious ks.
  Proof.
    intros H. destruct (run _ _ _ _ H) as (E&_&A&_). destruct (run_only _ _ _ _ H) as [O M]. destruct (effort_split ks) as (X&Y&_).
    pose proof (steps_bounded Nw R n 0 _ _ _ E O M). lia.
  Qed.
End Run.
