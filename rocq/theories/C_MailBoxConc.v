(* C_MailBoxConc.v *)
From Verif Require Import Base M_MailBox M_MailBoxConc S_MailBox S_MailBoxConc L_Map L_MailBox L_MailBoxConc.

Section C.
Context {M : Type}.
Notation mret := (mret M).

Lemma c62 names (tr : list (ev M)) st : csteps (cinit names) tr st ->
  exists o w rs, sequential names o w rs /\ respects_time tr o /\
    (forall t, prefix (of_t t o) (calls_of t tr)) /\
    (forall t, prefix (rets_of t tr) (of_t t rs)) /\
    (forall t, thr st t = Idle -> of_t t o = calls_of t tr /\ of_t t rs = rets_of t tr) /\
    (forall b, owner st b = None -> boxes st b = w b).
Proof.
  intros H. destruct (inv_run _ _ _ H) as (o & w & rs & I). exists o, w, rs.
  split; [exact (i_seq _ _ _ _ _ _ I)|]. split; [exact (i_time _ _ _ _ _ _ I)|].
  pose proof (i_thr _ _ _ _ _ _ I) as T. split; [|split; [|split]].
  - intros t. specialize (T t). destruct (thr st t).
    + destruct T as [-> _]. exists []. rewrite app_nil_r. reflexivity.
    + destruct T as [-> _]. eexists. reflexivity.
    + destruct T as [-> _]. exists []. rewrite app_nil_r. reflexivity.
    + destruct T as [-> _]. exists []. rewrite app_nil_r. reflexivity.
  - intros t. specialize (T t). destruct (thr st t).
    + destruct T as [_ ->]. exists []. rewrite app_nil_r. reflexivity.
    + destruct T as [_ ->]. exists []. rewrite app_nil_r. reflexivity.
    + destruct T as (_ & _ & r & -> & _). eexists. reflexivity.
    + destruct T as [_ ->]. eexists. reflexivity.
  - intros t E. specialize (T t). rewrite E in T. exact T.
  - intros b E. pose proof (i_own _ _ _ _ _ _ I b) as O. rewrite E in O. exact O.
Qed.

Lemma c62_mutex names (tr : list (ev M)) st t1 t2 b p1 p2 : csteps (cinit names) tr st ->
  thr st t1 = Inside b p1 -> thr st t2 = Inside b p2 -> t1 = t2.
Proof.
  intros H E1 E2. destruct (inv_run _ _ _ H) as (o & w & rs & I). pose proof (i_thr _ _ _ _ _ _ I) as T.
  pose proof (T t1) as T1. pose proof (T t2) as T2. rewrite E1 in T1. rewrite E2 in T2.
  destruct T1 as (_ & O1 & _). destruct T2 as (_ & O2 & _). congruence.
Qed.

(* ---- progress ---- *)
Lemma csteps_trans (s0 : cstate M) tr s1 tr' s2 : csteps s0 tr s1 -> csteps s1 tr' s2 -> csteps s0 (tr ++ tr') s2.
Proof.
  intros H1 H2. revert H1. induction H2; intros H1.
  - rewrite app_nil_r. exact H1.
  - rewrite app_assoc. econstructor; eauto.
Qed.
Lemma csteps_one (s0 : cstate M) e s1 : cstep s0 e s1 -> csteps s0 e s1.
Proof. intros H. change e with ([] ++ e). econstructor; [constructor|exact H]. Qed.

Definition no_calls (tr : list (ev M)) := forall t, calls_of t tr = [].

Lemma nc_nil : no_calls []. Proof. intros t. reflexivity. Qed.
Lemma nc_app a b : no_calls a -> no_calls b -> no_calls (a ++ b).
Proof. intros A B t. rewrite calls_app, A, B. reflexivity. Qed.
Lemma nc_ret t r : no_calls [Ret t r].
Proof. intros t'. reflexivity. Qed.

(* a thread inside gets out, nobody else moves *)
Lemma leave (st : cstate M) t b p mb r : brun (names_of (boxes st)) b (boxes st b) p mb r -> thr st t = Inside b p ->
  exists st', csteps st [] st' /\ thr st' t = Leaving r /\ (forall t', t' <> t -> thr st' t' = thr st t') .
Proof.
  intros H. remember (names_of (boxes st)) as nm. remember (boxes st b) as mb0.
  assert (Hn : forall x, nm x = names_of (boxes st) x) by (subst; reflexivity). clear Heqnm.
  revert st Heqmb0 Hn. induction H; intros st Em Hn Et; subst.
  - eexists. split; [apply csteps_one; eapply c_unlock; [exact Et|]; erewrite <- (bstep_ext nm); [exact H|exact Hn]|].
    split; [apply set_thr_same|]. intros t' D. rewrite set_thr_other by exact D. reflexivity.
  - set (st1 := set_thr (set_box st b mb1) t (Inside b p1)).
    destruct (IHbrun st1) as (st' & C & E1 & E2); auto.
    + cbn. symmetry. apply upd_same.
    + intros x. rewrite Hn. unfold names_of, st1. cbn. destruct (Nat.eq_dec x b) as [->|D].
      * rewrite upd_same. pose proof (bstep_name nm b (boxes st b) p) as X. rewrite H in X. symmetry. exact X.
      * rewrite upd_other by exact D. reflexivity.
    + apply set_thr_same.
    + exists st'. split; [|split; [exact E1|]].
      * apply (csteps_trans st [] st1 [] st'); [|exact C]. apply csteps_one.
        eapply c_work; [exact Et|]. erewrite <- (bstep_ext nm); [exact H|exact Hn].
      * intros t' D. rewrite E2 by exact D. unfold st1. rewrite set_thr_other by exact D. reflexivity.
Qed.

Lemma finish_one names (tr : list (ev M)) st t : csteps (cinit names) tr st ->
  (forall b c, thr st t = Want b c -> owner st b = None) ->
  exists st' tr', csteps st tr' st' /\ no_calls tr' /\ thr st' t = Idle /\ (forall t', t' <> t -> thr st' t' = thr st t').
Proof.
  intros H Hw. destruct (inv_run _ _ _ H) as (o & w & rs & I).
  assert (IN : forall st0 tr0, csteps (cinit names) tr0 st0 -> forall b p, thr st0 t = Inside b p ->
     exists st' tr', csteps st0 tr' st' /\ no_calls tr' /\ thr st' t = Idle /\ (forall t', t' <> t -> thr st' t' = thr st0 t')).
  { intros st0 tr0 H0 b p E. destruct (inv_run _ _ _ H0) as (o0 & w0 & rs0 & I0).
    pose proof (i_thr _ _ _ _ _ _ I0 t) as T. rewrite E in T. destruct T as (_ & _ & r & _ & B).
    assert (B' : brun (names_of (boxes st0)) b (boxes st0 b) p (w0 b) r).
    { clear -B I0. induction B; [apply br_ret|eapply br_step; [|exact IHB]]; rewrite <- H; apply bstep_ext, (i_names _ _ _ _ _ _ I0). }
    destruct (leave st0 t b p _ r B' E) as (st1 & C & E1 & E2).
    exists (set_thr st1 t Idle), ([] ++ [Ret t r]). split; [|split; [|split]].
    - eapply csteps_trans; [exact C|]. apply csteps_one, c_return, E1.
    - apply nc_ret.
    - apply set_thr_same.
    - intros t' D. rewrite set_thr_other by exact D. apply E2, D. }
  destruct (thr st t) as [|b c|b p|r] eqn:E.
  - exists st, []. split; [constructor|]. split; [apply nc_nil|auto].
  - set (st1 := set_thr (set_owner st b (Some t)) t (Inside b (PStart c))).
    assert (S1 : cstep st [] st1) by (apply c_lock; [exact E|exact (Hw b c eq_refl) || exact (Hw b c E)]).
    destruct (IN st1 (tr ++ []) ltac:(eapply csteps_trans; [exact H|apply csteps_one, S1]) b (PStart c) (set_thr_same _ _ _)) as (st' & tr' & C & N & F & G).
    exists st', ([] ++ tr'). split; [eapply csteps_trans; [apply csteps_one, S1|exact C]|]. split; [exact N|]. split; [exact F|].
    intros t' D. rewrite G by exact D. unfold st1. rewrite set_thr_other by exact D. reflexivity.
  - eapply IN; eauto.
  - exists (set_thr st t Idle), [Ret t r]. split; [apply csteps_one, c_return, E|]. split; [apply nc_ret|]. split; [apply set_thr_same|].
    intros t' D. apply set_thr_other, D.
Qed.

Lemma busy_called names (tr : list (ev M)) st : csteps (cinit names) tr st ->
  forall t, thr st t <> Idle -> exists b c, In (Inv t b c) tr.
Proof.
  intros H t N. destruct (inv_run _ _ _ H) as (o & w & rs & I). pose proof (i_thr _ _ _ _ _ _ I t) as T.
  assert (L : calls_of t tr <> []).
  { pose proof (thr_bounds _ _ _ _ _ _ I t) as B. destruct (i_seq _ _ _ _ _ _ I) as [_ Ef]. pose proof (len_of t o rs Ef) as Ln.
    intros Z. rewrite Z in *. cbn in B. destruct (thr st t).
    - congruence.
    - destruct T as [T _]. destruct (of_t t o); discriminate T.
    - destruct T as (_ & _ & r & T & _). rewrite T, app_length in Ln. cbn in Ln. lia.
    - destruct T as (_ & T). rewrite T, app_length in Ln. cbn in Ln. lia. }
  clear -L. induction tr as [|[t' b c|t' r] tr IH]; cbn in L; [congruence| |].
  - destruct (Nat.eqb_spec t' t) as [->|D]; [exists b, c; left; reflexivity|]. destruct (IH L) as (b' & c' & X). exists b', c'. right; exact X.
  - destruct (IH L) as (b' & c' & X). exists b', c'. right; exact X.
Qed.

Lemma finish_list names l : forall (tr : list (ev M)) st, csteps (cinit names) tr st ->
  (forall t, In t l -> forall b c, thr st t = Want b c -> owner st b = None) ->
  (forall t b p, thr st t = Inside b p -> In t l) ->
  (* either nobody wants a lock, or nobody is inside *)
  ((forall t, In t l -> forall b c, thr st t <> Want b c) \/ (forall t b p, thr st t <> Inside b p)) ->
  exists st' tr', csteps st tr' st' /\ no_calls tr' /\ (forall t, In t l -> thr st' t = Idle) /\
    (forall t, ~ In t l -> thr st' t = thr st t).
Proof.
  induction l as [|t l IH]; intros tr st H Hw Hi Hd.
  - exists st, []. split; [constructor|]. split; [apply nc_nil|]. split; [intros t []|auto].
  - destruct (finish_one names tr st t H (Hw t (or_introl eq_refl))) as (st1 & tr1 & C1 & N1 & F1 & G1).
    assert (H1 : csteps (cinit names) (tr ++ tr1) st1) by (eapply csteps_trans; eauto).
    assert (OW : (forall t b p, thr st1 t <> Inside b p) -> forall b, owner st1 b = None).
    { intros NI b. destruct (inv_run _ _ _ H1) as (o & w & rs & I). pose proof (i_own _ _ _ _ _ _ I b) as O.
      destruct (owner st1 b); [|reflexivity]. destruct O as [p O]. destruct (NI _ _ _ O). }
    assert (ST : forall t', thr st1 t' = Idle \/ thr st1 t' = thr st t').
    { intros t'. destruct (Nat.eq_dec t' t) as [->|D]; [left; exact F1|right; apply G1, D]. }
    destruct (IH (tr ++ tr1) st1 H1) as (st2 & tr2 & C2 & N2 & F2 & G2).
    + intros t' It b c E. destruct Hd as [Hd|Hd].
      * exfalso. destruct (ST t') as [X|X]; [congruence|]. apply (Hd t' (or_intror It) b c). congruence.
      * apply OW. intros t0 b0 p0 X. destruct (ST t0) as [Y|Y]; [congruence|]. apply (Hd t0 b0 p0). congruence.
    + intros t' b p E. destruct (Nat.eq_dec t' t) as [->|D]; [congruence|]. rewrite G1 in E by exact D.
      destruct (Hi _ _ _ E); [congruence|assumption].
    + destruct Hd as [Hd|Hd]; [left|right].
      * intros t' It b c E. destruct (ST t') as [X|X]; [congruence|]. apply (Hd t' (or_intror It) b c). congruence.
      * intros t' b p E. destruct (ST t') as [X|X]; [congruence|]. apply (Hd t' b p). congruence.
    + exists st2, (tr1 ++ tr2). split; [eapply csteps_trans; eauto|]. split; [apply nc_app; auto|]. split.
      * intros t' [<-|It]; [|auto]. destruct (in_dec Nat.eq_dec t l) as [J|J]; [auto|]. rewrite G2 by exact J. exact F1.
      * intros t' N. rewrite G2 by (intros X; apply N; right; exact X). apply G1. intros ->. apply N. left; reflexivity.
Qed.

Definition tid_of (e : ev M) : nat := match e with Inv t _ _ => t | Ret t _ => t end.

Lemma progress names (tr : list (ev M)) st : csteps (cinit names) tr st ->
  exists st' tr', csteps st tr' st' /\ no_calls tr' /\ forall t, thr st' t = Idle.
Proof.
  intros H.
  assert (BC : forall t, thr st t <> Idle -> In t (map tid_of tr)).
  { intros t N. destruct (busy_called _ _ _ H t N) as (b & c & I). apply (in_map tid_of) in I. exact I. }
  set (ins := filter (fun t => match thr st t with Inside _ _ | Leaving _ => true | _ => false end) (map tid_of tr)).
  destruct (finish_list names ins tr st H) as (st1 & tr1 & C1 & N1 & F1 & G1).
  - intros t It b c E. apply filter_In in It. rewrite E in It. destruct It; discriminate.
  - intros t b p E. apply filter_In. rewrite E. split; [apply BC; congruence|reflexivity].
  - left. intros t It b c E. apply filter_In in It. rewrite E in It. destruct It; discriminate.
  - assert (H1 : csteps (cinit names) (tr ++ tr1) st1) by (eapply csteps_trans; eauto).
    assert (NI : forall t b p, thr st1 t <> Inside b p).
    { intros t b p E. destruct (in_dec Nat.eq_dec t ins) as [J|J]; [rewrite F1 in E by exact J; discriminate|].
      rewrite G1 in E by exact J. apply J, filter_In. rewrite E. split; [apply BC; congruence|reflexivity]. }
    assert (OW : forall b, owner st1 b = None).
    { intros b. destruct (inv_run _ _ _ H1) as (o & w & rs & I). pose proof (i_own _ _ _ _ _ _ I b) as O.
      destruct (owner st1 b); [|reflexivity]. destruct O as [p O]. destruct (NI _ _ _ O). }
    destruct (finish_list names (map tid_of (tr ++ tr1)) (tr ++ tr1) st1 H1) as (st2 & tr2 & C2 & N2 & F2 & G2).
    + intros t _ b c _. apply OW.
    + intros t b p E. destruct (NI _ _ _ E).
    + right. exact NI.
    + exists st2, (tr1 ++ tr2). split; [eapply csteps_trans; eauto|]. split; [apply nc_app; auto|].
      intros t. destruct (in_dec Nat.eq_dec t (map tid_of (tr ++ tr1))) as [J|J]; [auto|]. rewrite G2 by exact J.
      destruct (thr st1 t) eqn:E; [reflexivity|..]; exfalso; apply J;
        (destruct (busy_called _ _ _ H1 t) as (b0 & c0 & I0); [congruence|apply (in_map tid_of) in I0; exact I0]).
Qed.
End C.
