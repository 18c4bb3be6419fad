(* L_Progress.v -- pending mailbox calls finish in every schedule *)
From Verif Require Import Base L_Map M_MailBox M_MailBoxConc S_MailBox S_MailBoxConc L_Barrier L_MailBoxConc C_MailBoxConc.
Local Open Scope nat_scope.

Section P.
Context {M : Type}.
Notation mbox := (mbox M). Notation pc := (pc M).

Definition total (mb : mbox) : nat := list_sum (map (fun kq => length (snd kq)) (mb_queues mb)).
Definition room (mb : mbox) (p : pc) : nat :=
  match p with
  | PStart _ => 4 + length (mb_queues mb) + total mb
  | PSubCount _ => 1
  | PGet _ => 2
  | PGetPop _ _ => 1
  | PPut _ _ ks => 1 + length ks
  | PReady _ => 1
  | PMin _ ks => 1 + length ks
  | PClear i => 1 + length (queue mb i)
  | PUnsub i => 1 + length (queue mb i)
  end.
Lemma queue_total (mb : mbox) i : length (queue mb i) <= total mb.
Proof.
  unfold queue, total, q_find. induction (mb_queues mb) as [|[k q] l IH]; cbn; [lia|]. fold (list_sum (map (fun kq : Z * list (option M) => length (snd kq)) l)).
  unfold list_sum in IH. cbn in IH. destruct (Z.compare i k); cbn in *; unfold list_sum; lia.
Qed.
Lemma queue_set (mb : mbox) i q : queue (set_queue mb i q) i = q.
Proof.
  unfold queue, set_queue, q_find, q_set. cbn. induction (mb_queues mb) as [|[k v] l IH]; cbn.
  - rewrite Z.compare_refl. reflexivity.
  - destruct (Z.compare i k) eqn:E; cbn; rewrite ?Z.compare_refl, ?E; auto.
Qed.
Lemma room_step names b (mb : mbox) p mb' p' : bstep names b mb p = (mb', inl p') -> room mb' p' < room mb p.
Proof.
  assert (L : length (keys mb) = length (mb_queues mb)) by apply map_length.
  assert (T := queue_total mb).
  destruct p as [[]|i|i|i m|o m ks|i|r ks|i|i]; cbn [bstep]; unfold lookup, terminate_on_throw, obind;
    repeat match goal with
    | |- context [match ?x with _ => _ end] => let E := fresh "E" in destruct x eqn:E
    end; intros X; inversion X; subst; clear X; cbn [room length];
    try rewrite queue_set; repeat match goal with H : queue _ _ = _ |- _ => rewrite H in *; clear H end; cbn [length] in *;
    try lia; try (match goal with |- context [queue ?mb ?i] => specialize (T i) end; lia);
    repeat match goal with H : _ = _ |- _ => (injection H; clear H; intros; subst; cbn [room]) || (discriminate H) end;
    try (match goal with |- context [queue ?mb ?i] => specialize (T i) end; lia).
  all: repeat match goal with H : match ?x with _ => _ end = _ |- _ => destruct x eqn:?; try discriminate H end;
    repeat match goal with H : (_, _) = (_, _) |- _ => injection H; clear H; intros; subst end; cbn [room]; try specialize (T (sub_idx s)); lia.
Qed.

(* ---- the rank of a state whose threads from n on are idle ---- *)
Notation cstate := (cstate M).
Definition wanting (st : cstate) (t : nat) : bool := match thr st t with Want _ _ => true | _ => false end.
Definition left_to_do (st : cstate) (t : nat) : nat :=
  match thr st t with Idle | Want _ _ => 0 | Inside b p => 1 + room (boxes st b) p | Leaving _ => 1 end.
Definition idle_from (n : nat) (st : cstate) : Prop := forall t, n <= t -> thr st t = Idle.
Definition quiet (e : list (ev M)) : Prop := forall t b c, ~ In (Inv t b c) e.

Lemma rank_step names n tr (st : cstate) e st' : csteps (cinit names) tr st -> idle_from n st -> quiet e -> cstep st e st' ->
  idle_from n st' /\
  (cnt n (wanting st') < cnt n (wanting st) \/
   (cnt n (wanting st') = cnt n (wanting st) /\ sum n (left_to_do st') < sum n (left_to_do st))).
Proof.
  intros R I Q S. destruct S as [st t b c E|st t b c E O|st t b p mb p' E B|st t b p mb r E B|st t r E].
  - exfalso. exact (Q t b c (or_introl eq_refl)).
  - assert (Ht : t < n) by (destruct (le_lt_dec n t) as [X|X]; [rewrite (I t X) in E; discriminate|exact X]).
    split.
    + intros u Hu. rewrite set_thr_other by lia. apply I, Hu.
    + left. set (st' := set_thr _ _ _). pose proof (cnt_upd n (wanting st') (wanting st) t Ht) as X.
      assert (A : wanting st t = true) by (unfold wanting; rewrite E; reflexivity).
      assert (A' : wanting st' t = false) by (unfold wanting, st'; rewrite set_thr_same; reflexivity).
      rewrite A, A' in X. cbn in X. enough (cnt n (wanting st') + 1 = cnt n (wanting st) + 0) by lia. apply X.
      intros u D. unfold wanting, st'. rewrite set_thr_other by exact D. reflexivity.
  - assert (Ht : t < n) by (destruct (le_lt_dec n t) as [X|X]; [rewrite (I t X) in E; discriminate|exact X]).
    split; [intros u Hu; rewrite set_thr_other by lia; apply I, Hu|]. right. set (st' := set_thr _ _ _).
    assert (Th : forall u, u <> t -> thr st' u = thr st u) by (intros u D; unfold st'; rewrite set_thr_other by exact D; reflexivity).
    assert (Tt : thr st' t = Inside b p') by apply set_thr_same.
    split.
    + apply cnt_ext. intros u _. destruct (Nat.eq_dec u t) as [->|D]; unfold wanting; [rewrite Tt, E; reflexivity|rewrite Th by exact D; reflexivity].
    + pose proof (sum_upd n (left_to_do st') (left_to_do st) t Ht) as X.
      assert (A : left_to_do st t = 1 + room (boxes st b) p) by (unfold left_to_do; rewrite E; reflexivity).
      assert (A' : left_to_do st' t = 1 + room mb p') by (unfold left_to_do; rewrite Tt; cbn; unfold upd; rewrite Nat.eqb_refl; reflexivity).
      pose proof (room_step _ _ _ _ _ _ B) as RS.
      assert (X' := X ltac:(intros u D; unfold left_to_do; rewrite Th by exact D; destruct (thr st u) as [| |b2 p2|] eqn:Eu; try reflexivity;
        cbn; unfold upd; destruct (Nat.eqb_spec b2 b) as [->|Db]; [exfalso; apply D; eapply c62_mutex; eassumption|reflexivity])).
      lia.
  - assert (Ht : t < n) by (destruct (le_lt_dec n t) as [X|X]; [rewrite (I t X) in E; discriminate|exact X]).
    split; [intros u Hu; rewrite set_thr_other by lia; apply I, Hu|]. right. set (st' := set_thr _ _ _).
    assert (Th : forall u, u <> t -> thr st' u = thr st u) by (intros u D; unfold st'; rewrite set_thr_other by exact D; reflexivity).
    assert (Tt : thr st' t = Leaving r) by apply set_thr_same.
    split.
    + apply cnt_ext. intros u _. destruct (Nat.eq_dec u t) as [->|D]; unfold wanting; [rewrite Tt, E; reflexivity|rewrite Th by exact D; reflexivity].
    + pose proof (sum_upd n (left_to_do st') (left_to_do st) t Ht) as X.
      assert (A : left_to_do st t = 1 + room (boxes st b) p) by (unfold left_to_do; rewrite E; reflexivity).
      assert (A' : left_to_do st' t = 1) by (unfold left_to_do; rewrite Tt; reflexivity).
      assert (P : 1 <= room (boxes st b) p) by (destruct p; cbn; lia).
      assert (X' := X ltac:(intros u D; unfold left_to_do; rewrite Th by exact D; destruct (thr st u) as [| |b2 p2|] eqn:Eu; try reflexivity;
        cbn; unfold upd; destruct (Nat.eqb_spec b2 b) as [->|Db]; [exfalso; apply D; eapply c62_mutex; eassumption|reflexivity])).
      lia.
  - assert (Ht : t < n) by (destruct (le_lt_dec n t) as [X|X]; [rewrite (I t X) in E; discriminate|exact X]).
    assert (Th : forall u, u <> t -> thr (set_thr st t Idle) u = thr st u) by (intros u D; apply set_thr_other, D).
    assert (Tt : thr (set_thr st t Idle) t = Idle) by apply set_thr_same.
    split; [intros u Hu; rewrite Th by lia; apply I, Hu|]. right.
    split.
    + apply cnt_ext. intros u _. destruct (Nat.eq_dec u t) as [->|D]; unfold wanting; [rewrite Tt, E; reflexivity|rewrite Th by exact D; reflexivity].
    + pose proof (sum_upd n (left_to_do (set_thr st t Idle)) (left_to_do st) t Ht) as X.
      assert (A : left_to_do st t = 1) by (unfold left_to_do; rewrite E; reflexivity).
      assert (A' : left_to_do (set_thr st t Idle) t = 0) by (unfold left_to_do; rewrite Tt; reflexivity).
      assert (X' := X ltac:(intros u D; unfold left_to_do; rewrite Th by exact D; reflexivity)).
      lia.
Qed.

Lemma idle_somewhere names tr (st : cstate) : csteps (cinit names) tr st -> exists n, idle_from n st.
Proof.
  intros R. exists (S (list_max (map tid_of tr))). intros t H.
  assert (C : thr st t = Idle \/ thr st t <> Idle) by (destruct (thr st t); [left; reflexivity|right; discriminate..]).
  destruct C as [C|C]; [exact C|exfalso]. destruct (busy_called names tr st R t C) as (b' & c' & X).
  apply (in_map tid_of) in X. cbn in X. pose proof (proj1 (list_max_le (map tid_of tr) _) (le_n _)) as Y. rewrite Forall_forall in Y. specialize (Y _ X). lia.
Qed.

(* no infinite schedule without a new call *)
Lemma no_infinite names tr (f : nat -> cstate) : csteps (cinit names) tr (f 0) ->
  ~ (forall i, exists e, quiet e /\ cstep (f i) e (f (S i))).
Proof.
  intros R ST. destruct (idle_somewhere _ _ _ R) as (n & I).
  assert (RI : forall i, exists tr, csteps (cinit names) tr (f i)).
  { induction i as [|i (tr' & IH)]; [eauto|]. destruct (ST i) as (e & _ & X). exists (tr' ++ e). econstructor; eauto. }
  assert (II : forall i, idle_from n (f i)).
  { induction i as [|i IH]; [exact I|]. destruct (RI i) as (tr' & R'). destruct (ST i) as (e & Q & X). exact (proj1 (rank_step names n tr' _ _ _ R' IH Q X)). }
  assert (D : forall w s i, cnt n (wanting (f i)) = w -> sum n (left_to_do (f i)) = s -> False).
  { induction w as [w IHw] using lt_wf_ind. induction s as [s IHs] using lt_wf_ind. intros i Ew Es.
    destruct (RI i) as (tr' & R'). destruct (ST i) as (e & Q & X).
    destruct (proj2 (rank_step names n tr' _ _ _ R' (II i) Q X)) as [L|[L1 L2]].
    - rewrite Ew in L. eapply (IHw _ L _ (S i)); reflexivity.
    - rewrite Es in L2. eapply (IHs _ L2 (S i)); [rewrite L1; exact Ew|reflexivity]. }
  eapply (D _ _ 0); reflexivity.
Qed.

(* a state in which no step is possible but a new call: everybody is idle *)
Lemma stuck_idle names tr (st : cstate) : csteps (cinit names) tr st ->
  (forall e st', quiet e -> ~ cstep st e st') -> forall t, thr st t = Idle.
Proof.
  intros R N t. assert (NI : forall u b p, thr st u <> Inside b p).
  { intros u b p E. destruct (bstep (names_of (boxes st)) b (boxes st b) p) as [mb [p'|r]] eqn:B.
    - eapply (N []); [intros ? ? ? []|eapply c_work; eassumption].
    - eapply (N []); [intros ? ? ? []|eapply c_unlock; eassumption]. }
  destruct (thr st t) as [|b c|b p|r] eqn:E; [reflexivity|exfalso..].
  - assert (O : owner st b = None).
    { destruct (inv_run _ _ _ R) as (o & w & rs & I). pose proof (i_own _ _ _ _ _ _ I b) as O.
      destruct (owner st b); [|reflexivity]. destruct O as [p O]. destruct (NI _ _ _ O). }
    eapply (N []); [intros ? ? ? []|eapply c_lock; eassumption].
  - exact (NI t b p E).
  - eapply (N [Ret t r]); [intros ? ? ? [X|[]]; discriminate|eapply c_return; eassumption].
Qed.
End P.
