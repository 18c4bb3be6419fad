(* L_MailBoxLife.v *)
From Verif Require Import Base M_MailBox S_MailBox L_Map L_MailBox C_MailBox M_MailBoxLife S_MailBoxLife C_Messages.

Section L.
Context {M : Type}.
Implicit Types (w : lworld M) (k : holds) (c : call M) (r : mret M).

Definition toW w : world M := fun a => match w a with Some (mb, _) => mb | None => newBox [] end.
Lemma toW_names w a : names_of (toW w) a = lnames w a.
Proof. unfold names_of, toW, lnames. destruct (w a) as [[mb n]|]; reflexivity. Qed.
Lemma lset_same w a x : lset w a x a = x.
Proof. unfold lset. rewrite Nat.eqb_refl. reflexivity. Qed.
Lemma lset_other w a x b : b <> a -> lset w a x b = w b.
Proof. unfold lset. destruct (Nat.eqb_spec b a); congruence. Qed.

(* only the name of the mailbox itself shows in what a call does *)
Lemma mismatch_any name x y : subscriptionMismatch name x = subscriptionMismatch name y.
Proof. unfold subscriptionMismatch. do 2 f_equal. Qed.
Lemma getIndex_names n1 n2 a s : n1 a = n2 a -> getIndex n1 a s = getIndex n2 a s.
Proof.
  intros E. unfold getIndex. destruct s as [s|]; [|reflexivity]. destruct (Nat.eqb _ _); [reflexivity|]. rewrite E.
  rewrite (mismatch_any _ _ (n2 (sub_mbox s))). reflexivity.
Qed.
Lemma exec1_names n1 n2 a (mb : mbox M) c : n1 a = n2 a -> exec1 n1 a mb c = exec1 n2 a mb c.
Proof.
  intros E. destruct c as [|s|m s|s| |s|j| |s]; cbn; try reflexivity;
    unfold get, put, readyCount, clear; rewrite ?(getIndex_names n1 n2 a s E); reflexivity.
Qed.

(* ---- safety ---- *)
Definition I (n : Z) k w : Prop :=
  (forall a, match w a with Some (_, m) => h_ptrs k a = m /\ 0 < m | None => h_ptrs k a = 0 end) /\
  wfw (toW w) /\
  (forall s, In s (h_subs k) -> w (sub_mbox s) <> None /\ live (toW w) s) /\
  (forall a, (mb_counter (toW w a) <= n)%Z).

Lemma wf_new name : wf (newBox name : mbox M).
Proof. split; [constructor|]. split; [intros x []|]. cbn. unfold two31. lia. Qed.

Lemma I0 : I 0 nothing lnone.
Proof. split; [intros a; reflexivity|]. split; [intros b; apply wf_new|]. split; [intros s []|]. intros a. cbn. lia. Qed.

Lemma exec1_not_ub names a mb c : wf mb -> (mb_counter mb < two31 - 1)%Z -> (forall s, c <> CDrop s) ->
  (forall i, c <> CUnsubscribe i) ->
  match c with CGet None | CReadyCount None | CClear None => False | _ => True end ->
  snd (exec1 names a mb c) <> MUB /\ snd (exec1 names a mb c) <> MTerminate.
Proof.
  intros W C ND NU NN. destruct c as [|s|m s|s| |s|j| |s]; cbn.
  - unfold subscribe. destruct (Z.ltb_spec (mb_counter mb) (two31 - 1)); [|lia]. split; discriminate.
  - destruct s as [s|]; [|destruct NN]. unfold get, getIndex. destruct (Nat.eqb _ _); cbn; [|split; discriminate].
    unfold getQueue. destruct (q_find _ _) as [[|x q]|]; cbn; split; discriminate.
  - unfold put, getIndex. destruct s as [s|]; [destruct (Nat.eqb _ _)|]; cbn; split; discriminate.
  - destruct s as [s|]; [|destruct NN]. unfold readyCount, getIndex. destruct (Nat.eqb _ _); cbn; [|split; discriminate].
    unfold getQueue. destruct (q_find _ _); cbn; split; discriminate.
  - split; discriminate.
  - destruct s as [s|]; [|destruct NN]. unfold clear, getIndex. destruct (Nat.eqb _ _); cbn; [|split; discriminate].
    unfold getQueue. destruct (q_find _ _); cbn; split; discriminate.
  - destruct (NU j); reflexivity.
  - split; discriminate.
  - destruct (ND s); reflexivity.
Qed.

(* a call on a mailbox that exists is the call of M_MailBox *)
Lemma call_exec w a mb n c : w a = Some (mb, n) ->
  exec (toW w) a c = (upd (toW w) a (fst (exec1 (lnames w) a mb c)), snd (exec1 (lnames w) a mb c)).
Proof.
  intros E. unfold exec. assert (T : toW w a = mb) by (unfold toW; rewrite E; reflexivity). rewrite T.
  rewrite (exec1_names (names_of (toW w)) (lnames w) a mb c) by apply toW_names.
  destruct (exec1 _ a mb c); reflexivity.
Qed.
Lemma toW_set w a mb n b : toW (lset w a (Some (mb, n))) b = upd (toW w) a mb b.
Proof. unfold toW, upd, lset. destruct (Nat.eqb_spec b a); reflexivity. Qed.
Lemma toW_ext w (v : world M) : (forall b, toW w b = v b) -> (wfw v -> wfw (toW w)) /\ (forall s, live v s -> live (toW w) s).
Proof.
  intros E. split.
  - intros W b. rewrite E. apply W.
  - intros s (q & F). exists q. unfold waiting in *. rewrite E. exact F.
Qed.
Lemma filter_sub s l s' : In s' (filter (fun x => negb (same_sub s x)) l) -> In s' l /\ same_sub s s' = false.
Proof. rewrite filter_In. intros [H1 H2]. split; [exact H1|]. apply Bool.negb_true_iff, H2. Qed.

Lemma I_step n k w x w' r : I n k w -> (n < two31 - 1)%Z -> possible k x -> careful k x -> lexec w x = (w', r) ->
  (r <> MUB /\ r <> MTerminate) /\ I (n + 1) (held_after k x r) w'.
Proof.
  intros (IP & IW & IS & IC) Hn P C E.
  assert (ALIVE : forall a, 0 < h_ptrs k a -> exists mb m, w a = Some (mb, m)).
  { intros a H. specialize (IP a). destruct (w a) as [[mb m]|]; [eauto|lia]. }
  destruct x as [a name|a|a|a c|s]; cbn in E.
  - (* make *)
    injection E as <- <-. split; [split; discriminate|]. cbn in P.
    assert (N0 : w a = None) by (specialize (IP a); destruct (w a) as [[mb m]|]; [lia|reflexivity]).
    split; [|split; [|split]].
    + intros b. cbn. unfold set_ptrs, lset. destruct (Nat.eqb_spec b a); [lia|apply IP].
    + intros b. rewrite toW_set. unfold upd. destruct (Nat.eqb b a); [apply wf_new|apply IW].
    + cbn. intros s Hs. destruct (IS s Hs) as [A (q & L)]. assert (D : sub_mbox s <> a) by congruence.
      rewrite lset_other by exact D. split; [exact A|]. exists q. unfold waiting in *. rewrite toW_set, upd_other by exact D. exact L.
    + intros b. rewrite toW_set. unfold upd. destruct (Nat.eqb b a); [|specialize (IC b); lia]. cbn. specialize (IC b).
      destruct (IW b) as (_ & _ & Q). lia.
  - (* copy *)
    destruct (ALIVE a P) as (mb & m & Ea). rewrite Ea in E. injection E as <- <-. split; [split; discriminate|].
    assert (T : forall b, toW (lset w a (Some (mb, S m))) b = toW w b).
    { intros b. rewrite toW_set. unfold upd. destruct (Nat.eqb_spec b a) as [->|]; [|reflexivity]. unfold toW. rewrite Ea. reflexivity. }
    destruct (toW_ext _ _ T) as [TW TL].
    split; [|split; [|split]].
    + intros b. cbn. unfold set_ptrs, lset. specialize (IP b). destruct (Nat.eqb_spec b a) as [->|]; [|exact IP]. rewrite Ea in IP. lia.
    + apply TW, IW.
    + cbn. intros s Hs. destruct (IS s Hs) as [A L]. split; [|apply TL, L]. unfold lset. destruct (Nat.eqb _ _); [discriminate|exact A].
    + intros b. rewrite T. specialize (IC b). lia.
  - (* drop a pointer *)
    destruct (ALIVE a P) as (mb & m & Ea). rewrite Ea in E. assert (Pa := IP a). rewrite Ea in Pa. destruct Pa as [Pa Pm].
    cbn in C. destruct m as [|[|m]]; [lia| |].
    + injection E as <- <-. split; [split; discriminate|].
      split; [|split; [|split]].
      * intros b. cbn. unfold set_ptrs, lset. specialize (IP b). destruct (Nat.eqb_spec b a) as [->|]; [|exact IP]. lia.
      * intros b. unfold toW, lset. destruct (Nat.eqb b a); [apply wf_new|]. apply (IW b).
      * cbn. intros s Hs. destruct (IS s Hs) as [A (q & L)]. assert (D : sub_mbox s <> a) by (apply C; auto).
        rewrite lset_other by exact D. split; [exact A|]. exists q. unfold waiting, toW in *. rewrite lset_other by exact D. exact L.
      * intros b. unfold toW, lset. specialize (IC b). destruct (IW b) as (_ & _ & Q). destruct (Nat.eqb b a); [cbn; lia|]. unfold toW in IC. lia.
    + injection E as <- <-. split; [split; discriminate|].
      assert (T : forall b, toW (lset w a (Some (mb, S m))) b = toW w b).
      { intros b. rewrite toW_set. unfold upd. destruct (Nat.eqb_spec b a) as [->|]; [|reflexivity]. unfold toW. rewrite Ea. reflexivity. }
      destruct (toW_ext _ _ T) as [TW TL].
      split; [|split; [|split]].
      * intros b. cbn. unfold set_ptrs, lset. specialize (IP b). destruct (Nat.eqb_spec b a) as [->|]; [|exact IP]. lia.
      * apply TW, IW.
      * cbn. intros s Hs. destruct (IS s Hs) as [A L]. split; [|apply TL, L]. unfold lset. destruct (Nat.eqb _ _); [discriminate|exact A].
      * intros b. rewrite T. specialize (IC b). lia.
  - (* call *)
    destruct P as (P & ND & PS). destruct (ALIVE a P) as (mb & m & Ea). rewrite Ea in E.
    assert (DG : dangling w a c = false).
    { unfold dangling. destruct (sub_of c) as [s|] eqn:Sc; [|reflexivity]. destruct (IS s (PS s eq_refl)) as [A _].
      destruct (w (sub_mbox s)); [apply Bool.andb_false_r|congruence]. }
    rewrite DG in E. destruct (exec1 (lnames w) a mb c) as [mb' r'] eqn:E1. injection E as <- <-.
    assert (TA : toW w a = mb) by (unfold toW; rewrite Ea; reflexivity).
    assert (Cc : (mb_counter mb < two31 - 1)%Z) by (specialize (IC a); rewrite TA in IC; lia).
    assert (Wm : wf mb) by (rewrite <- TA; apply IW).
    assert (NU : forall i, c <> CUnsubscribe i) by (intros i ->; exact C).
    assert (NN : match c with CGet None | CReadyCount None | CClear None => False | _ => True end).
    { destruct c as [|[s|]|x [s|]|[s|]| |[s|]|j| |s]; try exact Logic.I; exact C. }
    destruct (exec1_not_ub (lnames w) a mb c Wm Cc ND NU NN) as [U1 U2]. rewrite E1 in U1, U2. cbn in U1, U2.
    split; [auto|].
    assert (EX := call_exec w a mb m c Ea). rewrite E1 in EX. cbn [fst snd] in EX.
    assert (T : forall b, toW (lset w a (Some (mb', m))) b = upd (toW w) a mb' b) by (intros b; apply toW_set).
    destruct (toW_ext _ _ T) as [TW TL].
    assert (NP : h_ptrs (held_after k (ACall a c) r') = h_ptrs k) by (destruct c; try reflexivity; destruct r' as [[]| | |]; reflexivity).
    split; [|split; [|split]].
    + intros b. rewrite NP. unfold lset. specialize (IP b). destruct (Nat.eqb_spec b a) as [->|]; [|exact IP]. rewrite Ea in IP. exact IP.
    + apply TW. eapply exec_wf; [exact IW|exact EX|exact U1].
    + assert (OLD : forall s, In s (h_subs k) -> lset w a (Some (mb', m)) (sub_mbox s) <> None /\ live (toW (lset w a (Some (mb', m)))) s).
      { intros s Hs. destruct (IS s Hs) as [A L]. split; [unfold lset; destruct (Nat.eqb _ _); [discriminate|exact A]|].
        destruct c as [|o|x o|o| |o|j| |s0]; try (destruct (NU j); reflexivity); try (destruct (ND s0); reflexivity);
          try (apply TL, (live_step _ _ _ _ _ _ IW EX U1 L); reflexivity; fail).
        (* clear *)
        apply TL. clear TL TW. destruct o as [o|]; [|destruct NN]. cbn in E1. unfold M_MailBox.clear, getIndex in E1.
        destruct L as (q & F). unfold live, waiting in *.
        destruct (Nat.eqb (sub_mbox o) a); cbn in E1.
        - unfold getQueue in E1. destruct (q_find (sub_idx o) (mb_queues mb)) as [q0|] eqn:F0; cbn in E1; injection E1 as <- <-.
          + unfold upd. destruct (Nat.eqb_spec (sub_mbox s) a) as [Ea2|]; [|eauto]. cbn. rewrite Ea2, TA in F.
            destruct (Z.eq_dec (sub_idx s) (sub_idx o)) as [->|Dz].
            * exists []. apply (find_insert_same _ Zcmp_eq).
            * exists q. unfold q_find, q_set. rewrite (find_insert_other Z.compare Zcmp_eq) by exact Dz. exact F.
          + exists q. unfold upd. destruct (Nat.eqb_spec (sub_mbox s) a) as [Ea2|]; [|exact F]. rewrite Ea2, TA in F. exact F.
        - injection E1 as <- <-. exists q. unfold upd. destruct (Nat.eqb_spec (sub_mbox s) a) as [Ea2|]; [|exact F]. rewrite Ea2, TA in F. exact F. }
      intros s Hs. assert (NEW : In s (h_subs k) \/ (c = CSubscribe /\ r' = MOk (RSub s))).
      { destruct c; try (left; exact Hs). destruct r' as [[|s0|x|z]|e| |]; try (left; exact Hs). destruct Hs as [<-|Hs]; auto. }
      destruct NEW as [H|[-> ->]]; [apply OLD, H|].
      cbn in E1. unfold subscribe in E1. destruct (Z.ltb_spec (mb_counter mb) (two31 - 1)); [|lia]. injection E1 as <- <-. cbn [sub_mbox].
      rewrite lset_same. split; [discriminate|]. exists []. unfold waiting. rewrite T. cbn [sub_mbox]. rewrite upd_same. cbn. apply (find_insert_same _ Zcmp_eq).
    + intros b. rewrite T. destruct (exec_counter _ _ _ _ _ b EX U1) as [CN _]. rewrite CN. specialize (IC b).
      assert (length (new_ids b (a, c, r')) <= 1); [|lia]. cbn. destruct c; auto. destruct r' as [[]| | |]; auto. destruct (Nat.eqb a b); cbn; auto.
  - (* drop a subscription *)
    cbn in P. destruct (IS s P) as [A (q & L)]. destruct (w (sub_mbox s)) as [[mb m]|] eqn:Ea; [|congruence].
    assert (TA : toW w (sub_mbox s) = mb) by (unfold toW; rewrite Ea; reflexivity).
    assert (DR : drop mb s = (set_queues mb (q_erase (sub_idx s) (mb_queues mb)), MOk RUnit)).
    { unfold drop, unsubscribe, getQueue. unfold waiting in L. rewrite TA in L. rewrite L. reflexivity. }
    rewrite DR in E. set (mb' := set_queues _ _) in *. injection E as <- <-. split; [split; discriminate|].
    assert (EX : exec (toW w) (sub_mbox s) (CDrop s) = (upd (toW w) (sub_mbox s) mb', MOk RUnit)).
    { rewrite (call_exec w (sub_mbox s) mb m (CDrop s) Ea). cbn. rewrite DR. reflexivity. }
    assert (T : forall b, toW (lset w (sub_mbox s) (Some (mb', m))) b = upd (toW w) (sub_mbox s) mb' b) by (intros b; apply toW_set).
    destruct (toW_ext _ _ T) as [TW TL].
    split; [|split; [|split]].
    + intros b. cbn. unfold lset. specialize (IP b). destruct (Nat.eqb_spec b (sub_mbox s)) as [->|]; [|exact IP]. rewrite Ea in IP. exact IP.
    + apply TW. eapply exec_wf; [exact IW|exact EX|discriminate].
    + cbn. intros s' Hs. apply filter_sub in Hs. destruct Hs as [Hs D]. destruct (IS s' Hs) as [A' L']. split.
      * unfold lset. destruct (Nat.eqb _ _); [discriminate|exact A'].
      * apply TL, (live_step _ _ _ _ _ _ IW EX ltac:(discriminate) L'). cbn. exact D.
    + intros b. rewrite T. destruct (exec_counter _ _ _ _ _ b EX ltac:(discriminate)) as [CN _]. rewrite CN. specialize (IC b). cbn. lia.
Qed.

Lemma lsafe h : forall n k w w' rs, I n k w -> (n + Z.of_nat (length h) < two31)%Z -> lrun w h = (w', rs) ->
  throughout possible k h rs -> throughout careful k h rs -> forall r, In r rs -> r <> MUB /\ r <> MTerminate.
Proof.
  induction h as [|x h IH]; intros n k w w' rs HI Hn E P C; cbn in E.
  - injection E as <- <-. intros r [].
  - destruct (lexec w x) as [w1 r1] eqn:E1. destruct (lrun w1 h) as [w2 rs2] eqn:E2. injection E as <- <-.
    cbn in P, C. destruct P as [P Ps], C as [C Cs]. cbn [length] in Hn.
    destruct (I_step n k w x w1 r1 HI ltac:(lia) P C E1) as [U HI2].
    intros r [<-|Hr]; [exact U|]. refine (IH (n + 1)%Z _ w1 w2 rs2 HI2 _ E2 Ps Cs r Hr). lia.
Qed.

(* ---- one mailbox from its making on ---- *)
Lemma no_remake h a : forall w w' rs, lrun w h = (w', rs) -> (forall name, ~ In (AMake a name) h) -> w a = None -> w' a = None.
Proof.
  induction h as [|x h IH]; intros w w' rs E N A; cbn in E; [injection E as <- <-; exact A|].
  destruct (lexec w x) as [w1 r1] eqn:E1. destruct (lrun w1 h) as [w2 rs2] eqn:E2. injection E as <- <-.
  apply (IH w1 w2 rs2 E2); [intros nm Hn; apply (N nm); right; exact Hn|].
  destruct x as [b nm|b|b|b c|s]; cbn in E1.
  - injection E1 as <- _. rewrite lset_other; [exact A|]. intros <-. apply (N nm). left. reflexivity.
  - destruct (w b) as [[mb m]|] eqn:Eb; injection E1 as <- _; [|exact A]. rewrite lset_other; [exact A|]. congruence.
  - destruct (w b) as [[mb [|[|m]]]|] eqn:Eb; injection E1 as <- _; try exact A; rewrite lset_other; congruence.
  - destruct (w b) as [[mb m]|] eqn:Eb; [|injection E1 as <- _; exact A]. destruct (dangling w b c); [injection E1 as <- _; exact A|].
    destruct (exec1 _ b mb c) as [mb' r']. injection E1 as <- _. rewrite lset_other; congruence.
  - destruct (w (sub_mbox s)) as [[mb m]|] eqn:Eb; [|injection E1 as <- _; exact A]. destruct (drop mb s) as [mb' r'].
    injection E1 as <- _. rewrite lset_other; congruence.
Qed.
Lemma lifetime h a name : forall w w' rs mb0 n0 mb n (v : world M), lrun w h = (w', rs) -> (forall nm, ~ In (AMake a nm) h) ->
  (forall r, In r rs -> r <> MUB) -> w a = Some (mb0, n0) -> w' a = Some (mb, n) -> v a = mb0 -> mb_name mb0 = name ->
  exists v', run v (map (fun p => (a, fst p)) (calls_at a h rs)) = (v', map snd (calls_at a h rs)) /\ v' a = mb.
Proof.
  induction h as [|x h IH]; intros w w' rs mb0 n0 mb n v E N NU A0 A1 V NM; cbn in E.
  - injection E as <- <-. exists v. split; [reflexivity|]. congruence.
  - destruct (lexec w x) as [w1 r1] eqn:E1. destruct (lrun w1 h) as [w2 rs2] eqn:E2. injection E as <- <-.
    assert (N' : forall nm, ~ In (AMake a nm) h) by (intros nm Hn; apply (N nm); right; exact Hn).
    assert (NU' : forall r, In r rs2 -> r <> MUB) by (intros r Hr; apply NU; right; exact Hr).
    assert (NU1 : r1 <> MUB) by (apply NU; left; reflexivity).
    assert (SAME : forall n1, w1 a = Some (mb0, n1) -> exists v', run v (map (fun p => (a, fst p)) (calls_at a h rs2)) = (v', map snd (calls_at a h rs2)) /\ v' a = mb).
    { intros n1 A. eapply (IH w1); eauto. }
    assert (CALL : forall c mb1 n1, exec1 (lnames w) a mb0 c = (mb1, r1) -> w1 a = Some (mb1, n1) ->
      exists v', run v (map (fun p => (a, fst p)) ((c, r1) :: calls_at a h rs2)) = (v', map snd ((c, r1) :: calls_at a h rs2)) /\ v' a = mb).
    { intros c mb1 n1 Ex A. destruct (IH w1 w2 rs2 mb1 n1 mb n (upd v a mb1) E2 N' NU' A A1 (upd_same _ _ _)) as (v' & R & V').
      { assert (Q := exec1_name (lnames w) a mb0 c). rewrite Ex in Q. cbn in Q. congruence. }
      exists v'. split; [|exact V']. cbn [map fst snd run]. unfold exec.
      rewrite V, (exec1_names (names_of v) (lnames w) a mb0 c) by (unfold names_of, lnames; rewrite V, A0; reflexivity).
      rewrite Ex, R. reflexivity. }
    destruct x as [b nm|b|b|b c|s]; cbn in E1; cbn [calls_at].
    + injection E1 as <- _. apply (SAME n0). rewrite lset_other; [exact A0|]. intros <-. apply (N nm). left. reflexivity.
    + destruct (w b) as [[mbb m]|] eqn:Eb; injection E1 as <- <-; [|congruence]. destruct (Nat.eq_dec a b) as [<-|D].
      * rewrite A0 in Eb. injection Eb as <- <-. eapply SAME. apply lset_same.
      * eapply SAME. rewrite lset_other by exact D. exact A0.
    + destruct (w b) as [[mbb m]|] eqn:Eb; [|injection E1 as <- <-; congruence]. destruct (Nat.eq_dec a b) as [<-|D].
      * rewrite A0 in Eb. injection Eb as <- <-. destruct n0 as [|[|n0]]; injection E1 as <- <-.
        -- exfalso. assert (Z := no_remake h a _ _ _ E2 N' (lset_same _ _ _)). congruence.
        -- exfalso. assert (Z := no_remake h a _ _ _ E2 N' (lset_same _ _ _)). congruence.
        -- eapply SAME. apply lset_same.
      * assert (w1 a = w a) as Q by (destruct m as [|[|m]]; injection E1 as <- _; apply lset_other; exact D).
        eapply SAME. rewrite Q. exact A0.
    + destruct (w b) as [[mbb m]|] eqn:Eb; [|injection E1 as <- <-; congruence]. destruct (dangling w b c); [injection E1 as <- <-; congruence|].
      destruct (exec1 (lnames w) b mbb c) as [mb' r'] eqn:Ex. injection E1 as <- <-. destruct (Nat.eqb_spec b a) as [->|D].
      * rewrite A0 in Eb. injection Eb as <- <-. apply (CALL c mb' n0 Ex). apply lset_same.
      * eapply SAME. rewrite lset_other by congruence. exact A0.
    + destruct (w (sub_mbox s)) as [[mbb m]|] eqn:Eb; [|injection E1 as <- <-; congruence].
      destruct (drop mbb s) as [mb' r'] eqn:Ex. injection E1 as <- <-. destruct (Nat.eqb_spec (sub_mbox s) a) as [D|D].
      * rewrite D, A0 in Eb. injection Eb as <- <-. apply (CALL (CDrop s) mb' n0 Ex). rewrite D. apply lset_same.
      * eapply SAME. rewrite lset_other by congruence. exact A0.
Qed.
End L.
