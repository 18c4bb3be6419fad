(* L_FairPipe.v -- under a fair scheduler what is put into a mailbox is received
   by a subscriber that goes on calling get. *)
From Coq Require Import Classical_Prop.
From Verif Require Import Base M_MailBox M_MailBoxConc S_MailBox S_MailBoxConc S_Pipeline S_Fair L_Map L_MailBox L_MailBoxConc L_Seq L_FairBox C_MailBox P_Pipeline.
Local Open Scope nat_scope.

Section Seq.
Context {M : Type}.
Notation mret := (mret M). Notation call := (call M).

(* ---- one call and the queue, null pointers included ---- *)
Definition is_get (s : sub) (bc : nat * call) : bool :=
  match bc with (b, CGet (Some s')) => Nat.eqb b (sub_mbox s) && (sub_idx s' =? sub_idx s)%Z | _ => false end.
Definition fits (s : sub) (bc : nat * call) : Prop :=
  plain_call (snd bc) /\ (uses s bc -> bc = (sub_mbox s, CGet (Some s))).
Lemma is_get_uses s bc : is_get s bc = true -> uses s bc.
Proof.
  destruct bc as [b [|[s'|]| | | | | | |]]; cbn; try discriminate. intros H. apply andb_prop in H as [A B].
  apply Nat.eqb_eq in A. apply Z.eqb_eq in B. auto.
Qed.
Lemma step_raw (w : world M) s q b c w' r : exec w b c = (w', r) -> waiting w (sub_mbox s) (sub_idx s) = Some q -> fits s (b, c) ->
  if is_get s (b, c) then
    match q with
    | [] => waiting w' (sub_mbox s) (sub_idx s) = Some []
    | m :: q' => waiting w' (sub_mbox s) (sub_idx s) = Some q' /\ got_by (sub_mbox s) (sub_idx s) (b, c, r) = [m]
    end
  else exists x, waiting w' (sub_mbox s) (sub_idx s) = Some (q ++ x) /\ length x <= 1.
Proof.
  intros E F [P U]. destruct (is_get s (b, c)) eqn:G.
  - apply is_get_uses in G. specialize (U G). injection U as -> ->. rewrite (get_waiting _ _ _ _ eq_refl F) in E.
    destruct q as [|m q]; injection E as <- <-.
    + unfold waiting in *. rewrite upd_same. exact F.
    + split; [unfold waiting; rewrite upd_same; cbn; apply (find_insert_same _ Zcmp_eq)|]. cbn. rewrite Nat.eqb_refl, Z.eqb_refl. reflexivity.
  - destruct (Nat.eq_dec b (sub_mbox s)) as [->|Nb].
    2:{ assert (w' (sub_mbox s) = w (sub_mbox s)) by (eapply exec_other; eauto). exists []. rewrite app_nil_r. unfold waiting. rewrite H. split; [exact F|cbn; lia]. }
    assert (KEEP : forall mb : mbox M, q_find (sub_idx s) (mb_queues mb) = Some q -> exists x, q_find (sub_idx s) (mb_queues mb) = Some (q ++ x) /\ length x <= 1).
    { intros mb X. exists []. rewrite app_nil_r. split; [exact X|cbn; lia]. }
    unfold exec in E. destruct (exec1 (names_of w) (sub_mbox s) (w (sub_mbox s)) c) as [mb' r1] eqn:E1. injection E as <- <-.
    unfold waiting in *. rewrite upd_same.
    destruct c as [|[s'|]|m s'|[s'|]| |[s'|]|j| |s']; try (destruct P; fail); cbn in E1, G, U.
    + (* get *) rewrite Nat.eqb_refl in G. cbn in G. unfold get, getIndex in E1. destruct (Nat.eqb (sub_mbox s') (sub_mbox s)); cbn in E1.
      * unfold getQueue in E1. destruct (q_find (sub_idx s') (mb_queues (w (sub_mbox s)))) as [[|y q0]|] eqn:F0; cbn in E1; injection E1 as <- <-; apply KEEP; auto.
        cbn. unfold q_find, q_set. rewrite (find_insert_other _ Zcmp_eq); [exact F|]. apply Z.eqb_neq in G. auto.
      * injection E1 as <- <-. auto.
    + (* put *) unfold put in E1. destruct (match s' with Some _ => getIndex (names_of w) (sub_mbox s) s' | None => Ok (mb_counter (w (sub_mbox s))) end) as [o| |];
        cbn in E1; injection E1 as <- <-; auto. cbn. rewrite find_put_all, F. cbn. destruct (sub_idx s =? o)%Z; [exists []|exists [m]]; cbn; rewrite ?app_nil_r; auto.
    + unfold readyCount in E1. destruct (getIndex _ _ _) as [k| |]; cbn in E1; [unfold getQueue in E1; destruct (q_find k _); cbn in E1| |]; injection E1 as <- <-; auto.
    + injection E1 as <- <-. auto.
    + unfold clear, getIndex in E1. destruct (Nat.eqb (sub_mbox s') (sub_mbox s)) eqn:N; cbn in E1; [|injection E1 as <- <-; auto].
      unfold getQueue in E1. destruct (q_find (sub_idx s') _); cbn in E1; injection E1 as <- <-; apply KEEP; auto. cbn. unfold q_find, q_set.
      rewrite (find_insert_other _ Zcmp_eq); [exact F|]. intros X. specialize (U (conj eq_refl (eq_sym X))) || specialize (U (conj eq_refl X)). discriminate U.
    + unfold unsubscribe, getQueue in E1. destruct (q_find j _); cbn in E1; injection E1 as <- <-; apply KEEP; auto. cbn. unfold q_find, q_erase.
      rewrite (find_erase_other _ Zcmp_eq); [exact F|]. intros X. specialize (U (conj eq_refl (eq_sym X))) || specialize (U (conj eq_refl X)). discriminate U.
    + injection E1 as <- <-. auto.
    + unfold drop, unsubscribe, getQueue in E1. destruct (q_find (sub_idx s') _); cbn in E1; injection E1 as <- <-; apply KEEP; auto. cbn. unfold q_find, q_erase.
      rewrite (find_erase_other _ Zcmp_eq); [exact F|]. intros X. specialize (U (conj eq_refl (eq_sym X))) || specialize (U (conj eq_refl X)). discriminate U.
Qed.
Lemma fits_discards s bc : fits s bc -> discards (sub_mbox s) (sub_idx s) bc = false.
Proof.
  intros [_ U]. destruct bc as [b c]. destruct (discards (sub_mbox s) (sub_idx s) (b, c)) eqn:D; [exfalso|reflexivity].
  destruct c as [| | | | |[s'|]|j| |s']; cbn in D, U; try discriminate D; apply andb_prop in D as [D1 D2]; apply Nat.eqb_eq in D1; apply Z.eqb_eq in D2;
    specialize (U (conj D1 D2)); discriminate U.
Qed.

(* ---- a sequence of calls ---- *)
Definition gets (s : sub) (h : list (nat * call)) : nat := length (filter (is_get s) h).
Lemma raw_length s h : forall (w w' : world M) rs q, run w h = (w', rs) -> waiting w (sub_mbox s) (sub_idx s) = Some q -> (forall bc, In bc h -> fits s bc) ->
  exists q', waiting w' (sub_mbox s) (sub_idx s) = Some q' /\ length q' <= length q + length h.
Proof.
  induction h as [|[b c] h IH]; intros w w' rs q R F A; cbn in R; [injection R as <- <-; exists q; split; [exact F|lia]|].
  destruct (exec w b c) as [w1 r] eqn:E. destruct (run w1 h) as [w2 rs'] eqn:R2. injection R as <- <-.
  pose proof (step_raw w s q b c w1 r E F (A _ (or_introl eq_refl))) as S.
  assert (Z : exists q1, waiting w1 (sub_mbox s) (sub_idx s) = Some q1 /\ length q1 <= length q + 1).
  { destruct (is_get s (b, c)).
    - destruct q as [|m q]; [eexists; split; [exact S|cbn; lia]|]. destruct S as [S _]. eexists. split; [exact S|cbn; lia].
    - destruct S as (x & S & L). eexists. split; [exact S|]. rewrite app_length. lia. }
  destruct Z as (q1 & F1 & L1). destruct (IH _ _ _ _ R2 F1) as (q2 & F2 & L2); [intros bc J; apply A; right; exact J|].
  exists q2. split; [exact F2|]. cbn [length]. lia.
Qed.
Lemma drained s h : forall (w w' : world M) rs qa qb, run w h = (w', rs) -> waiting w (sub_mbox s) (sub_idx s) = Some (qa ++ qb) ->
  (forall bc, In bc h -> fits s bc) -> length qa <= gets s h ->
  length (nonnull qa) <= length (nonnull (flat_map (got_by (sub_mbox s) (sub_idx s)) (combine h rs))).
Proof.
  induction h as [|[b c] h IH]; intros w w' rs qa qb R F A L; cbn in R.
  - destruct qa as [|m qa]; [cbn; lia|cbn in L; lia].
  - destruct (exec w b c) as [w1 r] eqn:E. destruct (run w1 h) as [w2 rs'] eqn:R2. injection R as <- <-.
    pose proof (step_raw w s _ b c w1 r E F (A _ (or_introl eq_refl))) as S. cbn [combine flat_map]. rewrite nonnull_app, app_length.
    assert (A' : forall bc, In bc h -> fits s bc) by (intros bc J; apply A; right; exact J).
    unfold gets in L. cbn [filter] in L. destruct (is_get s (b, c)).
    + destruct qa as [|m qa]; [cbn; lia|]. cbn [app] in S. destruct S as [S1 S2]. rewrite S2. cbn [length] in L.
      specialize (IH _ _ _ _ _ R2 S1 A' ltac:(unfold gets; lia)). change (m :: qa) with ([m] ++ qa). rewrite nonnull_app, app_length. lia.
    + destruct S as (x & S & _). rewrite <- app_assoc in S. specialize (IH _ _ _ _ _ R2 S A' L). lia.
Qed.
End Seq.

Lemma combine_app_ {A B} (a c : list A) : forall (b d : list B), length a = length b -> combine (a ++ c) (b ++ d) = combine a b ++ combine c d.
Proof. induction a as [|x a IH]; intros [|y b] d L; try discriminate; [reflexivity|]. cbn. f_equal. auto. Qed.
(* ---- counting by thread ---- *)
Lemma of_t_total {A B} (a : list (nat * A)) : forall b : list (nat * B), (forall t, length (of_t t a) <= length (of_t t b)) -> length a <= length b.
Proof.
  induction a as [|[t x] a IH]; intros b H; [cbn; lia|].
  assert (J : exists y, In (t, y) b).
  { specialize (H t). cbn in H. rewrite Nat.eqb_refl in H. cbn in H. destruct (of_t t b) as [|y l] eqn:E; [cbn in H; lia|].
    exists y. apply in_of_t. rewrite E. left. reflexivity. }
  destruct J as (y & J). apply in_split in J as (b1 & b2 & ->).
  assert (L : length a <= length (b1 ++ b2)).
  { apply IH. intros u. specialize (H u). rewrite of_app in *. unfold of_t in *. cbn [flat_map] in H. rewrite !app_length in *. destruct (Nat.eqb t u); cbn [length] in H; lia. }
  rewrite app_length in *. cbn [length]. lia.
Qed.

Section F.
Context {M : Type}.
Variable names : nat -> str.
Variable f : nat -> cstate M.
Variable e : nat -> list (ev M).
Variable tr0 : list (ev M).
Variable st0 : cstate M.
Hypothesis HR : csteps (cinit names) tr0 st0.
Hypothesis HI : forall t, thr st0 t = Idle.
Hypothesis HU : forall t r, In (Ret t r) tr0 -> r <> MUB.
Hypothesis HS : box_for_ever st0 f e.
Hypothesis HA : box_fair f.

Lemma upto_more n m : n <= m -> exists y, upto e m = upto e n ++ y.
Proof.
  intros H. induction H as [|m H (y & IH)]; [exists []; rewrite app_nil_r; reflexivity|].
  exists (y ++ e m). rewrite (upto_S e), IH, app_assoc. reflexivity.
Qed.
Lemma idle_counts n t : thr (f n) t = Idle -> length (rets_of t (upto e n)) = length (calls_of t (upto e n)).
Proof.
  intros H. destruct (linear _ _ _ _ _ HR HI (F_later f e st0 HS n) HU) as (w1 & x & w & rs & _ & _ & _ & E & _ & _ & ID & _).
  destruct (ID t H) as [<- <-]. apply len_of, E.
Qed.
Lemma gets_app s (a b : list (nat * call M)) : gets s (a ++ b) = gets s a + gets s b.
Proof. unfold gets. rewrite filter_app, app_length. reflexivity. Qed.
Lemma many_gets s r : (forall n, exists m, n <= m /\ In (Inv r (sub_mbox s) (CGet (Some s))) (e m)) ->
  forall J N, exists m y, N <= m /\ thr (f m) r = Idle /\ upto e m = upto e N ++ y /\ J <= gets s (calls_of r y).
Proof.
  intros HG J N. induction J as [|J (m & y & A & B & C & D)].
  - destruct (idle_again names f e tr0 st0 HR HS HA N r) as (m & A & B). destruct (upto_more N m A) as (y & C). exists m, y. repeat split; auto. lia.
  - destruct (HG m) as (k & K1 & K2). destruct (idle_again names f e tr0 st0 HR HS HA (S k) r) as (m' & A' & B').
    destruct (upto_more m k K1) as (y1 & C1). destruct (upto_more (S k) m' A') as (y2 & C2).
    exists m', (y ++ y1 ++ e k ++ y2). split; [lia|]. split; [exact B'|]. split.
    + rewrite C2, (upto_S e), C1, C, <- !app_assoc. reflexivity.
    + rewrite !calls_app, !gets_app.
      assert (X : 1 <= gets s (calls_of r (e k))).
      { apply in_split in K2 as (a & b & ->). rewrite calls_app, gets_app. cbn [calls_of flat_map]. rewrite Nat.eqb_refl. cbn [app].
        unfold gets at 2. cbn [filter]. cbn [is_get]. rewrite Nat.eqb_refl, Z.eqb_refl. cbn. lia. }
      lia.
Qed.

Lemma got_le_messages s (l : list (nat * call M * mret M)) :
  length (flat_map (fun a => nonnull (got_by (sub_mbox s) (sub_idx s) a)) l) <= length (messages (map snd l)).
Proof.
  unfold messages. induction l as [|[[b c] r0] l IH]; [cbn; lia|]. cbn [flat_map map snd]. rewrite !app_length.
  assert (Z : length (nonnull (got_by (sub_mbox s) (sub_idx s) (b, c, r0))) <= length (match r0 with MOk (RMsg (Some m)) => [m] | _ => [] end)).
  { clear. destruct c as [|[s'|]| | | | | | |]; cbn; try lia. destruct r0 as [[| |[m|]|]| | |]; cbn; try lia; destruct (_ && _); cbn; lia. }
  lia.
Qed.
(* everything put into the mailbox before time N is received by the subscriber *)
Lemma stage s r : pending (boxes st0) s [] ->
  (forall n t bc, In bc (calls_of t (upto e n)) -> fits s bc /\ (uses s bc -> t = r)) ->
  (forall n, exists m, n <= m /\ In (Inv r (sub_mbox s) (CGet (Some s))) (e m)) ->
  forall N, exists m, N <= m /\ forall o : list (nat * M),
    (forall t, prefix (of_t t o) (fed s (firstn (length (rets_of t (upto e N))) (calls_of t (upto e N))))) ->
    length o <= length (messages (rets_of r (upto e m))).
Proof.
  intros P0 HF HG N. destruct (pending_queue _ _ _ P0) as (q0 & F0 & Z0). cbn in Z0.
  destruct (many_gets s r HG (length q0 + length (upto e N)) N) as (m & y & L & ID & EQ & GT). exists m. split; [exact L|]. intros o HO.
  destruct (linear _ _ _ _ _ HR HI (F_later f e st0 HS m) HU) as (w1 & x & w & rs & WF & W1 & R & E & PX & PR & IDL & _ & RT).
  destruct (RT _ _ EQ) as (x1 & x2 & X & B).
  assert (FX : forall t bc, In (t, bc) x -> fits s bc /\ (uses s bc -> t = r)).
  { intros t bc J. apply (HF m). eapply prefix_in; [apply PX|]. apply in_of_t, J. }
  assert (FXS : forall bc, In bc (map snd x) -> fits s bc) by (intros bc J; apply in_map_iff in J as ([t bc'] & <- & J); apply (FX _ _ J)).
  assert (F1 : waiting w1 (sub_mbox s) (sub_idx s) = Some q0) by (unfold waiting in *; rewrite W1; exact F0).
  (* split the sequence at time N *)
  pose proof R as R'. rewrite X, map_app, run_app in R'. destruct (run w1 (map snd x1)) as [wa ra] eqn:Ra. cbn [fst snd] in R'.
  destruct (run wa (map snd x2)) as [wb rb] eqn:Rb. injection R' as <- RS.
  assert (LRa : length ra = length (map snd x1)) by (pose proof (run_length (map snd x1) w1) as Q; rewrite Ra in Q; exact Q).
  assert (NUB : no_ub (map snd rs)).
  { intros r0 J. assert (J' : exists bc, In (bc, r0) (combine (map snd x) (map snd rs))).
    { clear -J E. revert rs E J. induction x as [|[a b] x IH]; intros [|[c d] rs] E J; try discriminate; [destruct J|]. injection E as _ E.
      destruct J as [<-|J]; [exists b; left; reflexivity|]. destruct (IH rs E J) as [bc K]. exists bc. right. exact K. }
    destruct J' as ([b c] & J'). destruct (genuine _ _ _ _ (b, c) r0 R J') as (w0 & <-). apply plain_ub.
    apply (FXS (b, c)). apply in_combine_l in J'. exact J'. }
  assert (NUa : no_ub ra) by (intros r0 J; apply NUB; rewrite <- RS; apply in_or_app; auto).
  assert (FX1 : forall bc, In bc (map snd x1) -> fits s bc) by (intros bc J; apply FXS; rewrite X, map_app; apply in_or_app; auto).
  assert (FX2 : forall bc, In bc (map snd x2) -> fits s bc) by (intros bc J; apply FXS; rewrite X, map_app; apply in_or_app; auto).
  destruct (raw_length s _ _ _ _ _ Ra F1 FX1) as (qa & Fa & La).
  destruct (run_conserve _ _ _ _ _ _ _ WF Ra NUa F1 (fun bc J => fits_discards s bc (FX1 bc J))) as (qa' & Fa' & Ca).
  rewrite Fa in Fa'. injection Fa' as <-. rewrite Z0 in Ca. cbn [app] in Ca.
  (* all of qa is taken after that *)
  assert (LX : length x1 <= length (upto e N)).
  { pose (cs := flat_map (fun ev => match ev with Inv t b c => [(t, (b, c))] | Ret _ _ => [] end) (upto e N) : list (nat * (nat * call M))).
    assert (C1 : forall t, of_t t cs = calls_of t (upto e N)).
    { intros t. unfold cs. generalize (upto e N). intros l. induction l as [|[t' b c|t' r0] l IH]; [reflexivity| |exact IH]. unfold of_t, calls_of in *. cbn [flat_map app]. rewrite IH. reflexivity. }
    assert (C2 : length cs <= length (upto e N)).
    { unfold cs. generalize (upto e N). intros l. induction l as [|[t' b c|t' r0] l IH]; cbn in *; lia. }
    assert (C3 : length x1 <= length cs) by (apply of_t_total; intros t; rewrite C1; apply B). lia. }
  assert (GX : length qa <= gets s (map snd x2)).
  { assert (G1 : gets s (of_t r x2) <= gets s (map snd x2)).
    { clear. unfold gets. induction x2 as [|[t bc] l IH]; [cbn; lia|]. unfold of_t in *. cbn [flat_map map snd]. rewrite filter_app, app_length. cbn [filter].
      destruct (Nat.eqb t r); cbn [filter length]; destruct (is_get s bc); cbn [length]; lia. }
    assert (G2 : gets s (calls_of r y) <= gets s (of_t r x2)).
    { destruct (IDL r ID) as [IX _]. rewrite X, of_app, EQ, calls_app in IX.
      assert (PP : prefix (of_t r x1) (calls_of r (upto e N))).
      { eapply prefix_both; [exists (of_t r x2); reflexivity|rewrite IX; eexists; reflexivity|apply B]. }
      destruct PP as (c & PP). rewrite PP, <- app_assoc in IX. apply app_inv_head in IX. rewrite IX, gets_app. lia. }
    rewrite map_length in La. lia. }
  assert (DR : length (nonnull qa) <= length (nonnull (flat_map (got_by (sub_mbox s) (sub_idx s)) (combine (map snd x2) rb)))).
  { eapply (drained s (map snd x2) wa wb rb qa []); [exact Rb|rewrite app_nil_r; exact Fa|exact FX2|exact GX]. }
  (* what went in before time N *)
  assert (IN : length o <= length (nonnull (flat_map (sent_to (sub_mbox s) (sub_idx s)) (combine (map snd x1) ra)))).
  { assert (Q : nonnull (flat_map (sent_to (sub_mbox s) (sub_idx s)) (combine (map snd x1) ra)) = fed s (map snd x1)).
    { clear -Ra. revert w1 wa ra Ra. induction (map snd x1) as [|[b c] h IH]; intros w1 wa ra Ra; cbn in Ra; [injection Ra as <- <-; reflexivity|].
      destruct (exec w1 b c) as [w2 r0] eqn:E. destruct (run w2 h) as [w3 rs'] eqn:R2. injection Ra as <- <-. cbn [combine flat_map fed]. rewrite nonnull_app, (IH _ _ _ R2).
      unfold fed. cbn [flat_map]. f_equal. pose proof (sent_enters w1 s b c) as S. rewrite E in S. exact S. }
    rewrite Q, <- fed_snd, map_length. apply of_t_total. intros t. rewrite fed_of_t.
    destruct (HO t) as (c & HO'). assert (PQ : prefix (firstn (length (rets_of t (upto e N))) (calls_of t (upto e N))) (of_t t x1)).
    { eapply prefix_both; [|eapply prefix_tr; [|apply PX]|].
      - rewrite EQ, calls_app. exists (skipn (length (rets_of t (upto e N))) (calls_of t (upto e N)) ++ calls_of t y). rewrite app_assoc, firstn_skipn. reflexivity.
      - rewrite X, of_app. eexists. reflexivity.
      - rewrite firstn_length. specialize (B t). lia. }
    apply (prefix_flat (enters s)) in PQ. destruct PQ as (d & PQ). unfold fed in *. apply (f_equal (@length _)) in PQ, HO'. rewrite app_length in PQ, HO'. lia. }
  (* what came out *)
  assert (OUT : length (nonnull (flat_map (got_by (sub_mbox s) (sub_idx s)) (combine (map snd x) (map snd rs)))) <= length (messages (rets_of r (upto e m)))).
  { destruct (IDL r ID) as [_ <-]. rewrite <- (tagged_snd x rs E), nonnull_flat.
    rewrite (single r).
    - rewrite <- (proj2 (tagged_of r x rs E)). apply got_le_messages.
    - intros t [[b c] r0] J N0. destruct c as [|[s'|]| | | | | | |]; try reflexivity. destruct r0 as [[| |m0|]| | |]; try reflexivity. cbn.
      destruct (Nat.eqb_spec b (sub_mbox s)) as [D1|D1]; [|reflexivity]. destruct (Z.eqb_spec (sub_idx s') (sub_idx s)) as [D2|D2]; [|reflexivity]. exfalso.
      apply N0. assert (J1 : In (b, CGet (Some s')) (of_t t x)).
      { rewrite <- (proj1 (tagged_of t x rs E)). apply (in_map fst (of_t t (tagged x rs)) (b, CGet (Some s'), MOk (RMsg m0))). apply in_of_t, J. }
      apply (in_of_t t x) in J1. apply (proj2 (FX _ _ J1)). split; assumption. }
  rewrite X, map_app, <- RS, combine_app_ in OUT by (rewrite LRa; reflexivity).
  rewrite flat_map_app, nonnull_app, app_length in OUT. rewrite <- Ca, app_length in IN.
  eapply Nat.le_trans; [exact IN|]. eapply Nat.le_trans; [|exact OUT]. apply Nat.add_le_mono_l. exact DR.
Qed.
End F.

(* ---- the whole chain ---- *)
Section Chain.
Context {M : Type}.
Lemma relaying_calls s from to (C : list (nat * call M)) : forall h R, relaying s from to h C R ->
  forall bc, In bc C -> bc = (from, CGet (Some s)) \/ exists m : M, bc = (to, CPut (Some m) None).
Proof.
  induction C as [|c C IH]; intros h R H bc J; [destruct J|]. destruct H as [H1 H2]. destruct J as [<-|J].
  - destruct h; eauto.
  - destruct R as [|r R]; [subst C; destruct J|]. exact (IH _ _ H2 bc J).
Qed.
(* before it calls get again the relay has put everything it has got *)
Lemma relay_empty s s' C : forall h R, relaying s (sub_mbox s) (sub_mbox s') h (C ++ [(sub_mbox s, CGet (Some s))]) R -> length C = length R ->
  (forall b m r, In ((b, CPut m None), r) (combine C R) -> r = MOk RUnit) ->
  length (of_option h) + length (@messages M R) <= length (fed s' C).
Proof.
  induction C as [|c C IH]; intros h R H L G; destruct R as [|r R]; try discriminate.
  - destruct H as [H _]. destruct h; [discriminate|]. cbn. lia.
  - destruct H as [H1 H2]. cbn [app] in H2. injection L as L.
    specialize (IH _ _ H2 L ltac:(intros; eapply G; right; eassumption)). unfold fed, messages in *. cbn [flat_map]. rewrite !app_length.
    destruct h as [m|]; subst c.
    + rewrite (G (sub_mbox s') (Some m) r (or_introl eq_refl)) in *. cbn in *. rewrite Nat.eqb_refl. cbn. lia.
    + cbn [enters length of_option] in *. destruct r as [[| |[m|]|]| | |]; cbn in *; lia.
Qed.

Definition who (n : nat) (rel : nat -> nat) (rd i : nat) : nat := if Nat.ltb i n then rel i else rd.
Lemma pipe_fits n s rel rd (tr : list (ev M)) : pipeline n s rel rd tr -> forall i, i <= n ->
  forall t bc, In bc (calls_of t tr) -> fits (s i) bc /\ (uses (s i) bc -> t = who n rel rd i).
Proof.
  intros PL i Li t bc J.
  assert (D : (exists j, j < n /\ t = rel j) \/ t = rd \/ (t <> rd /\ forall j, j < n -> t <> rel j)).
  { destruct (Nat.eq_dec t rd) as [->|N]; [auto|]. destruct (classic (exists j, j < n /\ t = rel j)) as [X|X]; [auto|]. right. right. split; [exact N|]. intros j Lj E. apply X. eauto. }
  destruct D as [(j & Lj & ->)|[->|[N1 N2]]].
  - destruct (relaying_calls _ _ _ _ _ _ (p_relays _ _ _ _ _ PL j Lj) bc J) as [->|[m ->]]; (split; [split; [exact I|]|]); cbn; try tauto.
    + intros [A _]. apply (p_boxes _ _ _ _ _ PL) in A; [subst j; reflexivity|lia..].
    + intros [A _]. apply (p_boxes _ _ _ _ _ PL) in A; [|lia..]. subst j. unfold who. destruct (Nat.ltb_spec i n); [reflexivity|lia].
  - rewrite (p_reads _ _ _ _ _ PL bc J). split; [split; [exact I|]|]; cbn; intros [A _]; (apply (p_boxes _ _ _ _ _ PL) in A; [|lia..]); subst i; [reflexivity|].
    unfold who. rewrite Nat.ltb_irrefl. reflexivity.
  - destruct (p_others _ _ _ _ _ PL t bc N1 N2 J) as [P Q]. destruct (Q i Li) as [NU _]. split; [split; [exact P|]|]; intros U; destruct (NU U).
Qed.

Variable names : nat -> str.
Variable f : nat -> cstate M.
Variable e : nat -> list (ev M).
Variable tr0 : list (ev M).
Variable st0 : cstate M.
Variable n : nat.
Variable s : nat -> sub.
Variable rel : nat -> nat.
Variable rd : nat.
Hypothesis HR : csteps (cinit names) tr0 st0.
Hypothesis HI : forall t, thr st0 t = Idle.
Hypothesis HU : forall t r, In (Ret t r) tr0 -> r <> MUB.
Hypothesis HP : forall i, i <= n -> pending (boxes st0) (s i) [].
Hypothesis HS : box_for_ever st0 f e.
Hypothesis HA : box_fair f.
Hypothesis HL : forall k, pipeline n s rel rd (upto e k).
Hypothesis HG : forall i, i <= n -> forall k, exists m, k <= m /\ In (Inv (who n rel rd i) (sub_mbox (s i)) (CGet (Some (s i)))) (e m).

Definition put_by (sb : sub) (N : nat) (o : list (nat * M)) : Prop :=
  forall t, prefix (of_t t o) (fed sb (firstn (length (rets_of t (upto e N))) (calls_of t (upto e N)))).
Lemma at_call k t b c : In (Inv t b c) (e k) -> e k = [Inv t b c] /\ thr (f k) t = Idle.
Proof.
  intros J. destruct (proj2 HS k) as [S|[_ X]]; [|rewrite X in J; destruct J].
  revert J S. generalize (e k). intros l J S. destruct S; cbn in J; try contradiction; destruct J as [J|[]]; try discriminate. injection J as -> -> ->. auto.
Qed.
Lemma next_stage i m : S i <= n -> exists k o, m <= k /\ put_by (s (S i)) k o /\ length (messages (rets_of (rel i) (upto e m))) <= length o.
Proof.
  intros Li. destruct (HG i ltac:(lia) m) as (k & Lk & J). unfold who in J. destruct (Nat.ltb_spec i n); [|lia].
  destruct (at_call _ _ _ _ J) as [Ek Ik]. set (r := rel i) in *.
  pose proof (idle_counts names f e tr0 st0 HR HI HU HS k r Ik) as LC.
  pose (C := calls_of r (upto e k)). pose (R := rets_of r (upto e k)).
  assert (RL : relaying (s i) (sub_mbox (s i)) (sub_mbox (s (S i))) None (C ++ [(sub_mbox (s i), CGet (Some (s i)))]) R).
  { pose proof (p_relays _ _ _ _ _ (HL (S k)) i ltac:(lia)) as X. rewrite (upto_S e), Ek, calls_app, rets_app in X. unfold calls_of at 2 in X. unfold rets_of at 2 in X.
    cbn [flat_map] in X. rewrite Nat.eqb_refl, !app_nil_r in X. exact X. }
  exists k, (map (pair r) (fed (s (S i)) C)). split; [exact Lk|]. split.
  - intros t. destruct (Nat.eq_dec t r) as [->|N].
    + rewrite LC, firstn_all. exists []. rewrite app_nil_r. symmetry. fold C. generalize (fed (s (S i)) C). intros l.
      induction l as [|y l IH]; [reflexivity|]. unfold of_t in *. cbn [map flat_map]. rewrite Nat.eqb_refl. cbn [app]. f_equal. exact IH.
    + eexists. match goal with |- _ = ?a ++ _ => assert (Z : a = []) end; [|rewrite Z; reflexivity].
      generalize (fed (s (S i)) C). intros l. induction l as [|y l IH]; [reflexivity|]. unfold of_t in *. cbn [map flat_map]. destruct (Nat.eqb_spec r t); [congruence|exact IH].
  - rewrite map_length. apply Nat.le_trans with (length (messages R)).
    + destruct (upto_more e m k Lk) as (y & Y). unfold R. rewrite Y, rets_app. unfold messages. rewrite flat_map_app, app_length. lia.
    + pose proof (relay_empty (s i) (s (S i)) C None R RL (eq_sym LC)) as X. cbn [of_option length] in X. apply X.
      intros b m0 r0 JC. destruct (linear _ _ _ _ _ HR HI (F_later f e st0 HS k) HU) as (w1 & x & w & rs & _ & _ & RN & E & _ & _ & ID & _).
      destruct (ID r Ik) as [I1 I2]. unfold C, R in JC. rewrite <- I1, <- I2, <- (proj1 (tagged_of r x rs E)), <- (proj2 (tagged_of r x rs E)) in JC.
      assert (JT : In (b, CPut m0 None, r0) (of_t r (tagged x rs))).
      { revert JC. generalize (of_t r (tagged x rs)). intros l. induction l as [|[y1 y2] l IH]; [intros []|]. cbn. intros [Q|Q]; [left; exact Q|right; auto]. }
      apply (in_of_t r (tagged x rs)) in JT. apply (in_map snd) in JT. rewrite (tagged_snd x rs E) in JT. cbn [snd] in JT.
      destruct (genuine _ _ _ _ (b, CPut m0 None) r0 RN JT) as (w0 & <-). apply put_none.
Qed.
Lemma arrives i : i <= n -> forall N, exists m, N <= m /\ forall o, put_by (s 0) N o -> length o <= length (messages (rets_of (who n rel rd i) (upto e m))).
Proof.
  induction i as [|i IH]; intros Li N.
  - apply (stage names f e tr0 st0 HR HI HU HS HA (s 0) (who n rel rd 0)); [apply HP; lia|intros k t bc; apply (pipe_fits n s rel rd _ (HL k)); lia|apply HG; lia].
  - destruct (IH ltac:(lia) N) as (m & Lm & A). destruct (next_stage i m Li) as (k & o' & Lk & PB & LB).
    destruct (stage names f e tr0 st0 HR HI HU HS HA (s (S i)) (who n rel rd (S i)) (HP _ Li)) with (N := k) as (m' & Lm' & B).
    + intros k' t bc. apply (pipe_fits n s rel rd _ (HL k')); lia.
    + apply HG; lia.
    + exists m'. split; [lia|]. intros o PO. specialize (A o PO). specialize (B o' PB). unfold who in A. destruct (Nat.ltb_spec i n); [lia|lia].
Qed.
(* everybody who has called before time N is back some time *)
Lemma all_back N : exists m, N <= m /\ forall t, length (calls_of t (upto e N)) <= length (rets_of t (upto e m)).
Proof.
  clear HP HL HG s rel rd n.
  assert (BD : exists T, forall t, T <= t -> calls_of t (upto e N) = []).
  { generalize (upto e N). intros l. induction l as [|x l (T & IH)]; [exists 0; reflexivity|]. pose (u := match x with Inv u _ _ => u | _ => 0 end).
    exists (S (Nat.max T u)). intros t Ht. unfold calls_of in *. cbn [flat_map]. rewrite IH by lia. destruct x as [u' b c|]; [|reflexivity]. cbn in u. destruct (Nat.eqb_spec u' t); [subst; lia|reflexivity]. }
  destruct BD as (T & BD).
  destruct (common (fun t m => N <= m /\ length (calls_of t (upto e N)) <= length (rets_of t (upto e m))) (S T)) as (m & A).
  - intros t a b Lab [X Y]. split; [lia|]. destruct (upto_more e a b Lab) as (y & ->). rewrite rets_app, app_length. lia.
  - intros t _. destruct (idle_again names f e tr0 st0 HR HS HA N t) as (m & Lm & Im). exists m. split; [exact Lm|].
    rewrite (idle_counts names f e tr0 st0 HR HI HU HS m t Im). destruct (upto_more e N m Lm) as (y & ->). rewrite calls_app, app_length. lia.
  - exists m. split; [apply (A T); lia|]. intros t. destruct (Nat.lt_ge_cases t (S T)) as [L|L]; [apply (A t L)|]. rewrite BD by lia. cbn. lia.
Qed.
Lemma delivery N : exists m o1 o2, N <= m /\ entry_order (s 0) (upto e m) (o1 ++ o2) /\
  (forall t, prefix (fed (s 0) (firstn (length (rets_of t (upto e N))) (calls_of t (upto e N)))) (of_t t o1)) /\
  prefix (map snd o1) (messages (rets_of rd (upto e m))) /\ prefix (messages (rets_of rd (upto e m))) (map snd (o1 ++ o2)).
Proof.
  destruct (all_back N) as (N' & LN & AB). destruct (arrives n (le_n n) N') as (m & Lm & A). unfold who in A. rewrite Nat.ltb_irrefl in A.
  destruct (C129_pipeline names tr0 st0 (upto e m) (f m) n s rel rd HR HI HU HP (F_later f e st0 HS m) (HL m)) as (o & EO & PM & _).
  destruct (upto_more e N m ltac:(lia)) as (y & Y). destruct EO as [EO1 EO2]. destruct (EO2 _ _ Y) as (o1 & o2 & -> & B).
  exists m, o1, o2. split; [lia|]. split; [split; assumption|]. split; [intros t; apply B|]. split; [|exact PM].
  apply prefix_both with (c := map snd (o1 ++ o2)); [rewrite map_app; eexists; reflexivity|exact PM|]. rewrite map_length. apply A. intros t. eapply prefix_tr; [apply B|].
  apply prefix_flat. destruct (upto_more e N N' LN) as (z & Z). rewrite Z at 2. rewrite calls_app, firstn_app. specialize (AB t).
  rewrite firstn_all2 by exact AB. eexists. reflexivity.
Qed.
End Chain.
