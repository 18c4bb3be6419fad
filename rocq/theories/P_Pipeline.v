(* P_Pipeline.v -- C129: messages passed on from mailbox to mailbox *)
From Coq Require Import Lia.
From Verif Require Import Base M_MailBox M_MailBoxConc S_MailBox S_MailBoxConc S_Pipeline
  L_MailBox L_MailBoxConc C_MailBox C_MailBoxConc P_MailBoxConc.

Section P.
Context {M : Type}.
Notation mret := (mret M). Notation call := (call M).

(* ---- a linearization of the second part of an execution ---- *)
Lemma inv_more names tr1 st1 o1 w1 rs1 tr2 st : inv names st1 tr1 o1 w1 rs1 -> csteps st1 tr2 st ->
  exists x w rs, @inv M names st (tr1 ++ tr2) (o1 ++ x) w rs.
Proof.
  intros I H. induction H.
  - exists [], w1, rs1. rewrite !app_nil_r. exact I.
  - destruct (IHcsteps I) as (x & w & rs & J). destruct (inv_step _ _ _ _ _ _ _ _ J H0) as (o' & w' & rs' & J' & y & ->).
    exists (x ++ y), w', rs'. rewrite !app_assoc in *. exact J'.
Qed.
Lemma split_map {A B} (f : A -> B) l a b : map f l = a ++ b -> exists l1 l2, l = l1 ++ l2 /\ map f l1 = a /\ map f l2 = b.
Proof.
  revert l. induction a as [|y a IH]; intros l E; cbn in E; [exists [], l; auto|].
  destruct l as [|z l]; [discriminate|]. injection E as <- E. destruct (IH l E) as (l1 & l2 & -> & <- & <-). exists (z :: l1), l2. auto.
Qed.
Lemma app_len {A} (a b c d : list A) : a ++ b = c ++ d -> length a = length c -> a = c /\ b = d.
Proof. revert c. induction a as [|x a IH]; intros [|y c] E L; try discriminate; [auto|]. injection E as <- E. injection L as L. destruct (IH c E L) as [-> ->]. auto. Qed.

(* thread by thread *)
Lemma linear names (tr1 : list (ev M)) st1 tr2 st : csteps (cinit names) tr1 st1 -> (forall t, thr st1 t = Idle) -> csteps st1 tr2 st ->
  (forall t r, In (Ret t r) tr1 -> r <> MUB) ->
  exists w1 x w rs, wfw w1 /\ (forall b, w1 b = boxes st1 b) /\
    run w1 (map snd x) = (w, map snd rs) /\ map fst rs = map fst x /\
    (forall t, prefix (of_t t x) (calls_of t tr2)) /\ (forall t, prefix (rets_of t tr2) (of_t t rs)) /\
    (forall t, thr st t = Idle -> of_t t x = calls_of t tr2 /\ of_t t rs = rets_of t tr2) /\
    ((forall t, thr st t = Idle) -> forall b, w b = boxes st b) /\ respects_time tr2 x.
Proof.
  intros H Q H2 NU. destruct (inv_run _ _ _ H) as (o1 & w1 & rs1 & I1). destruct (inv_more _ _ _ _ _ _ _ _ I1 H2) as (x & w & rsa & I2).
  destruct (i_seq _ _ _ _ _ _ I1) as [R1 E1]. destruct (i_seq _ _ _ _ _ _ I2) as [R2 E2].
  rewrite map_app in E2. destruct (split_map _ _ _ _ E2) as (ra & rs & -> & Ea & Eb).
  rewrite !map_app, run_app, R1 in R2. cbn [fst snd] in R2. destruct (run w1 (map snd x)) as [w' r'] eqn:R. cbn [fst snd] in R2. injection R2 as -> RR.
  assert (LL : length rs1 = length ra) by (rewrite <- (map_length fst rs1), <- (map_length fst ra), E1, Ea; reflexivity).
  destruct (app_len _ _ _ _ RR) as [Ra Rb]; [rewrite !map_length; exact LL|].
  assert (RA : ra = rs1).
  { clear -Ra E1 Ea. rewrite <- E1 in Ea. clear E1. revert ra Ra Ea. induction rs1 as [|[a b] rs1 IH]; intros [|[c d] ra] Ra Ea; try discriminate; [reflexivity|].
    cbn in *. injection Ra as -> Ra. injection Ea as -> Ea. f_equal. auto. }
  subst ra. rewrite Rb in R.
  assert (OW : forall (s : cstate M) tr o w0 rs0, inv names s tr o w0 rs0 -> (forall t, thr s t = Idle) -> forall b, w0 b = boxes s b).
  { intros s tr o w0 rs0 I Z b. pose proof (i_own _ _ _ _ _ _ I b) as O. destruct (owner s b) as [t|]; [|symmetry; exact O].
    destruct O as [p O]. rewrite Z in O. discriminate O. }
  assert (T1 : forall t, of_t t o1 = calls_of t tr1 /\ of_t t rs1 = rets_of t tr1).
  { intros t. pose proof (i_thr _ _ _ _ _ _ I1 t) as T. rewrite Q in T. exact T. }
  exists w1, x, w, rs. split.
  { eapply run_wf; [apply (fresh_wf names)|exact R1|]. intros r J.
    assert (J' : exists t, In r (of_t t rs1)).
    { clear -J. induction rs1 as [|[a b] rs1 IH]; [destruct J|]. destruct J as [<-|J].
      - exists a. cbn. rewrite Nat.eqb_refl. left. reflexivity.
      - destruct (IH J) as (t & K). exists t. cbn. apply in_or_app. right. exact K. }
    destruct J' as (t & J'). rewrite (proj2 (T1 t)) in J'. apply (NU t).
    unfold rets_of in J'. apply in_flat_map in J' as ([|t' r0] & A & B); [destruct B|]. destruct (Nat.eqb_spec t' t) as [->|]; [|destruct B].
    destruct B as [<-|[]]. exact A. }
  split; [exact (OW _ _ _ _ _ I1 Q)|]. split; [exact R|]. split; [exact Eb|].
  assert (TH : forall t, prefix (of_t t x) (calls_of t tr2) /\ prefix (rets_of t tr2) (of_t t rs) /\
    (thr st t = Idle -> of_t t x = calls_of t tr2 /\ of_t t rs = rets_of t tr2)).
  { intros t. destruct (T1 t) as [A B]. pose proof (i_thr _ _ _ _ _ _ I2 t) as T. rewrite !of_app, calls_app, rets_app, <- A, <- B in T.
    destruct (thr st t) as [|b c|b p|r].
    - destruct T as [X Y]. apply app_inv_head in X. apply app_inv_head in Y. rewrite X, Y. split; [exists []; rewrite app_nil_r; reflexivity|].
      split; [exists []; rewrite app_nil_r; reflexivity|auto].
    - destruct T as [X Y]. rewrite <- app_assoc in X. apply app_inv_head in X. apply app_inv_head in Y. rewrite X, Y.
      split; [eexists; reflexivity|]. split; [exists []; rewrite app_nil_r; reflexivity|discriminate].
    - destruct T as (X & _ & r & Y & _). rewrite <- app_assoc in Y. apply app_inv_head in X. apply app_inv_head in Y. rewrite X, Y.
      split; [exists []; rewrite app_nil_r; reflexivity|]. split; [eexists; reflexivity|discriminate].
    - destruct T as (X & Y). rewrite <- app_assoc in Y. apply app_inv_head in X. apply app_inv_head in Y. rewrite X, Y.
      split; [exists []; rewrite app_nil_r; reflexivity|]. split; [eexists; reflexivity|discriminate]. }
  split; [intros t; apply TH|]. split; [intros t; apply TH|]. split; [intros t; apply TH|]. split; [exact (OW _ _ _ _ _ I2)|].
  (* time *)
  intros a b ->. destruct (i_time _ _ _ _ _ _ I2 (tr1 ++ a) b ltac:(rewrite app_assoc; reflexivity)) as (oa & ob & E & B).
  assert (LT : length o1 <= length oa).
  { (* every call of tr1 has returned, so all of o1 is in oa *)
    destruct (Nat.le_gt_cases (length o1) (length oa)) as [L|L]; [exact L|exfalso].
    assert (S : exists c, o1 = oa ++ c /\ c <> []).
    { exists (skipn (length oa) o1). assert (F : firstn (length oa) o1 = oa).
      { pose proof (f_equal (firstn (length oa)) E) as G. rewrite firstn_app in G. replace (length oa - length o1) with 0 in G by lia.
        rewrite firstn_O, app_nil_r, firstn_app, Nat.sub_diag, firstn_O, app_nil_r, firstn_all in G. exact G. }
      split; [rewrite <- F at 1; symmetry; apply firstn_skipn|]. intros Z. apply (f_equal (@length _)) in Z. rewrite skipn_length in Z. cbn in Z. lia. }
    destruct S as (c & -> & NE). destruct c as [|[t y] c]; [congruence|]. specialize (B t). destruct (T1 t) as [A1 A2].
    pose proof (len_of t _ _ E1) as LL1. rewrite A2, of_app, app_length in LL1. cbn in LL1. rewrite Nat.eqb_refl in LL1. cbn in LL1.
    rewrite rets_app, app_length in B. lia. }
  assert (S : exists c, oa = o1 ++ c).
  { exists (skipn (length o1) oa). assert (F : firstn (length o1) oa = o1).
    { pose proof (f_equal (firstn (length o1)) E) as G. symmetry in G. rewrite firstn_app in G. replace (length o1 - length oa) with 0 in G by lia.
      rewrite firstn_O, app_nil_r, firstn_app, Nat.sub_diag, firstn_O, app_nil_r, firstn_all in G. exact G. }
    rewrite <- F at 1. symmetry. apply firstn_skipn. }
  destruct S as (c & ->). rewrite <- app_assoc in E. apply app_inv_head in E. exists c, ob. split; [exact E|]. intros t. specialize (B t).
  destruct (T1 t) as [A1 A2]. pose proof (len_of t _ _ E1) as LL1. rewrite A1, A2 in LL1. rewrite rets_app, calls_app, of_app, !app_length, A1, LL1 in B. lia.
Qed.

(* ---- lists ---- *)
Lemma in_of_t {A} t (l : list (nat * A)) a : In a (of_t t l) <-> In (t, a) l.
Proof.
  unfold of_t. rewrite in_flat_map. split.
  - intros ([t' y] & A1 & B). destruct (Nat.eqb_spec t' t) as [->|]; [|destruct B]. destruct B as [<-|[]]. exact A1.
  - intros H. exists (t, a). split; [exact H|]. rewrite Nat.eqb_refl. left. reflexivity.
Qed.
Lemma single {A B} t (f : A -> list B) (T : list (nat * A)) : (forall t' e, In (t', e) T -> t' <> t -> f e = []) ->
  flat_map f (map snd T) = flat_map f (of_t t T).
Proof.
  induction T as [|[t' e] T IH]; intros H; [reflexivity|]. cbn [map snd flat_map]. unfold of_t. cbn [flat_map]. rewrite flat_map_app.
  rewrite IH by (intros; eapply H; [right; eassumption|assumption]). destruct (Nat.eqb_spec t' t) as [->|N].
  - cbn. rewrite app_nil_r. reflexivity.
  - rewrite (H t' e) by (auto; left; reflexivity). reflexivity.
Qed.
Lemma prefix_in {A} (a b : list A) x : prefix a b -> In x a -> In x b.
Proof. intros [c ->] H. apply in_or_app. auto. Qed.
Lemma prefix_flat {A B} (f : A -> list B) a b : prefix a b -> prefix (flat_map f a) (flat_map f b).
Proof. intros [c ->]. rewrite flat_map_app. eexists. reflexivity. Qed.
Lemma prefix_tr {A} (a b c : list A) : prefix a b -> prefix b c -> prefix a c.
Proof. intros [x ->] [y ->]. rewrite <- app_assoc. eexists. reflexivity. Qed.
Lemma prefix_both {A} (a b c : list A) : prefix a c -> prefix b c -> length a <= length b -> prefix a b.
Proof.
  intros [x E] [y F] L. subst c. exists (skipn (length a) b). 
  assert (G : firstn (length a) b = a).
  { pose proof (f_equal (firstn (length a)) F) as G. rewrite !firstn_app, Nat.sub_diag, firstn_O, app_nil_r, firstn_all in G.
    replace (length a - length b) with 0 in G by lia. rewrite firstn_O, app_nil_r in G. symmetry. exact G. }
  rewrite <- G at 1. symmetry. apply firstn_skipn.
Qed.

(* calls in order with their results, thread by thread *)
Definition tagged (x : list (nat * (nat * call))) (rs : list (nat * mret)) : list (nat * (nat * call * mret)) :=
  combine (map fst x) (combine (map snd x) (map snd rs)).
Lemma tagged_snd x : forall rs, map fst rs = map fst x -> map snd (tagged x rs) = combine (map snd x) (map snd rs).
Proof. unfold tagged. induction x as [|[t e] x IH]; intros [|[t' r] rs] E; try discriminate; [reflexivity|]. injection E as -> E. cbn. f_equal. auto. Qed.
Lemma tagged_of t x : forall rs, map fst rs = map fst x ->
  map fst (of_t t (tagged x rs)) = of_t t x /\ map snd (of_t t (tagged x rs)) = of_t t rs.
Proof.
  unfold tagged. induction x as [|[t1 e] x IH]; intros [|[t2 r] rs] E; try discriminate; [split; reflexivity|]. injection E as -> E.
  destruct (IH rs E) as [A B]. unfold of_t in *. cbn [map fst snd combine flat_map]. rewrite !map_app, A, B. destruct (Nat.eqb t1 t); split; reflexivity.
Qed.
Lemma genuine h : forall w w' rs bc r, run w h = (w', rs) -> In (bc, r) (combine h rs) ->
  exists w0 : world M, snd (exec w0 (fst bc) (snd bc)) = r.
Proof.
  induction h as [|[b c] h IH]; intros w w' rs bc r R J; cbn in R; [injection R as <- <-; destruct J|].
  destruct (exec w b c) as [w1 r1] eqn:E. destruct (run w1 h) as [w2 rs'] eqn:R2. injection R as <- <-. destruct J as [J|J].
  - injection J as <- <-. exists w. cbn. rewrite E. reflexivity.
  - eapply IH; eassumption.
Qed.
Lemma exec_snd (w : world M) b c : snd (exec w b c) = snd (exec1 (names_of w) b (w b) c).
Proof. unfold exec. destruct (exec1 _ _ _ _). reflexivity. Qed.
Lemma plain_ub (w : world M) b c : plain_call c -> snd (exec w b c) <> MUB.
Proof.
  rewrite exec_snd. destruct c as [|[s|]|m [s|]|[s|]| |[s|]|j| |s]; cbn; intros P; try (destruct P; fail); try discriminate;
    unfold get, put, readyCount, clear, drop, unsubscribe, getQueue, getIndex; 
    repeat (match goal with |- context [if ?c then _ else _] => destruct c | |- context [match q_find ?a ?b with _ => _ end] => destruct (q_find a b) as [[|]|] end; cbn); discriminate.
Qed.
Lemma put_none (w : world M) b m : snd (exec w b (CPut m None)) = MOk RUnit.
Proof. rewrite exec_snd. reflexivity. Qed.
Lemma sent_enters (w : world M) s b c : nonnull (sent_to (sub_mbox s) (sub_idx s) (b, c, snd (exec w b c))) = enters s (b, c).
Proof.
  rewrite exec_snd. destruct c as [| |[m|] [s'|]| | | | | |]; try reflexivity; cbn; unfold put, getIndex; cbn.
  - destruct (Nat.eqb_spec (sub_mbox s') b) as [E|E]; cbn.
    + destruct (Nat.eqb b (sub_mbox s)); cbn; [|reflexivity]. destruct (_ =? _)%Z; reflexivity.
    + rewrite andb_false_r. reflexivity.
  - destruct (Nat.eqb b (sub_mbox s)); reflexivity.
  - destruct (Nat.eqb (sub_mbox s') b); cbn; [|reflexivity]. destruct (_ && _); reflexivity.
  - destruct (Nat.eqb b (sub_mbox s)); reflexivity.
Qed.
Lemma nonnull_flat {A} (f : A -> list (option M)) l : nonnull (flat_map f l) = flat_map (fun a => nonnull (f a)) l.
Proof. induction l as [|a l IH]; [reflexivity|]. cbn [flat_map]. rewrite nonnull_app, IH. reflexivity. Qed.

(* ---- pending and the queue ---- *)
Lemma pending_queue (w : world M) s q : pending w s q ->
  exists q', waiting w (sub_mbox s) (sub_idx s) = Some q' /\ nonnull q' = nonnull q.
Proof.
  intros P. destruct (waiting w (sub_mbox s) (sub_idx s)) as [q'|] eqn:F.
  - exists q'. split; [reflexivity|]. destruct (pending_waiting w s q' F) as [A _]. destruct P as [B _].
    specialize (A (length q + length q')). specialize (B (length q + length q')). rewrite A in B.
    rewrite !firstn_all2 in B by lia.
    assert (INJ : forall a b : list (option M), map msg a = map msg b -> a = b).
    { induction a as [|y a IH]; intros [|z b] X; try discriminate; [reflexivity|]. injection X as -> X. f_equal. auto. }
    apply INJ in B. apply (f_equal nonnull) in B. rewrite !nonnull_app in B.
    assert (Z : forall n, nonnull (repeat (@None M) n) = []) by (induction n; auto). rewrite !Z, !app_nil_r in B. exact B.
  - exfalso. destruct P as [B _]. specialize (B 1). unfold future in B. cbn [repeat run] in B.
    destruct (exec w (sub_mbox s) (CGet (Some s))) as [w1 r] eqn:E. apply (f_equal snd) in E. rewrite exec_snd in E. cbn in E.
    unfold get, getIndex, getQueue in E. rewrite Nat.eqb_refl in E. cbn in E. unfold waiting in F. rewrite F in E. cbn in E, B. subst r.
    destruct q; discriminate B.
Qed.

(* ---- the relay ---- *)
Lemma relaying_prefix s f t C : forall h R X RS, @relaying M s f t h C R -> prefix X C -> prefix R RS -> length X = length RS -> relaying s f t h X RS.
Proof.
  induction C as [|bc C IH]; intros h R X RS H [c E] [d F] L.
  - destruct X; [exact I|discriminate].
  - destruct X as [|bc' X]; [exact I|]. injection E as <- E. destruct RS as [|r RS]; [discriminate|]. destruct H as [H1 H2]. split; [exact H1|].
    destruct R as [|r' R].
    + subst C. destruct X; [exact I|discriminate].
    + injection F as -> F. eapply IH; [exact H2|exists c; exact E|exists d; exact F|injection L as L; exact L].
Qed.
Lemma relay_calls s f t L : forall h, relaying s f t h (map fst L) (map snd L) ->
  forall e, In e L -> fst e = (f, CGet (Some s)) \/ exists m : M, fst e = (t, CPut (Some m) None).
Proof.
  induction L as [|[bc r] L IH]; intros h H e J; [destruct J|]. destruct H as [H1 H2]. destruct J as [<-|J]; [|exact (IH _ H2 e J)].
  cbn in *. destruct h; eauto.
Qed.
Lemma relay_conserve s b' i' L : sub_mbox s <> b' -> forall h,
  (forall b m r, In ((b, CPut m None), r) L -> r = MOk RUnit) ->
  relaying s (sub_mbox s) b' h (map fst L) (map snd L) ->
  of_option h ++ flat_map (fun e => nonnull (got_by (sub_mbox s) (sub_idx s) e)) L =
  flat_map (fun e => nonnull (sent_to b' i' e)) L ++ of_option (fold_left (@relay_next M) (map snd L) h).
Proof.
  intros N. induction L as [|[bc r] L IH]; intros h G H.
  - cbn. rewrite app_nil_r. reflexivity.
  - destruct H as [H1 H2]. cbn [map fst snd] in H1, H2. cbn [map fst snd fold_left flat_map].
    assert (G' : forall b m r, In ((b, CPut m None), r) L -> r = MOk RUnit) by (intros; eapply G; right; eassumption).
    specialize (IH (relay_next h r) G' H2). rewrite <- app_assoc, <- IH. destruct h as [m|]; subst bc.
    + rewrite (G b' (Some m) r) by (left; reflexivity). cbn. rewrite Nat.eqb_refl. reflexivity.
    + cbn. destruct r as [[| |m|]| | |]; try reflexivity. rewrite Nat.eqb_refl, Z.eqb_refl. destruct m; reflexivity.
Qed.

Lemma fed_of_t s (x : list (nat * (nat * call))) t :
  of_t t (flat_map (fun '(t', bc) => map (pair t') (enters s bc)) x) = fed s (of_t t x).
Proof.
  unfold fed. induction x as [|[t' bc] x IH]; [reflexivity|]. cbn [flat_map]. rewrite of_app, IH. unfold of_t at 3. cbn [flat_map]. rewrite flat_map_app. f_equal.
  destruct (Nat.eqb_spec t' t) as [->|N].
  - cbn. rewrite app_nil_r. induction (enters s bc) as [|m l J]; [reflexivity|]. cbn. rewrite Nat.eqb_refl. cbn. f_equal. exact J.
  - induction (enters s bc) as [|m l J]; [reflexivity|]. cbn. destruct (Nat.eqb_spec t' t); [congruence|exact J].
Qed.
Lemma fed_snd s (x : list (nat * (nat * call))) :
  map snd (flat_map (fun '(t', bc) => map (pair t') (enters s bc)) x) = fed s (map snd x).
Proof.
  unfold fed. induction x as [|[t' bc] x IH]; [reflexivity|]. cbn [flat_map map]. rewrite map_app, IH. f_equal. rewrite map_map. cbn. apply map_id.
Qed.

Theorem C129_pipeline names (tr0 : list (ev M)) st0 tr st n s rel rd :
  csteps (cinit names) tr0 st0 -> (forall t, thr st0 t = Idle) -> (forall t r, In (Ret t r) tr0 -> r <> MUB) ->
  (forall i, i <= n -> pending (boxes st0) (s i) []) ->
  csteps st0 tr st -> pipeline n s rel rd tr ->
  exists o, entry_order (s 0) tr o /\ prefix (messages (rets_of rd tr)) (map snd o) /\
    ((forall t, thr st t = Idle) ->
     (forall t, of_t t o = fed (s 0) (calls_of t tr)) /\
     forall q, (forall i, i <= n -> pending (boxes st) (s i) (q i)) ->
       map snd o = messages (rets_of rd tr) ++ on_the_way q (fun i => in_hand (rets_of (rel i) tr)) n).
Proof.
  intros H0 I0 U0 P0 H PL. destruct (linear _ _ _ _ _ H0 I0 H U0) as (w1 & x & w & rs & WF & W1 & R & E & PX & PR & ID & WB & RT).
  set (T := tagged x rs). assert (TS : map snd T = combine (map snd x) (map snd rs)) by (apply tagged_snd, E).
  assert (TF : forall t, map fst (of_t t T) = of_t t x /\ map snd (of_t t T) = of_t t rs) by (intros t; apply tagged_of, E).
  assert (GEN : forall t b c r, In (t, (b, c, r)) T -> exists w0 : world M, snd (exec w0 b c) = r).
  { intros t b c r J. apply (in_map snd) in J. rewrite TS in J. exact (genuine _ _ _ _ (b, c) r R J). }
  assert (INC : forall t e, In (t, e) T -> In (fst e) (calls_of t tr)).
  { intros t e J. eapply prefix_in; [apply PX|]. rewrite <- (proj1 (TF t)). apply in_map, in_of_t, J. }
  assert (REL : forall i, i < n -> relaying (s i) (sub_mbox (s i)) (sub_mbox (s (S i))) None (map fst (of_t (rel i) T)) (map snd (of_t (rel i) T))).
  { intros i L. rewrite (proj1 (TF _)), (proj2 (TF _)). eapply relaying_prefix; [apply (p_relays _ _ _ _ _ PL i L)|apply PX|apply PR|]. symmetry. apply len_of, E. }
  assert (RC : forall i e, i < n -> In (rel i, e) T -> fst e = (sub_mbox (s i), CGet (Some (s i))) \/ exists m, fst e = (sub_mbox (s (S i)), CPut (Some m) None)).
  { intros i e L J. eapply relay_calls; [apply (REL i L)|apply in_of_t, J]. }
  assert (RDC : forall e, In (rd, e) T -> fst e = (sub_mbox (s n), CGet (Some (s n)))) by (intros e J; apply (p_reads _ _ _ _ _ PL), (INC _ _ J)).
  (* who is calling *)
  assert (WHO : forall t e, In (t, e) T -> (exists i, i < n /\ t = rel i) \/ t = rd \/ (t <> rd /\ forall i, i < n -> t <> rel i)).
  { intros t e _. destruct (Nat.eq_dec t rd) as [->|N]; [auto|].
    assert (D : forall k, (exists i, i < k /\ t = rel i) \/ forall i, i < k -> t <> rel i).
    { induction k as [|k [(i & L & ->)|IH]]; [right; intros; lia|left; exists i; auto|].
      destruct (Nat.eq_dec t (rel k)) as [->|N2]; [left; exists k; auto|]. right. intros i L. destruct (Nat.eq_dec i k) as [->|]; [exact N2|apply IH; lia]. }
    destruct (D n) as [D1|D1]; auto. }
  assert (PLAIN : forall t e, In (t, e) T -> plain_call (snd (fst e))).
  { intros t e J. destruct (WHO _ _ J) as [(i & L & ->)|[->|[N1 N2]]].
    - destruct (RC i e L J) as [->|[m ->]]; exact I.
    - rewrite (RDC e J). exact I.
    - exact (proj1 (p_others _ _ _ _ _ PL t (fst e) N1 N2 (INC _ _ J))). }
  assert (NUB : no_ub (map snd rs)).
  { intros r J. assert (J' : exists e, In (e, r) (combine (map snd x) (map snd rs))).
    { clear -J E. revert rs E J. induction x as [|[a b] x IH]; intros [|[c d] rs] E J; try discriminate; [destruct J|]. injection E as _ E.
      destruct J as [<-|J]; [exists b; left; reflexivity|]. destruct (IH rs E J) as [e K]. exists e. right. exact K. }
    destruct J' as ([b c] & J'). rewrite <- TS in J'. apply in_map_iff in J' as ([t e] & X & J'). cbn in X. subst e. destruct (GEN _ _ _ _ J') as (w0 & <-).
    apply plain_ub. exact (PLAIN _ _ J'). }
  assert (NOD : forall i, i <= n -> forall e, In e (map snd x) -> discards (sub_mbox (s i)) (sub_idx (s i)) e = false).
  { intros i L e J. assert (J' : exists t r, In (t, (e, r)) T).
    { clear -J E. unfold T, tagged. clear T. revert rs E J. induction x as [|[a b] x IH]; intros [|[c d] rs] E J; try discriminate; [destruct J|]. injection E as _ E.
      destruct J as [<-|J]; [exists a, d; left; reflexivity|]. destruct (IH rs E J) as (t & r & K). exists t, r. right. exact K. }
    destruct J' as (t & r & J'). destruct (WHO _ _ J') as [(j & Lj & ->)|[->|[N1 N2]]].
    - destruct (RC j _ Lj J') as [X|[m X]]; cbn in X; rewrite X; reflexivity.
    - pose proof (RDC _ J') as X. cbn in X. rewrite X. reflexivity.
    - destruct (proj2 (p_others _ _ _ _ _ PL t e N1 N2 (INC _ _ J')) i L) as [NU _]. destruct e as [b c].
      destruct (discards (sub_mbox (s i)) (sub_idx (s i)) (b, c)) eqn:D; [exfalso|reflexivity]. apply NU.
      destruct c as [| | | | |[s'|]|j| |s']; cbn in D; try discriminate D; apply andb_prop in D as [D1 D2]; apply Nat.eqb_eq in D1; apply Z.eqb_eq in D2; split; auto. }
  set (G := fun i => flat_map (fun e => nonnull (got_by (sub_mbox (s i)) (sub_idx (s i)) e)) (map snd T)).
  set (S_ := fun i => flat_map (fun e => nonnull (sent_to (sub_mbox (s i)) (sub_idx (s i)) e)) (map snd T)).
  set (hand := fun i => in_hand (of_t (rel i) rs)).
  (* each mailbox *)
  assert (BOX : forall i, i <= n -> exists q, waiting w (sub_mbox (s i)) (sub_idx (s i)) = Some q /\ G i ++ nonnull q = S_ i).
  { intros i L. destruct (pending_queue _ _ _ (P0 i L)) as (q0 & F0 & Z0). cbn in Z0.
    assert (F1 : waiting w1 (sub_mbox (s i)) (sub_idx (s i)) = Some q0) by (unfold waiting in *; rewrite W1; exact F0).
    destruct (run_conserve _ _ _ _ _ _ _ WF R NUB F1 (NOD i L)) as (q & F & C). exists q. split; [exact F|].
    rewrite Z0 in C. cbn [app] in C. rewrite !nonnull_flat, <- TS in C. exact C. }
  (* each relay *)
  assert (HND : forall i, i < n -> G i = S_ (S i) ++ of_option (hand i)).
  { intros i L.
    assert (NE : forall j, j <= n -> j <> i -> sub_mbox (s j) <> sub_mbox (s i)) by (intros j Lj N X; apply N, (p_boxes _ _ _ _ _ PL); lia).
    assert (NE2 : forall j, j <= n -> j <> S i -> sub_mbox (s j) <> sub_mbox (s (S i))) by (intros j Lj N X; apply N, (p_boxes _ _ _ _ _ PL); lia).
    assert (GS : G i = flat_map (fun e => nonnull (got_by (sub_mbox (s i)) (sub_idx (s i)) e)) (of_t (rel i) T) /\
                 S_ (S i) = flat_map (fun e => nonnull (sent_to (sub_mbox (s (S i))) (sub_idx (s (S i))) e)) (of_t (rel i) T)); [split; apply single|destruct GS as [-> ->]].
    - intros t' e J N. destruct (WHO _ _ J) as [(j & Lj & ->)|[->|[N1 N2]]]; destruct e as [[b c] r].
      + assert (Nj : j <> i) by (intros ->; auto). destruct (RC j _ Lj J) as [X|[m X]]; injection X as -> ->; [|reflexivity].
        cbn. destruct (Nat.eqb_spec (sub_mbox (s j)) (sub_mbox (s i))) as [Y|Y]; [destruct (NE j ltac:(lia) Nj Y)|]. destruct r as [[]| | |]; reflexivity.
      + pose proof (RDC _ J) as X. injection X as -> ->.
        cbn. destruct (Nat.eqb_spec (sub_mbox (s n)) (sub_mbox (s i))) as [Y|Y]; [destruct (NE n ltac:(lia) ltac:(lia) Y)|]. destruct r as [[]| | |]; reflexivity.
      + destruct (proj2 (p_others _ _ _ _ _ PL t' (b, c) N1 N2 (INC _ _ J)) i ltac:(lia)) as [NU _].
        destruct c as [|[s'|]| | | | | | |]; try reflexivity. cbn.
        destruct (Nat.eqb_spec b (sub_mbox (s i))) as [Y|Y]; cbn; [destruct (Z.eqb_spec (sub_idx s') (sub_idx (s i))) as [Y2|Y2]|]; [destruct NU; split; assumption|..]; destruct r as [[]| | |]; reflexivity.
    - intros t' e J N. destruct (WHO _ _ J) as [(j & Lj & ->)|[->|[N1 N2]]]; destruct e as [[b c] r].
      + assert (Nj : j <> i) by (intros ->; auto). destruct (RC j _ Lj J) as [X|[m X]]; injection X as -> ->; [reflexivity|].
        cbn. destruct (Nat.eqb_spec (sub_mbox (s (S j))) (sub_mbox (s (S i)))) as [Y|Y]; [destruct (NE2 (S j) ltac:(lia) ltac:(lia) Y)|]. destruct r; reflexivity.
      + pose proof (RDC _ J) as X. injection X as -> ->. reflexivity.
      + destruct (proj2 (p_others _ _ _ _ _ PL t' (b, c) N1 N2 (INC _ _ J)) (S i) L) as [_ NP]. specialize (NP ltac:(lia)).
        destruct c as [| |m o| | | | | |]; try reflexivity. cbn. destruct (Nat.eqb_spec b (sub_mbox (s (S i)))) as [->|]; [destruct (NP m o eq_refl)|]. destruct o, r; reflexivity.
    - pose proof (relay_conserve (s i) (sub_mbox (s (S i))) (sub_idx (s (S i))) (of_t (rel i) T) (NE2 i ltac:(lia) ltac:(lia)) None) as RCV.
      cbn [of_option app] in RCV. rewrite RCV; [|..|apply REL, L].
      + unfold hand, in_hand. rewrite (proj2 (TF _)). reflexivity.
      + intros b m r J. apply in_of_t in J. destruct (GEN _ _ _ _ J) as (w0 & <-). apply put_none. }
  (* the reader *)
  assert (RDR : G n = messages (of_t rd rs)).
  { assert (GS : G n = flat_map (fun e => nonnull (got_by (sub_mbox (s n)) (sub_idx (s n)) e)) (of_t rd T)); [apply single|rewrite GS; clear GS].
    - intros t' e J N. destruct (WHO _ _ J) as [(j & Lj & ->)|[->|[N1 N2]]]; destruct e as [[b c] r].
      + destruct (RC j _ Lj J) as [X|[m X]]; injection X as -> ->; [|reflexivity].
        cbn. destruct (Nat.eqb_spec (sub_mbox (s j)) (sub_mbox (s n))) as [Y|Y]; [apply (p_boxes _ _ _ _ _ PL) in Y; lia|]. destruct r as [[]| | |]; reflexivity.
      + congruence.
      + destruct (proj2 (p_others _ _ _ _ _ PL t' (b, c) N1 N2 (INC _ _ J)) n ltac:(lia)) as [NU _].
        destruct c as [|[s'|]| | | | | | |]; try reflexivity. cbn.
        destruct (Nat.eqb_spec b (sub_mbox (s n))) as [Y|Y]; cbn; [destruct (Z.eqb_spec (sub_idx s') (sub_idx (s n))) as [Y2|Y2]|]; [destruct NU; split; assumption|..]; destruct r as [[]| | |]; reflexivity.
    - rewrite <- (proj2 (TF rd)). unfold messages. assert (ALL : forall e, In e (of_t rd T) -> fst e = (sub_mbox (s n), CGet (Some (s n)))) by (intros e J; apply RDC, in_of_t, J).
      induction (of_t rd T) as [|[bc r] l IH]; [reflexivity|]. cbn [flat_map map snd]. rewrite IH by (intros; apply ALL; right; assumption). f_equal.
      pose proof (ALL _ (or_introl eq_refl)) as X. cbn [fst] in X. rewrite X. cbn. destruct r as [[| |m|]| | |]; try reflexivity. rewrite Nat.eqb_refl, Z.eqb_refl. destruct m; reflexivity. }
  (* what went in *)
  set (o := flat_map (fun '(t', bc) => map (pair t') (enters (s 0) bc)) x).
  assert (SO : S_ 0 = map snd o).
  { unfold o. rewrite fed_snd. unfold S_, fed. assert (Q : map snd x = map fst (map snd T)).
    { rewrite TS. clear -E. revert rs E. induction x as [|[a b] x IH]; intros [|[c d] rs] E; try discriminate; [reflexivity|]. injection E as _ E. cbn. f_equal. auto. }
    rewrite Q. assert (GN : forall e, In e (map snd T) -> exists w0 : world M, snd (exec w0 (fst (fst e)) (snd (fst e))) = snd e).
    { intros [[b c] r] J. apply in_map_iff in J as ([t e] & X & J). cbn in X. subst e. exact (GEN _ _ _ _ J). }
    clear -GN. induction (map snd T) as [|[[b c] r] l IH]; [reflexivity|]. cbn [flat_map map fst]. rewrite IH by (intros; apply GN; right; assumption). f_equal.
    destruct (GN _ (or_introl eq_refl)) as (w0 & X). cbn [fst snd] in X. rewrite <- X. apply sent_enters. }
  assert (CHAIN : forall q, (forall i, i <= n -> G i ++ nonnull (q i) = S_ i) -> forall k, k <= n -> S_ 0 = G k ++ on_the_way q hand k).
  { intros q B. induction k as [|k IH]; intros L; [symmetry; apply B; lia|]. cbn [on_the_way]. rewrite IH by lia. rewrite HND, <- (B (S k)) by lia. rewrite <- !app_assoc. reflexivity. }
  exists o. split; [split|split].
  - intros t. unfold o. rewrite fed_of_t. apply prefix_flat, PX.
  - intros a b TR. destruct (RT a b TR) as (x1 & x2 & X & B). unfold o. rewrite X, flat_map_app. do 2 eexists. split; [reflexivity|]. intros t. rewrite fed_of_t.
    assert (Pa : prefix (calls_of t a) (calls_of t tr)) by (rewrite TR, calls_app; eexists; reflexivity).
    assert (Px : prefix (of_t t x1) (calls_of t tr)) by (eapply prefix_tr; [|apply PX]; rewrite X, of_app; eexists; reflexivity).
    split; apply prefix_flat.
    + eapply prefix_both; [eapply prefix_tr; [|exact Pa]|exact Px|rewrite firstn_length; specialize (B t); lia].
      exists (skipn (length (rets_of t a)) (calls_of t a)). symmetry. apply firstn_skipn.
    + eapply prefix_both; [exact Px|exact Pa|apply B].
  - assert (QX : exists q, forall i, i <= n -> G i ++ nonnull (q i) = S_ i).
    { exists (fun i => match waiting w (sub_mbox (s i)) (sub_idx (s i)) with Some q => q | None => [] end). intros i L.
      destruct (BOX i L) as (q & -> & C). exact C. }
    destruct QX as (q & B). rewrite <- SO, (CHAIN q B n (le_n n)), RDR. eapply prefix_tr; [apply prefix_flat, PR|eexists; reflexivity].
  - intros IDL. split; [intros t; unfold o; rewrite fed_of_t, (proj1 (ID t (IDL t))); reflexivity|]. intros q PQ.
    assert (HE : forall i, hand i = in_hand (rets_of (rel i) tr)) by (intros i; unfold hand; rewrite (proj2 (ID _ (IDL _))); reflexivity).
    assert (OW : forall k, on_the_way q (fun i => in_hand (rets_of (rel i) tr)) k = on_the_way q hand k) by (induction k as [|k IH]; [reflexivity|]; cbn [on_the_way]; rewrite IH, HE; reflexivity).
    rewrite OW, <- SO, <- (proj2 (ID rd (IDL rd))), <- RDR. apply CHAIN; [|lia].
    intros i L. destruct (BOX i L) as (q1 & F & C). destruct (pending_queue _ _ _ (PQ i L)) as (q2 & F2 & <-).
    unfold waiting in F, F2. rewrite (WB IDL) in F. rewrite F in F2. injection F2 as ->. exact C.
Qed.
End P.
Print Assumptions C129_pipeline.

(* when everything has come to rest and nothing is left on the way, the reader
   has everything, once, each thread's messages in the order it put them *)
Corollary C129_delivered {M} names (tr0 : list (ev M)) st0 tr st n s rel rd :
  csteps (cinit names) tr0 st0 -> (forall t, thr st0 t = Idle) -> (forall t r, In (Ret t r) tr0 -> r <> MUB) ->
  (forall i, i <= n -> pending (boxes st0) (s i) []) ->
  csteps st0 tr st -> pipeline n s rel rd tr ->
  (forall t, thr st t = Idle) -> (forall i, i <= n -> pending (boxes st) (s i) []) ->
  (forall i, i < n -> in_hand (rets_of (rel i) tr) = None) ->
  exists o, messages (rets_of rd tr) = map snd o /\ entry_order (s 0) tr o /\ forall t, of_t t o = fed (s 0) (calls_of t tr).
Proof.
  intros A B C D E F G H I. destruct (C129_pipeline _ _ _ _ _ _ _ _ _ A B C D E F) as (o & EO & _ & Z). exists o.
  destruct (Z G) as [Z1 Z2]. split; [|auto]. rewrite (Z2 (fun _ => []) H).
  assert (W : forall k, k <= n -> on_the_way (fun _ => []) (fun i => in_hand (rets_of (rel i) tr)) k = []).
  { induction k as [|k IH]; intros L; [reflexivity|]. cbn [on_the_way]. rewrite IH by lia. rewrite I by lia. reflexivity. }
  rewrite W by lia. rewrite app_nil_r. reflexivity.
Qed.
Print Assumptions C129_delivered.

(* three mailboxes, relays 0 and 1, reader 2; thread 3 makes the subscriptions;
   threads 4 and 5 put 7, 8 and 9 *)
Definition pl_go (t b : nat) (c : call nat) (k : nat) : list move := DCall t b c :: repeat (DGo t) k.
Definition pl_sub (i : nat) : sub := mkSub i 0.
Definition pl_setup : list move :=
  pl_go 3 0 CSubscribe 4 ++ pl_go 3 1 CSubscribe 4 ++ pl_go 3 2 CSubscribe 4.
Definition pl_sched : list move :=
  [DCall 0 0 (CGet (Some (pl_sub 0))); DGo 0; DCall 4 0 (CPut (Some 7) None); DCall 5 0 (CPut (Some 9) None)] ++
  (* relay 0 looks too early *)
  [DGo 0; DGo 0; DGo 0] ++ [DGo 5; DGo 5; DGo 5; DGo 5; DGo 4; DGo 5; DGo 4; DGo 4; DGo 4; DGo 4] ++
  pl_go 4 0 (CPut (Some 8) None) 5 ++
  (* relay 0 hands on 9, then 7, with relay 1 and the reader in between *)
  pl_go 0 0 (CGet (Some (pl_sub 0))) 5 ++ pl_go 0 1 (CPut (Some 9) None) 5 ++
  [DCall 1 1 (CGet (Some (pl_sub 1)))] ++ pl_go 0 0 (CGet (Some (pl_sub 0))) 5 ++ repeat (DGo 1) 5 ++
  pl_go 1 2 (CPut (Some 9) None) 5 ++ pl_go 0 1 (CPut (Some 7) None) 5 ++ pl_go 2 2 (CGet (Some (pl_sub 2))) 5 ++
  pl_go 1 1 (CGet (Some (pl_sub 1))) 5.
Example C129_nonvacuous :
  exists tr0 st0 tr st,
    csteps (cinit (fun _ => lit "relay")) tr0 st0 /\ (forall t, thr st0 t = Idle) /\ (forall t r, In (Ret t r) tr0 -> r <> MUB) /\
    (forall i, i <= 2 -> pending (boxes st0) (pl_sub i) []) /\
    csteps st0 tr st /\ pipeline 2 pl_sub (fun i => i) 2 tr /\ (forall t, thr st t = Idle) /\
    (* 9 has arrived, 7 is in the hand of relay 1, 8 waits in mailbox 0 *)
    messages (rets_of 2 tr) = [9] /\ in_hand (rets_of 1 tr) = Some 7 /\ pending (boxes st) (pl_sub 0) [Some 8] /\
    calls_of 4 tr = [(0, CPut (Some 7) None); (0, CPut (Some 8) None)] /\ calls_of 5 tr = [(0, CPut (Some 9) None)].
Proof.
  destruct (drive (cinit (fun _ => lit "relay")) pl_setup) as [[st0 tr0]|] eqn:D0; [|vm_compute in D0; discriminate D0].
  destruct (drive st0 pl_sched) as [[st tr]|] eqn:D.
  2:{ assert (X : match drive (cinit (fun _ => lit "relay")) pl_setup with Some (a, _) => match drive a pl_sched with Some _ => true | None => false end | None => true end = true) by (vm_compute; reflexivity).
      rewrite D0, D in X. discriminate X. }
  exists tr0, st0, tr, st.
  assert (P0 : forall {A} (f : cstate nat -> list (ev nat) -> A) v, match drive (cinit (fun _ => lit "relay")) pl_setup with Some (a, t) => Some (f a t) | None => None end = Some v -> f st0 tr0 = v).
  { intros A f v X. rewrite D0 in X. injection X. auto. }
  assert (P1 : forall {A} (f : cstate nat -> list (ev nat) -> A) v, match drive (cinit (fun _ => lit "relay")) pl_setup with Some (a, t) => match drive a pl_sched with Some (b, u) => Some (f b u) | None => None end | None => None end = Some v -> f st tr = v).
  { intros A f v X. rewrite D0, D in X. injection X. auto. }
  assert (IDLE : forall (st : cstate nat) tr st', csteps st tr st' -> forall t, thr st t = Idle -> calls_of t tr = [] -> thr st' t = Idle).
  { clear. intros st tr st' H. induction H; intros u I E; [exact I|]. rewrite calls_app in E. apply app_eq_nil in E as [E1 E2]. specialize (IHcsteps u I E1).
    inversion H0; subst; cbn in *; unfold set_thr in *; cbn in *; destruct (Nat.eqb_spec u t); subst; congruence || auto.
    rewrite Nat.eqb_refl in E2. discriminate E2. }
  pose proof (drive_sound _ _ _ _ D0) as S0. pose proof (drive_sound _ _ _ _ D) as S1.
  assert (X0 : tr0 = ltac:(let v := eval vm_compute in (match drive (cinit (fun _ => lit "relay")) pl_setup with Some (_, t) => t | None => [] end) in exact v)) by (apply (P0 _ (fun _ l => l)); vm_compute; reflexivity).
  assert (I0 : forall t, thr st0 t = Idle).
  { intros t. destruct (Nat.eq_dec t 3) as [->|N]; [apply (P0 _ (fun a _ => thr a 3)); vm_compute; reflexivity|].
    apply (IDLE _ _ _ S0); [reflexivity|]. rewrite X0. cbn. do 4 (destruct t as [|t]; [reflexivity || congruence|]). reflexivity. }
  split; [exact S0|]. split; [exact I0|]. split.
  { rewrite X0. intros t r J. cbn in J. repeat (destruct J as [J|J]; [try discriminate J; injection J as <- <-; discriminate|]). destruct J. }
  split.
  { intros i L. apply pending_waiting. destruct i as [|[|[|i]]]; [..|lia]; match goal with |- waiting _ (sub_mbox ?s) (sub_idx ?s) = _ => apply (P0 _ (fun a _ => waiting (boxes a) (sub_mbox s) (sub_idx s))) end; vm_compute; reflexivity. }
  split; [exact S1|].
  assert (X : tr = ltac:(let v := eval vm_compute in (match drive (cinit (fun _ => lit "relay")) pl_setup with Some (a, t) => match drive a pl_sched with Some (_, u) => u | None => [] end | None => [] end) in exact v)) by (apply (P1 _ (fun _ l => l)); vm_compute; reflexivity).
  split.
  { rewrite X. split.
    - intros i j _ _ E. exact E.
    - intros i j _ _ E. exact E.
    - intros i L. lia.
    - intros [|[|i]] L; [..|lia]; cbn; repeat split.
    - intros bc J. cbn in J. destruct J as [<-|[]]. reflexivity.
    - intros t bc N1 N2 J. pose proof (N2 0 ltac:(lia)). pose proof (N2 1 ltac:(lia)). unfold calls_of in J. apply in_flat_map in J as (e & J1 & J2). cbn in J1.
      repeat (destruct J1 as [<-|J1]; [try (destruct J2; fail); cbn in J2; destruct t as [|[|[|[|[|[|t]]]]]]; try congruence; cbn in J2; try (destruct J2; fail);
        (destruct J2 as [<-|[]]; split; [exact I|intros i L; split; [intros []|intros Li m o E; injection E as E _ _; cbn in E; lia]])|]). destruct J1. }
  split.
  { intros t. destruct (Nat.le_gt_cases 6 t) as [L|L].
    - apply (IDLE _ _ _ S1); [apply I0|]. rewrite X. cbn. do 6 (destruct t as [|t]; [lia|]). reflexivity.
    - do 6 (destruct t as [|t]; [match goal with |- thr st ?k = _ => apply (P1 _ (fun a _ => thr a k)) end; vm_compute; reflexivity|]). lia. }
  split; [rewrite X; reflexivity|]. split; [rewrite X; reflexivity|]. split.
  { apply pending_waiting. apply (P1 _ (fun a _ => waiting (boxes a) 0 0%Z)). vm_compute. reflexivity. }
  split; rewrite X; reflexivity.
Qed.
