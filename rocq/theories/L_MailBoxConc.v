(* L_MailBoxConc.v *)
From Verif Require Import Base M_MailBox M_MailBoxConc S_MailBox S_MailBoxConc L_Map L_MailBox.
From Coq Require Import Sorted.

Section L.
Context {M : Type}.
Notation mbox := (mbox M). Notation world := (world M). Notation call := (call M). Notation mret := (mret M).
Implicit Types (mb : mbox) (w : world) (c : call) (r : mret).

(* ---- sorted maps ---- *)
Lemma insert_middle (k : Z) (v v' : list (option M)) pre suf :
  ksorted Z.compare (pre ++ (k, v) :: suf) ->
  smap_insert Z.compare k v' (pre ++ (k, v) :: suf) = pre ++ (k, v') :: suf /\
  smap_find Z.compare k (pre ++ (k, v) :: suf) = Some v.
Proof.
  unfold ksorted. induction pre as [|[k0 v0] pre IH]; cbn; intros S.
  - rewrite Z.compare_refl. auto.
  - inversion S as [|? ? S1 S2]; subst. destruct (IH S1) as [A B].
    rewrite map_app in S2. cbn in S2. apply Forall_app in S2. destruct S2 as [_ S2]. inversion S2 as [|? ? S3 _]; subst.
    unfold klt in S3. rewrite Z.compare_antisym, S3. cbn. rewrite A, B. auto.
Qed.
Lemma find_split (k : Z) (v : list (option M)) m : smap_find Z.compare k m = Some v -> exists pre suf, m = pre ++ (k, v) :: suf.
Proof. intros H. apply (find_some_in _ Zcmp_eq), in_split in H. exact H. Qed.
Lemma insert_id (k : Z) (v : list (option M)) m : ksorted Z.compare m -> smap_find Z.compare k m = Some v -> smap_insert Z.compare k v m = m.
Proof. intros S F. destruct (find_split _ _ _ F) as (p & s & ->). apply (insert_middle k v v p s S). Qed.
Lemma insert_twice (k : Z) (a b v : list (option M)) m : ksorted Z.compare m -> smap_find Z.compare k m = Some v ->
  smap_insert Z.compare k b (smap_insert Z.compare k a m) = smap_insert Z.compare k b m.
Proof.
  intros S F. destruct (find_split _ _ _ F) as (p & s & ->).
  rewrite (proj1 (insert_middle k v a p s S)), (proj1 (insert_middle k v b p s S)).
  apply insert_middle. unfold ksorted in *. rewrite map_app in *. exact S.
Qed.
Lemma erase_middle (k : Z) (v : list (option M)) pre suf : ksorted Z.compare (pre ++ (k, v) :: suf) ->
  smap_erase Z.compare k (pre ++ (k, v) :: suf) = pre ++ suf.
Proof.
  unfold ksorted. induction pre as [|[k0 v0] pre IH]; cbn; intros S.
  - rewrite Z.compare_refl. reflexivity.
  - inversion S as [|? ? S1 S2]; subst. rewrite map_app in S2. cbn in S2. apply Forall_app in S2.
    destruct S2 as [_ S2]. inversion S2 as [|? ? S3 _]; subst.
    unfold klt in S3. rewrite Z.compare_antisym, S3. cbn. rewrite IH by exact S1. reflexivity.
Qed.
Lemma erase_insert (k : Z) (a v : list (option M)) m : ksorted Z.compare m -> smap_find Z.compare k m = Some v ->
  smap_erase Z.compare k (smap_insert Z.compare k a m) = smap_erase Z.compare k m.
Proof.
  intros S F. destruct (find_split _ _ _ F) as (p & s & ->). rewrite (proj1 (insert_middle k v a p s S)).
  rewrite !erase_middle; auto. unfold ksorted in *. rewrite map_app in *. exact S.
Qed.

(* ---- bodies run to completion ---- *)
Inductive brun names b : mbox -> pc M -> mbox -> mret -> Prop :=
| br_ret : forall mb p mb' r, bstep names b mb p = (mb', inr r) -> brun names b mb p mb' r
| br_step : forall mb p mb1 p1 mb' r, bstep names b mb p = (mb1, inl p1) -> brun names b mb1 p1 mb' r -> brun names b mb p mb' r.

Lemma brun_inl names b mb p mb' r mb1 p1 : brun names b mb p mb' r -> bstep names b mb p = (mb1, inl p1) -> brun names b mb1 p1 mb' r.
Proof. intros H E. inversion H; subst; congruence. Qed.
Lemma brun_inr names b mb p mb' r mb1 r1 : brun names b mb p mb' r -> bstep names b mb p = (mb1, inr r1) -> mb1 = mb' /\ r1 = r.
Proof. intros H E. inversion H; subst; split; congruence. Qed.

Lemma put_loop names b m omit nm ct : forall suf pre,
  ksorted Z.compare (pre ++ suf) ->
  brun names b (mkBox nm (put_all omit m pre ++ suf) ct) (PPut omit m (map fst suf))
    (mkBox nm (put_all omit m (pre ++ suf)) ct) (MOk RUnit).
Proof.
  induction suf as [|[k q] suf IH]; intros pre S.
  - rewrite app_nil_r. apply br_ret. cbn. rewrite app_nil_r. reflexivity.
  - assert (S' : ksorted Z.compare (put_all omit m pre ++ (k, q) :: suf)).
    { unfold ksorted in *. rewrite map_app in *. rewrite put_all_keys. exact S. }
    destruct (insert_middle k q (q ++ [m]) _ _ S') as [I F].
    assert (E : pre ++ (k, q) :: suf = (pre ++ [(k, q)]) ++ suf) by (rewrite <- app_assoc; reflexivity).
    eapply br_step; [cbn; reflexivity|]. rewrite E. unfold put_all in IH |- *.
    specialize (IH (pre ++ [(k, q)])). rewrite <- E in IH. specialize (IH S). rewrite E in IH.
    rewrite (map_app _ pre) in IH. cbn in IH. destruct (k =? omit)%Z.
    + rewrite <- app_assoc in IH. exact IH.
    + unfold set_queue, queue, set_queues, q_find, q_set in *. cbn in *. unfold put_all in F, I. rewrite F, I.
      rewrite <- app_assoc in IH. exact IH.
Qed.

Lemma min_loop names b mb : forall suf pre acc, ksorted Z.compare (pre ++ suf) -> mb_queues mb = pre ++ suf ->
  brun names b mb (PMin acc (map fst suf)) mb
    (MOk (RNum (fold_left (fun ret '(_, q) => let qs := Z.of_nat (length (q : list (option M))) in if (ret <? qs)%Z then ret else to_u32 qs) suf acc))).
Proof.
  induction suf as [|[k q] suf IH]; intros pre acc S E.
  - apply br_ret. reflexivity.
  - eapply br_step; [cbn; reflexivity|].
    assert (F : queue mb k = q). { unfold queue, q_find. rewrite E. rewrite (proj2 (insert_middle k q q _ _ S)). reflexivity. }
    rewrite F. cbn [fold_left]. apply (IH (pre ++ [(k, q)])); rewrite <- app_assoc; assumption.
Qed.

Lemma clear_loop names b i : forall q mb, ksorted Z.compare (mb_queues mb) -> q_find i (mb_queues mb) = Some q ->
  brun names b mb (PClear i) (set_queues mb (q_set i [] (mb_queues mb))) (MOk RUnit).
Proof.
  induction q as [|x q IH]; intros mb S F.
  - apply br_ret. cbn. unfold queue. rewrite F. unfold set_queues, q_set. rewrite insert_id by assumption. destruct mb; reflexivity.
  - eapply br_step; [cbn; unfold queue; rewrite F; reflexivity|].
    specialize (IH (set_queue mb i q)). cbn in IH.
    unfold set_queue, q_set, q_find in *. cbn in *. unfold set_queues in *. cbn in *.
    rewrite (insert_twice i q [] (x :: q)) in IH by assumption. apply IH.
    + apply ksorted_insert; auto using Zcmp_eq, Zcmp_opp. apply Zcmp_trans.
    + apply (find_insert_same _ Zcmp_eq).
Qed.
Lemma unsub_loop names b i : forall q mb, ksorted Z.compare (mb_queues mb) -> q_find i (mb_queues mb) = Some q ->
  brun names b mb (PUnsub i) (set_queues mb (q_erase i (mb_queues mb))) (MOk RUnit).
Proof.
  induction q as [|x q IH]; intros mb S F.
  - apply br_ret. cbn. unfold queue. rewrite F. reflexivity.
  - eapply br_step; [cbn; unfold queue; rewrite F; reflexivity|].
    specialize (IH (set_queue mb i q)). cbn in IH.
    unfold set_queue, q_set, q_find, q_erase in *. cbn in *. unfold set_queues in *. cbn in *.
    rewrite (erase_insert i q (x :: q)) in IH by assumption. apply IH.
    + apply ksorted_insert; auto using Zcmp_eq, Zcmp_opp. apply Zcmp_trans.
    + apply (find_insert_same _ Zcmp_eq).
Qed.

Lemma body_correct names b mb c : ksorted Z.compare (mb_queues mb) ->
  brun names b mb (PStart c) (fst (exec1 names b mb c)) (snd (exec1 names b mb c)).
Proof.
  intros S. destruct c as [|s|m s|s| |s|j| |s]; cbn [exec1].
  - eapply br_step; [reflexivity|]. apply br_ret. unfold bstep, subscribe, set_queue, set_queues. cbn [mb_counter mb_name mb_queues].
    destruct (mb_counter mb <? two31 - 1)%Z; reflexivity.
  - unfold get. destruct (getIndex names b s) as [i|e|] eqn:G; cbn;
      [|apply br_ret; cbn; rewrite G; reflexivity..].
    unfold getQueue. destruct (q_find i (mb_queues mb)) as [q|] eqn:F; cbn;
      [|apply br_ret; cbn; rewrite G; cbn; unfold getQueue; rewrite F; reflexivity].
    eapply br_step; [cbn; rewrite G; cbn; unfold getQueue; rewrite F; reflexivity|].
    destruct q as [|x q].
    + apply br_ret. cbn. unfold queue. rewrite F. reflexivity.
    + eapply br_step; [cbn; unfold queue; rewrite F; reflexivity|]. apply br_ret. cbn. unfold queue. rewrite F. reflexivity.
  - unfold put. destruct (match s with None => _ | Some _ => _ end) as [o|e|] eqn:G; cbn;
      [|apply br_ret; cbn; rewrite G; reflexivity..].
    eapply br_step; [cbn; rewrite G; reflexivity|].
    pose proof (put_loop names b m o (mb_name mb) (mb_counter mb) (mb_queues mb) [] S) as H. cbn in H.
    destruct mb; exact H.
  - unfold readyCount. destruct (getIndex names b s) as [i|e|] eqn:G; cbn;
      [|apply br_ret; cbn; rewrite G; reflexivity..].
    unfold getQueue. destruct (q_find i (mb_queues mb)) as [q|] eqn:F; cbn;
      [|apply br_ret; cbn; rewrite G; cbn; unfold getQueue; rewrite F; reflexivity].
    eapply br_step; [cbn; rewrite G; cbn; unfold getQueue; rewrite F; reflexivity|].
    apply br_ret. cbn. unfold queue. rewrite F. reflexivity.
  - eapply br_step; [reflexivity|]. apply (min_loop names b mb (mb_queues mb) []); auto.
  - unfold clear. destruct (getIndex names b s) as [i|e|] eqn:G; cbn;
      [|apply br_ret; cbn; rewrite G; reflexivity..].
    unfold getQueue. destruct (q_find i (mb_queues mb)) as [q|] eqn:F; cbn;
      [|apply br_ret; cbn; rewrite G; cbn; unfold getQueue; rewrite F; reflexivity].
    eapply br_step; [cbn; rewrite G; cbn; unfold getQueue; rewrite F; reflexivity|].
    eapply clear_loop; eauto.
  - unfold unsubscribe, getQueue. destruct (q_find j (mb_queues mb)) as [q|] eqn:F; cbn;
      [|apply br_ret; cbn; unfold getQueue; rewrite F; reflexivity].
    eapply br_step; [cbn; unfold getQueue; rewrite F; reflexivity|]. eapply unsub_loop; eauto.
  - apply br_ret. reflexivity.
  - unfold drop, unsubscribe, getQueue. destruct (q_find (sub_idx s) (mb_queues mb)) as [q|] eqn:F; cbn;
      [|apply br_ret; cbn; unfold getQueue; rewrite F; reflexivity].
    eapply br_step; [cbn; unfold getQueue; rewrite F; reflexivity|]. eapply unsub_loop; eauto.
Qed.

Lemma exec1_sorted names self mb c : ksorted Z.compare (mb_queues mb) -> ksorted Z.compare (mb_queues (fst (exec1 names self mb c))).
Proof.
  intros S.
  assert (I : forall i q, ksorted Z.compare (q_set i q (mb_queues mb))).
  { intros. apply ksorted_insert; auto using Zcmp_eq, Zcmp_opp. apply Zcmp_trans. }
  assert (U : forall i, ksorted Z.compare (mb_queues (fst (unsubscribe mb i)))).
  { intros. unfold unsubscribe. destruct (getQueue mb i); cbn; auto. apply ksorted_erase, S. }
  destruct c as [|s|m s|s| |s|j| |s]; cbn; auto.
  - unfold subscribe. destruct (_ <? _)%Z; cbn; apply I.
  - unfold get. destruct (getIndex _ _ _); cbn; auto. destruct (getQueue _ _) as [[|]| |]; cbn; auto; apply I.
  - unfold put. destruct (match s with None => _ | _ => _ end); cbn; auto. unfold ksorted. rewrite put_all_keys. exact S.
  - unfold readyCount. destruct (getIndex _ _ _); cbn; auto. destruct (getQueue _ _); cbn; auto.
  - unfold clear. destruct (getIndex _ _ _); cbn; auto. destruct (getQueue _ _); cbn; auto; apply I.
  - unfold drop. specialize (U (sub_idx s)). destruct (unsubscribe _ _); exact U.
Qed.

(* ---- names ---- *)
Lemma getIndex_ext n1 n2 b s : (forall x, n1 x = n2 x) -> getIndex n1 b s = getIndex n2 b s.
Proof. intros H. destruct s as [s|]; cbn; [|reflexivity]. rewrite !H. reflexivity. Qed.
Lemma bstep_ext n1 n2 b mb p : (forall x, n1 x = n2 x) -> bstep n1 b mb p = bstep n2 b mb p.
Proof.
  intros H. destruct p as [[]| | | |? ? []| |? []| |]; cbn; rewrite ?(getIndex_ext n1 n2 b _ H); reflexivity.
Qed.
Lemma exec1_ext n1 n2 b mb c : (forall x, n1 x = n2 x) -> exec1 n1 b mb c = exec1 n2 b mb c.
Proof.
  intros H. destruct c; cbn; unfold get, put, readyCount, clear; rewrite ?(getIndex_ext n1 n2 b _ H); reflexivity.
Qed.
Lemma bstep_name n b mb p : mb_name (fst (bstep n b mb p)) = mb_name mb.
Proof.
  destruct p as [c|i|i|i m|o m ks|i|x ks|i|i]; cbn.
  - destruct c as [|s|m s|s| |s|j| |s]; cbn; auto.
    + destruct (getIndex n b s); cbn; auto. destruct (getQueue mb a); reflexivity.
    + destruct (match s with None => _ | _ => _ end); reflexivity.
    + destruct (getIndex n b s); cbn; auto. destruct (getQueue mb a); reflexivity.
    + destruct (getIndex n b s); cbn; auto. destruct (getQueue mb a); reflexivity.
    + destruct (getQueue mb j); reflexivity.
    + destruct (getQueue mb (sub_idx s)); reflexivity.
  - destruct (_ <? _)%Z; reflexivity.
  - destruct (queue mb i); reflexivity.
  - reflexivity.
  - destruct ks as [|k ks]; [reflexivity|]. destruct (k =? o)%Z; reflexivity.
  - reflexivity.
  - destruct ks; reflexivity.
  - destruct (queue mb i); reflexivity.
  - destruct (queue mb i); reflexivity.
Qed.

(* ---- the invariant ---- *)
Lemma run_snoc h b c : forall w w1 rs, run w h = (w1, rs) ->
  run w (h ++ [(b, c)]) = (fst (exec w1 b c), rs ++ [snd (exec w1 b c)]).
Proof.
  induction h as [|[b0 c0] h IH]; intros w w1 rs H; cbn in *.
  - injection H as <- <-. destruct (exec w b c); reflexivity.
  - destruct (exec w b0 c0) as [w2 r]. destruct (run w2 h) as [w3 rs3] eqn:R. injection H as <- <-.
    rewrite (IH _ _ _ R). reflexivity.
Qed.
Lemma of_app t {A} (l1 l2 : list (nat * A)) : of_t t (l1 ++ l2) = of_t t l1 ++ of_t t l2.
Proof. apply flat_map_app. Qed.
Lemma calls_app t (a b : list (ev M)) : calls_of t (a ++ b) = calls_of t a ++ calls_of t b.
Proof. apply flat_map_app. Qed.
Lemma rets_app t (a b : list (ev M)) : rets_of t (a ++ b) = rets_of t a ++ rets_of t b.
Proof. apply flat_map_app. Qed.

Record inv (names : nat -> str) (st : cstate M) (tr : list (ev M)) (o : order) (w : world) (rs : list (nat * mret)) : Prop := {
  i_seq : sequential names o w rs;
  i_names : forall b, mb_name (boxes st b) = names b;
  i_namesw : forall b, mb_name (w b) = names b;
  i_sorted : forall b, ksorted Z.compare (mb_queues (w b));
  i_thr : forall t, match thr st t with
    | Idle => of_t t o = calls_of t tr /\ of_t t rs = rets_of t tr
    | Want b c => calls_of t tr = of_t t o ++ [(b, c)] /\ of_t t rs = rets_of t tr
    | Inside b p => of_t t o = calls_of t tr /\ owner st b = Some t /\
                    exists r, of_t t rs = rets_of t tr ++ [r] /\ brun names b (boxes st b) p (w b) r
    | Leaving r => of_t t o = calls_of t tr /\ of_t t rs = rets_of t tr ++ [r]
    end;
  i_own : forall b, match owner st b with
    | None => boxes st b = w b
    | Some t => exists p, thr st t = Inside b p
    end;
  i_time : respects_time tr o }.

Lemma len_of t (o : @order M) (rs : list (nat * mret)) : map fst rs = map fst o -> length (of_t t rs) = length (of_t t o).
Proof.
  revert rs. induction o as [|[t1 x] o IH]; intros [|[t2 y] rs] E; cbn in E; try discriminate; [reflexivity|].
  injection E as -> E. unfold of_t in *. cbn [flat_map]. rewrite !app_length, (IH rs E). destruct (Nat.eqb t1 t); reflexivity.
Qed.

Lemma thr_bounds names st tr o w rs : inv names st tr o w rs ->
  forall t, length (rets_of t tr) <= length (of_t t o) <= length (calls_of t tr).
Proof.
  intros I t. pose proof (i_thr _ _ _ _ _ _ I t) as H. destruct (i_seq _ _ _ _ _ _ I) as [_ E].
  pose proof (len_of t o rs E) as L.
  destruct (thr st t) as [|b c|b p|r].
  - destruct H as [A B]. rewrite <- B, <- A, L. lia.
  - destruct H as [A B]. rewrite A, app_length, <- B, L. lia.
  - destruct H as (A & _ & r & B & _). rewrite <- A. apply (f_equal (@length _)) in B. rewrite app_length in B. cbn in B. lia.
  - destruct H as [A B]. rewrite <- A. apply (f_equal (@length _)) in B. rewrite app_length in B. cbn in B. lia.
Qed.

Lemma app_snoc_split {A} (tr : list A) e tr1 tr2 : tr ++ [e] = tr1 ++ tr2 ->
  (tr2 = [] /\ tr1 = tr ++ [e]) \/ exists tr2', tr2 = tr2' ++ [e] /\ tr = tr1 ++ tr2'.
Proof.
  intros H. destruct (rev tr2) as [|x l] eqn:R.
  - left. apply (f_equal (@rev A)) in R. rewrite rev_involutive in R. cbn in R. subst. rewrite app_nil_r in H. auto.
  - right. apply (f_equal (@rev A)) in R. rewrite rev_involutive in R. cbn in R. subst tr2.
    rewrite app_assoc in H. apply app_inj_tail in H. destruct H as [-> ->]. eauto.
Qed.

Lemma time_event tr e (o : @order M) :
  respects_time tr o ->
  (forall t, length (rets_of t (tr ++ [e])) <= length (of_t t o) <= length (calls_of t (tr ++ [e]))) ->
  respects_time (tr ++ [e]) o.
Proof.
  intros T B tr1 tr2 E. apply app_snoc_split in E. destruct E as [[-> ->]|(tr2' & -> & ->)].
  - exists o, []. rewrite app_nil_r. auto.
  - apply (T tr1 tr2'). reflexivity.
Qed.
Lemma time_log tr (o : @order M) x : respects_time tr o -> respects_time tr (o ++ [x]).
Proof.
  intros T tr1 tr2 E. destruct (T tr1 tr2 E) as (o1 & o2 & -> & B). exists o1, (o2 ++ [x]).
  rewrite app_assoc. auto.
Qed.

Lemma set_thr_same (st : cstate M) t x : thr (set_thr st t x) t = x.
Proof. cbn. rewrite Nat.eqb_refl. reflexivity. Qed.
Lemma set_thr_other (st : cstate M) t x t' : t' <> t -> thr (set_thr st t x) t' = thr st t'.
Proof. cbn. destruct (Nat.eqb_spec t' t); congruence. Qed.

Lemma inv_step names st tr o w rs e st' : inv names st tr o w rs -> cstep st e st' ->
  exists o' w' rs', inv names st' (tr ++ e) o' w' rs' /\ exists x, o' = o ++ x.
Proof.
  intros I S. destruct I as [Iseq In Inw Is It Io Itime] eqn:EI. clear EI.
  assert (B : forall t, length (rets_of t tr) <= length (of_t t o) <= length (calls_of t tr)) by (eapply thr_bounds; eauto).
  assert (NX : forall x, names_of (boxes st) x = names x) by exact In.
  inversion S; subst; clear S.
  - (* call *)
    exists o, w, rs. split; [|exists []; rewrite app_nil_r; reflexivity].
    constructor; auto.
    + intros t'. destruct (Nat.eq_dec t' t) as [->|D].
      * rewrite set_thr_same. pose proof (It t) as H0. rewrite H in H0. destruct H0 as [A1 A2].
        rewrite calls_app, rets_app. cbn. rewrite Nat.eqb_refl. cbn. rewrite app_nil_r, A1. auto.
      * rewrite set_thr_other by exact D. pose proof (It t') as H0. rewrite calls_app, rets_app. cbn.
        destruct (Nat.eqb_spec t t'); [congruence|]. cbn. rewrite !app_nil_r. exact H0.
    + intros b'. cbn. pose proof (Io b') as H0. destruct (owner st b') as [t'|]; [|exact H0].
      destruct H0 as [p Hp]. exists p. destruct (Nat.eqb_spec t' t); [congruence|exact Hp].
    + apply time_event; [exact Itime|]. intros t'. rewrite calls_app, rets_app, !app_length. cbn. specialize (B t').
      destruct (Nat.eqb t t'); cbn; lia.
  - (* lock *)
    pose proof (It t) as Ht. rewrite H in Ht. destruct Ht as [A1 A2].
    pose proof (Io b) as Hb. rewrite H0 in Hb. destruct Iseq as [R Efst].
    set (w' := fst (exec w b c)). set (r := snd (exec w b c)).
    assert (EX : exec w b c = (upd w b (fst (exec1 names b (w b) c)), snd (exec1 names b (w b) c))).
    { unfold exec. rewrite (exec1_ext (names_of w) names b (w b) c) by exact Inw. destruct (exec1 names b (w b) c); reflexivity. }
    assert (Ew : w' = upd w b (fst (exec1 names b (w b) c))) by (unfold w'; rewrite EX; reflexivity).
    assert (Er : r = snd (exec1 names b (w b) c)) by (unfold r; rewrite EX; reflexivity).
    exists (o ++ [(t, (b, c))]), w', (rs ++ [(t, r)]). split; [|eexists; reflexivity].
    rewrite app_nil_r. constructor; auto.
    + split.
      * rewrite !map_app. cbn. apply (run_snoc _ b c) in R. exact R.
      * rewrite !map_app, Efst. reflexivity.
    + intros b'. rewrite Ew. destruct (Nat.eq_dec b' b) as [->|D]; [rewrite upd_same|rewrite upd_other by exact D; apply Inw].
      rewrite <- (Inw b). assert (X : forall mb cc, mb_name (fst (exec1 names b mb cc)) = mb_name mb).
      { clear. intros mb c. assert (U : forall i, mb_name (fst (unsubscribe mb i)) = mb_name mb).
        { intros i. unfold unsubscribe. destruct (getQueue mb i); reflexivity. }
        destruct c as [|s|m s|s| |s|i| |s]; cbn; auto.
        - unfold subscribe. destruct (_ <? _)%Z; reflexivity.
        - unfold get. destruct (getIndex _ _ _); cbn; auto. destruct (getQueue _ _) as [[|]| |]; reflexivity.
        - unfold put. destruct (match s with None => _ | _ => _ end); reflexivity.
        - unfold readyCount. destruct (getIndex _ _ _); cbn; auto. destruct (getQueue _ _); reflexivity.
        - unfold clear. destruct (getIndex _ _ _); cbn; auto. destruct (getQueue _ _); reflexivity.
        - unfold drop. specialize (U (sub_idx s)). destruct (unsubscribe _ _); exact U. }
      apply X.
    + intros b'. rewrite Ew. destruct (Nat.eq_dec b' b) as [->|D]; [rewrite upd_same; apply exec1_sorted, Is|rewrite upd_other by exact D; apply Is].
    + intros t'. destruct (Nat.eq_dec t' t) as [->|D].
      * rewrite set_thr_same. rewrite !of_app. cbn. rewrite !Nat.eqb_refl. cbn. split; [symmetry; exact A1|]. split; [reflexivity|].
        exists r. rewrite A2. split; [reflexivity|]. rewrite Hb, Ew, upd_same, Er. apply body_correct, Is.
      * rewrite set_thr_other by exact D. pose proof (It t') as H1. rewrite !of_app. cbn.
        destruct (Nat.eqb_spec t t'); [congruence|]. cbn. rewrite !app_nil_r.
        destruct (thr st t') as [|b1 c1|b1 p1|r1]; auto. destruct H1 as (X1 & X2 & r1 & X3 & X4).
        assert (Db : b1 <> b) by congruence. split; [exact X1|]. split.
        { destruct (Nat.eqb_spec b1 b); [contradiction|exact X2]. }
        exists r1. split; [exact X3|]. rewrite Ew, upd_other by exact Db. exact X4.
    + intros b'. cbn. destruct (Nat.eqb_spec b' b) as [->|D].
      * rewrite Nat.eqb_refl. eauto.
      * pose proof (Io b') as H1. destruct (owner st b') as [t'|].
        -- destruct H1 as [p Hp]. exists p. destruct (Nat.eqb_spec t' t); [congruence|exact Hp].
        -- rewrite Ew, upd_other by exact D. exact H1.
    + apply time_log, Itime.
  - (* work *)
    exists o, w, rs. split; [|exists []; rewrite app_nil_r; reflexivity]. rewrite app_nil_r.
    rewrite (bstep_ext _ names) in H0 by exact NX.
    pose proof (It t) as Ht. rewrite H in Ht. destruct Ht as (A1 & A2 & r & A3 & A4).
    constructor; auto.
    + intros b'. cbn. destruct (Nat.eq_dec b' b) as [->|D]; [rewrite upd_same|rewrite upd_other by exact D; apply In].
      rewrite <- (In b). pose proof (bstep_name names b (boxes st b) p) as X. rewrite H0 in X. exact X.
    + intros t'. destruct (Nat.eq_dec t' t) as [->|D].
      * rewrite set_thr_same. split; [exact A1|]. split; [exact A2|]. exists r. split; [exact A3|].
        cbn. rewrite upd_same. eapply brun_inl; eauto.
      * rewrite set_thr_other by exact D. cbn. pose proof (It t') as H1.
        destruct (thr st t') as [|b1 c1|b1 p1|r1]; auto. destruct H1 as (X1 & X2 & r1 & X3 & X4).
        assert (Db : b1 <> b) by congruence. split; [exact X1|]. split; [exact X2|].
        exists r1. split; [exact X3|]. rewrite upd_other by exact Db. exact X4.
    + intros b'. cbn. pose proof (Io b') as H1. destruct (Nat.eq_dec b' b) as [->|D].
      * rewrite A2 in *. rewrite Nat.eqb_refl. eauto.
      * destruct (owner st b') as [t'|].
        -- destruct H1 as [p1 Hp]. exists p1. destruct (Nat.eqb_spec t' t); [congruence|exact Hp].
        -- rewrite upd_other by exact D. exact H1.
  - (* unlock *)
    exists o, w, rs. split; [|exists []; rewrite app_nil_r; reflexivity]. rewrite app_nil_r.
    rewrite (bstep_ext _ names) in H0 by exact NX.
    pose proof (It t) as Ht. rewrite H in Ht. destruct Ht as (A1 & A2 & r1 & A3 & A4).
    destruct (brun_inr _ _ _ _ _ _ _ _ A4 H0) as [-> ->].
    constructor; auto.
    + intros b'. cbn. destruct (Nat.eq_dec b' b) as [->|D]; [rewrite upd_same; apply Inw|rewrite upd_other by exact D; apply In].
    + intros t'. destruct (Nat.eq_dec t' t) as [->|D].
      * rewrite set_thr_same. auto.
      * rewrite set_thr_other by exact D. cbn. pose proof (It t') as H1.
        destruct (thr st t') as [|b1 c1|b1 p1|r2]; auto. destruct H1 as (X1 & X2 & r2 & X3 & X4).
        assert (Db : b1 <> b) by congruence. split; [exact X1|]. split.
        { destruct (Nat.eqb_spec b1 b); [contradiction|exact X2]. }
        exists r2. split; [exact X3|]. rewrite upd_other by exact Db. exact X4.
    + intros b'. cbn. destruct (Nat.eqb_spec b' b) as [->|D].
      * rewrite upd_same. reflexivity.
      * pose proof (Io b') as H1. destruct (owner st b') as [t'|].
        -- destruct H1 as [p1 Hp]. exists p1. destruct (Nat.eqb_spec t' t); [congruence|exact Hp].
        -- rewrite upd_other by exact D. exact H1.
  - (* return *)
    exists o, w, rs. split; [|exists []; rewrite app_nil_r; reflexivity].
    pose proof (It t) as Ht. rewrite H in Ht. destruct Ht as (A1 & A2).
    constructor; auto.
    + intros t'. destruct (Nat.eq_dec t' t) as [->|D].
      * rewrite set_thr_same. rewrite calls_app, rets_app. cbn. rewrite Nat.eqb_refl. cbn. rewrite app_nil_r. auto.
      * rewrite set_thr_other by exact D. pose proof (It t') as H0. rewrite calls_app, rets_app. cbn.
        destruct (Nat.eqb_spec t t'); [congruence|]. cbn. rewrite !app_nil_r. exact H0.
    + intros b'. cbn. pose proof (Io b') as H0. destruct (owner st b') as [t'|]; [|exact H0].
      destruct H0 as [p Hp]. exists p. destruct (Nat.eqb_spec t' t); [congruence|exact Hp].
    + apply time_event; [exact Itime|]. intros t'. rewrite calls_app, rets_app, !app_length. cbn. specialize (B t').
      destruct (Nat.eqb_spec t t') as [<-|D]; cbn; [|lia]. destruct Iseq as [_ Ef]. pose proof (len_of t o rs Ef) as L.
      rewrite A2, app_length in L. cbn in L. rewrite A1 in *. lia.
Qed.

Lemma inv_init names : inv names (cinit names) [] [] (fresh names) [].
Proof.
  constructor; cbn; auto.
  - split; reflexivity.
  - intros b. constructor.
  - intros tr1 tr2 E. exists [], []. split; [reflexivity|]. symmetry in E. apply app_eq_nil in E. destruct E as [-> ->]. cbn. auto.
Qed.

Lemma inv_run names tr st : csteps (cinit names) tr st -> exists o w rs, inv names st tr o w rs.
Proof.
  remember (cinit names) as s0. intros H. induction H; subst.
  - exists [], (fresh names), []. apply inv_init.
  - destruct (IHcsteps eq_refl) as (o & w & rs & I). destruct (inv_step _ _ _ _ _ _ _ _ I H0) as (o' & w' & rs' & I' & _). eauto.
Qed.
End L.
