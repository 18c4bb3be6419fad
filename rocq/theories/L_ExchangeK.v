(* L_ExchangeK.v -- the invariant of the exchange program, over summaries of
   the threads and the log of all messages sent. *)
From Verif Require Import Base M_MailBox M_Exchange S_Exchange L_Map L_MailBox.
From Coq Require Import Sorted.

(* ---- lists ---- *)
Lemma lsum_cons a l : list_sum (a :: l) = a + list_sum l. Proof. reflexivity. Qed.
Lemma filter_comm {A} (p q : A -> bool) l : filter p (filter q l) = filter q (filter p l).
Proof.
  induction l as [|x l IH]; [reflexivity|]. cbn. destruct (q x) eqn:Q, (p x) eqn:P; cbn; rewrite ?P, ?Q, IH; reflexivity.
Qed.
Lemma filter_all {A} (p : A -> bool) l : (forall x, In x l -> p x = true) -> filter p l = l.
Proof.
  induction l as [|x l IH]; intros H; [reflexivity|]. cbn. rewrite (H x (or_introl eq_refl)), IH; [reflexivity|].
  intros y Hy. apply H. right. exact Hy.
Qed.
Lemma filter_none {A} (p : A -> bool) l : (forall x, In x l -> p x = false) -> filter p l = [].
Proof.
  induction l as [|x l IH]; intros H; [reflexivity|]. cbn. rewrite (H x (or_introl eq_refl)), IH; [reflexivity|].
  intros y Hy. apply H. right. exact Hy.
Qed.
Definition wsum (w : xmsg -> nat) (l : list xmsg) : nat := list_sum (map w l).
Lemma wsum_one l : wsum (fun _ => 1) l = length l.
Proof. induction l as [|x l IH]; [reflexivity|]. change (wsum (fun _ => 1) (x :: l)) with (1 + wsum (fun _ => 1) l). rewrite IH. reflexivity. Qed.
Lemma sum_add (f g : nat -> nat) l : list_sum (map (fun u => f u + g u) l) = list_sum (map f l) + list_sum (map g l).
Proof. induction l as [|u l IH]; [reflexivity|]. cbn [map]; rewrite ?lsum_cons. rewrite IH. lia. Qed.
Lemma sum_ext (f g : nat -> nat) l : (forall u, In u l -> f u = g u) -> list_sum (map f l) = list_sum (map g l).
Proof. intros H. f_equal. apply map_ext_in, H. Qed.
Lemma sum_const k l : list_sum (map (fun _ : nat => k) l) = length l * k.
Proof. induction l as [|u l IH]; [reflexivity|]. cbn [map]; rewrite ?lsum_cons. rewrite IH. reflexivity. Qed.
Lemma sum_le (f g : nat -> nat) l : (forall u, In u l -> f u <= g u) -> list_sum (map f l) <= list_sum (map g l).
Proof.
  induction l as [|u l IH]; intros H; [reflexivity|]. cbn [map]; rewrite ?lsum_cons. pose proof (H u (or_introl eq_refl)).
  specialize (IH (fun v Hv => H v (or_intror Hv))). lia.
Qed.
Lemma sum_lt (f g : nat -> nat) l v : (forall u, In u l -> f u <= g u) -> In v l -> f v < g v ->
  list_sum (map f l) < list_sum (map g l).
Proof.
  induction l as [|u l IH]; intros H Hv L; [contradiction|]. cbn [map]; rewrite ?lsum_cons.
  pose proof (H u (or_introl eq_refl)) as Hu.
  pose proof (sum_le f g l (fun v Hv => H v (or_intror Hv))) as Hl.
  destruct Hv as [->|Hv]; [lia|]. specialize (IH (fun v Hv => H v (or_intror Hv)) Hv L). lia.
Qed.
(* one index *)
Lemma sum_single k a n T : a <= n < a + T -> list_sum (map (fun u => if Nat.eqb n u then k else 0) (seq a T)) = k.
Proof.
  revert a. induction T as [|T IH]; intros a H; [lia|]. cbn [seq map]; rewrite ?lsum_cons. destruct (Nat.eqb_spec n a) as [->|D].
  - rewrite (sum_ext _ (fun _ => 0)).
    + rewrite sum_const. lia.
    + intros u Hu. apply in_seq in Hu. destruct (Nat.eqb_spec a u); [lia|reflexivity].
  - rewrite IH by lia. reflexivity.
Qed.
Lemma wsum_from w T l : (forall m, In m l -> x_from m < T) ->
  wsum w l = list_sum (map (fun u => wsum w (filter (from u) l)) (seq 0 T)).
Proof.
  induction l as [|m l IH]; intros H.
  - cbn. rewrite sum_const. unfold wsum. cbn. lia.
  - unfold wsum at 1. cbn [map list_sum fold_right]. fold (list_sum (map w l)). fold (wsum w l).
    rewrite IH by (intros; apply H; right; assumption).
    rewrite <- (sum_single (w m) 0 (x_from m) T) at 1 by (specialize (H m (or_introl eq_refl)); lia).
    rewrite <- sum_add. apply sum_ext. intros u _. cbn [filter]. unfold from at 2.
    destruct (Nat.eqb (x_from m) u); cbn; reflexivity.
Qed.
Lemma sum_except k t T (b : bool) : t < T ->
  list_sum (map (fun u => if b && Nat.eqb u t then 0 else k) (seq 0 T)) = (if b then T - 1 else T) * k.
Proof.
  intros H. destruct b; cbn [andb].
  - assert (E : list_sum (map (fun u => (if Nat.eqb u t then 0 else k) + (if Nat.eqb t u then k else 0)) (seq 0 T)) = T * k).
    { rewrite (sum_ext _ (fun _ => k)); [rewrite sum_const, seq_length; reflexivity|]. intros u _.
      destruct (Nat.eqb_spec u t), (Nat.eqb_spec t u); lia. }
    rewrite sum_add, sum_single in E by lia. rewrite Nat.mul_sub_distr_r. lia.
  - rewrite sum_const, seq_length. reflexivity.
Qed.

Definition early_ (r : nat) (m : xmsg) : bool := x_trial m <? r.
Definition of_trial (r : nat) (m : xmsg) : bool := Nat.eqb (x_trial m) r.
Definition le_trial (a b : xmsg) : Prop := x_trial a <= x_trial b.
Lemma sorted_split r l : StronglySorted le_trial l -> l = filter (early_ r) l ++ filter (fun m => negb (early_ r m)) l.
Proof.
  induction 1 as [|m l S IH F]; [reflexivity|]. cbn [filter]. destruct (early_ r m) eqn:E; cbn [negb app]; [f_equal; exact IH|].
  assert (N : forall x, In x l -> early_ r x = false).
  { intros x Hx. rewrite Forall_forall in F. specialize (F x Hx). unfold early_, le_trial in *. apply Nat.ltb_ge in E. apply Nat.ltb_ge. lia. }
  rewrite (filter_none (early_ r) l N), (filter_all _ l); [reflexivity|]. intros x Hx. rewrite N by exact Hx. reflexivity.
Qed.
Lemma sorted_filter p l : StronglySorted le_trial l -> StronglySorted le_trial (filter p l).
Proof.
  induction 1 as [|m l S IH F]; [constructor|]. cbn. destruct (p m); [|exact IH]. constructor; [exact IH|].
  rewrite Forall_forall in *. intros x Hx. apply F. apply filter_In in Hx. apply Hx.
Qed.
Lemma sorted_snoc l m : StronglySorted le_trial l -> (forall x, In x l -> x_trial x <= x_trial m) -> StronglySorted le_trial (l ++ [m]).
Proof.
  induction 1 as [|x l S IH F]; intros H; cbn; [repeat constructor|]. constructor.
  - apply IH. intros y Hy. apply H. right. exact Hy.
  - rewrite Forall_forall in *. intros y Hy. apply in_app_iff in Hy as [Hy|[<-|[]]]; [apply F, Hy|]. apply H. left. reflexivity.
Qed.

(* ---- what a thread sends ---- *)
Section X.
Variable c : cfg.
Notation T := (c_threads c). Notation M := (c_msgs c). Notation R := (c_trials c). Notation E := (expected_msgs c).

Definition senders : nat := if c_noecho c then T - 1 else T.
Lemma E_eq : E = M * senders.
Proof. unfold expected_msgs, senders. destruct (c_noecho c); [|reflexivity]. rewrite Nat.mul_sub_distr_l. lia. Qed.
Definition stream (u n : nat) : list xmsg := map (fun k => mkX u (k / M) (k mod M)) (seq 0 n).
Lemma stream_snoc u tr i : i < M -> stream u (S (tr * M + i)) = stream u (tr * M + i) ++ [mkX u tr i].
Proof.
  intros H. unfold stream. rewrite seq_S, map_app. cbn. f_equal. f_equal.
  rewrite (Nat.add_comm _ i), Nat.div_add, Nat.mod_add by lia. rewrite Nat.div_small, Nat.mod_small by lia. reflexivity.
Qed.
Lemma stream_from u n m : In m (stream u n) -> x_from m = u /\ exists k, k < n /\ x_trial m = k / M.
Proof. intros H. apply in_map_iff in H as (k & <- & Hk). apply in_seq in Hk. cbn. split; [reflexivity|exists k; split; [lia|reflexivity]]. Qed.
Lemma stream_trial_le u n r m : n <= S r * M -> In m (stream u n) -> x_trial m <= r.
Proof.
  intros H Hm. apply stream_from in Hm as (_ & k & Hk & ->).
  destruct (Nat.eq_dec M 0) as [Z|Z]; [rewrite Z in *; cbn; lia|].
  apply Nat.lt_succ_r. apply Nat.div_lt_upper_bound; lia.
Qed.
Lemma stream_early u n r : (M = 0 -> n = 0) -> r * M <= n -> filter (early_ r) (stream u n) = stream u (r * M).
Proof.
  intros H0 H. unfold stream. replace n with (r * M + (n - r * M)) by lia. rewrite seq_app, map_app, filter_app, app_nil_end.
  f_equal.
  - apply filter_all. intros m Hm. apply in_map_iff in Hm as (k & <- & Hk). apply in_seq in Hk. unfold early_. cbn [x_trial].
    apply Nat.ltb_lt. apply Nat.div_lt_upper_bound; lia.
  - apply filter_none. intros m Hm. apply in_map_iff in Hm as (k & <- & Hk). apply in_seq in Hk. unfold early_. cbn [x_trial].
    apply Nat.ltb_ge. apply Nat.div_le_lower_bound; lia.
Qed.
Lemma stream_trial u n r : (M = 0 -> n = 0) -> S r * M <= n -> filter (of_trial r) (stream u n) = map (mkX u r) (seq 0 M).
Proof.
  intros H0 H. destruct (Nat.eq_dec M 0) as [Z|Z]; [rewrite (H0 Z), Z; reflexivity|].
  unfold stream. replace n with (r * M + (M + (n - S r * M))) by lia. rewrite !seq_app, !map_app, !filter_app.
  rewrite (filter_none _ (map _ (seq 0 (r * M)))), (filter_none _ (map _ (seq (0 + r * M + M) _))), app_nil_r.
  - cbn [app]. assert (G : map (fun k => mkX u (k / M) (k mod M)) (seq (0 + r * M) M) = map (mkX u r) (seq 0 M)).
    { assert (B : forall n a, a + n <= M -> map (fun k => mkX u (k / M) (k mod M)) (seq (r * M + a) n) = map (mkX u r) (seq a n)).
      { induction n0 as [|n0 IH]; intros a Ha; [reflexivity|]. cbn. f_equal.
        - rewrite (Nat.add_comm _ a), Nat.div_add, Nat.mod_add, Nat.div_small, Nat.mod_small by lia. reflexivity.
        - rewrite <- Nat.add_succ_r. apply IH. lia. }
      specialize (B M 0 (le_n _)). rewrite Nat.add_0_r in B. exact B. }
    rewrite G. apply filter_all. intros m Hm. apply in_map_iff in Hm as (k & <- & _). unfold of_trial. cbn. apply Nat.eqb_refl.
  - intros m Hm. apply in_map_iff in Hm as (k & <- & Hk). apply in_seq in Hk. unfold of_trial. cbn [x_trial].
    apply Nat.eqb_neq. assert (S r <= k / M) by (apply Nat.div_le_lower_bound; lia). lia.
  - intros m Hm. apply in_map_iff in Hm as (k & <- & Hk). apply in_seq in Hk. unfold of_trial. cbn [x_trial].
    apply Nat.eqb_neq. assert (k / M < r) by (apply Nat.div_lt_upper_bound; lia). lia.
Qed.

(* ---- summaries ---- *)
Record summ := mkSm { a_sid : option Z; a_gone : bool; a_cnt : nat; a_recv : list xmsg; a_trial : nat;
                      a_past : list (list xmsg); a_called : bool; a_passed : bool }.
Definition views (t : nat) (l : list xmsg) : list xmsg :=
  if c_noecho c then filter (fun m => negb (from t m)) l else l.
Definition has_sid (s : summ) : nat := match a_sid s with Some _ => 1 | None => 0 end.
Record K (sm : nat -> summ) (mb : mbox xmsg) (L : list xmsg) : Prop := {
  k_bar : forall t u, t < T -> u < T -> a_passed (sm t) = true -> a_called (sm u) = true;
  k_called : forall t, t < T -> a_called (sm t) = true -> a_sid (sm t) <> None;
  k_cnt : forall t, t < T -> 0 < a_cnt (sm t) -> a_passed (sm t) = true;
  k_sid : forall t i, t < T -> a_sid (sm t) = Some i -> (0 <= i < mb_counter mb)%Z;
  k_inj : forall t u i, t < T -> u < T -> a_sid (sm t) = Some i -> a_sid (sm u) = Some i -> t = u;
  k_counter : mb_counter mb = Z.of_nat (list_sum (map (fun t => has_sid (sm t)) (seq 0 T)));
  k_sub : forall t, t < T -> a_sid (sm t) = None -> a_recv (sm t) = [] /\ a_gone (sm t) = false;
  k_q : forall t i, t < T -> a_sid (sm t) = Some i -> a_gone (sm t) = false ->
        exists q, q_find i (mb_queues mb) = Some (map Some q) /\ views t L = a_recv (sm t) ++ q;
  k_qk : forall i q, q_find i (mb_queues mb) = Some q -> exists t, t < T /\ a_sid (sm t) = Some i /\ a_gone (sm t) = false;
  k_from : forall m, In m L -> x_from m < T;
  k_log : forall u, u < T -> filter (from u) L = stream u (a_cnt (sm u));
  k_sort : StronglySorted le_trial L;
  k_sync : forall t u, t < T -> u < T -> a_trial (sm t) * M <= a_cnt (sm u);
  k_bound : forall u, u < T -> a_cnt (sm u) <= S (a_trial (sm u)) * M;
  k_max : forall u, u < T -> a_cnt (sm u) <= R * M;
  k_past : forall t, t < T -> a_past (sm t) = map (fun r => filter (of_trial r) (views t L)) (seq 0 (a_trial (sm t)));
  k_sorted : ksorted Z.compare (mb_queues mb) }.

Lemma views_snoc t l m : views t (l ++ [m]) = views t l ++ (if c_noecho c && from t m then [] else [m]).
Proof.
  unfold views. destruct (c_noecho c); cbn [andb]; [|reflexivity]. rewrite filter_app. cbn. destruct (from t m); cbn; rewrite ?app_nil_r; reflexivity.
Qed.
Lemma views_from t u l : filter (from u) (views t l) = if c_noecho c && Nat.eqb u t then [] else filter (from u) l.
Proof.
  unfold views. destruct (c_noecho c); cbn [andb]; [|reflexivity]. rewrite filter_comm. destruct (Nat.eqb_spec u t) as [->|D].
  - apply filter_none. intros m Hm. apply filter_In in Hm as [_ H]. rewrite H. reflexivity.
  - apply filter_all. intros m Hm. apply filter_In in Hm as [_ H]. unfold from in *. apply Nat.eqb_eq in H. rewrite H.
    destruct (Nat.eqb_spec u t); [contradiction|reflexivity].
Qed.
Lemma views_in t l m : In m (views t l) -> In m l.
Proof. unfold views. destruct (c_noecho c); [|auto]. intros H. apply filter_In in H. apply H. Qed.
Lemma views_sorted t l : StronglySorted le_trial l -> StronglySorted le_trial (views t l).
Proof. unfold views. destruct (c_noecho c); [apply sorted_filter|auto]. Qed.

Definition sset (f : nat -> summ) t x : nat -> summ := fun u => if Nat.eqb u t then x else f u.
Lemma sset_same f t x : sset f t x t = x. Proof. unfold sset. rewrite Nat.eqb_refl. reflexivity. Qed.
Lemma sset_other f t x u : u <> t -> sset f t x u = f u.
Proof. intros D. unfold sset. destruct (Nat.eqb_spec u t); [contradiction|reflexivity]. Qed.

(* the invariant only looks at the summaries of the threads below T *)
Lemma K_ext sm sm' mb L : (forall t, t < T -> sm t = sm' t) -> K sm mb L -> K sm' mb L.
Proof.
  intros H []. assert (X : forall t, t < T -> sm' t = sm t) by (intros; symmetry; auto).
  constructor; try assumption.
  - intros t u Ht Hu. rewrite (X t Ht), (X u Hu). eauto.
  - intros t Ht. rewrite (X t Ht). eauto.
  - intros t Ht. rewrite (X t Ht). eauto.
  - intros t i Ht. rewrite (X t Ht). eauto.
  - intros t u i Ht Hu. rewrite (X t Ht), (X u Hu). eauto.
  - rewrite k_counter0. f_equal. apply sum_ext. intros u Hu. apply in_seq in Hu. rewrite X by lia. reflexivity.
  - intros t Ht. rewrite (X t Ht). eauto.
  - intros t i Ht. rewrite (X t Ht). eauto.
  - intros i q F. destruct (k_qk0 i q F) as (t & Ht & A). exists t. rewrite (X t Ht). eauto.
  - intros u Hu. rewrite (X u Hu). eauto.
  - intros t u Ht Hu. rewrite (X t Ht), (X u Hu). eauto.
  - intros t Ht. rewrite (X t Ht). eauto.
  - intros t Ht. rewrite (X t Ht). eauto.
  - intros t Ht. rewrite (X t Ht). eauto.
Qed.

Ltac at_ u t := destruct (Nat.eq_dec u t) as [->|?]; [rewrite ?sset_same in *|rewrite ?sset_other in * by assumption].
Ltac fields := cbn [a_sid a_gone a_cnt a_recv a_trial a_past a_called a_passed] in *.

Lemma K_call_bar sm mb L t x : t < T -> K sm mb L -> a_sid (sm t) <> None ->
  x = mkSm (a_sid (sm t)) (a_gone (sm t)) (a_cnt (sm t)) (a_recv (sm t)) (a_trial (sm t)) (a_past (sm t)) true (a_passed (sm t)) ->
  K (sset sm t x) mb L.
Proof.
  intros Ht [] Hs ->. constructor; try assumption.
  - intros v u Hv Hu. at_ v t; at_ u t; fields; eauto.
  - intros v Hv. at_ v t; fields; eauto.
  - intros v Hv. at_ v t; fields; eauto.
  - intros v i Hv. at_ v t; fields; eauto.
  - intros v u i Hv Hu. at_ v t; at_ u t; fields; eauto.
  - rewrite k_counter0. f_equal. apply sum_ext. intros u _. at_ u t; reflexivity.
  - intros v Hv. at_ v t; fields; eauto.
  - intros v i Hv. at_ v t; fields; eauto.
  - intros i q F. destruct (k_qk0 i q F) as (v & Hv & A). exists v. split; [exact Hv|]. at_ v t; fields; eauto.
  - intros v Hv. at_ v t; fields; eauto.
  - intros v u Hv Hu. at_ v t; at_ u t; fields; eauto.
  - intros v Hv. at_ v t; fields; eauto.
  - intros v Hv. at_ v t; fields; eauto.
  - intros v Hv. at_ v t; fields; eauto.
Qed.
Lemma K_ret_bar sm mb L t x : t < T -> K sm mb L -> (forall u, u < T -> a_called (sm u) = true) ->
  x = mkSm (a_sid (sm t)) (a_gone (sm t)) (a_cnt (sm t)) (a_recv (sm t)) (a_trial (sm t)) (a_past (sm t)) (a_called (sm t)) true ->
  K (sset sm t x) mb L.
Proof.
  intros Ht [] Hs ->. constructor; try assumption.
  - intros v u Hv Hu. at_ v t; at_ u t; fields; eauto.
  - intros v Hv. at_ v t; fields; eauto.
  - intros v Hv. at_ v t; fields; eauto.
  - intros v i Hv. at_ v t; fields; eauto.
  - intros v u i Hv Hu. at_ v t; at_ u t; fields; eauto.
  - rewrite k_counter0. f_equal. apply sum_ext. intros u _. at_ u t; reflexivity.
  - intros v Hv. at_ v t; fields; eauto.
  - intros v i Hv. at_ v t; fields; eauto.
  - intros i q F. destruct (k_qk0 i q F) as (v & Hv & A). exists v. split; [exact Hv|]. at_ v t; fields; eauto.
  - intros v Hv. at_ v t; fields; eauto.
  - intros v u Hv Hu. at_ v t; at_ u t; fields; eauto.
  - intros v Hv. at_ v t; fields; eauto.
  - intros v Hv. at_ v t; fields; eauto.
  - intros v Hv. at_ v t; fields; eauto.
Qed.
Lemma log_nil sm mb L t : K sm mb L -> t < T -> a_sid (sm t) = None -> L = [].
Proof.
  intros HK Ht H. destruct L as [|m L]; [reflexivity|]. exfalso.
  pose proof (k_from _ _ _ HK m (or_introl eq_refl)) as F. pose proof (k_log _ _ _ HK _ F) as G.
  apply (k_called _ _ _ HK t Ht); [|exact H]. apply (k_bar _ _ _ HK _ t F Ht). apply (k_cnt _ _ _ HK _ F).
  destruct (a_cnt (sm (x_from m))); [|lia]. cbn in G. unfold from in G. rewrite Nat.eqb_refl in G. discriminate.
Qed.
Lemma K_subscribe sm mb L t x : t < T -> K sm mb L -> a_sid (sm t) = None ->
  x = mkSm (Some (mb_counter mb)) (a_gone (sm t)) (a_cnt (sm t)) (a_recv (sm t)) (a_trial (sm t)) (a_past (sm t)) (a_called (sm t)) (a_passed (sm t)) ->
  K (sset sm t x) (mkBox (mb_name mb) (q_set (mb_counter mb) [] (mb_queues mb)) (mb_counter mb + 1)) L /\
  (mb_counter mb < Z.of_nat T)%Z.
Proof.
  intros Ht HK Hs ->. pose proof (log_nil _ _ _ _ HK Ht Hs) as EL. destruct HK. subst L.
  assert (N : q_find (mb_counter mb) (mb_queues mb) = None).
  { destruct (q_find (mb_counter mb) (mb_queues mb)) as [q|] eqn:F; [|reflexivity]. destruct (k_qk0 _ _ F) as (u & Hu & A & _).
    specialize (k_sid0 u _ Hu A). lia. }
  assert (C : (0 <= mb_counter mb)%Z) by (rewrite k_counter0; lia).
  split.
  - constructor; cbn [mb_counter mb_queues]; try assumption.
    + intros v u Hv Hu. at_ v t; at_ u t; fields; eauto.
    + intros v Hv. at_ v t; fields; [discriminate|eauto].
    + intros v Hv. at_ v t; fields; eauto.
    + intros v i Hv. at_ v t; fields; [intros [= <-]; lia|]. intros Hi. specialize (k_sid0 _ _ Hv Hi). lia.
    + intros v u i Hv Hu. at_ v t; at_ u t; fields; eauto; intros A B.
      * injection A as <-. specialize (k_sid0 _ _ Hu B). lia.
      * injection B as <-. specialize (k_sid0 _ _ Hv A). lia.
    + rewrite k_counter0. change 1%Z with (Z.of_nat 1). rewrite <- Nat2Z.inj_add. f_equal.
      rewrite <- (sum_single 1 0 t T) by lia.
      rewrite <- sum_add. apply sum_ext. intros u _. destruct (Nat.eqb_spec t u) as [<-|D].
      * rewrite sset_same. unfold has_sid. fields. rewrite Hs. reflexivity.
      * rewrite sset_other by congruence. lia.
    + intros v Hv. at_ v t; fields; [discriminate|eauto].
    + intros v i Hv. at_ v t; fields.
      * intros [= <-] G. exists []. destruct (k_sub0 t Ht Hs) as [-> _]. split; [|unfold views; destruct (c_noecho c); reflexivity].
        apply find_insert_same; [exact Zcmp_eq].
      * intros Hi G. destruct (k_q0 v i Hv Hi G) as (q & F & V). exists q. split; [|exact V].
        rewrite <- F. apply find_insert_other; [exact Zcmp_eq|]. specialize (k_sid0 _ _ Hv Hi). lia.
    + intros i q F. destruct (Z.eq_dec i (mb_counter mb)) as [->|D].
      * exists t. split; [exact Ht|]. rewrite sset_same. fields. split; [reflexivity|]. apply (k_sub0 t Ht Hs).
      * unfold q_find, q_set in F. rewrite (find_insert_other Z.compare Zcmp_eq) in F by exact D.
        destruct (k_qk0 i q F) as (v & Hv & A). exists v. split; [exact Hv|]. rewrite sset_other; [exact A|]. intros ->. destruct A. congruence.
    + intros v Hv. at_ v t; fields; eauto.
    + intros v u Hv Hu. at_ v t; at_ u t; fields; eauto.
    + intros v Hv. at_ v t; fields; eauto.
    + intros v Hv. at_ v t; fields; eauto.
    + intros v Hv. at_ v t; fields; eauto.
    + apply ksorted_insert; [exact Zcmp_eq|exact Zcmp_opp|exact Zcmp_trans|assumption].
  - rewrite k_counter0.
    assert (H : list_sum (map (fun u => has_sid (sm u)) (seq 0 T)) < list_sum (map (fun _ => 1) (seq 0 T))).
    { apply (sum_lt _ _ _ t).
      - intros u _. unfold has_sid. destruct (a_sid (sm u)); [apply le_n|apply Nat.le_0_1].
      - apply in_seq. lia.
      - unfold has_sid. rewrite Hs. apply Nat.lt_0_1. }
    rewrite sum_const, seq_length in H. lia.
Qed.

(* a message is sent *)
Lemma cnt_zero sm mb L u : K sm mb L -> u < T -> M = 0 -> a_cnt (sm u) = 0.
Proof. intros HK Hu Z. pose proof (k_max _ _ _ HK u Hu). rewrite Z in *. lia. Qed.
Lemma trial_le sm mb L t u tr i : K sm mb L -> t < T -> u < T -> a_cnt (sm u) = tr * M + i -> i < M -> a_trial (sm t) <= tr.
Proof.
  intros HK Ht Hu E1 Hi. pose proof (k_sync _ _ _ HK t u Ht Hu) as SY. rewrite E1 in SY.
  assert (H : a_trial (sm t) * M < S tr * M) by (cbn; lia). apply Nat.mul_lt_mono_pos_r in H; lia.
Qed.
Lemma log_trial sm mb L m : K sm mb L -> In m L -> x_trial m <= a_trial (sm (x_from m)).
Proof.
  intros HK Hm. pose proof (k_from _ _ _ HK m Hm) as F.
  apply (stream_trial_le (x_from m) (a_cnt (sm (x_from m)))); [apply (k_bound _ _ _ HK), F|].
  rewrite <- (k_log _ _ _ HK) by exact F. apply filter_In. split; [exact Hm|]. unfold from. apply Nat.eqb_refl.
Qed.
Lemma K_put sm mb L t x tr i omit : t < T -> K sm mb L -> a_cnt (sm t) = tr * M + i -> i < M -> tr = a_trial (sm t) -> tr < R ->
  a_passed (sm t) = true ->
  (if c_noecho c then a_sid (sm t) = Some omit else omit = mb_counter mb) ->
  x = mkSm (a_sid (sm t)) (a_gone (sm t)) (S (tr * M + i)) (a_recv (sm t)) (a_trial (sm t)) (a_past (sm t)) (a_called (sm t)) (a_passed (sm t)) ->
  K (sset sm t x) (set_queues mb (put_all omit (Some (mkX t tr i)) (mb_queues mb))) (L ++ [mkX t tr i]).
Proof.
  intros Ht HK Hc Hi Htr HR HP Ho ->.
  assert (TL : forall u, u < T -> a_trial (sm u) <= tr) by (intros u Hu; exact (trial_le _ _ _ u t tr i HK Hu Ht Hc Hi)).
  assert (LT : forall m, In m L -> x_trial m <= tr).
  { intros m Hm. pose proof (log_trial _ _ _ _ HK Hm). pose proof (TL _ (k_from _ _ _ HK m Hm)). lia. }
  destruct HK. constructor; cbn [set_queues mb_counter mb_queues]; try assumption.
  - intros v u Hv Hu. at_ v t; at_ u t; fields; eauto.
  - intros v Hv. at_ v t; fields; eauto.
  - intros v Hv. at_ v t; fields; eauto.
  - intros v j Hv. at_ v t; fields; eauto.
  - intros v u j Hv Hu. at_ v t; at_ u t; fields; eauto.
  - rewrite k_counter0. f_equal. apply sum_ext. intros u _. at_ u t; reflexivity.
  - intros v Hv. at_ v t; fields; eauto.
  - assert (G : forall v j, v < T -> a_sid (sm v) = Some j -> a_gone (sm v) = false ->
       exists q, q_find j (put_all omit (Some (mkX t tr i)) (mb_queues mb)) = Some (map Some q) /\ views v (L ++ [mkX t tr i]) = a_recv (sm v) ++ q).
    { intros v j Hv Hj G. destruct (k_q0 v j Hv Hj G) as (q & F & V).
      rewrite find_put_all, F, views_snoc, V. unfold from. cbn [option_map x_from].
      destruct (c_noecho c); cbn [andb].
      - destruct (Nat.eqb_spec t v) as [<-|D].
        + assert (j = omit) by congruence. subst j. rewrite Z.eqb_refl, app_nil_r. eauto.
        + assert (j <> omit) by (intros ->; apply D; eauto). destruct (Z.eqb_spec j omit); [contradiction|].
          exists (q ++ [mkX t tr i]). rewrite map_app, app_assoc. split; reflexivity.
      - specialize (k_sid0 _ _ Hv Hj). destruct (Z.eqb_spec j omit); [lia|].
        exists (q ++ [mkX t tr i]). rewrite map_app, app_assoc. split; reflexivity. }
    intros v j Hv. at_ v t; fields; eauto.
  - intros j q F. rewrite find_put_all in F. destruct (q_find j (mb_queues mb)) as [q0|] eqn:F0; [|discriminate].
    destruct (k_qk0 j q0 F0) as (v & Hv & A). exists v. split; [exact Hv|]. at_ v t; fields; eauto.
  - intros m Hm. apply in_app_iff in Hm as [Hm|[<-|[]]]; [auto|exact Ht].
  - intros v Hv. rewrite filter_app. cbn [filter]. unfold from at 2. cbn [x_from]. at_ v t; fields.
    + rewrite Nat.eqb_refl, stream_snoc, k_log0, Hc by assumption. reflexivity.
    + destruct (Nat.eqb_spec t v); [congruence|]. rewrite app_nil_r. auto.
  - apply sorted_snoc; [assumption|]. intros m Hm. apply LT, Hm.
  - intros v u Hv Hu. specialize (k_sync0 v t Hv Ht) as S1. specialize (k_sync0 v u Hv Hu) as S2. at_ v t; at_ u t; fields; lia.
  - intros v Hv. specialize (k_bound0 v Hv). at_ v t; fields; [|assumption]. subst tr. cbn in *. lia.
  - intros v Hv. specialize (k_max0 v Hv). at_ v t; fields; [|assumption].
    assert (S tr * M <= R * M) by (apply Nat.mul_le_mono_r; lia). cbn in *. lia.
  - assert (G : forall v, v < T -> a_past (sm v) = map (fun r => filter (of_trial r) (views v (L ++ [mkX t tr i]))) (seq 0 (a_trial (sm v)))).
    { intros v Hv. rewrite k_past0 by exact Hv. apply map_ext_in. intros r Hr. apply in_seq in Hr.
      rewrite views_snoc, filter_app. destruct (_ && _); cbn [filter]; [rewrite app_nil_r; reflexivity|].
      specialize (TL v Hv). unfold of_trial at 3. cbn [x_trial]. destruct (Nat.eqb_spec tr r); [lia|]. rewrite app_nil_r. reflexivity. }
    intros v Hv. at_ v t; fields; eauto.
  - unfold ksorted. rewrite put_all_keys. assumption.
Qed.

(* a message is taken *)
Lemma K_get sm mb L t x i m q : t < T -> K sm mb L -> a_sid (sm t) = Some i -> a_gone (sm t) = false ->
  q_find i (mb_queues mb) = Some (Some m :: q) ->
  x = mkSm (a_sid (sm t)) (a_gone (sm t)) (a_cnt (sm t)) (a_recv (sm t) ++ [m]) (a_trial (sm t)) (a_past (sm t)) (a_called (sm t)) (a_passed (sm t)) ->
  K (sset sm t x) (set_queues mb (q_set i q (mb_queues mb))) L.
Proof.
  intros Ht [] Hs Hg F ->. constructor; cbn [set_queues mb_counter mb_queues]; try assumption.
  - intros v u Hv Hu. at_ v t; at_ u t; fields; eauto.
  - intros v Hv. at_ v t; fields; eauto.
  - intros v Hv. at_ v t; fields; eauto.
  - intros v j Hv. at_ v t; fields; eauto.
  - intros v u j Hv Hu. at_ v t; at_ u t; fields; eauto.
  - rewrite k_counter0. f_equal. apply sum_ext. intros u _. at_ u t; reflexivity.
  - intros v Hv. at_ v t; fields; [congruence|eauto].
  - intros v j Hv. at_ v t; fields.
    + intros Hj _. assert (j = i) by congruence. subst j. destruct (k_q0 t i Ht Hs Hg) as (q0 & F0 & V).
      rewrite F in F0. destruct q0 as [|m0 q0]; [discriminate|]. injection F0 as <- ->. exists q0. split.
      * apply find_insert_same. exact Zcmp_eq.
      * rewrite V, <- app_assoc. reflexivity.
    + intros Hj Gv. destruct (k_q0 v j Hv Hj Gv) as (q0 & F0 & V). exists q0. split; [|exact V]. rewrite <- F0.
      apply find_insert_other; [exact Zcmp_eq|]. intros ->. eauto.
  - intros j q0 F0. destruct (Z.eq_dec j i) as [->|D].
    + exists t. rewrite sset_same. fields. auto.
    + unfold q_find, q_set in F0. rewrite (find_insert_other Z.compare Zcmp_eq) in F0 by exact D.
      destruct (k_qk0 j q0 F0) as (v & Hv & A). exists v. split; [exact Hv|]. at_ v t; fields; eauto.
  - intros v Hv. at_ v t; fields; eauto.
  - intros v u Hv Hu. at_ v t; at_ u t; fields; eauto.
  - intros v Hv. at_ v t; fields; eauto.
  - intros v Hv. at_ v t; fields; eauto.
  - intros v Hv. at_ v t; fields; eauto.
  - apply ksorted_insert; [exact Zcmp_eq|exact Zcmp_opp|exact Zcmp_trans|assumption].
Qed.

(* a thread leaves *)
Lemma K_drop sm mb L t x i : t < T -> K sm mb L -> a_sid (sm t) = Some i -> a_gone (sm t) = false ->
  x = mkSm (a_sid (sm t)) true (a_cnt (sm t)) (a_recv (sm t)) (a_trial (sm t)) (a_past (sm t)) (a_called (sm t)) (a_passed (sm t)) ->
  K (sset sm t x) (set_queues mb (q_erase i (mb_queues mb))) L.
Proof.
  intros Ht [] Hs Hg ->. constructor; cbn [set_queues mb_counter mb_queues]; try assumption.
  - intros v u Hv Hu. at_ v t; at_ u t; fields; eauto.
  - intros v Hv. at_ v t; fields; eauto.
  - intros v Hv. at_ v t; fields; eauto.
  - intros v j Hv. at_ v t; fields; eauto.
  - intros v u j Hv Hu. at_ v t; at_ u t; fields; eauto.
  - rewrite k_counter0. f_equal. apply sum_ext. intros u _. at_ u t; reflexivity.
  - intros v Hv. at_ v t; fields; [congruence|eauto].
  - intros v j Hv. at_ v t; fields; [discriminate|].
    intros Hj Gv. destruct (k_q0 v j Hv Hj Gv) as (q0 & F0 & V). exists q0. split; [|exact V]. rewrite <- F0.
    apply find_erase_other; [exact Zcmp_eq|]. intros ->. eauto.
  - intros j q0 F0. destruct (Z.eq_dec j i) as [->|D].
    + exfalso. unfold q_find, q_erase in F0. rewrite find_erase_same in F0; [discriminate|exact Zcmp_eq|].
      eapply ksorted_nodup; [exact Zcmp_eq|eassumption].
    + unfold q_find, q_erase in F0. rewrite (find_erase_other Z.compare Zcmp_eq) in F0 by exact D.
      destruct (k_qk0 j q0 F0) as (v & Hv & A). exists v. split; [exact Hv|]. at_ v t; fields; [|eauto]. destruct A. congruence.
  - intros v Hv. at_ v t; fields; eauto.
  - intros v u Hv Hu. at_ v t; at_ u t; fields; eauto.
  - intros v Hv. at_ v t; fields; eauto.
  - intros v Hv. at_ v t; fields; eauto.
  - intros v Hv. at_ v t; fields; eauto.
  - apply ksorted_erase. assumption.
Qed.

(* ---- counting ---- *)
Lemma app_split {A} (a b a' b' : list A) : a ++ b = a' ++ b' -> length a = length a' -> a = a' /\ b = b'.
Proof.
  revert a'. induction a as [|x a IH]; intros [|x' a'] H HL; try discriminate; [auto|].
  injection H as -> H. injection HL as HL. destruct (IH a' H HL). subst. auto.
Qed.
Lemma len_by l : (forall m, In m l -> x_from m < T) -> length l = list_sum (map (fun u => length (filter (from u) l)) (seq 0 T)).
Proof. intros H. rewrite <- wsum_one, (wsum_from _ T) by exact H. apply sum_ext. intros u _. apply wsum_one. Qed.

Section Counting.
Variables (sm : nat -> summ) (mb : mbox xmsg) (L : list xmsg).
Hypothesis HK : K sm mb L.
Lemma due_eq t r u : (forall v, v < T -> S r * M <= a_cnt (sm v)) ->
  filter (from u) (filter (of_trial r) (views t L)) = due c t r u.
Proof.
  intros H. rewrite filter_comm, views_from. unfold due. destruct (Nat.ltb_spec u T) as [Hu|Hu]; cbn [andb].
  - destruct (c_noecho c && (u =? t)); cbn [negb]; [reflexivity|]. rewrite (k_log _ _ _ HK) by exact Hu.
    apply stream_trial; [|auto]. eapply cnt_zero; eassumption.
  - destruct (_ && _); [reflexivity|]. rewrite (filter_none (from u) L); [reflexivity|]. intros m Hm.
    pose proof (k_from _ _ _ HK m Hm). unfold from. apply Nat.eqb_neq. lia.
Qed.
Lemma len_trial t r : t < T -> (forall v, v < T -> S r * M <= a_cnt (sm v)) -> length (filter (of_trial r) (views t L)) = E.
Proof.
  intros Ht H. rewrite len_by.
  - rewrite (sum_ext _ (fun u => if c_noecho c && (u =? t) then 0 else M)).
    + rewrite sum_except by exact Ht. rewrite E_eq. unfold senders. apply Nat.mul_comm.
    + intros u Hu. apply in_seq in Hu. rewrite due_eq by exact H. unfold due. destruct (Nat.ltb_spec u T); [|lia].
      cbn [andb]. destruct (_ && _); cbn [negb]; [reflexivity|]. rewrite map_length, seq_length. reflexivity.
  - intros m Hm. apply filter_In in Hm as [Hm _]. apply views_in in Hm. apply (k_from _ _ _ HK), Hm.
Qed.
Lemma len_early t r : t < T -> (forall v, v < T -> r * M <= a_cnt (sm v)) -> length (filter (early_ r) (views t L)) = r * E.
Proof.
  intros Ht H. rewrite len_by.
  - rewrite (sum_ext _ (fun u => if c_noecho c && (u =? t) then 0 else r * M)).
    + rewrite sum_except by exact Ht. rewrite E_eq. unfold senders. destruct (c_noecho c); lia.
    + intros u Hu. apply in_seq in Hu. rewrite filter_comm, views_from. destruct (_ && _); [reflexivity|].
      rewrite (k_log _ _ _ HK) by lia. rewrite stream_early; [|eapply cnt_zero; [exact HK|lia]|apply H; lia].
      unfold stream. rewrite map_length, seq_length. reflexivity.
  - intros m Hm. apply filter_In in Hm as [Hm _]. apply views_in in Hm. apply (k_from _ _ _ HK), Hm.
Qed.
Lemma len_views_le t n : t < T -> (forall v, v < T -> a_cnt (sm v) <= n) -> length (views t L) <= senders * n.
Proof.
  intros Ht H. rewrite len_by by (intros m Hm; apply views_in in Hm; apply (k_from _ _ _ HK), Hm).
  unfold senders. rewrite <- (sum_except n t T (c_noecho c)) by exact Ht. apply sum_le. intros u Hu. apply in_seq in Hu.
  rewrite views_from. destruct (_ && _); [cbn; lia|]. rewrite (k_log _ _ _ HK) by lia. unfold stream. rewrite map_length, seq_length.
  apply H. lia.
Qed.
Lemma len_views_lt t n u : t < T -> (forall v, v < T -> a_cnt (sm v) <= n) -> u < T -> u <> t -> a_cnt (sm u) < n ->
  length (views t L) < senders * n.
Proof.
  intros Ht H Hu D HL. rewrite len_by by (intros m Hm; apply views_in in Hm; apply (k_from _ _ _ HK), Hm).
  unfold senders. rewrite <- (sum_except n t T (c_noecho c)) by exact Ht.
  assert (G : forall v, In v (seq 0 T) -> length (filter (from v) (views t L)) <= (if c_noecho c && (v =? t) then 0 else n)).
  { intros v Hv. apply in_seq in Hv. rewrite views_from. destruct (_ && _); [cbn; lia|]. rewrite (k_log _ _ _ HK) by lia. unfold stream.
    rewrite map_length, seq_length. apply H. lia. }
  apply (sum_lt _ _ _ u G); [apply in_seq; lia|]. rewrite views_from. destruct (Nat.eqb_spec u t); [contradiction|].
  rewrite andb_false_r. rewrite (k_log _ _ _ HK) by exact Hu. unfold stream. rewrite map_length, seq_length. exact HL.
Qed.
Lemma len_past t : t < T -> length (concat (a_past (sm t))) = a_trial (sm t) * E.
Proof.
  intros Ht. rewrite (k_past _ _ _ HK) by exact Ht.
  assert (G : forall n, n <= a_trial (sm t) -> length (concat (map (fun r => filter (of_trial r) (views t L)) (seq 0 n))) = n * E).
  { induction n as [|n IH]; intros Hn; [reflexivity|]. rewrite seq_S, map_app, concat_app, app_length, IH by lia.
    cbn [map concat]. rewrite app_nil_r. rewrite len_trial; [cbn; lia|exact Ht|].
    intros v Hv. pose proof (k_sync _ _ _ HK t v Ht Hv). assert (S n * M <= a_trial (sm t) * M) by (apply Nat.mul_le_mono_r; lia). cbn [Nat.add]. lia. }
  apply G. lia.
Qed.
(* a thread that has its messages of a trial has got exactly the messages sent in that trial *)
Lemma trial_done t i tr cur : t < T -> a_sid (sm t) = Some i -> a_gone (sm t) = false ->
  a_trial (sm t) = tr -> a_cnt (sm t) = S tr * M -> a_recv (sm t) = concat (a_past (sm t)) ++ cur -> E <= length cur ->
  (forall u, u < T -> S tr * M <= a_cnt (sm u)) /\ (length cur = E -> cur = filter (of_trial tr) (views t L)).
Proof.
  intros Ht Hs Hg Htr Hc Hr Hl. destruct (k_q _ _ _ HK t i Ht Hs Hg) as (q & _ & V). rewrite Hr in V.
  pose proof (len_past t Ht) as LP. rewrite Htr in LP.
  assert (A : forall u, u < T -> S tr * M <= a_cnt (sm u)).
  { intros u Hu. destruct (le_lt_dec (S tr * M) (a_cnt (sm u))) as [G|G]; [exact G|exfalso].
    assert (B : forall v, v < T -> a_cnt (sm v) <= S tr * M).
    { intros v Hv. pose proof (k_sync _ _ _ HK v u Hv Hu) as SY. pose proof (k_bound _ _ _ HK v Hv) as BD.
      assert (a_trial (sm v) < S tr) by (apply (Nat.mul_lt_mono_pos_r M); lia).
      assert (S (a_trial (sm v)) * M <= S tr * M) by (apply Nat.mul_le_mono_r; lia). lia. }
    assert (u <> t) by (intros ->; lia).
    pose proof (len_views_lt t (S tr * M) u Ht B Hu H G) as LV. rewrite V, !app_length, LP, E_eq in LV. rewrite E_eq in Hl. lia. }
  split; [exact A|]. intros HL.
  pose proof (views_sorted t L (k_sort _ _ _ HK)) as SV.
  pose proof (sorted_split tr _ SV) as S1. rewrite V in S1 at 1. rewrite <- app_assoc in S1. apply app_split in S1 as [_ S1].
  2:{ rewrite LP, len_early; [reflexivity|exact Ht|]. intros v Hv. specialize (A v Hv). cbn in A. lia. }
  pose proof (sorted_split (S tr) _ (sorted_filter (fun m => negb (early_ tr m)) _ SV)) as S2. rewrite <- S1 in S2 at 1.
  assert (EQ : filter (early_ (S tr)) (filter (fun m => negb (early_ tr m)) (views t L)) = filter (of_trial tr) (views t L)).
  { clear. induction (views t L) as [|m l IH]; [reflexivity|]. cbn [filter]. unfold early_ at 2, of_trial at 1.
    destruct (Nat.ltb_spec (x_trial m) tr), (Nat.eqb_spec (x_trial m) tr); try lia; cbn [negb filter].
    - exact IH.
    - unfold early_ at 1. destruct (Nat.ltb_spec (x_trial m) (S tr)); [|lia]. f_equal. exact IH.
    - unfold early_ at 1. destruct (Nat.ltb_spec (x_trial m) (S tr)); [lia|]. exact IH. }
  rewrite EQ in S2. apply app_split in S2 as [S2 _]; [exact S2|]. rewrite len_trial; auto.
Qed.
Lemma K_trial t i tr cur x : t < T -> a_sid (sm t) = Some i -> a_gone (sm t) = false ->
  a_trial (sm t) = tr -> a_cnt (sm t) = S tr * M -> a_recv (sm t) = concat (a_past (sm t)) ++ cur -> length cur = E ->
  x = mkSm (a_sid (sm t)) (a_gone (sm t)) (a_cnt (sm t)) (a_recv (sm t)) (S tr) (a_past (sm t) ++ [cur]) (a_called (sm t)) (a_passed (sm t)) ->
  K (sset sm t x) mb L.
Proof.
  intros Ht Hs Hg Htr Hc Hr Hl ->. destruct (trial_done t i tr cur Ht Hs Hg Htr Hc Hr) as [A B]; [lia|]. specialize (B Hl).
  destruct HK. constructor; try assumption.
  - intros v u Hv Hu. at_ v t; at_ u t; fields; eauto.
  - intros v Hv. at_ v t; fields; eauto.
  - intros v Hv. at_ v t; fields; eauto.
  - intros v j Hv. at_ v t; fields; eauto.
  - intros v u j Hv Hu. at_ v t; at_ u t; fields; eauto.
  - rewrite k_counter0. f_equal. apply sum_ext. intros u _. at_ u t; reflexivity.
  - intros v Hv. at_ v t; fields; [congruence|eauto].
  - intros v j Hv. at_ v t; fields; eauto.
  - intros j q F. destruct (k_qk0 j q F) as (v & Hv & G). exists v. split; [exact Hv|]. at_ v t; fields; eauto.
  - intros v Hv. at_ v t; fields; eauto.
  - intros v u Hv Hu. at_ v t; at_ u t; fields; eauto.
  - intros v Hv. at_ v t; fields; [|eauto]. rewrite Hc. apply Nat.mul_le_mono_r. lia.
  - intros v Hv. at_ v t; fields; eauto.
  - intros v Hv. at_ v t; fields; [|eauto]. rewrite seq_S, map_app, k_past0, Htr by exact Ht. cbn. rewrite B. reflexivity.
Qed.
(* after the last trial nothing is left for a thread *)
Lemma drained t i : t < T -> a_sid (sm t) = Some i -> a_gone (sm t) = false -> a_trial (sm t) = R ->
  a_recv (sm t) = concat (a_past (sm t)) -> q_find i (mb_queues mb) = Some [].
Proof.
  intros Ht Hs Hg Htr Hr. destruct (k_q _ _ _ HK t i Ht Hs Hg) as (q & F & V). rewrite F.
  pose proof (len_past t Ht) as LP. rewrite Htr in LP.
  pose proof (len_views_le t (R * M) Ht (k_max _ _ _ HK)) as LV. rewrite V, Hr, app_length, LP, E_eq in LV.
  destruct q; [reflexivity|]. cbn [length] in LV. lia.
Qed.
Lemma past_due t r u : t < T -> r < a_trial (sm t) -> filter (from u) (nth r (a_past (sm t)) []) = due c t r u.
Proof.
  intros Ht Hr. rewrite (k_past _ _ _ HK) by exact Ht.
  rewrite (nth_indep _ [] (filter (of_trial 0) (views t L))) by (rewrite map_length, seq_length; exact Hr).
  rewrite (map_nth (fun r => filter (of_trial r) (views t L))), seq_nth by exact Hr. cbn [Nat.add]. apply due_eq.
  intros v Hv. pose proof (k_sync _ _ _ HK t v Ht Hv). assert (S r * M <= a_trial (sm t) * M) by (apply Nat.mul_le_mono_r; lia). lia.
Qed.
End Counting.
Lemma past_len sm mb L t : K sm mb L -> t < T -> length (a_past (sm t)) = a_trial (sm t).
Proof. intros HK Ht. rewrite (k_past _ _ _ HK) by exact Ht. rewrite map_length, seq_length. reflexivity. Qed.
Lemma all_gone sm mb L : K sm mb L -> (forall t, t < T -> a_gone (sm t) = true) -> mb_queues mb = [].
Proof.
  intros HK H. destruct (mb_queues mb) as [|[i q] qs] eqn:Q; [reflexivity|exfalso].
  destruct (k_qk _ _ _ HK i q) as (t & Ht & _ & G); [|rewrite H in G by exact Ht; discriminate].
  rewrite Q. unfold q_find. cbn. rewrite Z.compare_refl. reflexivity.
Qed.

(* ---- the sum check of the program ---- *)
Lemma to_u64_id z : (0 <= z < two64)%Z -> to_u64 z = z.
Proof. intros H. apply Z.mod_small, H. Qed.
Lemma msg_sum_acc l : forall s, (0 <= s)%Z -> (s + Z.of_nat (wsum x_i l) < two64)%Z ->
  fold_left (fun s m => to_u64 (s + Z.of_nat (x_i m)))%Z l s = (s + Z.of_nat (wsum x_i l))%Z.
Proof.
  induction l as [|m l IH]; intros s H0 H; [cbn; lia|]. unfold wsum in *. cbn [map fold_left] in *. rewrite lsum_cons in *.
  rewrite to_u64_id by lia. rewrite IH by lia. lia.
Qed.
Lemma gauss n : 2 * list_sum (seq 0 n) = n * (n - 1).
Proof. induction n as [|n IH]; [reflexivity|]. rewrite seq_S, list_sum_app, Nat.mul_add_distr_l, IH. cbn. destruct n; cbn; lia. Qed.
Lemma sum_right t r l : t < T -> fits c -> (forall m, In m l -> x_from m < T) -> (forall u, filter (from u) l = due c t r u) ->
  msg_sum l = expected_sum c.
Proof.
  intros Ht (F1 & F2 & F3) HF HD.
  assert (W : wsum x_i l = senders * list_sum (seq 0 M)).
  { rewrite (wsum_from _ T) by exact HF. rewrite (sum_ext _ (fun u => if c_noecho c && (u =? t) then 0 else list_sum (seq 0 M))).
    - apply sum_except. exact Ht.
    - intros u Hu. apply in_seq in Hu. rewrite HD. unfold due. destruct (Nat.ltb_spec u T); [|lia]. cbn [andb].
      destruct (_ && _); cbn [negb]; [reflexivity|]. unfold wsum. rewrite map_map. cbn [x_i]. rewrite map_id. reflexivity. }
  assert (W2 : 2 * wsum x_i l = senders * (M * (M - 1))) by (rewrite W, <- gauss; lia).
  assert (SB : senders <= T) by (unfold senders; destruct (c_noecho c); lia).
  assert (B : (Z.of_nat (senders * (M * (M - 1))) < two64)%Z).
  { assert (senders * (M * (M - 1)) <= M * T * (M * T)).
    { rewrite Nat.mul_assoc. apply Nat.mul_le_mono.
      - rewrite Nat.mul_comm. apply Nat.mul_le_mono_l. exact SB.
      - transitivity (M * 1); [lia|]. apply Nat.mul_le_mono_l. exact F1. }
    unfold two31, two64 in *. nia. }
  unfold msg_sum. rewrite msg_sum_acc by lia. rewrite Z.add_0_l.
  unfold expected_sum. cbv zeta.
  destruct (Nat.eq_dec M 0) as [Z0|Z0].
  - rewrite Z0 in *. cbn [Nat.mul] in W2. replace (wsum x_i l) with 0 by lia.
    change (to_u64 (Z.of_nat 0 - 1)) with (two64 - 1)%Z. change (to_u64 (two64 - 1 + 1)) with 0%Z. rewrite Z.mul_0_r.
    reflexivity.
  - rewrite (to_u64_id (Z.of_nat M - 1)) by (unfold two31, two64 in *; nia).
    replace (Z.of_nat T - (if c_noecho c then 1 else 0))%Z with (Z.of_nat senders) by (unfold senders; destruct (c_noecho c); lia).
    rewrite (to_u64_id (Z.of_nat senders)) by (unfold two31, two64 in *; lia).
    rewrite (to_u64_id (Z.of_nat M - 1 + 1)) by (unfold two31, two64 in *; nia).
    rewrite (to_u64_id ((Z.of_nat M - 1) * _)) by (unfold two31, two64 in *; nia).
    replace (Z.of_nat senders * ((Z.of_nat M - 1) * (Z.of_nat M - 1 + 1)))%Z with (Z.of_nat (senders * (M * (M - 1)))) by nia.
    rewrite to_u64_id by lia. rewrite <- W2. rewrite Nat2Z.inj_mul, Z.mul_comm, Z.div_mul by discriminate. reflexivity.
Qed.
End X.
