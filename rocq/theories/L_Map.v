(* L_Map.v -- std::map as a sorted association list. *)
From Verif Require Import Base.
From Coq Require Import Sorted.

Section SMapLemmas.
  Context {K V : Type} (cmp : K -> K -> comparison).
  Hypothesis cmp_eq : forall a b, cmp a b = Eq <-> a = b.

  Notation ins := (@smap_insert K V cmp).
  Notation fnd := (@smap_find K V cmp).
  Notation era := (@smap_erase K V cmp).

  Lemma cmp_refl a : cmp a a = Eq.
  Proof. apply cmp_eq. reflexivity. Qed.

  Lemma find_insert_same k v m : fnd k (ins k v m) = Some v.
  Proof.
    induction m as [|[k' v'] m IH]; cbn; [rewrite cmp_refl; reflexivity|].
    destruct (cmp k k') eqn:E; cbn; [rewrite cmp_refl; reflexivity..|]. rewrite E. exact IH.
  Qed.
  Lemma find_insert_other k k2 v m : k2 <> k -> fnd k2 (ins k v m) = fnd k2 m.
  Proof.
    intros N. assert (E2 : cmp k2 k <> Eq) by (rewrite cmp_eq; exact N).
    induction m as [|[k' v'] m IH]; cbn.
    - destruct (cmp k2 k); congruence.
    - destruct (cmp k k') eqn:E; cbn.
      + apply cmp_eq in E. subst k'. destruct (cmp k2 k); congruence.
      + destruct (cmp k2 k); congruence.
      + rewrite IH. reflexivity.
  Qed.
  Lemma find_erase_other k k2 m : k2 <> k -> fnd k2 (era k m) = fnd k2 m.
  Proof.
    intros N. induction m as [|[k' v'] m IH]; cbn; [reflexivity|].
    destruct (cmp k k') eqn:E; cbn; [|rewrite IH; reflexivity..].
    apply cmp_eq in E. subst k'. destruct (cmp k2 k) eqn:E2; auto.
    apply cmp_eq in E2. congruence.
  Qed.
  Lemma find_none k m : fnd k m = None <-> ~ In k (map fst m).
  Proof.
    induction m as [|[k' v'] m IH]; cbn; [tauto|].
    destruct (cmp k k') eqn:E.
    - apply cmp_eq in E. subst. split; [discriminate|]. intros H. destruct H. auto.
    - rewrite IH. split; [|tauto]. intros H [->|H2]; [rewrite cmp_refl in E; discriminate|auto].
    - rewrite IH. split; [|tauto]. intros H [->|H2]; [rewrite cmp_refl in E; discriminate|auto].
  Qed.
  Lemma find_some_in k v m : fnd k m = Some v -> In (k, v) m.
  Proof.
    induction m as [|[k' v'] m IH]; cbn; [discriminate|].
    destruct (cmp k k') eqn:E; auto. apply cmp_eq in E. subst. intros [= ->]. auto.
  Qed.
  Lemma in_find k v m : NoDup (map fst m) -> In (k, v) m -> fnd k m = Some v.
  Proof.
    induction m as [|[k' v'] m IH]; cbn; [tauto|].
    intros ND [[= -> ->]|H].
    - rewrite cmp_refl. reflexivity.
    - inversion ND as [|x l N1 N2]; subst. destruct (cmp k k') eqn:E; auto.
      apply cmp_eq in E. subst k'. destruct N1. apply (in_map fst) in H. exact H.
  Qed.
  Lemma find_erase_same k m : NoDup (map fst m) -> fnd k (era k m) = None.
  Proof.
    induction m as [|[k' v'] m IH]; cbn; [reflexivity|].
    intros ND. inversion ND as [|x l N1 N2]; subst.
    destruct (cmp k k') eqn:E; cbn.
    - apply cmp_eq in E. subst. apply find_none. exact N1.
    - rewrite E. auto.
    - rewrite E. auto.
  Qed.
  Lemma in_insert k v m p : In p (ins k v m) -> p = (k, v) \/ In p m.
  Proof.
    induction m as [|[k' v'] m IH]; cbn; [intuition|].
    destruct (cmp k k'); cbn; intuition.
  Qed.
  Lemma in_erase k m p : In p (era k m) -> In p m.
  Proof.
    induction m as [|[k' v'] m IH]; cbn; [intuition|].
    destruct (cmp k k'); cbn; intuition.
  Qed.
  Lemma keys_insert k v m x : In x (map fst (ins k v m)) <-> x = k \/ In x (map fst m).
  Proof.
    induction m as [|[k' v'] m IH]; cbn; [intuition|].
    destruct (cmp k k') eqn:E; cbn.
    - apply cmp_eq in E. subst. intuition.
    - intuition.
    - rewrite IH. intuition.
  Qed.

  (* ordering *)
  Hypothesis cmp_opp : forall a b, cmp b a = CompOpp (cmp a b).
  Hypothesis cmp_trans : forall a b c, cmp a b = Lt -> cmp b c = Lt -> cmp a c = Lt.
  Definition klt (a b : K) := cmp a b = Lt.
  Definition ksorted (m : list (K * V)) := StronglySorted klt (map fst m).

  Lemma ksorted_nodup m : ksorted m -> NoDup (map fst m).
  Proof.
    unfold ksorted. induction (map fst m) as [|k l IH]; [constructor|].
    intros H. inversion H as [|? ? H1 H2]; subst. constructor; auto.
    intros Hin. rewrite Forall_forall in H2. specialize (H2 _ Hin). unfold klt in H2.
    rewrite cmp_refl in H2. discriminate.
  Qed.
  Lemma ksorted_insert k v m : ksorted m -> ksorted (ins k v m).
  Proof.
    unfold ksorted. induction m as [|[k' v'] m IH]; cbn; intros H; [repeat constructor|].
    inversion H as [|? ? H1 H2]; subst. destruct (cmp k k') eqn:E; cbn.
    - apply cmp_eq in E. subst. exact H.
    - constructor; [exact H|]. constructor; [exact E|].
      rewrite Forall_forall in *. intros x Hx. eapply cmp_trans; eauto. apply H2, Hx.
    - constructor; [auto|]. rewrite Forall_forall in *. intros x Hx. apply keys_insert in Hx.
      destruct Hx as [->|Hx]; [|auto]. unfold klt. rewrite cmp_opp, E. reflexivity.
  Qed.
  Lemma ksorted_erase k m : ksorted m -> ksorted (era k m).
  Proof.
    unfold ksorted. induction m as [|[k' v'] m IH]; cbn; intros H; [constructor|].
    inversion H as [|? ? H1 H2]; subst. destruct (cmp k k') eqn:E; cbn; auto; constructor; auto;
      rewrite Forall_forall in *; intros x Hx; apply H2; apply in_map_iff in Hx; destruct Hx as (p & <- & Hp);
      apply in_map, (in_erase _ _ _ Hp).
  Qed.
End SMapLemmas.

Lemma Zcmp_eq a b : Z.compare a b = Eq <-> a = b.
Proof. apply Z.compare_eq_iff. Qed.
Lemma Zcmp_opp a b : Z.compare b a = CompOpp (Z.compare a b).
Proof. apply Z.compare_antisym. Qed.
Lemma Zcmp_trans a b c : Z.compare a b = Lt -> Z.compare b c = Lt -> Z.compare a c = Lt.
Proof. rewrite !Z.compare_lt_iff. lia. Qed.

Lemma Ninj a b : N_of_ascii a = N_of_ascii b -> a = b.
Proof. intros H. rewrite <- (ascii_N_embedding a), <- (ascii_N_embedding b), H. reflexivity. Qed.

Lemma scmp_eq a : forall b, str_compare a b = Eq <-> a = b.
Proof.
  induction a as [|x a IH]; intros [|y b]; cbn; split; intros H; try discriminate; try reflexivity.
  - destruct (N.compare_spec (N_of_ascii x) (N_of_ascii y)) as [E|E|E]; try discriminate.
    apply Ninj in E. subst. f_equal. apply IH, H.
  - injection H as -> ->. rewrite N.compare_refl. apply IH. reflexivity.
Qed.
Lemma scmp_opp a : forall b, str_compare b a = CompOpp (str_compare a b).
Proof.
  induction a as [|x a IH]; intros [|y b]; cbn; try reflexivity.
  rewrite (N.compare_antisym (N_of_ascii x)).
  destruct (N.compare (N_of_ascii x) (N_of_ascii y)); cbn; auto.
Qed.
Lemma scmp_trans a : forall b c, str_compare a b = Lt -> str_compare b c = Lt -> str_compare a c = Lt.
Proof.
  induction a as [|x a IH]; intros [|y b] [|z c]; cbn; try discriminate; try reflexivity.
  destruct (N.compare_spec (N_of_ascii x) (N_of_ascii y)) as [E|E|E]; try discriminate;
  destruct (N.compare_spec (N_of_ascii y) (N_of_ascii z)) as [F|F|F]; try discriminate; intros H1 H2.
  - rewrite E, F, N.compare_refl. eauto.
  - rewrite E. apply N.compare_lt_iff in F. rewrite F. reflexivity.
  - rewrite <- F. apply N.compare_lt_iff in E. rewrite E. reflexivity.
  - assert (G : (N_of_ascii x < N_of_ascii z)%N) by lia. apply N.compare_lt_iff in G. rewrite G. reflexivity.
Qed.
Lemma str_eqb_spec a : forall b, Bool.reflect (a = b) (str_eqb a b).
Proof.
  induction a as [|x a IH]; intros [|y b]; cbn; try (constructor; congruence).
  destruct (Ascii.eqb_spec x y); cbn; [|constructor; congruence].
  destruct (IH b); constructor; congruence.
Qed.
