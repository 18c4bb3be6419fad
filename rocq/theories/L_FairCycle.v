(* L_FairCycle.v -- a schedule that comes back to where it started, again and
   again, is an execution that goes on for ever. *)
From Coq Require Import Classical_Prop FunctionalExtensionality.
From Verif Require Import Base M_MailBox M_MailBoxConc S_MailBox S_MailBoxConc S_Fair L_Seq L_FairBox P_MailBoxConc.
Local Open Scope nat_scope.

Lemma same_state (a c : cstate nat) : (forall b, boxes a b = boxes c b) -> (forall b, owner a b = owner c b) -> (forall t, thr a t = thr c t) -> a = c.
Proof. destruct a as [a1 a2 a3], c as [c1 c2 c3]. cbn. intros A B C. f_equal; apply functional_extensionality; assumption. Qed.

Lemma drive_app a : forall st b, drive st (a ++ b) =
  match drive st a with Some (s1, t1) => match drive s1 b with Some (s2, t2) => Some (s2, t1 ++ t2) | None => None end | None => None end.
Proof.
  induction a as [|m a IH]; intros st b; cbn; [destruct (drive st b) as [[]|]; reflexivity|].
  destruct (drive1 st m) as [[s1 e]|]; [|reflexivity]. rewrite IH. destruct (drive s1 a) as [[s2 t2]|]; [|reflexivity].
  destruct (drive s2 b) as [[s3 t3]|]; [|reflexivity]. rewrite app_assoc. reflexivity.
Qed.
Lemma upto_split {E} (e : nat -> list E) P n : upto e (P + n) = upto e P ++ upto (fun i => e (P + i)) n.
Proof.
  unfold upto. induction n as [|n IH]; [rewrite Nat.add_0_r, app_nil_r; reflexivity|].
  rewrite Nat.add_succ_r, !seq_S, !map_app, !concat_app, IH. cbn. rewrite <- !app_assoc. reflexivity.
Qed.
Lemma upto_eq {E} (e e' : nat -> list E) n : (forall i, e i = e' i) -> upto e n = upto e' n.
Proof. intros H. unfold upto. f_equal. apply map_ext. exact H. Qed.

Section C.
Variable st0 : cstate nat.
Variable L : list move.
Variable tr : list (ev nat).
Hypothesis HD : drive st0 L = Some (st0, tr).
Hypothesis HN : 0 < length L.
Let P := length L.
Definition c_st (k : nat) : cstate nat := match drive st0 (firstn k L) with Some (s, _) => s | None => st0 end.
Definition c_tr (k : nat) : list (ev nat) := match drive st0 (firstn k L) with Some (_, t) => t | None => [] end.
Definition c_ev (k : nat) : list (ev nat) :=
  match nth_error L k with Some m => match drive1 (c_st k) m with Some (_, e) => e | None => [] end | None => [] end.
Definition c_f (n : nat) := c_st (n mod P).
Definition c_e (n : nat) := c_ev (n mod P).

Lemma firstn_S {A} (l : list A) k x : nth_error l k = Some x -> firstn (S k) l = firstn k l ++ [x].
Proof. revert k. induction l as [|y l IH]; intros [|k] H; try discriminate; cbn in *; [injection H as ->; reflexivity|]. f_equal. auto. Qed.
Lemma c_drive k : drive st0 (firstn k L) = Some (c_st k, c_tr k).
Proof.
  unfold c_st, c_tr. destruct (drive st0 (firstn k L)) as [[s t]|] eqn:D; [reflexivity|exfalso].
  pose proof HD as X. rewrite <- (firstn_skipn k L), drive_app, D in X. discriminate X.
Qed.
Lemma c_step k : k < P -> drive1 (c_st k) (nth k L (DGo 0)) = Some (c_st (S k), c_ev k) /\ c_tr (S k) = c_tr k ++ c_ev k.
Proof.
  intros H. assert (N : nth_error L k = Some (nth k L (DGo 0))) by (apply nth_error_nth'; exact H).
  pose proof (c_drive (S k)) as X. rewrite (firstn_S _ _ _ N), drive_app, (c_drive k) in X. cbn [drive] in X.
  unfold c_ev. rewrite N. destruct (drive1 (c_st k) (nth k L (DGo 0))) as [[s e]|]; [|discriminate].
  cbn in X. injection X as <- X. rewrite app_nil_r in X. split; [reflexivity|congruence].
Qed.
Lemma c_last : c_st P = st0 /\ c_tr P = tr.
Proof. unfold c_st, c_tr. unfold P. rewrite firstn_all, HD. auto. Qed.
Lemma c_for_ever : box_for_ever st0 c_f c_e.
Proof.
  split; [unfold c_f; rewrite Nat.mod_0_l by lia; reflexivity|]. intros n. left. unfold c_f, c_e.
  assert (M : n mod P < P) by (apply Nat.mod_upper_bound; lia).
  destruct (c_step _ M) as [ST _]. apply drive1_sound in ST.
  assert (E : c_st (S n mod P) = c_st (S (n mod P))); [|rewrite E; exact ST].
  destruct (Nat.eq_dec (S (n mod P)) P) as [X|X].
  - assert (Z : S n mod P = 0). { rewrite (Nat.div_mod n P) at 1 by lia. replace (S (P * (n / P) + n mod P)) with ((n / P + 1) * P) by lia. apply Nat.mod_mul. lia. }
    rewrite Z, X, (proj1 c_last). reflexivity.
  - assert (Z : S n mod P = S (n mod P)). { rewrite (Nat.div_mod n P) at 1 by lia. replace (S (P * (n / P) + n mod P)) with (S (n mod P) + (n / P) * P) by lia. rewrite Nat.mod_add by lia. apply Nat.mod_small. lia. }
    rewrite Z. reflexivity.
Qed.
Lemma c_home k : c_f (k * P) = st0.
Proof. unfold c_f. rewrite Nat.mod_mul by lia. reflexivity. Qed.
Lemma c_fair : (forall t, thr st0 t = Idle) -> box_fair c_f.
Proof.
  intros HI t H N. destruct (H N) as (n & _ & _ & A & B & _).
  destruct (first_change (fun m => thr (c_f m) t <> Idle) n (n * P)) as (j & J1 & J2 & J3); [nia|exact B|rewrite c_home, HI; auto|].
  exists j. split; [lia|]. left. apply NNPP in J3. intros X. apply J2. rewrite <- X. exact J3.
Qed.
Lemma c_upto k : k <= P -> upto c_e k = c_tr k.
Proof.
  induction k as [|k IH]; intros H; [reflexivity|]. rewrite (upto_S c_e), IH by lia. rewrite (proj2 (c_step k ltac:(lia))). f_equal.
  unfold c_e. rewrite Nat.mod_small by lia. reflexivity.
Qed.
Lemma c_again n : upto c_e (P + n) = tr ++ upto c_e n.
Proof.
  rewrite upto_split, c_upto, (proj2 c_last) by lia. f_equal. apply upto_eq. intros i. unfold c_e.
  replace (P + i) with (i + 1 * P) by lia. rewrite Nat.mod_add by lia. reflexivity.
Qed.
(* whatever happens in the first round happens again and again *)
Lemma c_for_ever_in x : In x tr -> forall n, exists m, n <= m /\ In x (c_e m).
Proof.
  intros J n. rewrite <- (proj2 c_last), <- c_upto in J by lia. unfold upto in J. apply in_concat in J as (l & J1 & J2).
  apply in_map_iff in J1 as (k & <- & J1). apply in_seq in J1. exists (k + n * P). split; [nia|]. unfold c_e in *. rewrite Nat.mod_add by lia. exact J2.
Qed.
Lemma c_induct (Q : list (ev nat) -> Prop) : (forall k, k < P -> Q (c_tr k)) -> (forall t, Q t -> Q (tr ++ t)) -> forall n, Q (upto c_e n).
Proof.
  intros A B n. induction n as [n IH] using lt_wf_ind. destruct (Nat.lt_ge_cases n P) as [H|H].
  - rewrite c_upto by lia. apply A, H.
  - replace n with (P + (n - P)) by lia. rewrite c_again. apply B, IH. lia.
Qed.
End C.
