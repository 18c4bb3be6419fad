(* L_FairAll.v -- under a fair scheduler everybody passes the barrier. *)
From Coq Require Import Classical_Prop.
From Verif Require Import Base M_Barrier S_Barrier S_Fair L_Seq L_Barrier L_FairBar.
From Verif Require L_BarrierN.
Local Open Scope nat_scope.

Definition brank (x : tst) : nat :=
  match x with
  | TIdle => 0 | TCalled => 1 | TGot _ => 2 | THold _ HInc => 3 | THold _ HTest => 4
  | THold _ HPred | TSleep _ _ | TWake _ _ => 5
  | THold _ HBump => 6 | THold _ HNotify => 7 | THold _ (HOut _) => 8 | TDone _ => 9
  | _ => 0
  end.
Lemma brank_bound x : brank x <= 9.
Proof. destruct x as [| |o|o []|o b|o td|r]; cbn; lia. Qed.
(* sleeping, or about to look whether it is time to go *)
Definition dozing (x : tst) : Prop := exists o, x = THold o HPred \/ (exists n, x = TSleep o n) \/ x = TWake o false.
Lemma dozing_rank x : dozing x -> brank x = 5.
Proof. intros (o & [->|[(n & ->)| ->]]); reflexivity. Qed.
Lemma sum_lt n p q t : (forall u, u < n -> p u <= q u) -> t < n -> p t < q t -> sum n p < sum n q.
Proof.
  induction n as [|n IH]; intros H Ht L; [lia|]. cbn. pose proof (H n (le_n _)). destruct (Nat.eq_dec t n) as [->|D].
  - enough (sum n p <= sum n q) by lia. apply sum_le. intros u Hu. apply H. lia.
  - enough (sum n p < sum n q) by lia. apply IH; [intros u Hu; apply H; lia|lia|exact L].
Qed.
Lemma local_rets b0 g cl rt x : L_BarrierN.local b0 g cl rt x -> rt <= g <= S rt.
Proof.
  unfold L_BarrierN.local, L_BarrierN.enter, L_BarrierN.leave.
  destruct x as [| |o|o []|o []|o []|[]]; try contradiction; try lia; try (destruct r; try contradiction; lia); intros [H|H]; lia.
Qed.

Section F.
Variables (T : nat) (b0 : Z) (f : nat -> bstate) (k : nat -> kind) (e : nat -> list bev).
Hypothesis HT1 : 1 <= T.
Hypothesis HT2 : (Z.of_nat T < two32)%Z.
Hypothesis Hb0 : (0 <= b0 < two32)%Z.
Hypothesis HS : bar_for_ever (binit (Z.of_nat T) b0) f k e.
Hypothesis HA : bar_fair f.
Hypothesis HK : forall n, k n <> KExpire.
Hypothesis HO : forall n t, In (ECall t) (e n) -> t < T.
Notation tr := (upto e).

Lemma barInv n : exists g, L_BarrierN.Inv T b0 (f n) (tr n) g.
Proof.
  destruct (F_exec _ _ _ _ _ HS n) as (ks & A & B). apply (L_BarrierN.Inv_execution T b0 ks); try assumption.
  - intros t X. unfold upto in X. apply in_concat in X as (l & X & Y). apply in_map_iff in X as (i & <- & _). exact (HO i t Y).
  - intros X. destruct (B _ X) as (i & Y). exact (HK i Y).
Qed.
Lemma mono_calls t n m : n <= m -> calls t (tr n) <= calls t (tr m).
Proof. intros H. induction H as [|m H IH]; [lia|]. rewrite upto_S. unfold calls in *. rewrite count_app. lia. Qed.
Lemma mono_rets t n m : n <= m -> rets t (tr n) <= rets t (tr m).
Proof. intros H. induction H as [|m H IH]; [lia|]. rewrite upto_S. unfold rets in *. rewrite count_app. lia. Qed.

Lemma thr_move n t : t < T ->
  (b_thr (f (S n)) t = b_thr (f n) t /\ rets t (tr (S n)) = rets t (tr n)) \/
  10 * rets t (tr n) + brank (b_thr (f n) t) < 10 * rets t (tr (S n)) + brank (b_thr (f (S n)) t) \/
  (dozing (b_thr (f n) t) /\ dozing (b_thr (f (S n)) t) /\ rets t (tr (S n)) = rets t (tr n)).
Proof.
  intros Ht. destruct (barInv n) as (g & G). destruct (barInv (S n)) as (g' & G').
  pose proof (L_BarrierN.i_loc _ _ _ _ _ G t Ht) as LO. pose proof (L_BarrierN.i_loc _ _ _ _ _ G' t Ht) as LO'.
  pose proof (mono_rets t n (S n) ltac:(lia)) as MR.
  destruct (classic (b_thr (f (S n)) t = b_thr (f n) t)) as [A|A].
  - destruct (Nat.eq_dec (rets t (tr (S n))) (rets t (tr n))) as [B|B]; [auto|]. right. left. rewrite A. lia.
  - right. pose proof (bar_change _ _ _ _ t (changes _ _ _ _ _ HS n t A) A) as C. pose proof (changes _ _ _ _ _ HS n t A) as ST.
    assert (NR : (forall r, b_thr (f n) t <> TDone r) -> rets t (tr (S n)) = rets t (tr n)).
    { intros ND. rewrite upto_S. unfold rets. rewrite count_app. enough (count (is_ret t) (e n) = 0) by lia.
      unfold count. destruct (filter (is_ret t) (e n)) as [|x l] eqn:FF; [reflexivity|]. exfalso.
      assert (X : In x (filter (is_ret t) (e n))) by (rewrite FF; left; reflexivity). apply filter_In in X as [X Y].
      destruct x; try discriminate. cbn in Y. apply Nat.eqb_eq in Y as ->. exact (ret_done _ _ _ _ _ _ ST X ND). }
    destruct (b_thr (f n) t) as [| |o|o h|o b|o td|r].
    + left. rewrite NR by discriminate. rewrite C. cbn. lia.
    + left. rewrite NR by discriminate. destruct C as (o & ->). cbn. lia.
    + left. rewrite NR by discriminate. rewrite C. cbn. lia.
    + rewrite NR by discriminate. destruct C as (s & x & e' & C & -> & _). destruct h; try (cbn in LO; contradiction); cbn [hold_step] in C;
        repeat match type of C with context [if ?b then _ else _] => destruct b end; injection C as <- <- <-; try (left; cbn; lia).
      right. split; [|split]; [unfold dozing; eauto..|reflexivity].
    + rewrite NR by discriminate. right. split; [unfold dozing; eauto|]. destruct C as [-> |[[_ ->]|[_ CK]]]; [split; [unfold dozing; eauto|reflexivity]..|]. elim (HK n CK).
    + rewrite NR by discriminate. destruct td; [cbn in LO; contradiction|]. right. rewrite C. split; unfold dozing; eauto.
    + left. destruct C as [C1 C2]. rewrite C1, upto_S, C2. unfold rets. rewrite count_app.
      assert (X : count (is_ret t) [ERet t r] = 1) by (unfold count; cbn; rewrite Nat.eqb_refl; reflexivity). rewrite X. cbn [brank]. lia.
Qed.

Lemma stuck R t0 : t0 < T -> (forall u, u < T -> exists m, R <= calls u (tr m)) -> (forall m, rets t0 (tr m) < R) -> False.
Proof.
  intros Ht0 HC HR.
  assert (RB : forall n u, u < T -> rets u (tr n) <= R).
  { intros n u Hu. destruct (barInv n) as (g & G). pose proof (local_rets _ _ _ _ _ (L_BarrierN.i_loc _ _ _ _ _ G u Hu)).
    pose proof (local_rets _ _ _ _ _ (L_BarrierN.i_loc _ _ _ _ _ G t0 Ht0)). specialize (HR n). lia. }
  (* from some time on nobody gets further *)
  assert (ST : exists N2, forall n u, N2 <= n -> u < T ->
    b_thr (f (S n)) u = b_thr (f n) u \/ dozing (b_thr (f n) u) /\ dozing (b_thr (f (S n)) u)).
  { pose (rk := fun n u => 10 * rets u (tr n) + brank (b_thr (f n) u)).
    assert (LE : forall n u, u < T -> rk n u <= rk (S n) u).
    { intros n u Hu. unfold rk. destruct (thr_move n u Hu) as [[-> ->]|[X|(X & Y & ->)]]; [lia|lia|]. rewrite (dozing_rank _ X), (dozing_rank _ Y). lia. }
    destruct (settles (fun n => sum T (rk n)) (T * (10 * R + 9))) as (N2 & HM).
    - intros n. apply sum_le, LE.
    - intros n. rewrite <- sum_const. apply sum_le. intros u Hu. unfold rk. pose proof (RB n u Hu). pose proof (brank_bound (b_thr (f n) u)). lia.
    - exists N2. intros n u Hn Hu. destruct (thr_move n u Hu) as [[X _]|[X|(X & Y & _)]]; [auto| |auto]. exfalso.
      assert (LT : sum T (rk n) < sum T (rk (S n))) by (apply (sum_lt _ _ _ u); [apply LE|exact Hu|exact X]).
      rewrite (HM n), (HM (S n)) in LT by lia. lia. }
  destruct ST as (N1 & ST).
  assert (ST' : forall n u x, N1 <= n -> u < T -> b_thr (f n) u = x -> ~ dozing x -> b_thr (f (S n)) u = x).
  { intros n u x Hn Hu X D. destruct (ST n u Hn Hu) as [Y|[Y _]]; [congruence|]. rewrite X in Y. contradiction. }
  destruct (common (fun u n => R <= calls u (tr n)) T) as (N0 & HN0); [|exact HC|].
  { intros t n m H X. pose proof (mono_calls t n m H). lia. }
  pose (N2 := Nat.max N0 N1).
  assert (CL : forall n u, N2 <= n -> u < T -> R <= calls u (tr n)).
  { intros n u Hn Hu. pose proof (HN0 u Hu). pose proof (mono_calls u N0 n ltac:(lia)). lia. }
  assert (ND : forall x, (forall o, x <> THold o HPred /\ (forall b, x <> TSleep o b) /\ x <> TWake o false) -> ~ dozing x).
  { intros x H (o & [X|[(b & X)|X]]); destruct (H o) as (A & B & C); [exact (A X)|exact (B b X)|exact (C X)]. }
  assert (DZ : forall u n, N2 <= n -> b_thr (f n) u <> TIdle -> dozing (b_thr (f n) u)).
  { intros u n Hn NI. assert (Hu : u < T).
    { destruct (le_lt_dec T u) as [X|X]; [|exact X]. destruct (barInv n) as (g & G). elim NI. exact (L_BarrierN.i_out _ _ _ _ _ G u X). }
    destruct (b_thr (f n) u) as [| |o|o h|o b|o td|r] eqn:E.
    - contradiction.
    - exfalso. destruct (called_goes _ _ _ _ _ HS HA n u E) as (m & o & Hm & X & Y). rewrite (ST' m u _ ltac:(lia) Hu X) in Y; [discriminate|]. apply ND. intros o'. repeat split; discriminate.
    - exfalso. destruct (got_goes _ _ _ _ _ HS HA n u o E) as (m & Hm & X & Y). rewrite (ST' m u _ ltac:(lia) Hu X) in Y; [discriminate|]. apply ND. intros o'. repeat split; discriminate.
    - destruct (hold_goes _ _ _ _ _ HS HA n u o h E) as (m & Hm & X & s & x & ee & H1 & H2 & H3).
      destruct (classic (h = HPred)) as [->|D]; [exists o; auto|]. exfalso. rewrite (ST' m u _ ltac:(lia) Hu X) in H2; [|apply ND; intros o'; repeat split; congruence].
      destruct (hold_moves _ _ _ _ _ _ _ H1) as [Q _]. congruence.
    - exists o. eauto.
    - destruct td; [|exists o; auto]. destruct (barInv n) as (g & G). pose proof (L_BarrierN.i_loc _ _ _ _ _ G u Hu) as LO. rewrite E in LO. contradiction.
    - exfalso. destruct (done_goes _ _ _ _ _ HS HA n u r E) as (m & Hm & X & Y & _). rewrite (ST' m u _ ltac:(lia) Hu X) in Y; [discriminate|]. apply ND. intros o'. repeat split; discriminate. }
  assert (D0 : forall n, N2 <= n -> dozing (b_thr (f n) t0)).
  { intros n Hn. apply DZ; [exact Hn|]. intros X. destruct (barInv n) as (g & G). pose proof (L_BarrierN.i_loc _ _ _ _ _ G t0 Ht0) as LO. rewrite X in LO. cbn in LO.
    specialize (HR n). specialize (CL n t0 Hn Ht0). lia. }
  assert (DO : forall u n g, N2 <= n -> L_BarrierN.Inv T b0 (f n) (tr n) g -> u < T -> dozing (b_thr (f n) u) ->
    exists o, (L_BarrierN.enter b0 g (calls u (tr n)) (rets u (tr n)) o \/ L_BarrierN.leave b0 g (calls u (tr n)) (rets u (tr n)) o) /\
      (b_thr (f n) u = THold o HPred \/ (exists b, b_thr (f n) u = TSleep o b) \/ b_thr (f n) u = TWake o false)).
  { intros u n g Hn G Hu D. pose proof (L_BarrierN.i_loc _ _ _ _ _ G u Hu) as LO. destruct D as (o' & [X|[(b & X)|X]]); rewrite X in LO; exists o'; (split; [|eauto]).
    - exact LO.
    - destruct b; [right|]; exact LO.
    - exact LO. }
  (* all have arrived, so the generation has changed *)
  assert (GN : forall n o, N2 <= n -> (exists h, b_thr (f n) t0 = THold o h) \/ (exists b, b_thr (f n) t0 = TSleep o b) \/ (exists b, b_thr (f n) t0 = TWake o b) ->
    o <> b_cnt (f n)).
  { intros n o Hn EO. destruct (barInv n) as (g & G). destruct (DO t0 n g Hn G Ht0 (D0 n Hn)) as (o' & QQ & Y).
    assert (o' = o) as -> by (destruct EO as [(h & X)|[(b & X)|(b & X)]], Y as [Y|[(b' & Y)|Y]]; congruence).
    rewrite (L_BarrierN.i_cnt _ _ _ _ _ G). destruct QQ as [(Q1 & Q2 & Q3)|(_ & _ & g' & -> & ->)]; [|apply gen_neq]. exfalso.
    assert (GR : g < R) by (specialize (HR n); lia).
    assert (AW : forall u, u < T -> dozing (b_thr (f n) u)).
    { intros u Hu. apply DZ; [exact Hn|]. intros X. pose proof (L_BarrierN.i_loc _ _ _ _ _ G u Hu) as Q. rewrite X in Q. cbn in Q. specialize (CL n u Hn Hu). lia. }
    assert (CA : cnt T (fun t => L_BarrierN.arr (b_cnt (f n)) (b_thr (f n) t)) = T).
    { apply cnt_all. intros u Hu. destruct (DO u n g Hn G Hu (AW u Hu)) as (o2 & [(_ & _ & Q)|(Q & _ & _)] & Y2); [|specialize (CL n u Hn Hu); lia].
      rewrite <- (L_BarrierN.i_cnt _ _ _ _ _ G) in Q. subst o2. destruct Y2 as [Y2|[(b & Y2)|Y2]]; rewrite Y2; apply Z.eqb_refl. }
    assert (CB : cnt T (fun t => L_BarrierN.bmp (b_thr (f n) t)) = 0).
    { apply cnt_none. intros u Hu. destruct (AW u Hu) as (o2 & [X|[(b & X)|X]]); rewrite X; reflexivity. }
    pose proof (L_BarrierN.i_wait _ _ _ _ _ G) as Q. rewrite CA, CB in Q.
    destruct (L_BarrierN.i_lt _ _ _ _ _ G) as [Q4|(u & o2 & X)]; [lia|].
    destruct (DZ u n Hn ltac:(congruence)) as (o3 & [Z|[(b & Z)|Z]]); congruence. }
  (* whoever sleeps has been notified *)
  assert (SL : forall n o b, N2 <= n -> b_thr (f n) t0 = TSleep o b -> b = true).
  { intros n o b Hn E. destruct b; [reflexivity|]. exfalso. destruct (barInv n) as (g & G).
    destruct (L_BarrierN.i_slp _ _ _ _ _ G t0 o E) as (u & o' & X); [apply (GN n o Hn); eauto|].
    destruct (DZ u n Hn ltac:(congruence)) as (o'' & [Y|[(b & Y)|Y]]); congruence. }
  assert (F1 : forall n o, N2 <= n -> b_thr (f n) t0 = THold o HPred -> False).
  { intros n o Hn E. destruct (hold_goes _ _ _ _ _ HS HA n t0 o HPred E) as (m & Hm & X & s & x & ee & H1 & H2 & _).
    pose proof (GN m o ltac:(lia) ltac:(eauto)) as D. cbn [hold_step] in H1. apply Z.eqb_neq in D. rewrite D in H1. injection H1 as <- <- <-.
    destruct (D0 (S m) ltac:(lia)) as (o' & [Y|[(b & Y)|Y]]); congruence. }
  assert (F2 : forall n o, N2 <= n -> b_thr (f n) t0 = TWake o false -> False).
  { intros n o Hn E. destruct (wake_goes _ _ _ _ _ HS HA n t0 o false E) as (m & Hm & _ & X). eapply (F1 (S m)); [lia|exact X]. }
  destruct (D0 N2 (le_n _)) as (o & [X|[(b & X)|X]]); [eapply F1; eauto| |eapply F2; eauto].
  assert (b = true) by (eapply SL; eauto). subst b. destruct (awake_goes _ _ _ _ _ HS HA N2 t0 o X) as (m & Hm & _ & td & Y & Z).
  destruct td; [elim (HK m (Z eq_refl))|]. eapply (F2 (S m)); [lia|exact Y].
Qed.

Theorem everybody_passes R : (forall t, t < T -> exists m, R <= calls t (tr m)) -> exists m, forall t, t < T -> R <= rets t (tr m).
Proof.
  intros HC. apply common.
  - intros t n m H X. pose proof (mono_rets t n m H). lia.
  - intros t Ht. apply NNPP. intros C. apply (stuck R t Ht HC). intros m. destruct (le_lt_dec R (rets t (tr m))) as [X|X]; [|exact X]. elim C. eauto.
Qed.
End F.
