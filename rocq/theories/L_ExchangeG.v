(* L_ExchangeG.v -- the exchange program keeps its invariant. *)
From Verif Require Import Base M_MailBox M_MailBoxConc M_Barrier M_Exchange S_Barrier S_Exchange L_Map L_MailBox L_Exchange L_ExchangeK.
From Verif Require C_Barrier.

Section G.
Variable c : cfg.
Notation T := (c_threads c). Notation M := (c_msgs c). Notation R := (c_trials c). Notation E := (expected_msgs c).

Definition is_done (p : aph) : bool := match p with ADone _ => true | _ => false end.
Definition sid_of (l : loc) (p : aph) : option Z :=
  match l_at l, p with
  | PSubscribing, ADone (MOk (RSub s)) => Some (sub_idx s)
  | _, _ => option_map sub_idx (l_sub l)
  end.
Definition gone_of (l : loc) (p : aph) : bool :=
  match l_at l with PEnd _ => true | PDropping _ => is_done p | _ => false end.
Definition cnt_of (l : loc) (p : aph) : nat :=
  match l_at l with
  | PTrial tr => tr * M
  | PSend tr i => tr * M + i
  | PSending tr i => if is_done p then S (tr * M + i) else tr * M + i
  | PRecv tr | PRecving tr | PCheck tr => S tr * M
  | PExtra | PExtraing | PMin | PMining | PDrop _ | PDropping _ | PEnd _ => R * M
  | _ => 0
  end.
Definition pending (l : loc) (p : aph) : list xmsg :=
  match l_at l, p with PRecving _, ADone (MOk (RMsg (Some m))) => [m] | _, _ => [] end.
Definition trial_of (l : loc) : nat :=
  match l_at l with
  | PTrial tr | PSend tr _ | PSending tr _ | PRecv tr | PRecving tr | PCheck tr => tr
  | PExtra | PExtraing | PMin | PMining | PDrop _ | PDropping _ | PEnd _ => R
  | _ => 0
  end.
Definition called_of (l : loc) : bool := match l_at l with PSubscribe | PSubscribing | PWait => false | _ => true end.
Definition passed_of (l : loc) : bool := match l_at l with PSubscribe | PSubscribing | PWait | PWaiting => false | _ => true end.
Definition summ_of (l : loc) (p : aph) : summ :=
  mkSm (sid_of l p) (gone_of l p) (cnt_of l p) (concat (l_past l) ++ (l_cur l ++ pending l p)) (trial_of l) (l_past l)
       (called_of l) (passed_of l).

Definition sub_ok (l : loc) : Prop := exists s, l_sub l = Some s /\ sub_mbox s = 0.
Definition loc_ok (t : nat) (l : loc) (p : aph) : Prop :=
  match l_at l with
  | PSubscribe => p = AIdle /\ l_sub l = None /\ l_cur l = [] /\ l_past l = []
  | PSubscribing => (p = AWant 0 CSubscribe \/ exists s, p = ADone (MOk (RSub s)) /\ sub_mbox s = 0) /\
                    l_sub l = None /\ l_cur l = [] /\ l_past l = []
  | PWait | PWaiting => p = AIdle /\ sub_ok l /\ l_cur l = [] /\ l_past l = []
  | PTrial tr => p = AIdle /\ sub_ok l /\ l_cur l = [] /\ tr <= R
  | PSend tr i => p = AIdle /\ sub_ok l /\ l_cur l = [] /\ tr < R /\ i <= M
  | PSending tr i => (p = AWant 0 (CPut (Some (mkX t tr i)) (if c_noecho c then l_sub l else None)) \/ p = ADone (MOk RUnit)) /\
                     sub_ok l /\ l_cur l = [] /\ tr < R /\ i < M
  | PRecv tr => p = AIdle /\ sub_ok l /\ tr < R /\ length (l_cur l) <= E
  | PRecving tr => (p = AWant 0 (CGet (l_sub l)) \/ exists om, p = ADone (MOk (RMsg om))) /\ sub_ok l /\ tr < R /\ length (l_cur l) < E
  | PCheck tr => p = AIdle /\ sub_ok l /\ tr < R /\ length (l_cur l) = E
  | PExtra => p = AIdle /\ sub_ok l /\ l_cur l = []
  | PExtraing => (p = AWant 0 (CGet (l_sub l)) \/ p = ADone (MOk (RMsg None))) /\ sub_ok l /\ l_cur l = []
  | PMin => p = AIdle /\ sub_ok l /\ l_cur l = []
  | PMining => (p = AWant 0 CMinReadyCount \/ p = ADone (MOk (RNum 0%Z))) /\ sub_ok l /\ l_cur l = []
  | PDrop res => p = AIdle /\ sub_ok l /\ l_cur l = [] /\ res = 0%Z
  | PDropping res => ((exists s, l_sub l = Some s /\ p = AWant 0 (CDrop s)) \/ p = ADone (MOk RUnit)) /\ sub_ok l /\ l_cur l = [] /\ res = 0%Z
  | PEnd res => p = AIdle /\ sub_ok l /\ l_cur l = [] /\ res = 0%Z
  | PDied => False
  end.

Definition names0 : nat -> str := fun _ => lit "MessageMailbox".
Definition sums (g : nat -> loc) (ph : nat -> aph) : nat -> summ := fun t => summ_of (g t) (ph t).
Record inv (g : xst) ks tr (w : world xmsg) (ph : nat -> aph) (L : list xmsg) : Prop := {
  i_lin : lin names0 (x_box g) w ph;
  i_exec : execution (Z.of_nat T) 0 ks tr (x_bar g);
  i_only : only_threads T tr;
  i_time : no_expiry ks;
  i_bar : forall t, b_thr (x_bar g) t = TIdle \/ t < T /\ l_at (x_thr g t) = PWaiting;
  i_calls : forall t, t < T -> calls t tr = Nat.b2n (called_of (x_thr g t)) /\ rets t tr = Nat.b2n (passed_of (x_thr g t));
  i_out : forall t, T <= t -> ph t = AIdle;
  i_loc : forall t, t < T -> loc_ok t (x_thr g t) (ph t);
  i_K : K c (sums (x_thr g) ph) (w 0) L }.

Lemma set_loc_same f t l : set_loc f t l t = l.
Proof. unfold set_loc. rewrite Nat.eqb_refl. reflexivity. Qed.
Lemma set_loc_other f t l u : u <> t -> set_loc f t l u = f u.
Proof. intros D. unfold set_loc. destruct (Nat.eqb_spec u t); [contradiction|reflexivity]. Qed.
Lemma K_at f ph t l p mb L : K c (sset (sums f ph) t (summ_of l p)) mb L -> K c (sums (set_loc f t l) (set_ph ph t p)) mb L.
Proof.
  apply K_ext. intros u _. unfold sums. destruct (Nat.eq_dec u t) as [->|D].
  - rewrite sset_same, set_loc_same, set_ph_same. reflexivity.
  - rewrite sset_other, set_loc_other, set_ph_other by exact D. reflexivity.
Qed.
Lemma K_same f ph t l p mb L : summ_of l p = summ_of (f t) (ph t) -> K c (sums f ph) mb L ->
  K c (sums (set_loc f t l) (set_ph ph t p)) mb L.
Proof.
  intros Hs HK. apply K_at. eapply K_ext; [|exact HK]. intros u _. destruct (Nat.eq_dec u t) as [->|D].
  - rewrite sset_same, Hs. reflexivity.
  - rewrite sset_other by exact D. reflexivity.
Qed.
Lemma set_ph_id ph t u : set_ph ph t (ph t) u = ph u.
Proof. unfold set_ph. destruct (Nat.eqb_spec u t) as [->|]; reflexivity. Qed.
Lemma set_loc_id f t u : set_loc f t (f t) u = f u.
Proof. unfold set_loc. destruct (Nat.eqb_spec u t) as [->|]; reflexivity. Qed.
Lemma K_loc f ph t l mb L : K c (sset (sums f ph) t (summ_of l (ph t))) mb L -> K c (sums (set_loc f t l) ph) mb L.
Proof.
  intros HK. apply K_at in HK. eapply K_ext; [|exact HK]. intros u _. unfold sums. rewrite set_ph_id. reflexivity.
Qed.
Lemma K_ph f ph t p mb L : K c (sset (sums f ph) t (summ_of (f t) p)) mb L -> K c (sums f (set_ph ph t p)) mb L.
Proof.
  intros HK. apply K_at in HK. eapply K_ext; [|exact HK]. intros u _. unfold sums. rewrite set_loc_id. reflexivity.
Qed.

Lemma inv_init : inv (xinit c) [] [] (fresh names0) (fun _ => AIdle) [].
Proof.
  constructor; cbn; auto.
  - apply lin_init.
  - constructor.
  - intros t H. destruct H.
  - intros [].
  - assert (S : forall t, sums (fun _ => mkLoc PSubscribe None [] []) (fun _ => AIdle) t = mkSm None false 0 [] 0 [] false false) by reflexivity.
    constructor; intros; rewrite ?S in *; cbn in *; try discriminate; try lia; auto; try contradiction.
    + rewrite sum_const. lia.
    + constructor.
    + constructor.
Qed.

(* ---- a call takes effect ---- *)
Lemma min_zero (qs : list (Z * list (option xmsg))) k : In (k, []) qs -> forall r, (0 <= r)%Z ->
  fold_left (fun ret '(_, q) => let n := Z.of_nat (length (q : list (option xmsg))) in if (ret <? n)%Z then ret else to_u32 n) qs r = 0%Z.
Proof.
  assert (Z0 : forall qs : list (Z * list (option xmsg)),
    fold_left (fun ret '(_, q) => let n := Z.of_nat (length (q : list (option xmsg))) in if (ret <? n)%Z then ret else to_u32 n) qs 0%Z = 0%Z).
  { induction qs0 as [|[k0 q0] qs0 IH]; [reflexivity|]. cbn [fold_left]. cbv zeta. destruct q0; cbn [length]; exact IH. }
  induction qs as [|[k0 q0] qs IH]; intros H r Hr; [contradiction|]. cbn [fold_left]. destruct H as [[= -> ->]|H].
  - cbn [length]. cbv zeta. destruct (Z.ltb_spec r (Z.of_nat 0)); [lia|]. apply Z0.
  - apply IH; [exact H|]. cbv zeta. destruct (_ <? _)%Z; [exact Hr|]. unfold to_u32. apply Z.mod_pos_bound. reflexivity.
Qed.

Lemma do_ok g ks tr w ph L t b k mb r : fits c -> inv g ks tr w ph L -> ph t = AWant b k -> exec1 names0 b (w b) k = (mb, r) ->
  exists L', loc_ok t (x_thr g t) (ADone r) /\ t < T /\ K c (sums (x_thr g) (set_ph ph t (ADone r))) (upd w b mb 0) L'.
Proof.
  intros (F1 & F2 & F3) [] Hp HX.
  destruct (le_lt_dec T t) as [Ho|Ht]; [rewrite i_out0 in Hp by exact Ho; discriminate|].
  pose proof (i_loc0 t Ht) as HL. unfold loc_ok in HL.
  assert (HS : sums (x_thr g) ph t = summ_of (x_thr g t) (ph t)) by reflexivity.
  destruct (x_thr g t) as [pl sb cu pa] eqn:El. cbn [l_at l_sub l_cur l_past] in HL. rewrite Hp in *.
  destruct pl; try (destruct HL as [[=] _]); try contradiction.
  - (* subscribe *)
    destruct HL as ([[= -> ->]|(s & [=] & _)] & -> & -> & ->). cbn [exec1] in HX. unfold subscribe in HX.
    destruct (K_subscribe c _ _ _ t (summ_of (x_thr g t) (ADone (MOk (RSub (mkSub 0 (mb_counter (w 0))))))) Ht i_K0) as [KS CB].
    { rewrite HS. reflexivity. }
    { rewrite HS, El. reflexivity. }
    destruct (Z.ltb_spec (mb_counter (w 0)) (two31 - 1)); [|lia]. injection HX as <- <-.
    exists L. split; [|split; [exact Ht|]].
    + unfold loc_ok. cbn. split; [|auto]. right. eexists. split; reflexivity.
    + rewrite upd_same. apply K_ph. exact KS.
  - (* put *)
    destruct HL as ([[= -> ->]|[=]] & (s & Hsub & Hbox) & Hcu & Htr & Hi). cbn [l_sub] in Hsub. subst sb cu. cbn [exec1] in HX. unfold put in HX.
    assert (HX' : exists omit, (if c_noecho c then sid_of (x_thr g t) (ph t) = Some omit else omit = mb_counter (w 0)) /\
      mb = set_queues (w 0) (put_all omit (Some (mkX t tr0 i)) (mb_queues (w 0))) /\ r = MOk RUnit).
    { destruct (c_noecho c).
      - unfold getIndex in HX. rewrite Hbox in HX. cbn in HX. injection HX as <- <-. exists (sub_idx s). rewrite El. auto.
      - cbn in HX. injection HX as <- <-. eauto. }
    destruct HX' as (omit & Ho & -> & ->). exists (L ++ [mkX t tr0 i]). split; [|split; [exact Ht|]].
    + unfold loc_ok. cbn. split; [auto|]. split; [exists s; auto|auto].
    + rewrite upd_same. apply K_ph. eapply (K_put c _ _ L t _ tr0 i omit Ht i_K0); try assumption.
      all: first [rewrite HS; reflexivity | rewrite HS, El; reflexivity | rewrite El, Hp in Ho; exact Ho].
  - (* get *)
    destruct HL as ([[= -> ->]|(om & [=])] & (s & Hsub & Hbox) & Htr & Hcu). cbn [l_sub] in Hsub. subst sb. cbn [exec1] in HX. unfold get, getIndex in HX.
    rewrite Hbox in HX. cbn [Nat.eqb obind] in HX. unfold getQueue in HX.
    destruct (k_q _ _ _ _ i_K0 t (sub_idx s) Ht) as (q & Fq & V); [rewrite HS; reflexivity..|].
    rewrite Fq in HX. cbn [obind of_outcome] in HX. exists L.
    destruct q as [|m q]; cbn [map] in HX; injection HX as <- <-; (split; [|split; [exact Ht|]]).
    + unfold loc_ok. cbn. split; [eauto|]. split; [exists s; auto|auto].
    + rewrite upd_same. apply K_ph. eapply K_ext; [|exact i_K0]. intros u _. destruct (Nat.eq_dec u t) as [->|D].
      * rewrite sset_same, HS, El. reflexivity.
      * rewrite sset_other by exact D. reflexivity.
    + unfold loc_ok. cbn. split; [eauto|]. split; [exists s; auto|auto].
    + rewrite upd_same. apply K_ph. eapply (K_get c _ _ L t _ (sub_idx s) m (map Some q) Ht i_K0).
      * rewrite HS. reflexivity.
      * rewrite HS. reflexivity.
      * exact Fq.
      * rewrite HS, El. unfold summ_of. cbn. rewrite !app_nil_r, <- app_assoc. reflexivity.
  - (* extra get *)
    destruct HL as ([[= -> ->]|[=]] & (s & Hsub & Hbox) & Hcu). cbn [l_sub] in Hsub. subst sb cu. cbn [exec1] in HX. unfold get, getIndex in HX.
    rewrite Hbox in HX. cbn [Nat.eqb obind] in HX. unfold getQueue in HX.
    rewrite (drained c _ _ _ i_K0 t (sub_idx s) Ht) in HX; [|rewrite HS; try reflexivity..].
    2:{ unfold summ_of. cbn. rewrite app_nil_r. reflexivity. }
    cbn in HX. injection HX as <- <-. exists L. split; [|split; [exact Ht|]].
    + unfold loc_ok. cbn. split; [auto|]. split; [exists s; auto|auto].
    + rewrite upd_same. apply K_ph. eapply K_ext; [|exact i_K0]. intros u _. destruct (Nat.eq_dec u t) as [->|D].
      * rewrite sset_same, HS, El. reflexivity.
      * rewrite sset_other by exact D. reflexivity.
  - (* minReadyCount *)
    destruct HL as ([[= -> ->]|[=]] & (s & Hsub & Hbox) & Hcu). cbn [l_sub] in Hsub. subst sb cu. cbn [exec1] in HX. unfold minReadyCount in HX.
    assert (D : q_find (sub_idx s) (mb_queues (w 0)) = Some []).
    { apply (drained c _ _ _ i_K0 t (sub_idx s) Ht); rewrite HS; try reflexivity. unfold summ_of. cbn. rewrite app_nil_r. reflexivity. }
    apply (find_some_in Z.compare Zcmp_eq) in D. rewrite (min_zero _ _ D) in HX by (unfold two32; lia).
    injection HX as <- <-. exists L. split; [|split; [exact Ht|]].
    + unfold loc_ok. cbn. split; [auto|]. split; [exists s; auto|auto].
    + rewrite upd_same. apply K_ph. eapply K_ext; [|exact i_K0]. intros u _. destruct (Nat.eq_dec u t) as [->|D0].
      * rewrite sset_same, HS, El. reflexivity.
      * rewrite sset_other by exact D0. reflexivity.
  - (* drop *)
    destruct HL as ([(s0 & Hs0 & [= -> ->])|[=]] & (s & Hsub & Hbox) & Hcu & Hres). cbn [l_sub] in Hsub, Hs0. rewrite Hsub in Hs0; injection Hs0 as <-; subst sb cu.
    cbn [exec1] in HX. unfold drop, unsubscribe, getQueue in HX.
    destruct (k_q _ _ _ _ i_K0 t (sub_idx s) Ht) as (q & Fq & V); [rewrite HS; reflexivity..|]. rewrite Fq in HX. cbn in HX. injection HX as <- <-.
    exists L. split; [|split; [exact Ht|]].
    + unfold loc_ok. cbn. split; [auto|]. split; [exists s; auto|auto].
    + rewrite upd_same. apply K_ph. eapply (K_drop c _ _ L t _ (sub_idx s) Ht i_K0).
      * rewrite HS. reflexivity.
      * rewrite HS. reflexivity.
      * rewrite HS, El. reflexivity.
Qed.

(* ---- the barrier ---- *)
Lemma hold_events st t old h st' x e : hold_step st t old h = (st', x, e) ->
  (forall u, ~ In (ECall u) e) /\ (forall u r, ~ In (ERet u r) e) /\ (forall u, b_thr st u = TIdle -> b_thr st' u = TIdle).
Proof.
  assert (N : forall u, b_thr st u = TIdle -> b_thr (notify st) u = TIdle) by (intros u H; cbn; rewrite H; reflexivity).
  destruct h; cbn [hold_step]; repeat match goal with |- context [if ?b then _ else _] => destruct b end; intros [= <- <- <-]; cbn;
    (split; [|split]); intros; intuition (try discriminate; auto); rewrite ?H; auto.
Qed.
Lemma bar_idle st k e st' u : bstep st k e st' -> k <> KCall -> b_thr st u = TIdle -> b_thr st' u = TIdle.
Proof.
  intros S D H. inversion S; subst; clear S; try congruence; cbn; unfold upd_thr; destruct (Nat.eqb_spec u t); subst; try congruence; auto.
  apply hold_events in H1. apply H1, H.
Qed.
Lemma bar_nocall st k e st' u : bstep st k e st' -> k <> KCall -> ~ In (ECall u) e.
Proof.
  intros S D. inversion S; subst; clear S; try congruence; cbn; try (intuition discriminate). apply hold_events in H0. apply H0.
Qed.
Lemma bar_ret st t r b : bstep st KRun [ERet t r] b -> b_thr st t = TDone r /\ b = with_thr st t TIdle.
Proof.
  intros S. inversion S; subst; clear S; auto. exfalso. match goal with H : hold_step _ _ _ _ = _ |- _ => apply hold_events in H; destruct H as (_ & H & _); eapply H; left; reflexivity end.
Qed.
Lemma count_zero p l : (forall e, In e l -> p e = false) -> count p l = 0.
Proof. intros H. unfold count. rewrite filter_none by exact H. reflexivity. Qed.
Lemma count_app p a b : count p (a ++ b) = count p a + count p b.
Proof. unfold count. rewrite filter_app, app_length. reflexivity. Qed.

Ltac atl u t := destruct (Nat.eq_dec u t) as [->|?]; [rewrite ?set_loc_same, ?set_ph_same in *|rewrite ?set_loc_other, ?set_ph_other in * by assumption].

(* a thread's own steps, and its mailbox calls, leave its standing with the barrier alone *)
Definition same_bar (l l' : loc) : Prop := called_of l' = called_of l /\ passed_of l' = passed_of l /\ l_at l <> PWaiting /\ l_at l' <> PWaiting.

Lemma inv_move g ks tr w ph L t l p w' box' L' : inv g ks tr w ph L -> t < T -> same_bar (x_thr g t) l ->
  lin names0 box' w' (set_ph ph t p) -> loc_ok t l p -> K c (sums (set_loc (x_thr g) t l) (set_ph ph t p)) (w' 0) L' ->
  inv (mkXst (x_bar g) box' (set_loc (x_thr g) t l)) ks tr w' (set_ph ph t p) L'.
Proof.
  intros [] Ht (B1 & B2 & B3 & B4) HLin HL HK. constructor; cbn [x_bar x_box x_thr]; auto.
  - intros u. destruct (i_bar0 u) as [H|[H1 H2]]; [auto|]. right. split; [exact H1|]. atl u t; congruence.
  - intros u Hu. destruct (i_calls0 u Hu). atl u t; [rewrite B1, B2|]; auto.
  - intros u Hu. rewrite set_ph_other by lia. auto.
  - intros u Hu. atl u t; auto.
Qed.

Lemma inv_local g ks tr w ph L t l : fits c -> inv g ks tr w ph L -> t < T -> local_step c (x_thr g t) = Some l ->
  inv (mkXst (x_bar g) (x_box g) (set_loc (x_thr g) t l)) ks tr w ph L.
Proof.
  intros HF HI Ht HS.
  assert (G : same_bar (x_thr g t) l /\ loc_ok t l (ph t) /\ K c (sums (set_loc (x_thr g) t l) ph) (w 0) L).
  { pose proof (i_loc _ _ _ _ _ _ HI t Ht) as HL. pose proof (i_K _ _ _ _ _ _ HI) as HK.
    assert (SM : sums (x_thr g) ph t = summ_of (x_thr g t) (ph t)) by reflexivity.
    unfold local_step in HS. destruct (x_thr g t) as [pl sb cu pa] eqn:El. unfold loc_ok in HL. cbn [l_at l_sub l_cur l_past] in *.
    assert (KS : forall l', summ_of l' (ph t) = summ_of (x_thr g t) (ph t) -> K c (sums (set_loc (x_thr g) t l') ph) (w 0) L).
    { intros l' H. apply K_loc. eapply K_ext; [|exact HK]. intros u _. destruct (Nat.eq_dec u t) as [->|D].
      - rewrite sset_same, H. reflexivity.
      - rewrite sset_other by exact D. reflexivity. }
    destruct pl; try discriminate.
    - (* trial *)
      destruct HL as (Hp & Hs & -> & HR). destruct (Nat.ltb_spec tr0 R); injection HS as <-.
      + split; [repeat split; discriminate|]. split; [unfold loc_ok; cbn; repeat split; auto; lia|].
        apply KS. rewrite El, Hp. unfold summ_of, cnt_of, at_place. cbn. rewrite Nat.add_0_r. reflexivity.
      + assert (tr0 = R) by lia. subst tr0. split; [repeat split; discriminate|]. split; [unfold loc_ok; cbn; auto|].
        apply KS. rewrite El. reflexivity.
    - (* end of sending *)
      destruct HL as (Hp & Hs & -> & HR & Hi). destruct (Nat.ltb_spec i M); [discriminate|]. injection HS as <-. assert (i = M) by lia. subst i.
      split; [repeat split; discriminate|]. split; [unfold loc_ok; cbn; repeat split; auto; lia|].
      apply KS. rewrite El. unfold summ_of, cnt_of, at_place. cbn. rewrite (Nat.add_comm M). reflexivity.
    - (* end of receiving *)
      destruct HL as (Hp & Hs & HR & Hi). destruct (Nat.ltb_spec (length cu) E); [discriminate|]. injection HS as <-.
      split; [repeat split; discriminate|]. split; [unfold loc_ok; cbn; repeat split; auto; lia|]. apply KS. rewrite El. reflexivity.
    - (* the check *)
      destruct HL as (Hp & (s & Hs & Hb) & HR & Hi). cbn [l_sub] in Hs. subst sb.
      assert (CH : msg_sum cu = expected_sum c).
      { destruct (trial_done c _ _ _ HK t (sub_idx s) tr0 cu Ht) as [A B]; rewrite ?SM, ?Hp; try reflexivity; [|lia|].
        { unfold summ_of. cbn. rewrite app_nil_r. reflexivity. }
        specialize (B Hi). apply (sum_right c t tr0 cu Ht HF).
        - intros m Hm. rewrite B in Hm. apply filter_In in Hm as [Hm _]. apply views_in in Hm. apply (k_from _ _ _ _ HK), Hm.
        - intros u. rewrite B. apply (due_eq c _ _ _ HK). exact A. }
      rewrite CH, Z.eqb_refl in HS. injection HS as <-. split; [repeat split; discriminate|]. split.
      + unfold loc_ok. cbn. repeat split; auto. exists s; auto.
      + apply K_loc. eapply (K_trial c _ _ _ HK t (sub_idx s) tr0 cu); try assumption; rewrite ?SM, ?Hp; try reflexivity.
        * unfold summ_of. cbn. rewrite app_nil_r. reflexivity.
        * unfold summ_of. cbn. rewrite concat_app. cbn. rewrite !app_nil_r. reflexivity. }
  destruct G as (G1 & G2 & G3).
  assert (LI : lin names0 (x_box g) w (set_ph ph t (ph t))).
  { destruct (i_lin _ _ _ _ _ _ HI). constructor; auto. intros u. rewrite set_ph_id. apply n_thr. }
  pose proof (inv_move g ks tr w ph L t l (ph t) w (x_box g) L HI Ht G1 LI G2) as V.
  assert (X : K c (sums (set_loc (x_thr g) t l) (set_ph ph t (ph t))) (w 0) L).
  { eapply K_ext; [|exact G3]. intros u _. unfold sums. rewrite set_ph_id. reflexivity. }
  specialize (V X). destruct V. cbn [x_bar x_box x_thr] in *. constructor; cbn [x_bar x_box x_thr]; auto.
  - apply (i_lin _ _ _ _ _ _ HI).
  - intros u Hu. rewrite <- (set_ph_id ph t u). auto.
  - intros u Hu. rewrite <- (set_ph_id ph t u). auto.
Qed.

Lemma inv_in_bar g ks tr w ph L k e b : inv g ks tr w ph L -> k <> KExpire -> k <> KCall -> bstep (x_bar g) k e b ->
  forallb (fun x => negb (is_bret x)) e = true -> inv (mkXst b (x_box g) (x_thr g)) (ks ++ [k]) (tr ++ e) w ph L.
Proof.
  intros HI HE H H0 H1.
  destruct HI. constructor; cbn [x_bar x_box x_thr]; auto.
  + eapply bs_snoc; eassumption.
  + intros t Hi. apply in_app_iff in Hi as [Hi|Hi]; [auto|]. elim (bar_nocall _ _ _ _ t H0 H Hi).
  + intros Hi. apply in_app_iff in Hi as [Hi|[Hi|[]]]; [apply i_time0, Hi|congruence].
  + intros t. destruct (i_bar0 t) as [X|X]; [left; eapply bar_idle; eassumption|auto].
  + intros t Ht. destruct (i_calls0 t Ht) as [C1 C2]. unfold calls, rets in *. rewrite !count_app, C1, C2.
    rewrite (count_zero (is_call t)), (count_zero (is_ret t)); [split; lia|..].
    * intros x Hx. rewrite forallb_forall in H1. specialize (H1 x Hx). destruct x; try reflexivity. discriminate.
    * intros x Hx. destruct x; try reflexivity. elim (bar_nocall _ _ _ _ _ H0 H Hx).
Qed.
Lemma inv_call_bar g ks tr w ph L t b : inv g ks tr w ph L -> t < T -> l_at (x_thr g t) = PWait -> bstep (x_bar g) KCall [ECall t] b ->
  inv (mkXst b (x_box g) (set_loc (x_thr g) t (at_place (x_thr g t) PWaiting))) (ks ++ [KCall]) (tr ++ [ECall t]) w ph L.
Proof.
  intros HI H H0 H1.
  destruct HI. 
  pose proof (i_loc0 t H) as LO. unfold loc_ok in LO. rewrite H0 in LO.
  constructor; cbn [x_bar x_box x_thr]; auto.
  + eapply bs_snoc; eassumption.
  + intros u Hi. apply in_app_iff in Hi as [Hi|[[= <-]|[]]]; auto.
  + intros Hi. apply in_app_iff in Hi as [Hi|[Hi|[]]]; [apply i_time0, Hi|discriminate].
  + intros u. atl u t; [right; auto|]. destruct (i_bar0 u) as [X|X]; [left|auto]. inversion H1; subst. cbn. unfold upd_thr.
    destruct (Nat.eqb_spec u t); [contradiction|exact X].
  + intros u Hu. destruct (i_calls0 u Hu) as [C1 C2]. unfold calls, rets in *. rewrite !count_app, C1, C2. unfold count. cbn.
    atl u t.
    * unfold called_of, passed_of. rewrite H0, Nat.eqb_refl. split; reflexivity.
    * destruct (Nat.eqb_spec t u); [congruence|]. cbn. split; lia.
  + intros u Hu. atl u t; [|auto]. unfold loc_ok. cbn. destruct LO as (A1 & (s & A2) & A3). split; [exact A1|]. split; [exists s; exact A2|exact A3].
  + apply K_loc. destruct LO as (A1 & (s & A2 & _) & A3 & A4). eapply (K_call_bar c _ _ _ t _ H i_K0).
    * unfold sums, summ_of. cbn. unfold sid_of. rewrite H0, A2. discriminate.
    * unfold sums, summ_of, sid_of, gone_of, cnt_of, pending, trial_of, passed_of, called_of. cbn. rewrite H0. reflexivity.
Qed.
Lemma inv_ret_bar g ks tr w ph L t r b : fits c -> inv g ks tr w ph L -> bstep (x_bar g) KRun [ERet t r] b ->
  inv (mkXst b (x_box g) (set_loc (x_thr g) t (at_place (x_thr g t) (match r with Passed => PTrial 0 | _ => PDied end))))
      (ks ++ [KRun]) (tr ++ [ERet t r]) w ph L.
Proof.
  intros HF HI H.
  destruct (bar_ret _ _ _ _ H) as [HD ->]. destruct HI.
  destruct (i_bar0 t) as [X|[Ht HW]]; [congruence|].
  assert (EX : execution (Z.of_nat T) 0 (ks ++ [KRun]) (tr ++ [ERet t r]) (with_thr (x_bar g) t TIdle)) by (eapply bs_snoc; eassumption).
  assert (ON : only_threads T (tr ++ [ERet t r])) by (intros u Hi; apply in_app_iff in Hi as [Hi|[[=]|[]]]; auto).
  assert (NE : no_expiry (ks ++ [KRun])) by (intros Hi; apply in_app_iff in Hi as [Hi|[Hi|[]]]; [apply i_time0, Hi|discriminate]).
  destruct HF as (F1 & F2 & F3).
  assert (EA : forall u, u < T -> rets t tr < calls u tr /\ r = Passed).
  { intros u Hu. eapply (C_Barrier.early T 0 _ _ _ t u tr []); try eassumption; try reflexivity; unfold two31, two32 in *; lia. }
  assert (AC : forall u, u < T -> called_of (x_thr g u) = true).
  { intros u Hu. destruct (EA u Hu) as [C _]. destruct (i_calls0 u Hu) as [C1 _]. rewrite C1 in C. destruct (called_of _); [reflexivity|cbn in C; lia]. }
  destruct (EA t Ht) as [_ ->]. pose proof (i_loc0 t Ht) as LO. unfold loc_ok in LO. rewrite HW in LO. destruct LO as (A1 & (s & A2) & A3 & A4).
  constructor; cbn [x_bar x_box x_thr]; auto.
  + intros u. cbn. unfold upd_thr. destruct (Nat.eqb_spec u t); [auto|]. rewrite set_loc_other by assumption. apply i_bar0.
  + intros u Hu. destruct (i_calls0 u Hu) as [C1 C2]. unfold calls, rets in *. rewrite !count_app, C1, C2. unfold count. cbn.
    atl u t.
    * unfold called_of, passed_of. rewrite HW, Nat.eqb_refl. split; reflexivity.
    * destruct (Nat.eqb_spec t u); [congruence|]. cbn. split; lia.
  + intros u Hu. atl u t; [|auto]. unfold loc_ok. cbn. repeat split; auto; [exists s; exact A2|lia].
  + apply K_loc. eapply (K_ret_bar c _ _ _ t _ Ht i_K0).
    * intros u Hu. apply AC, Hu.
    * unfold sums, summ_of, sid_of, gone_of, cnt_of, pending, trial_of, passed_of, called_of. cbn. rewrite HW. reflexivity.
Qed.

Lemma inv_step_full g ks tr w ph L k g' : fits c -> inv g ks tr w ph L -> xstep c g k g' -> k <> KExpire ->
  exists ks' tr' w' ph' L', inv g' ks' tr' w' ph' L' /\ (exists e, astep names0 w ph e w' ph') /\
    (ks' = ks /\ x_bar g' = x_bar g \/ exists k', ks' = ks ++ [k'] /\ k' <> KExpire /\ (k' = KSpurious -> k = KSpurious)).
Proof.
  intros HF HI HS HE. inversion HS; subst; clear HS.
  - (* in the barrier *)
    do 5 eexists. split; [eapply inv_in_bar; eassumption|]. split; [eexists; constructor|]. right. exists k. auto.
  - (* in the mailbox *)
    destruct (lin_step _ _ _ _ _ _ (i_lin _ _ _ _ _ _ HI) H) as (w' & ph' & HL & HA). inversion HA; subst; clear HA.
    + exists ks, tr, w', ph', L. split; [destruct HI; constructor; auto|]. split; [eexists; constructor|]. auto.
    + destruct (do_ok g ks tr w ph L t b c0 mb r HF HI H0 H1) as (L' & HO & Ht & HK). exists ks, tr, (upd w b mb), (set_ph ph t (ADone r)), L'.
      split; [|split; [eexists; eapply a_do; eassumption|auto]].
      destruct HI. constructor; cbn [x_bar x_box x_thr]; auto.
      * intros u Hu. rewrite set_ph_other by lia. auto.
      * intros u Hu. atl u t; auto.
  - (* local *)
    exists ks, tr, w, ph, L. split; [apply inv_local; assumption|]. split; [eexists; constructor|auto].
  - (* call *)
    destruct (lin_step _ _ _ _ _ _ (i_lin _ _ _ _ _ _ HI) H1) as (w' & ph' & HL & HA). inversion HA; subst; clear HA.
    exists ks, tr, w', (set_ph ph t (AWant 0 k0)), L. 
    pose proof (i_loc _ _ _ _ _ _ HI t H) as LO. pose proof (i_K _ _ _ _ _ _ HI) as HK.
    assert (G : same_bar (x_thr g t) (at_place (x_thr g t) p) /\ loc_ok t (at_place (x_thr g t) p) (AWant 0 k0) /\
                summ_of (at_place (x_thr g t) p) (AWant 0 k0) = summ_of (x_thr g t) (ph t)).
    { unfold next_call in H0. destruct (x_thr g t) as [pl sb cu pa] eqn:El. unfold loc_ok in LO. cbn [l_at l_sub l_cur l_past] in *.
      destruct pl; try discriminate.
      - injection H0 as <- <-. destruct LO as (-> & -> & -> & ->). split; [repeat split; discriminate|]. split; [unfold loc_ok; cbn; auto|]. reflexivity.
      - destruct (Nat.ltb_spec i M); [|discriminate]. injection H0 as <- <-. destruct LO as (Hp & Hs & -> & Htr & Hi). rewrite Hp.
        split; [repeat split; discriminate|]. split; [unfold loc_ok; cbn; auto 9|]. reflexivity.
      - destruct (Nat.ltb_spec (length cu) E); [|discriminate]. injection H0 as <- <-. destruct LO as (Hp & Hs & Htr & Hi). rewrite Hp.
        split; [repeat split; discriminate|]. split; [unfold loc_ok; cbn; auto 9|]. reflexivity.
      - injection H0 as <- <-. destruct LO as (-> & Hs & ->). split; [repeat split; discriminate|]. split; [unfold loc_ok; cbn; auto|]. reflexivity.
      - injection H0 as <- <-. destruct LO as (-> & Hs & ->). split; [repeat split; discriminate|]. split; [unfold loc_ok; cbn; auto|]. reflexivity.
      - destruct sb as [s|]; [|discriminate]. injection H0 as <- <-. destruct LO as (-> & Hs & -> & Hr). split; [repeat split; discriminate|].
        split; [unfold loc_ok; cbn; eauto 9|]. reflexivity. }
    destruct G as (G1 & G2 & G3). split; [|split; [eexists; apply a_call; assumption|auto]]. apply inv_move with (w := w') (L := L); auto. apply K_same; auto.
  - (* return *)
    destruct (lin_step _ _ _ _ _ _ (i_lin _ _ _ _ _ _ HI) H) as (w' & ph' & HL & HA). inversion HA; subst; clear HA. match goal with X : ph t = ADone r |- _ => rename X into HP end.
    exists ks, tr, w', (set_ph ph t AIdle), L.
    destruct (le_lt_dec T t) as [Ho|Ht]; [rewrite (i_out _ _ _ _ _ _ HI t Ho) in HP; discriminate|].
    pose proof (i_loc _ _ _ _ _ _ HI t Ht) as LO. pose proof (i_K _ _ _ _ _ _ HI) as HK.
    assert (G : same_bar (x_thr g t) (after_call (x_thr g t) r) /\ loc_ok t (after_call (x_thr g t) r) AIdle /\
                summ_of (after_call (x_thr g t) r) AIdle = summ_of (x_thr g t) (ph t)).
    { rewrite HP in *. destruct (x_thr g t) as [pl sb cu pa] eqn:El. unfold loc_ok in LO. cbn [l_at l_sub l_cur l_past] in *.
      destruct pl; try (destruct LO as [[=] _]); try contradiction.
      - destruct LO as ([[=]|(s & [= ->] & Hb)] & -> & -> & ->). cbn.
        split; [repeat split; discriminate|]. split; [unfold loc_ok; cbn; repeat split; auto; exists s; auto|]. reflexivity.
      - destruct LO as ([[=]|[= ->]] & Hs & -> & Htr & Hi). cbn.
        split; [repeat split; discriminate|]. split; [unfold loc_ok; cbn; repeat split; auto|].
        unfold summ_of, cnt_of. cbn. rewrite Nat.add_succ_r. reflexivity.
      - destruct LO as ([[=]|([m0|] & [= ->])] & Hs & Htr & Hi); cbn.
        + split; [repeat split; discriminate|]. split; [unfold loc_ok; cbn; rewrite app_length; cbn; repeat split; auto; lia|].
          unfold summ_of. cbn. rewrite app_nil_r. reflexivity.
        + split; [repeat split; discriminate|]. split; [unfold loc_ok; cbn; repeat split; auto; lia|]. reflexivity.
      - destruct LO as ([[=]|[= ->]] & Hs & ->). cbn. split; [repeat split; discriminate|]. split; [unfold loc_ok; cbn; repeat split; auto|]. reflexivity.
      - destruct LO as ([[=]|[= ->]] & Hs & ->). cbn. split; [repeat split; discriminate|]. split; [unfold loc_ok; cbn; repeat split; auto|]. reflexivity.
      - destruct LO as ([(s & _ & [=])|[= ->]] & Hs & -> & Hr). cbn. split; [repeat split; discriminate|]. split; [unfold loc_ok; cbn; repeat split; auto|]. reflexivity. }
    destruct G as (G1 & G2 & G3). split; [|split; [eexists; apply a_ret; exact HP|auto]]. apply inv_move with (w := w') (L := L); auto. apply K_same; auto.
  - (* wait *)
    do 5 eexists. split; [eapply inv_call_bar; eassumption|]. split; [eexists; constructor|]. right. exists KCall. repeat split; discriminate.
  - (* the wait is over *)
    do 5 eexists. split; [eapply inv_ret_bar; eassumption|]. split; [eexists; constructor|]. right. exists KRun. repeat split; discriminate.
Qed.
Lemma inv_step g ks tr w ph L k g' : fits c -> inv g ks tr w ph L -> xstep c g k g' -> k <> KExpire ->
  exists ks' tr' w' ph' L', inv g' ks' tr' w' ph' L'.
Proof.
  intros HF HI HS HE. destruct (inv_step_full g ks tr w ph L k g' HF HI HS HE) as (ks' & tr' & w' & ph' & L' & X & _). eauto 6.
Qed.
Lemma reached_inv g : fits c -> reached c g -> exists ks tr w ph L, inv g ks tr w ph L.
Proof.
  intros HF (ks0 & HR & HT). remember (xinit c) as g0. revert HT. induction HR as [g|g ks0 g1 k g2 HR IH HS]; intros HT; subst.
  - do 5 eexists. apply inv_init.
  - destruct IH as (ks & tr & w & ph & L & HI); [reflexivity|intros H; apply HT, in_app_iff; auto|].
    eapply inv_step; try eassumption. intros ->. apply HT, in_app_iff. right. left. reflexivity.
Qed.

(* ---- what the invariant says ---- *)
Lemma past_trial g ks tr w ph L t : inv g ks tr w ph L -> t < T -> length (l_past (x_thr g t)) = trial_of (x_thr g t).
Proof. intros HI Ht. exact (past_len c _ _ _ t (i_K _ _ _ _ _ _ HI) Ht). Qed.
Lemma exact_trials g t r u : fits c -> reached c g -> t < T -> r < length (l_past (x_thr g t)) ->
  filter (from u) (nth r (l_past (x_thr g t)) []) = due c t r u.
Proof.
  intros HF HR Ht Hr. destruct (reached_inv g HF HR) as (ks & tr & w & ph & L & HI). pose proof (past_trial _ _ _ _ _ _ t HI Ht) as P. rewrite P in Hr.
  exact (past_due c _ _ _ (i_K _ _ _ _ _ _ HI) t r u Ht Hr).
Qed.
Lemma past_senders g t r m : fits c -> reached c g -> t < T -> In m (nth r (l_past (x_thr g t)) []) -> x_from m < T.
Proof.
  intros HF HR Ht Hm. destruct (reached_inv g HF HR) as (ks & tr & w & ph & L & HI). pose proof (i_K _ _ _ _ _ _ HI) as HK.
  pose proof (k_past _ _ _ _ HK t Ht) as P. cbn in P. rewrite P in Hm.
  destruct (le_lt_dec (trial_of (x_thr g t)) r) as [H|H].
  - rewrite nth_overflow in Hm by (rewrite map_length, seq_length; exact H). destruct Hm.
  - rewrite (nth_indep _ [] (filter (of_trial 0) (views c t L))) in Hm by (rewrite map_length, seq_length; exact H).
    rewrite (map_nth (fun r => filter (of_trial r) (views c t L))) in Hm. apply filter_In in Hm as [Hm _]. apply views_in in Hm.
    apply (k_from _ _ _ _ HK), Hm.
Qed.
Lemma end_ok g t res : fits c -> reached c g -> t < T -> l_at (x_thr g t) = PEnd res -> res = 0%Z /\ length (l_past (x_thr g t)) = R.
Proof.
  intros HF HR Ht He. destruct (reached_inv g HF HR) as (ks & tr & w & ph & L & HI). rewrite (past_trial _ _ _ _ _ _ t HI Ht).
  pose proof (i_loc _ _ _ _ _ _ HI t Ht) as LO. unfold loc_ok, trial_of in *. rewrite He in *. split; [apply LO|reflexivity].
Qed.
Lemma never_dies g t : fits c -> reached c g -> t < T -> l_at (x_thr g t) <> PDied.
Proof.
  intros HF HR Ht He. destruct (reached_inv g HF HR) as (ks & tr & w & ph & L & HI).
  pose proof (i_loc _ _ _ _ _ _ HI t Ht) as LO. unfold loc_ok in LO. rewrite He in LO. exact LO.
Qed.
Lemma together g t u : fits c -> reached c g -> t < T -> u < T -> 0 < M -> length (l_past (x_thr g u)) <= S (length (l_past (x_thr g t))).
Proof.
  intros HF HR Ht Hu HM. destruct (reached_inv g HF HR) as (ks & tr & w & ph & L & HI).
  rewrite (past_trial _ _ _ _ _ _ t HI Ht), (past_trial _ _ _ _ _ _ u HI Hu). pose proof (i_K _ _ _ _ _ _ HI) as HK.
  pose proof (k_sync _ _ _ _ HK u t Hu Ht) as SY. pose proof (k_bound _ _ _ _ HK t Ht) as BD. cbn [a_trial a_cnt sums summ_of] in *.
  apply (Nat.mul_le_mono_pos_r _ _ M HM). unfold sums, summ_of in *. cbn [a_trial a_cnt] in *. lia.
Qed.
Lemma empty_end g : fits c -> reached c g -> (forall t, t < T -> exists res, l_at (x_thr g t) = PEnd res) -> mb_queues (boxes (x_box g) 0) = [].
Proof.
  intros HF HR HE. destruct (reached_inv g HF HR) as (ks & tr & w & ph & L & HI). pose proof (i_K _ _ _ _ _ _ HI) as HK.
  pose proof (n_own _ _ _ _ (i_lin _ _ _ _ _ _ HI) 0) as O.
  destruct (owner (x_box g) 0) as [t|] eqn:OW.
  - exfalso. destruct O as (p & O). pose proof (n_thr _ _ _ _ (i_lin _ _ _ _ _ _ HI) t) as N. rewrite O in N. destruct N as (_ & r & N & _).
    destruct (le_lt_dec T t) as [H|H]; [rewrite (i_out _ _ _ _ _ _ HI t H) in N; discriminate|].
    destruct (HE t H) as (res & E1). pose proof (i_loc _ _ _ _ _ _ HI t H) as LO. unfold loc_ok in LO. rewrite E1 in LO. destruct LO as (LO & _). congruence.
  - rewrite O. apply (all_gone c _ _ _ HK). intros t Ht. destruct (HE t Ht) as (res & E1). unfold sums, summ_of, gone_of. cbn. rewrite E1. reflexivity.
Qed.
Lemma cur_trial g t m : fits c -> reached c g -> t < T -> In m (l_cur (x_thr g t)) -> x_trial m = length (l_past (x_thr g t)).
Proof.
  intros HF HR Ht Hm. destruct (reached_inv g HF HR) as (ks & tr & w & ph & L & HI). rewrite (past_trial _ _ _ _ _ _ t HI Ht).
  pose proof (i_K _ _ _ _ _ _ HI) as HK. pose proof (i_loc _ _ _ _ _ _ HI t Ht) as LO. set (n := trial_of (x_thr g t)).
  assert (X : exists s, l_sub (x_thr g t) = Some s /\ sid_of (x_thr g t) (ph t) = Some (sub_idx s) /\ gone_of (x_thr g t) (ph t) = false /\
              length (l_cur (x_thr g t)) <= E).
  { unfold loc_ok, sid_of, gone_of in *. destruct (l_at (x_thr g t)); try contradiction;
      try (assert (EC : l_cur (x_thr g t) = []) by (decompose [and] LO; assumption); rewrite EC in Hm; destruct Hm).
    - destruct LO as (_ & (s & Hs & _) & _ & HL). exists s. rewrite Hs. auto.
    - destruct LO as (_ & (s & Hs & _) & _ & HL). exists s. rewrite Hs. repeat split; auto. lia.
    - destruct LO as (_ & (s & Hs & _) & _ & HL). exists s. rewrite Hs. repeat split; auto. lia. }
  destruct X as (s & _ & X2 & X3 & X4).
  destruct (k_q _ _ _ _ HK t _ Ht X2 X3) as (q & _ & V). cbn [sums summ_of a_recv] in V. unfold sums, summ_of in V. cbn [a_recv] in V.
  rewrite <- !app_assoc in V. set (rest := pending (x_thr g t) (ph t) ++ q) in V.
  pose proof (len_past c _ _ _ HK t Ht) as LP. unfold sums, summ_of in LP. cbn [a_past a_trial] in LP. fold n in LP.
  pose proof (views_sorted c t L (k_sort _ _ _ _ HK)) as SV.
  assert (SYN : forall v, v < T -> n * M <= a_cnt (sums (x_thr g) ph v)) by (intros v Hv; exact (k_sync _ _ _ _ HK t v Ht Hv)).
  assert (IN : In m (views c t L)) by (rewrite V; apply in_app_iff; right; apply in_app_iff; left; exact Hm).
  assert (LO2 : n <= x_trial m).
  { pose proof (sorted_split n _ SV) as S1. rewrite V in S1 at 1. apply app_split in S1 as [_ S1]; [|rewrite LP, (len_early c _ _ _ HK t n Ht SYN); reflexivity].
    assert (I2 : In m (filter (fun m => negb (early_ n m)) (views c t L))) by (rewrite <- S1; apply in_app_iff; left; exact Hm).
    apply filter_In in I2 as [_ I2]. unfold early_ in I2. destruct (Nat.ltb_spec (x_trial m) n); [discriminate|assumption]. }
  assert (HI2 : x_trial m <= n).
  { assert (DEC : (forall v, v < T -> S n * M <= a_cnt (sums (x_thr g) ph v)) \/ exists v, v < T /\ a_cnt (sums (x_thr g) ph v) < S n * M).
    { generalize T. induction n0 as [|k [IH|(v & A & B)]]; [left; intros; lia| |right; exists v; split; [lia|exact B]].
      destruct (le_lt_dec (S n * M) (a_cnt (sums (x_thr g) ph k))) as [A|A]; [|right; exists k; split; [lia|exact A]].
      left. intros v Hv. destruct (Nat.eq_dec v k) as [->|D]; [exact A|]. apply IH. lia. }
    destruct DEC as [A|(v & Hv & A)].
    - pose proof (sorted_split (S n) _ SV) as S1. pose proof (len_early c _ _ _ HK t (S n) Ht A) as LE.
      set (e := filter (early_ (S n)) (views c t L)) in *. rewrite V in S1 at 1.
      assert (IE : In m e).
      { set (p := concat (l_past (x_thr g t)) ++ l_cur (x_thr g t)) in *.
        assert (PL : length p <= length e) by (unfold p; rewrite app_length, LP, LE; cbn; lia).
        rewrite app_assoc in S1. fold p in S1.
        assert (PE : exists x, e = p ++ x).
        { exists (skipn (length p) e). rewrite <- (firstn_skipn (length p) e) at 1. f_equal.
          apply (f_equal (firstn (length p))) in S1. rewrite firstn_app, firstn_all, Nat.sub_diag in S1. cbn in S1. rewrite app_nil_r in S1.
          rewrite firstn_app in S1. replace (length p - length e) with 0 in S1 by lia. cbn in S1. rewrite app_nil_r in S1. symmetry. exact S1. }
        destruct PE as (x & ->). apply in_app_iff. left. unfold p. apply in_app_iff. right. exact Hm. }
      apply filter_In in IE as [_ IE]. unfold early_ in IE. apply Nat.ltb_lt in IE. lia.
    - apply views_in in IN. pose proof (log_trial c _ _ _ _ HK IN) as LT. pose proof (k_from _ _ _ _ HK _ IN) as LF.
      pose proof (k_sync _ _ _ _ HK (x_from m) v LF Hv) as SY.
      assert (a_trial (sums (x_thr g) ph (x_from m)) < S n) by (apply (Nat.mul_lt_mono_pos_r M); lia). lia. }
  lia.
Qed.
End G.
