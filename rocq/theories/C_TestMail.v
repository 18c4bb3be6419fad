(* C_TestMail.v -- lemmas on the run of test/MailBoxTest.cxx with int numbers (C134). *)
From Verif Require Import Base M_MailBox M_MailBoxConc M_Barrier M_Exchange S_Exchange L_Map L_MailBox L_Exchange L_ExchangeG L_ExchangeP M_TestMain S_TestMain.

Section Same.
Variables (a : mt_args) (c : cfg) (ok : loc -> Prop).
Hypothesis HT : mt_threads a = c_threads c.
Hypothesis HL : forall l, ok l -> mt_local a l = local_step c l.
Hypothesis HC : forall t l, ok l -> mt_call a t l = next_call c t l.
Hypothesis KL : forall l l', ok l -> local_step c l = Some l' -> ok l'.
Hypothesis KC : forall t l k p, ok l -> next_call c t l = Some (k, p) -> ok (at_place l p).
Hypothesis KR : forall l r, ok l -> ok (after_call l r).
Hypothesis KW : forall l p, ok l -> p = PWaiting \/ p = PTrial 0 \/ p = PDied -> ok (at_place l p).
Definition all_ok (g : xst) : Prop := forall t, ok (x_thr g t).
Lemma set_ok f t l : (forall u, ok (f u)) -> ok l -> forall u, ok (set_loc f t l u).
Proof. intros A B u. unfold set_loc. destruct (Nat.eqb u t); auto. Qed.
Lemma same_step g k g' : all_ok g -> (mt_step a g k g' <-> xstep c g k g').
Proof.
  intros A. split; intros S; inversion S; subst.
  - eapply x_in_bar; eassumption.
  - apply x_in_box; assumption.
  - apply x_local; [rewrite <- HT; assumption|rewrite <- HL; auto].
  - apply x_call_box with (k := k0); [rewrite <- HT; assumption|rewrite <- HC; auto|assumption].
  - apply x_ret_box; assumption.
  - apply x_call_bar; [rewrite <- HT; assumption|assumption|assumption].
  - apply x_ret_bar; assumption.
  - eapply mt_in_bar; eassumption.
  - apply mt_in_box; assumption.
  - apply mt_alone; [rewrite HT; assumption|rewrite HL; auto].
  - apply mt_call_box with (k := k0); [rewrite HT; assumption|rewrite HC; auto|assumption].
  - apply mt_ret_box; assumption.
  - apply mt_call_bar; [rewrite HT; assumption|assumption|assumption].
  - apply mt_ret_bar; assumption.
Qed.
Lemma keeps g k g' : all_ok g -> xstep c g k g' -> all_ok g'.
Proof.
  intros A S. inversion S; subst; unfold all_ok; cbn [x_thr]; auto; apply set_ok; auto.
  - eapply KL; [|eassumption]. apply A.
  - eapply KC; [|eassumption]. apply A.
  - destruct r; auto.
Qed.
Lemma same_run g ks g' : all_ok g -> (mt_run a g ks g' <-> xrun c g ks g').
Proof.
  assert (R : forall g ks g', all_ok g -> xrun c g ks g' -> all_ok g').
  { intros g0 ks0 g1 A H. induction H; auto. eapply keeps; [|eassumption]. auto. }
  intros A. split; intros H; induction H as [|g ks g1 k g2 H IH S]; try constructor.
  - econstructor; [apply IH, A|]. apply same_step; [|exact S]. eapply R; [exact A|apply IH, A].
  - econstructor; [apply IH, A|]. apply same_step; [|exact S]. eapply R; [exact A|exact H].
Qed.
End Same.

(* the numbers with which the test works *)
Definition good (a : mt_args) : Prop := works (a_msgs a) (a_threads a) (a_trials a) (a_noecho a).
Definition cfg_of (a : mt_args) : cfg :=
  mkCfg (Z.to_nat (a_threads a)) (if (a_trials a <=? 0)%Z then 0 else Z.to_nat (a_msgs a)) (Z.to_nat (a_trials a)) (a_noecho a).
Definition idle_trial (l : loc) : Prop :=
  match l_at l with PSend _ _ | PSending _ _ | PRecv _ | PRecving _ | PCheck _ => False | _ => True end.

Lemma in_int_iff z : in_int z = true <-> (- 2 ^ 31 <= z < 2 ^ 31)%Z.
Proof. unfold in_int, two31. rewrite andb_true_iff, Z.leb_le, Z.ltb_lt. lia. Qed.
Lemma in_int_not z : in_int z = false <-> ~ (- 2 ^ 31 <= z < 2 ^ 31)%Z.
Proof. rewrite <- in_int_iff. destruct (in_int z); split; intros; congruence. Qed.
Lemma ltb_nat i z : (Z.of_nat i <? z)%Z = (i <? Z.to_nat z).
Proof. destruct (Z.ltb_spec (Z.of_nat i) z), (Nat.ltb_spec i (Z.to_nat z)); lia. Qed.
Lemma u64_id z : (0 <= z < 2 ^ 64)%Z -> to_u64 z = z.
Proof. intros H. unfold to_u64, two64. apply Z.mod_small. lia. Qed.

Definition ok_of (a : mt_args) (l : loc) : Prop := (a_trials a <= 0)%Z -> idle_trial l.
Lemma start_same a : (1 <= a_threads a < 2 ^ 31)%Z -> mt_start a = xinit (cfg_of a).
Proof.
  intros H. unfold mt_start, xinit. cbn [c_threads cfg_of]. rewrite Z2Nat.id by lia. unfold to_u32, two32. rewrite Z.mod_small by lia. reflexivity.
Qed.
Lemma good_fits a : (1 <= a_threads a < 2 ^ 31)%Z -> good a -> fits (cfg_of a).
Proof.
  intros H G. unfold fits, cfg_of, two31. cbn [c_threads c_msgs]. destruct (Z.leb_spec (a_trials a) 0).
  - rewrite Nat.mul_0_l. lia.
  - destruct G as [G|[G|(G & _ & G1)]]; [lia| |].
    + split; [lia|]. split; [lia|]. rewrite Nat2Z.inj_mul, !Z2Nat.id by lia. lia.
    + replace (Z.to_nat (a_msgs a)) with 0 by lia. rewrite Nat.mul_0_l. lia.
Qed.
Lemma good_expected a : (1 <= a_threads a < 2 ^ 31)%Z -> (0 < a_trials a)%Z -> good a ->
  in_int (a_msgs a * a_threads a) = true /\ in_int (a_msgs a - 1) = true /\
  mt_expected a = Z.of_nat (expected_msgs (cfg_of a)) /\ mt_expected_sum a = expected_sum (cfg_of a).
Proof.
  intros H R G. unfold cfg_of, expected_msgs, expected_sum, mt_expected, mt_expected_sum. cbn [c_threads c_msgs c_noecho].
  destruct (Z.leb_spec (a_trials a) 0) as [|_]; [lia|]. destruct G as [G|[G|(G & G1 & G2)]]; [lia| |].
  - assert (B : (a_msgs a <= a_msgs a * a_threads a)%Z) by nia. rewrite !in_int_iff. split; [lia|]. split; [lia|].
    split; [|rewrite !Z2Nat.id by lia; reflexivity]. destruct (a_noecho a).
    + rewrite Nat2Z.inj_sub, Nat2Z.inj_mul, !Z2Nat.id by nia. rewrite (u64_id (a_msgs a * a_threads a)), (u64_id (a_msgs a)), u64_id by lia. reflexivity.
    + rewrite Nat2Z.inj_mul, !Z2Nat.id by lia. rewrite Z.sub_0_r, (u64_id (a_msgs a * a_threads a)), u64_id by lia. reflexivity.
  - rewrite !in_int_iff, G1, G2. split; [lia|]. split; [lia|].
    replace (Z.to_nat (a_msgs a)) with 0 by lia. rewrite Z.mul_1_r, Z.sub_diag. split; reflexivity.
Qed.
Lemma same_of a g ks g' : (1 <= a_threads a < 2 ^ 31)%Z -> good a -> (forall t, ok_of a (x_thr g t)) ->
  (mt_run a g ks g' <-> xrun (cfg_of a) g ks g').
Proof.
  intros H G A. apply same_run with (ok := ok_of a); try exact A; try reflexivity.
  - intros l O. unfold mt_local, local_step. destruct (l_at l) eqn:EL; try reflexivity.
    + cbn [c_trials cfg_of]. rewrite ltb_nat. reflexivity.
    + destruct (Z.lt_ge_cases 0 (a_trials a)) as [R|R]; [|specialize (O R); unfold idle_trial in O; rewrite EL in O; contradiction].
      destruct (good_expected a H R G) as (-> & _). cbn [c_msgs cfg_of]. destruct (Z.leb_spec (a_trials a) 0); [lia|]. rewrite ltb_nat. reflexivity.
    + destruct (Z.lt_ge_cases 0 (a_trials a)) as [R|R]; [|specialize (O R); unfold idle_trial in O; rewrite EL in O; contradiction].
      destruct (good_expected a H R G) as (_ & _ & -> & _). rewrite ltb_nat, Nat2Z.id. reflexivity.
    + destruct (Z.lt_ge_cases 0 (a_trials a)) as [R|R]; [|specialize (O R); unfold idle_trial in O; rewrite EL in O; contradiction].
      destruct (good_expected a H R G) as (_ & -> & _ & ->). reflexivity.
  - intros t l O. unfold mt_call, next_call. destruct (l_at l) eqn:EL; try reflexivity.
    + destruct (Z.lt_ge_cases 0 (a_trials a)) as [R|R]; [|specialize (O R); unfold idle_trial in O; rewrite EL in O; contradiction].
      cbn [c_msgs c_noecho cfg_of]. destruct (Z.leb_spec (a_trials a) 0); [lia|]. rewrite ltb_nat. reflexivity.
    + destruct (Z.lt_ge_cases 0 (a_trials a)) as [R|R]; [|specialize (O R); unfold idle_trial in O; rewrite EL in O; contradiction].
      destruct (good_expected a H R G) as (_ & _ & -> & _). rewrite ltb_nat, Nat2Z.id. reflexivity.
  - intros l l' O S R. specialize (O R). unfold local_step in S. unfold idle_trial in *. destruct (l_at l); try discriminate; try contradiction.
    injection S as <-. cbn [c_trials cfg_of]. replace (Z.to_nat (a_trials a)) with 0 by lia. exact I.
  - intros t l k p O S R. specialize (O R). unfold next_call in S. unfold idle_trial in *. destruct (l_at l); try discriminate; try contradiction;
      try (injection S as <- <-; exact I). destruct (l_sub l); [|discriminate]. injection S as <- <-. exact I.
  - intros l r O R. specialize (O R). unfold idle_trial in *. unfold after_call. destruct (l_at l); try contradiction;
      destruct r as [[| | |]| | |]; try exact I; match goal with |- context [match ?m with Some _ => _ | None => _ end] => destruct m; exact I end.
  - intros l p O P R. unfold idle_trial. cbn. destruct P as [-> | [-> | ->]]; exact I.
Qed.
Lemma mr_app a g ks g1 ks' g2 : mt_run a g ks g1 -> mt_run a g1 ks' g2 -> mt_run a g (ks ++ ks') g2.
Proof. intros A B. induction B; [rewrite app_nil_r; exact A|]. rewrite app_assoc. econstructor; eauto. Qed.

(* ---- the numbers with which no thread ever finishes ---- *)
Definition soon (l : loc) : Prop :=
  match l_at l with PSubscribe | PSubscribing | PWait | PWaiting | PTrial 0 | PSend 0 _ | PSending 0 _ | PDied => True | _ => False end.
Lemma soon_run a ks g : (1 <= a_trials a)%Z -> in_int (a_msgs a * a_threads a) = false -> mt_run a (mt_start a) ks g -> forall t, soon (x_thr g t).
Proof.
  intros R O H. remember (mt_start a) as g0 eqn:E0. induction H as [|g0 ks g1 k g2 H IH S]; subst.
  - intros t. exact I.
  - specialize (IH eq_refl). inversion S; subst; cbn [x_thr]; auto; apply set_ok; auto.
    + match goal with X : mt_local _ _ = _ |- _ => revert X end. specialize (IH t). unfold soon in IH. unfold mt_local.
      destruct (l_at (x_thr g1 t)); try discriminate; try contradiction.
      * destruct tr; [|contradiction]. intros [= <-]. destruct (Z.ltb_spec 0 (a_trials a)); [exact I|lia].
      * destruct tr; [|contradiction]. destruct (_ <? _)%Z; [discriminate|]. rewrite O. intros [= <-]. exact I.
    + match goal with X : mt_call _ _ _ = _ |- _ => revert X end. specialize (IH t). unfold soon in IH. unfold mt_call.
      destruct (l_at (x_thr g1 t)); try discriminate; try contradiction.
      * intros [= <- <-]. exact I.
      * destruct tr; [|contradiction]. destruct (_ <? _)%Z; [|discriminate]. intros [= <- <-]. exact I.
    + specialize (IH t). unfold soon in *. unfold after_call. destruct (l_at (x_thr g1 t)); try contradiction; try exact I.
      * destruct r as [[| | |]| | |]; exact I.
      * destruct tr; [|contradiction]. destruct r as [[| | |]| | |]; exact I.
    + exact I.
    + destruct r; exact I.
Qed.

(* no message is ever sent, so none comes *)
Definition waits (a : mt_args) (l : loc) : Prop :=
  l_cur l = [] /\ match l_at l with
  | PSubscribe | PSubscribing | PWait | PWaiting | PTrial 0 | PSend 0 _ | PRecv 0 | PRecving 0 | PDied => True
  | PCheck 0 => a_msgs a = (- 2 ^ 31)%Z
  | _ => False end.
Definition dry (w : world xmsg) : Prop := forall b k q, In (k, q) (mb_queues (w b)) -> q = [].
Definition mild (p : aph) : Prop :=
  match p with AIdle => True | AWant _ k => k = CSubscribe \/ (exists s, k = CGet s)
  | ADone r => forall m, r <> MOk (RMsg (Some m)) end.
Lemma dry_exec names b mb k mb' r : (forall i q, In (i, q) (mb_queues mb) -> q = @nil (option xmsg)) -> k = CSubscribe \/ (exists s, k = CGet s) ->
  exec1 names b mb k = (mb', r) -> (forall i q, In (i, q) (mb_queues mb') -> q = []) /\ forall m, r <> MOk (RMsg (Some m)).
Proof.
  intros D [-> | (s & ->)]; cbn [exec1].
  - unfold subscribe. intros E. assert (Q : mb_queues mb' = q_set (mb_counter mb) [] (mb_queues mb)) by (destruct (_ <? _)%Z; injection E as <- <-; reflexivity).
    rewrite Q. split; [|destruct (_ <? _)%Z; injection E as <- <-; discriminate].
    intros i q I. apply in_insert in I as [[= -> ->]|I]; [reflexivity|eapply D; exact I].
  - unfold get, of_outcome. destruct (getIndex names b s) as [i|e|]; cbn [obind]; try (intros [= <- <-]; split; [exact D|discriminate]).
    unfold getQueue. destruct (q_find i (mb_queues mb)) as [q|] eqn:F; cbn [obind]; [|intros [= <- <-]; split; [exact D|discriminate]].
    apply (find_some_in _ Zcmp_eq) in F. rewrite (D _ _ F) in *. intros [= <- <-]. split; [exact D|discriminate].
Qed.
Lemma expected_pos a : (1 <= a_threads a < 2 ^ 31)%Z -> (- 2 ^ 31 <= a_msgs a < 0)%Z -> in_int (a_msgs a * a_threads a) = true ->
  ~ (a_noecho a = true /\ a_threads a = 1%Z) -> (0 < mt_expected a)%Z.
Proof.
  intros H M I N. apply in_int_iff in I. unfold mt_expected.
  assert (E : to_u64 (to_u64 (a_msgs a * a_threads a) - (if a_noecho a then to_u64 (a_msgs a) else 0)) =
    to_u64 (a_msgs a * (a_threads a - (if a_noecho a then 1 else 0)))%Z).
  { unfold to_u64. destruct (a_noecho a).
    - rewrite <- Zminus_mod. f_equal. ring.
    - rewrite !Z.sub_0_r, Z.mod_mod by discriminate. reflexivity. }
  rewrite E. assert (P : (- 2 ^ 31 * 2 <= a_msgs a * (a_threads a - (if a_noecho a then 1 else 0)) < 0)%Z).
  { destruct (a_noecho a); [|rewrite Z.sub_0_r; nia]. assert (a_threads a <> 1)%Z by (intros X; apply N; auto). nia. }
  unfold to_u64, two64. rewrite <- (Z.mod_add _ 1) by discriminate. rewrite Z.mod_small; lia.
Qed.
Lemma waits_run a ks g : (1 <= a_threads a < 2 ^ 31)%Z -> (1 <= a_trials a)%Z -> (- 2 ^ 31 <= a_msgs a < 0)%Z ->
  in_int (a_msgs a * a_threads a) = true -> ~ good a -> mt_run a (mt_start a) ks g ->
  (forall t, waits a (x_thr g t)) /\ exists w ph, lin names0 (x_box g) w ph /\ dry w /\ forall t, mild (ph t).
Proof.
  intros T R M O G H. remember (mt_start a) as g0 eqn:E0. induction H as [|g0 ks g1 k g2 H IH S]; subst.
  - split; [intros t; split; [reflexivity|exact I]|]. exists (fresh names0), (fun _ => AIdle). split; [apply lin_init|].
    split; [intros b k q []|intros t; exact I].
  - destruct (IH eq_refl) as (W & w & ph & L & D & P). clear IH.
    assert (SP : forall t x, mild x -> forall u, mild (set_ph ph t x u)) by (intros t x X u; unfold set_ph; destruct (Nat.eqb u t); auto).
    inversion S; subst; cbn [x_thr x_box]; auto.
    + split; [exact W|]. exists w, ph. auto.
    + split; [exact W|]. match goal with X : cstep _ _ _ |- _ => destruct (lin_step _ _ _ _ _ _ L X) as (w' & ph' & L' & A) end.
      exists w', ph'. split; [exact L'|]. inversion A; subst; auto.
      match goal with X : ph t = AWant _ _ |- _ => pose proof (P t) as Pt; rewrite X in Pt end. cbn [mild] in Pt.
      match goal with X : exec1 _ _ _ _ = _ |- _ => destruct (dry_exec _ _ _ _ _ _ (D b) Pt X) as [X1 X2] end.
      split; [|apply SP; exact X2]. intros b' i q. unfold upd. destruct (Nat.eqb_spec b' b) as [->|]; [apply X1|apply D].
    + split; [|exists w, ph; auto]. apply set_ok; [exact W|]. destruct (W t) as [Cu Pl].
      match goal with X : mt_local _ _ = _ |- _ => revert X end. unfold mt_local. unfold waits.
      destruct (l_at (x_thr g1 t)); try discriminate; try contradiction; (destruct tr; [|contradiction]).
      * intros [= <-]. destruct (Z.ltb_spec 0 (a_trials a)); [|lia]. split; [exact Cu|exact I].
      * destruct (_ <? _)%Z; [discriminate|]. rewrite O. intros [= <-]. split; [exact Cu|exact I].
      * rewrite Cu. cbn [length]. destruct (Z.ltb_spec (Z.of_nat 0) (mt_expected a)) as [|EX]; [discriminate|]. intros [= <-].
        split; [exact Cu|]. cbn [at_place l_at].
        destruct (a_noecho a) eqn:EN.
        -- destruct (Z.eq_dec (a_threads a) 1) as [E1|E1].
           ++ destruct (Z.eq_dec (a_msgs a) (- 2 ^ 31)); [assumption|]. exfalso. apply G. right. right. split; [lia|]. auto.
           ++ exfalso. assert (0 < mt_expected a)%Z by (apply expected_pos; auto; intros [_ ?]; auto). lia.
        -- exfalso. assert (0 < mt_expected a)%Z by (apply expected_pos; auto; intros [? _]; congruence). lia.
      * rewrite Pl. intros [= <-]. split; [exact Cu|exact I].
    + match goal with X : cstep _ _ _ |- _ => destruct (lin_step _ _ _ _ _ _ L X) as (w' & ph' & L' & A) end.
      destruct (W t) as [Cu Pl]. match goal with X : mt_call _ _ _ = _ |- _ => rename X into HC end.
      assert (X : waits a (at_place (x_thr g1 t) p) /\ (k0 = CSubscribe \/ exists s, k0 = CGet s)).
      { revert HC. unfold mt_call, waits. destruct (l_at (x_thr g1 t)); try discriminate; try contradiction.
        - intros [= <- <-]. split; [split; [exact Cu|exact I]|auto].
        - destruct (Z.ltb_spec (Z.of_nat i) (a_msgs a)); [lia|discriminate].
        - destruct tr; [|contradiction]. destruct (_ <? _)%Z; [|discriminate]. intros [= <- <-]. split; [split; [exact Cu|exact I]|eauto]. }
      destruct X as [X1 X2]. split; [apply set_ok; assumption|]. exists w', ph'. split; [exact L'|]. inversion A; subst.
      split; [exact D|]. apply SP. exact X2.
    + match goal with X : cstep _ _ _ |- _ => destruct (lin_step _ _ _ _ _ _ L X) as (w' & ph' & L' & A) end. inversion A; subst.
      split; [|eexists; eexists; split; [exact L'|split; [exact D|apply SP; exact I]]].
      apply set_ok; [exact W|]. destruct (W t) as [Cu Pl]. match goal with X : ph t = ADone _ |- _ => pose proof (P t) as Pt; rewrite X in Pt end. cbn [mild] in Pt.
      unfold waits, after_call. destruct (l_at (x_thr g1 t)); try contradiction; try (split; [exact Cu|exact I]).
      * destruct r as [[| | |]| | |]; split; solve [exact Cu|exact I].
      * destruct tr; [|contradiction]. destruct r as [[| |om|]| | |]; try (split; solve [exact Cu|exact I]).
        destruct om as [m0|]; [destruct (Pt m0); reflexivity|]. split; solve [exact Cu|exact I].
    + split; [|exists w, ph; auto]. apply set_ok; [exact W|]. split; [apply (W t)|exact I].
    + split; [|exists w, ph; auto]. apply set_ok; [exact W|]. split; [apply (W t)|destruct r; exact I].
Qed.
Lemma ok_run a ks g : mt_run a (mt_start a) ks g -> (a_trials a <= 0)%Z -> forall t, idle_trial (x_thr g t) /\ l_past (x_thr g t) = [].
Proof.
  intros H R. remember (mt_start a) as g0 eqn:E0. induction H as [|g0 ks g1 k g2 H IH S]; subst.
  - intros t. split; [exact I|reflexivity].
  - specialize (IH eq_refl). inversion S; subst; cbn [x_thr]; auto; apply (set_ok (fun l => idle_trial l /\ l_past l = [])); auto; destruct (IH t) as [IT P].
    + match goal with X : mt_local _ _ = _ |- _ => revert X end. unfold idle_trial in IT. unfold mt_local.
      destruct (l_at (x_thr g1 t)); try discriminate; try contradiction. intros [= <-]. destruct (Z.ltb_spec (Z.of_nat tr) (a_trials a)); [lia|].
      split; [exact I|exact P].
    + match goal with X : mt_call _ _ _ = _ |- _ => revert X end. unfold idle_trial in IT. unfold mt_call.
      destruct (l_at (x_thr g1 t)); try discriminate; try contradiction; try (intros [= <- <-]; split; [exact I|exact P]).
      destruct (l_sub (x_thr g1 t)); [|discriminate]. intros [= <- <-]; split; [exact I|exact P].
    + unfold idle_trial in *. unfold after_call. destruct (l_at (x_thr g1 t)); try contradiction;
      destruct r as [[| |om|]| | |]; try (split; [exact I|exact P]); destruct om; (split; [exact I|exact P]).
    + split; [exact I|exact P].
    + split; [destruct r; exact I|exact P].
Qed.
