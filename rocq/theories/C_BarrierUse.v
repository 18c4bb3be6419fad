(* C_BarrierUse.v -- the two programs that use a barrier *)
From Verif Require Import Base M_Stream M_Format M_Barrier S_Barrier L_Barrier L_BarrierN L_BarrierT C_Barrier M_BarrierUse S_BarrierUse L_BarrierUse L_Map.

(* ---- running a concrete schedule: (None, t): thread t's own next act ---- *)
Definition is_back (e : bev) : bool := match e with ERet _ _ => true | _ => false end.
Definition cexec1 (P : bprog) (c : cst) (k : option kind) (t : tid) : option (ckind * list cev * cst) :=
  let '(mkC b f d) := c in
  if d then None else
  match k with
  | None =>
    match f t with
    | Some (Say s :: p) => Some (KAct, [Said t s], mkC b (put_thr f t (Some p)) false)
    | Some (Nap :: p) => Some (KAct, [Napped t], mkC b (put_thr f t (Some p)) false)
    | Some (Spawn u :: p) => match f u with None => Some (KAct, [Created u], mkC b (put_thr (put_thr f t (Some p)) u (Some (p_code P u))) false) | _ => None end
    | Some (Join u :: p) => match f u with Some [] => Some (KAct, [Joined u], mkC b (put_thr f t (Some p)) false) | _ => None end
    | _ => None
    end
  | Some k =>
    match exec1 b k t, f t with
    | Some (e, b'), Some (Wait ms :: p) =>
      if match k with KCall => true | _ => false end then
        match e with [ECall u] => if Nat.eqb u t then Some (KBar KCall, [InBar (ECall t)], mkC b' f false) else None | _ => None end
      else if existsb is_back e then
        match k, e with
        | KRun, [ERet u r] => if Nat.eqb u t then
            match go_on P ms p r with Some q => Some (KBar KRun, [InBar (ERet t r)], mkC b' (put_thr f t (Some q)) false)
            | None => Some (KBar KRun, [InBar (ERet t r)], mkC b' f true) end else None
        | _, _ => None
        end
      else Some (KBar k, map InBar e, mkC b' f false)
    | _, _ => None
    end
  end.
Lemma cexec1_sound P c k t k' e c' : cexec1 P c k t = Some (k', e, c') -> cstep P c k' e c'.
Proof.
  destruct c as [b f d]. unfold cexec1. destruct d; [discriminate|]. destruct k as [k|].
  - destruct (exec1 b k t) as [[ev b']|] eqn:E; [|discriminate]. apply exec1_sound in E. destruct (f t) as [[|[]]|] eqn:F; try discriminate.
    destruct (match k with KCall => true | _ => false end) eqn:K.
    + destruct k; try discriminate. destruct ev as [|[] [|]]; try discriminate. destruct (Nat.eqb_spec t0 t) as [->|]; [|discriminate]. intros H. inv H. eapply c_call; eauto.
    + destruct (existsb is_back ev) eqn:B.
      * destruct k; try discriminate. destruct ev as [|[] [|]]; try discriminate. destruct (Nat.eqb_spec t0 t) as [->|]; [|discriminate].
        destruct (go_on P ms l r) eqn:G; intros H; inv H; [eapply c_back; eauto|eapply c_die; eauto].
      * intros H. inv H. eapply c_in; eauto; [intros ->; discriminate|]. intros u r I.
        assert (existsb is_back ev = true) by (apply existsb_exists; exists (ERet u r); auto). congruence.
  - destruct (f t) as [[|[] p]|] eqn:F; try discriminate.
    + intros H. inv H. eapply c_say; eauto.
    + intros H. inv H. eapply c_nap; eauto.
    + destruct (f u) eqn:Fu; [discriminate|]. intros H. inv H. eapply c_spawn; eauto.
    + destruct (f u) as [[|]|] eqn:Fu; try discriminate. intros H. inv H. eapply c_join; eauto.
Qed.
Fixpoint cexec (P : bprog) (c : cst) (ks : list ckind) (tr : list cev) (l : list (option kind * tid)) : option (list ckind * list cev * cst) :=
  match l with
  | [] => Some (ks, tr, c)
  | (k, t) :: l => match cexec1 P c k t with Some (k', e, c') => cexec P c' (ks ++ [k']) (tr ++ e) l | None => None end
  end.
Lemma cexec_sound P c0 l : forall c ks tr ks' tr' c', csteps P c0 ks tr c -> cexec P c ks tr l = Some (ks', tr', c') -> csteps P c0 ks' tr' c'.
Proof.
  induction l as [|[k t] l IH]; cbn [cexec]; intros c ks tr ks' tr' c' HB H; [inv H; exact HB|].
  destruct (cexec1 P c k t) as [[[k1 e] c1]|] eqn:E; [|discriminate]. eapply IH; [|exact H]. econstructor; [exact HB|]. eapply cexec1_sound; eauto.
Qed.

(* ---- the programs are of the kind considered ---- *)
Lemma num_repeat p l n : num p (concat (repeat l n)) = n * num p l.
Proof. induction n; [reflexivity|]. cbn [repeat concat]. rewrite num_app, IHn. reflexivity. Qed.
Lemma in_map_spawn u n : In (Spawn u) (map Spawn (seq 0 n)) <-> u < n.
Proof. rewrite in_map_iff. split; [intros (x&E&I); inv E; apply in_seq in I; lia|intros H; exists u; split; auto; apply in_seq; lia]. Qed.
Lemma in_map_join u n : In (Join u) (map Join (seq 0 n)) -> u < n.
Proof. rewrite in_map_iff. intros (x&E&I). inv E. apply in_seq in I. lia. Qed.

(* spawning each thread once, in order *)
Lemma seq_once n : forall s a u b, seq s n = a ++ u :: b -> ~ In u a.
Proof. intros s a u b E. pose proof (seq_NoDup n s) as Q. rewrite E in Q. apply NoDup_remove_2 in Q. rewrite in_app_iff in Q. tauto. Qed.
Fixpoint spawned (l : list act) : list tid := match l with Spawn u :: l => u :: spawned l | _ :: l => spawned l | [] => [] end.
Lemma spawned_app a b : spawned (a ++ b) = spawned a ++ spawned b.
Proof. induction a as [|[] a IH]; cbn; congruence. Qed.
Lemma in_spawned u l : In (Spawn u) l <-> In u (spawned l).
Proof. induction l as [|[] l IH]; cbn; intuition (try congruence). Qed.
Lemma once_of l n : spawned l = seq 0 n -> forall a u b, l = a ++ Spawn u :: b -> ~ In (Spawn u) a.
Proof.
  intros E a u b ->. rewrite spawned_app in E. cbn in E. rewrite in_spawned. eapply seq_once. symmetry. exact E.
Qed.
Lemma spawned_ex n s : spawned (flat_map (fun t => [Nap; Spawn t]) (seq s n)) = seq s n.
Proof. revert s. induction n; intros s; cbn; [reflexivity|]. now rewrite IHn. Qed.
Lemma spawned_map n s : spawned (map Spawn (seq s n)) = seq s n.
Proof. revert s. induction n; intros s; cbn; [reflexivity|]. now rewrite IHn. Qed.

Definition ex_pre n := flat_map (fun t => [Nap; Spawn t]) (seq 0 n).
Definition ex_mid := [Nap; Say (lit " wait at the barrier" ++ [nl]); Wait (wait_ulong 0); Wait (wait_ulong 0)].
Definition ex_post n := map Join (seq 0 n) ++ [Say (lit " clear the barrier" ++ [nl])].
Lemma ex_wf n : wf (example_prog n) (S n) (S n) 2 (ex_pre n) ex_mid (ex_post n).
Proof.
  assert (SP : spawned (ex_pre n) = seq 0 n) by apply spawned_ex.
  assert (PRE : forall a, In a (ex_pre n) -> a = Nap \/ exists u, a = Spawn u).
  { intros a I. apply in_flat_map in I as (t&_&[<-|[<-|[]]]); eauto. }
  assert (POST : forall a, In a (ex_post n) -> (exists u, a = Join u /\ u < n) \/ a = Say (lit " clear the barrier" ++ [nl])).
  { intros a I. apply in_app_iff in I as [I|[<-|[]]]; [|auto]. apply in_map_iff in I as (u&<-&I). apply in_seq in I. left. exists u. split; [reflexivity|lia]. }
  constructor; cbn [example_prog p_code p_catch p_main].
  - lia.
  - rewrite Nat.eqb_refl. reflexivity.
  - intros a I. destruct (PRE a I) as [->|(u&->)]; exact Logic.I.
  - intros a [<-|[<-|[<-|[<-|[]]]]]; exact Logic.I.
  - intros a I. destruct (POST a I) as [(u&->&_)| ->]; exact Logic.I.
  - intros u. rewrite in_spawned, SP, in_seq. lia.
  - intros a u b. apply (once_of _ n SP).
  - intros u I. destruct (POST _ I) as [(v&E&L)|E]; [inv E; lia|discriminate].
  - intros t Ne a. apply Nat.eqb_neq in Ne. rewrite Ne. intros [<-|[<-|[<-|[<-|[]]]]]; exact Logic.I.
  - intros t L. apply Nat.ltb_lt in L. rewrite L. destruct (Nat.eqb t n); [|reflexivity].
    unfold example_main. fold (ex_pre n). rewrite !num_app, num_none, (num_none _ (map Join _)); [reflexivity| |].
    + intros a I. apply in_map_iff in I as (u&<-&_). reflexivity.
    + intros a I. destruct (PRE a I) as [->|(u&->)]; reflexivity.
  - discriminate.
Qed.

Definition te_pre n := [Say (lit "Creating threads" ++ [nl]); Say (lit "Spawning " ++ put_int (Z.of_nat n) ++ lit " threads" ++ [nl])] ++ map Spawn (seq 0 n).
Definition te_mid := [Say (lit "Waiting to join threads" ++ [nl])].
Definition te_post n := map Join (seq 0 n) ++ [Say (lit "Joined all threads" ++ [nl])].
Lemma te_wf n R : wf (test_prog n R) (S n) n R (te_pre n) te_mid (te_post n).
Proof.
  assert (SP : spawned (te_pre n) = seq 0 n) by (unfold te_pre; rewrite spawned_app, spawned_map; reflexivity).
  assert (PRE : forall a, In a (te_pre n) -> (exists s, a = Say s) \/ exists u, a = Spawn u).
  { intros a I. apply in_app_iff in I as [[<-|[<-|[]]]|I]; eauto. apply in_map_iff in I as (u&<-&_). eauto. }
  assert (POST : forall a, In a (te_post n) -> (exists u, a = Join u /\ u < n) \/ a = Say (lit "Joined all threads" ++ [nl])).
  { intros a I. apply in_app_iff in I as [I|[<-|[]]]; [|auto]. apply in_map_iff in I as (u&<-&I). apply in_seq in I. left. exists u. split; [reflexivity|lia]. }
  constructor; cbn [test_prog p_code p_catch p_main].
  - lia.
  - rewrite Nat.eqb_refl. unfold test_main, te_pre. now rewrite <- app_assoc.
  - intros a I. destruct (PRE a I) as [(s&->)|(u&->)]; exact Logic.I.
  - intros a [<-|[]]; exact Logic.I.
  - intros a I. destruct (POST a I) as [(u&->&_)| ->]; exact Logic.I.
  - intros u. rewrite in_spawned, SP, in_seq. lia.
  - intros a u b. apply (once_of _ n SP).
  - intros u I. destruct (POST _ I) as [(v&E&L)|E]; [inv E; lia|discriminate].
  - intros t Ne a. apply Nat.eqb_neq in Ne. rewrite Ne. unfold test_thread. rewrite in_concat. intros (l&I&J). apply repeat_spec in I as ->.
    destruct J as [<-|[<-|[]]]; exact Logic.I.
  - intros t L. destruct (Nat.eqb_spec t n) as [->|Ne].
    + rewrite Nat.ltb_irrefl. unfold test_main. rewrite !num_app, (num_none _ (map Spawn _)), (num_none _ (map Join _)); [reflexivity| |].
      * intros a I. apply in_map_iff in I as (u&<-&_). reflexivity.
      * intros a I. apply in_map_iff in I as (u&<-&_). reflexivity.
    + destruct (Nat.ltb_spec t n); [|lia]. unfold test_thread. rewrite num_repeat. unfold num. cbn. lia.
  - intros h e E. inv E. unfold test_catch. eauto.
Qed.

(* ---- where a thread is, from what it has done ---- *)
Lemma past m Y : forall X d rest, X ++ Wait m :: Y = d ++ rest -> num is_wait X < num is_wait d -> exists d', d = X ++ Wait m :: d'.
Proof.
  induction X as [|x X IH]; intros d rest E L; cbn in E; (destruct d as [|y d]; [cbn in L; lia|]); cbn in E; injection E as -> E.
  - exists d. reflexivity.
  - rewrite !num_cons in L. destruct (IH d rest E) as (d'&->); [lia|]. exists d'. reflexivity.
Qed.
Lemma said_in t s tr : 1 <= said t s tr -> In (Said t s) tr.
Proof.
  unfold said, tally. intros H. destruct (filter (is_said t s) tr) as [|x l] eqn:E; [cbn in H; lia|].
  assert (I : In x (filter (is_said t s) tr)) by (rewrite E; cbn; auto). apply filter_In in I as [I J]. destruct x; try discriminate.
  cbn in J. apply andb_prop in J as [J K]. apply Nat.eqb_eq in J as ->. destruct (str_eqb_spec s0 s); [subst; exact I|discriminate].
Qed.
Lemma str_eqb_refl s : str_eqb s s = true. Proof. destruct (str_eqb_spec s s); congruence. Qed.
Lemma ret_in t tr : 1 <= rets t tr -> exists r, In (ERet t r) tr.
Proof.
  unfold rets, count. intros H. destruct (filter (is_ret t) tr) as [|x l] eqn:E; [cbn in H; lia|].
  assert (I : In x (filter (is_ret t) tr)) by (rewrite E; cbn; auto). apply filter_In in I as [I J]. destruct x; try discriminate.
  apply Nat.eqb_eq in J as ->. eauto.
Qed.
Lemma btr_of e tr : In e (btr tr) <-> In (InBar e) tr.
Proof.
  unfold btr. rewrite in_flat_map. split.
  - intros (x&I&J). destruct x; cbn in J; try tauto. destruct J as [->|[]]. exact I.
  - intros I. exists (InBar e). cbn. auto.
Qed.
Lemma calm_prefix a k b : calm (a ++ k :: b) -> calm a.
Proof. unfold calm. rewrite in_app_iff. tauto. Qed.

(* all threads through: nothing happens any more *)
Lemma no_step P c k e c' : (forall t, c_thr c t = None \/ c_thr c t = Some []) -> idle_all c -> ~ cstep P c k e c'.
Proof.
  intros F Z S. unfold idle_all in Z. inv S; cbn [c_thr c_bar] in *;
    try (match goal with X : ?f ?t = Some (_ :: _) |- _ => destruct (F t); congruence end).
  match goal with X : bstep _ _ _ _ |- _ => inv X end; try congruence; match goal with X : b_thr _ ?t = _ |- _ => rewrite Z in X; discriminate X end.
Qed.
Lemma dead_end P c : (forall t, c_thr c t = None \/ c_thr c t = Some []) -> idle_all c -> forall ks tr c', csteps P c ks tr c' -> tr = [] /\ c' = c.
Proof.
  intros F Z ks tr c' H. induction H as [|c ks tr c1 k e c2 H IH S]; [auto|]. destruct (IH F Z) as [-> ->]. destruct (no_step _ _ _ _ _ F Z S).
Qed.
Lemma Inv_idle P N ks tr c D : Inv P N ks tr c D -> (forall t, c_thr c t = None \/ c_thr c t = Some []) -> idle_all c.
Proof.
  intros I F t. pose proof (i_shape _ _ _ _ _ _ I t) as S. destruct (F t) as [E|E]; rewrite E in S; cbn in S; [tauto|].
  destruct S as [[_ [S|(ms&p&S)]]|[S _]]; [exact S|discriminate|exact S].
Qed.

(* ---- the example program ---- *)
Lemma ex_start n : example_start n = cstart (example_prog n) (Z.of_nat (S n)).
Proof. unfold example_start. f_equal. lia. Qed.
Lemma of_say P c k t s c' : cstep P c k [Said t s] c' -> exists p, c_thr c t = Some (Say s :: p) /\ c' = mkC (c_bar c) (put_thr (c_thr c) t (Some p)) false /\ k = KAct.
Proof. intros S. inversion S; subst; eauto. destruct e as [|x [|]]; discriminate. Qed.

Lemma ex_second n ks tr c t a b : (Z.of_nat n + 1 < 2 ^ 32)%Z -> csteps (example_prog n) (example_start n) ks tr c -> calm ks -> t < n ->
  tr = a ++ Said t (put_int (Z.of_nat t)) :: b -> said t (put_int (Z.of_nat t)) a = 1 ->
  (forall u, u < n -> 1 <= said u (put_int (Z.of_nat u)) a) /\ 1 <= said n (lit " wait at the barrier" ++ [nl]) a /\
  (forall u, u <= n -> In (InBar (ERet u Passed)) a).
Proof.
  intros Hn H C Ht E Sa. change (2 ^ 32)%Z with two32 in Hn. rewrite ex_start in H.
  destruct (csteps_split _ _ _ _ _ H _ _ _ E) as (k1&c1&k&c2&k2&H1&S&_&K). subst ks. apply calm_prefix in C.
  destruct (of_say _ _ _ _ _ _ S) as (p&F&_).
  destruct (calm_run _ _ _ _ _ _ _ (ex_wf n) _ _ _ ltac:(lia) ltac:(lia) H1 C) as (D&I&CR&RC).
  assert (R2 : rets t (btr a) = 2).
  { rewrite (i_rets _ _ _ _ _ _ I). rewrite (i_said _ _ _ _ _ _ I) in Sa. pose proof (CR _ _ F) as Co. cbn [example_prog p_code] in Co.
    destruct (Nat.eqb_spec t n) as [|_]; [lia|]. unfold example_thread in Co.
    destruct (D t) as [|x1 [|x2 [|x3 [|x4 d]]]]; cbn in Co; injection Co as; subst; try discriminate; try (cbn in Sa; discriminate Sa); try reflexivity.
    destruct d; discriminate. }
  assert (W : forall u, u <= n -> 1 <= num is_wait (D u)).
  { intros u Hu. pose proof (RC t u ltac:(lia) ltac:(lia)) as Q. rewrite R2, (i_calls _ _ _ _ _ _ I) in Q.
    destruct (b_thr (c_bar c1) u); cbn in Q; lia. }
  assert (FU : forall u, u <= n -> exists rest, p_code (example_prog n) u = D u ++ rest).
  { intros u Hu. destruct (c_thr c1 u) as [rest|] eqn:Fu; [exists rest; auto|]. exfalso. pose proof (i_shape _ _ _ _ _ _ I u) as X. rewrite Fu in X. destruct X as [X _].
    pose proof (W u Hu) as Y. rewrite X in Y. cbn in Y. lia. }
  split; [|split].
  - intros u Hu. rewrite (i_said _ _ _ _ _ _ I). destruct (FU u ltac:(lia)) as (rest&Co). cbn [example_prog p_code] in Co. destruct (Nat.eqb_spec u n); [lia|].
    destruct (past _ _ [Say (put_int (Z.of_nat u))] _ _ Co) as (d'&->); [unfold num at 1; cbn; apply (W u); lia|].
    rewrite num_app, num_one. cbn. rewrite str_eqb_refl. cbn. lia.
  - rewrite (i_said _ _ _ _ _ _ I). destruct (FU n ltac:(lia)) as (rest&Co). cbn [example_prog p_code] in Co. rewrite Nat.eqb_refl in Co.
    unfold example_main in Co. fold (ex_pre n) in Co.
    change ([Nap; Say (lit " wait at the barrier" ++ [nl]); Wait (wait_ulong 0); Wait (wait_ulong 0)] ++ map Join (seq 0 n) ++ [Say (lit " clear the barrier" ++ [nl])])
      with ([Nap; Say (lit " wait at the barrier" ++ [nl])] ++ Wait (wait_ulong 0) :: Wait (wait_ulong 0) :: map Join (seq 0 n) ++ [Say (lit " clear the barrier" ++ [nl])]) in Co.
    rewrite app_assoc in Co. apply past in Co as (d'&->).
    + rewrite !num_app. assert (1 <= num (is_say (lit " wait at the barrier" ++ [nl])) [Nap; Say (lit " wait at the barrier" ++ [nl])]); [|lia].
      unfold num. cbn. lia.
    + rewrite num_app. rewrite num_none; [apply (W n); lia|]. intros x J. apply in_flat_map in J as (v&_&[<-|[<-|[]]]); reflexivity.
  - intros u Hu. apply btr_of. destruct (ret_in u (btr a)) as (r&J); [rewrite (i_rets _ _ _ _ _ _ I); apply W; exact Hu|].
    rewrite <- (ret_passed _ _ _ _ _ _ _ (ex_wf n) _ _ _ _ _ ltac:(lia) ltac:(lia) H1 C J). exact J.
Qed.

Lemma ex_last n ks tr c a b : (Z.of_nat n + 1 < 2 ^ 32)%Z -> csteps (example_prog n) (example_start n) ks tr c -> calm ks ->
  tr = a ++ Said n (lit " clear the barrier" ++ [nl]) :: b ->
  b = [] /\ (forall k e c', ~ cstep (example_prog n) c k e c') /\
  (forall u, u < n -> said u (put_int (Z.of_nat u)) a = 2) /\ (forall u, u <= n -> rets u (btr a) = 2).
Proof.
  intros Hn H C E. change (2 ^ 32)%Z with two32 in Hn. rewrite ex_start in H.
  destruct (csteps_split _ _ _ _ _ H _ _ _ E) as (k1&c1&k&c2&k2&H1&S&H2&K). subst ks. apply calm_prefix in C.
  destruct (of_say _ _ _ _ _ _ S) as (p&F&E2&E3).
  destruct (calm_run _ _ _ _ _ _ _ (ex_wf n) _ _ _ ltac:(lia) ltac:(lia) H1 C) as (D&I&CR&RC).
  pose proof (CR _ _ F) as Co. cbn [example_prog p_code] in Co. rewrite Nat.eqb_refl in Co. unfold example_main in Co. fold (ex_pre n) in Co. fold ex_mid in Co.
  rewrite !app_assoc in Co.
  assert (Q : D n = (ex_pre n ++ ex_mid) ++ map Join (seq 0 n) /\ p = []).
  { destruct (head_of _ _ _ _ _ Co) as [(q&X&_)|(Y1&X&Y)].
    - exfalso. assert (J : In (Say (lit " clear the barrier" ++ [nl])) ((ex_pre n ++ ex_mid) ++ map Join (seq 0 n))) by (rewrite X, in_app_iff; cbn; auto).
      rewrite !in_app_iff in J. destruct J as [[J|J]|J].
      + apply in_flat_map in J as (v&_&[J|[J|[]]]); discriminate.
      + destruct J as [J|[J|[J|[J|[]]]]]; discriminate.
      + apply in_map_iff in J as (v&J&_). discriminate.
    - destruct Y1 as [|y Y1]; [|destruct Y1; discriminate]. injection Y as Y. rewrite app_nil_r in X. auto. }
  destruct Q as [Dn ->].
  assert (Fu : forall u, u < n -> c_thr c1 u = Some []).
  { intros u Hu. apply (i_joined _ _ _ _ _ _ I n). rewrite Dn, in_app_iff. right. apply in_map_iff. exists u. split; [reflexivity|apply in_seq; lia]. }
  assert (Du : forall u, u < n -> D u = example_thread u).
  { intros u Hu. pose proof (CR _ _ (Fu u Hu)) as X. cbn [example_prog p_code] in X. destruct (Nat.eqb_spec u n); [lia|]. rewrite app_nil_r in X. auto. }
  assert (Z : b = [] /\ (forall k e c', ~ cstep (example_prog n) c k e c')).
  { assert (All : forall t, c_thr c2 t = None \/ c_thr c2 t = Some []).
    { intros t. rewrite E2. cbn [c_thr]. unfold put_thr. destruct (Nat.eqb_spec t n) as [->|Ne]; [auto|].
      destruct (le_lt_dec n t) as [L|L]; [left|right; auto]. destruct (c_thr c1 t) eqn:X; [|reflexivity].
      pose proof (i_below _ _ _ _ _ _ I t ltac:(congruence)). lia. }
    assert (Z : idle_all c2).
    { destruct (run _ _ _ _ _ _ _ (ex_wf n) _ _ _ _ (cs_snoc _ _ _ _ _ _ _ _ H1 S)) as (_&_&_&L&_). rewrite E2 in L. destruct (L eq_refl) as (D2&I2).
      rewrite <- E2 in I2. exact (Inv_idle _ _ _ _ _ _ I2 All). }
    destruct (dead_end _ _ All Z _ _ _ H2) as [-> ->]. split; [reflexivity|]. intros. exact (no_step _ _ _ _ _ All Z). }
  split; [tauto|]. split; [tauto|]. split.
  - intros u Hu. rewrite (i_said _ _ _ _ _ _ I), (Du u Hu). unfold example_thread, num. cbn. rewrite str_eqb_refl. reflexivity.
  - intros u Hu. rewrite (i_rets _ _ _ _ _ _ I). destruct (Nat.eq_dec u n) as [->|]; [|rewrite Du by lia; reflexivity].
    rewrite Dn, !num_app, num_none, (num_none _ (map Join _)); [reflexivity| |].
    + intros x J. apply in_map_iff in J as (v&<-&_). reflexivity.
    + intros x J. apply in_flat_map in J as (v&_&[<-|[<-|[]]]); reflexivity.
Qed.

Lemma ex_ends n ks tr c : (Z.of_nat n + 1 < 2 ^ 32)%Z -> csteps (example_prog n) (example_start n) ks tr c -> calm ks -> stopped (example_prog n) c ->
  exists a, tr = a ++ [Said n (lit " clear the barrier" ++ [nl])].
Proof.
  intros Hn H C St. pose proof H as H0. rewrite ex_start in H. pose proof Hn as Hn0. change (2 ^ 32)%Z with two32 in Hn.
  destruct (calm_end _ _ _ _ _ _ _ (ex_wf n) ltac:(lia) _ _ _ ltac:(lia) ltac:(lia) H C St) as [F _].
  destruct (calm_run _ _ _ _ _ _ _ (ex_wf n) _ _ _ ltac:(lia) ltac:(lia) H C) as (D&I&CR&_).
  pose proof (CR _ _ (F n ltac:(lia))) as Co. cbn [example_prog p_code] in Co. rewrite Nat.eqb_refl, app_nil_r in Co.
  assert (J : In (Said n (lit " clear the barrier" ++ [nl])) tr).
  { apply said_in. rewrite (i_said _ _ _ _ _ _ I), <- Co. unfold example_main. rewrite !num_app, num_one. cbn [is_say]. rewrite str_eqb_refl. cbn. lia. }
  apply in_split in J as (a&b&E). exists a. destruct (ex_last _ _ _ _ _ _ Hn0 H0 C E) as (->&_). exact E.
Qed.

Lemma num_joins n : forall s, num (fun a => negb (is_wait a)) (map Join (seq s n)) = n.
Proof. induction n; intros s; [reflexivity|]. cbn [seq map]. rewrite num_cons, IHn. reflexivity. Qed.
Lemma num_spawns n : forall s, num (fun a => negb (is_wait a)) (map Spawn (seq s n)) = n.
Proof. induction n; intros s; [reflexivity|]. cbn [seq map]. rewrite num_cons, IHn. reflexivity. Qed.
Lemma num_naps n : forall s, num (fun a => negb (is_wait a)) (flat_map (fun t => [Nap; Spawn t]) (seq s n)) = 2 * n.
Proof. induction n; intros s; [reflexivity|]. cbn [seq flat_map]. rewrite num_app, IHn, !num_cons. change (num (fun a => negb (is_wait a)) []) with 0. cbn [is_wait negb b2n]. lia. Qed.
Lemma ex_effort n ks tr c : (Z.of_nat n + 1 < 2 ^ 32)%Z -> csteps (example_prog n) (example_start n) ks tr c -> calm ks ->
  effort ks <= 27 * n + 25 + 2 * spurious ks.
Proof.
  intros Hn H C. rewrite ex_start in H. change (2 ^ 32)%Z with two32 in Hn.
  pose proof (calm_effort _ _ _ _ _ _ _ (ex_wf n) ltac:(lia) _ _ _ ltac:(lia) ltac:(lia) H C) as Q. revert Q. generalize (effort ks), (spurious ks). intros x y Q.
  assert (E : sum (S n) (fun t => nact (p_code (example_prog n) t) + caught_acts (example_prog n)) = 2 * n + (3 * n + 3)); [|lia].
  cbn [sum]. rewrite (sum_ext n _ (fun _ => 2)).
  - rewrite sum_const. cbn [example_prog p_code]. rewrite Nat.eqb_refl. unfold nact, example_main. rewrite !num_app, num_naps, num_joins.
    unfold num, caught_acts. cbn. lia.
  - intros t Ht. cbn [example_prog p_code]. destruct (Nat.eqb_spec t n); [lia|]. reflexivity.
Qed.

(* ---- the test program ---- *)
Lemma alternate : forall R d rest, test_thread R = d ++ rest ->
  num is_wait d <= num is_nap d <= S (num is_wait d) /\ (forall ms p, rest = Wait ms :: p -> num is_nap d = S (num is_wait d) /\ ms = 100%Z) /\
  (forall s, num (is_say s) d = 0).
Proof.
  induction R as [|R IH]; intros d rest E.
  - destruct d; [|discriminate]. cbn in E. subst. cbn. repeat split; auto; discriminate.
  - change (Nap :: Wait (wait_duration 100) :: test_thread R = d ++ rest) in E.
    destruct d as [|x d]; [cbn in E; subst; cbn; repeat split; auto; discriminate|]. injection E as <- E.
    destruct d as [|y d].
    + cbn in E. subst. unfold num. cbn. split; [lia|]. split; [intros ms p Q; injection Q as Q _; split; [reflexivity|symmetry; exact Q]|auto].
    + injection E as <- E. destruct (IH d rest E) as (A&B&C). rewrite !num_cons. cbn [is_wait is_nap is_say b2n].
      split; [lia|]. split; [intros ms p Q; destruct (B ms p Q); split; [lia|assumption]|]. intros s. rewrite !num_cons. cbn. apply C.
Qed.
Lemma te_code n R t : t < n -> p_code (test_prog n R) t = test_thread R.
Proof. intros H. cbn. destruct (Nat.eqb_spec t n); [lia|reflexivity]. Qed.

Lemma te_lock_step n R ks tr c t u : (Z.of_nat n < 2 ^ 32)%Z -> csteps (test_prog n R) (test_start n R) ks tr c -> calm ks -> t < n -> u < n ->
  naps t tr <= S (naps u tr).
Proof.
  intros Hn H C Ht Hu. change (2 ^ 32)%Z with two32 in Hn.
  destruct (calm_run _ _ _ _ _ _ _ (te_wf n R) _ _ _ ltac:(lia) Hn H C) as (D&I&CR&RC).
  assert (X : forall v, v < n -> num is_wait (D v) <= num is_nap (D v) <= S (num is_wait (D v)) /\ calls v (btr tr) <= num is_nap (D v)).
  { intros v Hv. rewrite (i_calls _ _ _ _ _ _ I). pose proof (i_shape _ _ _ _ _ _ I v) as S. destruct (c_thr c v) as [rest|] eqn:F.
    - pose proof (CR _ _ F) as Co. rewrite (te_code n R v Hv) in Co. destruct (alternate _ _ _ Co) as (A&B&_). split; [exact A|].
      destruct S as [[_ [S|(ms&p&S)]]|[S _]]; [rewrite S; cbn; lia| |rewrite S; cbn; lia].
      destruct (B _ _ S) as [Q _]. destruct (b_thr (c_bar c) v); cbn; lia.
    - destruct S as [-> ->]. cbn. lia. }
  rewrite !(i_naps _ _ _ _ _ _ I). destruct (X t Ht) as [[_ A] _], (X u Hu) as [_ B]. pose proof (RC t u Ht Hu) as Q. rewrite (i_rets _ _ _ _ _ _ I) in Q. lia.
Qed.

Lemma te_all_pass n R ks tr c : (1 <= Z.of_nat n < 2 ^ 32)%Z -> csteps (test_prog n R) (test_start n R) ks tr c -> calm ks -> stopped (test_prog n R) c ->
  forall t, t < n -> naps t tr = R /\ (forall s, said t s tr = 0) /\ rets t (btr tr) = R /\ (forall r, In (InBar (ERet t r)) tr -> r = Passed).
Proof.
  intros Hn H C St t Ht. change (2 ^ 32)%Z with two32 in Hn.
  destruct (calm_end _ _ _ _ _ _ _ (te_wf n R) ltac:(lia) _ _ _ ltac:(lia) ltac:(lia) H C St) as [F _].
  destruct (calm_run _ _ _ _ _ _ _ (te_wf n R) _ _ _ ltac:(lia) ltac:(lia) H C) as (D&I&CR&_).
  pose proof (CR _ _ (F t ltac:(lia))) as Co. rewrite (te_code n R t Ht) in Co. destruct (alternate _ _ _ Co) as (_&_&A). rewrite app_nil_r in Co.
  split; [|split; [|split]].
  - rewrite (i_naps _ _ _ _ _ _ I), <- Co. unfold test_thread. rewrite num_repeat. unfold num. cbn. lia.
  - intros s. rewrite (i_said _ _ _ _ _ _ I). apply A.
  - rewrite (i_rets _ _ _ _ _ _ I), <- Co. unfold test_thread. rewrite num_repeat. unfold num. cbn. lia.
  - intros r J. apply btr_of in J. exact (ret_passed _ _ _ _ _ _ _ (te_wf n R) _ _ _ _ _ ltac:(lia) ltac:(lia) H C J).
Qed.

Lemma te_alive n R ks tr c : csteps (test_prog n R) (test_start n R) ks tr c -> c_dead c = false.
Proof.
  intros H. destruct (run _ _ _ _ _ _ _ (te_wf n R) _ _ _ _ H) as (_&_&_&_&L). destruct (c_dead c); [|reflexivity]. destruct (L eq_refl) as (Q&_). discriminate.
Qed.
Lemma te_inv n R ks tr c : csteps (test_prog n R) (test_start n R) ks tr c ->
  exists D, Inv (test_prog n R) (S n) ks tr c D /\ (forall rest, c_thr c n = Some rest -> test_main n = D n ++ rest).
Proof.
  intros H. destruct (run _ _ _ _ _ _ _ (te_wf n R) _ _ _ _ H) as (_&M&_&L&_). destruct (L (te_alive _ _ _ _ _ H)) as (D&I). exists D. split; [exact I|].
  intros rest F. pose proof (i_shape _ _ _ _ _ _ I n) as S. rewrite F in S.
  destruct S as [[S _]|(_&d1&m&r&r0&d2&h&B1&B2&B3&B4&B5&B6)]; [cbn in S; rewrite Nat.eqb_refl in S; exact S|exfalso].
  pose proof (i_calls _ _ _ _ _ _ I n) as Q. specialize (M n). unfold most in M. rewrite Nat.ltb_irrefl in M.
  rewrite B4, num_app, num_cons in Q. cbn in Q. lia.
Qed.
Lemma te_last n R ks tr c a b : csteps (test_prog n R) (test_start n R) ks tr c -> tr = a ++ Said n (lit "Joined all threads" ++ [nl]) :: b ->
  b = [] /\ c_dead c = false /\ (forall k e c', ~ cstep (test_prog n R) c k e c') /\ forall t, t <= n -> c_thr c t = Some [].
Proof.
  intros H E. destruct (csteps_split _ _ _ _ _ H _ _ _ E) as (k1&c1&k&c2&k2&H1&S&H2&K).
  destruct (of_say _ _ _ _ _ _ S) as (p&F&E2&E3). destruct (te_inv _ _ _ _ _ H1) as (D&I&CR). pose proof (CR _ F) as Co.
  assert (E0 : test_main n = ((te_pre n ++ te_mid) ++ map Join (seq 0 n)) ++ [Say (lit "Joined all threads" ++ [nl])]).
  { unfold test_main, te_pre, te_mid. rewrite <- !app_assoc. reflexivity. }
  rewrite E0 in Co.
  assert (Q : D n = ((te_pre n ++ te_mid) ++ map Join (seq 0 n)) /\ p = []).
  { destruct (head_of _ _ _ _ _ Co) as [(q&X&_)|(Y1&X&Y)].
    - exfalso. change ((te_pre n ++ te_mid) ++ map Join (seq 0 n) = D n ++ Say (lit "Joined all threads" ++ [nl]) :: q) in X.
      assert (J : In (Say (lit "Joined all threads" ++ [nl])) ((te_pre n ++ te_mid) ++ map Join (seq 0 n))) by (rewrite X, in_app_iff; cbn; auto).
      rewrite !in_app_iff in J. destruct J as [[J|J]|J].
      + apply in_app_iff in J as [[J|[J|[]]]|J]; [discriminate|discriminate|]. apply in_map_iff in J as (v&J&_). discriminate.
      + destruct J as [J|[]]; discriminate.
      + apply in_map_iff in J as (v&J&_). discriminate.
    - destruct Y1 as [|y Y1]; [|destruct Y1; discriminate]. injection Y as Y. rewrite app_nil_r in X. auto. }
  destruct Q as [Dn ->].
  assert (Fu : forall u, u < n -> c_thr c1 u = Some []).
  { intros u Hu. apply (i_joined _ _ _ _ _ _ I n). rewrite Dn, in_app_iff. right. apply in_map_iff. exists u. split; [reflexivity|apply in_seq; lia]. }
  assert (All : forall t, c_thr c2 t = None \/ c_thr c2 t = Some []).
  { intros t. rewrite E2. cbn [c_thr]. unfold put_thr. destruct (Nat.eqb_spec t n) as [->|Ne]; [auto|].
    destruct (le_lt_dec n t) as [L|L]; [left|right; auto]. destruct (c_thr c1 t) eqn:X; [|reflexivity].
    pose proof (i_below _ _ _ _ _ _ I t ltac:(congruence)). lia. }
  destruct (te_inv _ _ _ _ _ (cs_snoc _ _ _ _ _ _ _ _ H1 S)) as (D2&I2&_).
  destruct (dead_end _ _ All (Inv_idle _ _ _ _ _ _ I2 All) _ _ _ H2) as [-> ->]. split; [reflexivity|].
  split; [rewrite E2; reflexivity|]. split; [intros; exact (no_step _ _ _ _ _ All (Inv_idle _ _ _ _ _ _ I2 All))|]. rewrite E2. cbn [c_thr].
  intros t Ht. unfold put_thr. destruct (Nat.eqb_spec t n); [reflexivity|]. apply Fu. lia.
Qed.
Lemma te_ends n R ks tr c : csteps (test_prog n R) (test_start n R) ks tr c -> stopped_for_good (test_prog n R) c ->
  exists a, tr = a ++ [Said n (lit "Joined all threads" ++ [nl])].
Proof.
  intros H St. destruct (caught_end _ _ _ _ _ _ _ (te_wf n R) ltac:(lia) _ _ _ _ ltac:(discriminate) (le_n n) H St) as [F _].
  destruct (te_inv _ _ _ _ _ H) as (D&I&CR). pose proof (CR _ (F n ltac:(lia))) as Co. rewrite app_nil_r in Co.
  assert (J : In (Said n (lit "Joined all threads" ++ [nl])) tr).
  { apply said_in. rewrite (i_said _ _ _ _ _ _ I), <- Co. unfold test_main. rewrite !num_app, (num_one (is_say _) (Say (lit "Joined all threads" ++ [nl]))). cbn [is_say]. rewrite str_eqb_refl. unfold b2n. lia. }
  apply in_split in J as (a&b&E). exists a. destruct (te_last _ _ _ _ _ _ _ H E) as (->&_). exact E.
Qed.
Lemma te_effort n R ks tr c : csteps (test_prog n R) (test_start n R) ks tr c ->
  effort ks <= (3 * n + 16) * n * R + 3 * n + 5 + 2 * spurious ks.
Proof.
  intros H. pose proof (any_effort _ _ _ _ _ _ _ (te_wf n R) ltac:(lia) _ _ _ _ H) as Q. revert Q. generalize (effort ks), (spurious ks). intros x y Q.
  assert (E : sum (S n) (fun t => nact (p_code (test_prog n R) t) + caught_acts (test_prog n R)) = n * (R + 1) + (2 * n + 4 + 1)); [|nia].
  cbn [sum]. rewrite (sum_ext n _ (fun _ => R + 1)).
  - rewrite sum_const. cbn [test_prog p_code]. rewrite Nat.eqb_refl. unfold nact, test_main. rewrite !num_app, num_spawns, num_joins.
    unfold num, caught_acts. cbn. lia.
  - intros t Ht. rewrite te_code by exact Ht. unfold test_thread, nact. rewrite num_repeat. unfold num, caught_acts. cbn. lia.
Qed.

(* what the threads write *)
Definition oops_timeout : str := lit "Ooops, dang!: Barrier test barrier timed out after 100 ms. Current state is dangerous" ++ [nl; nl].
Definition oops_corrupt : str := lit "Ooops, dang!: Barrier test barrier is corrupted." ++ [nl; nl].
Lemma oops n R r : r <> Passed -> test_catch (thrown (test_prog n R) 100 r) = [Say (match r with ThrewTimeout => oops_timeout | _ => oops_corrupt end)].
Proof. destruct r; [congruence| |]; intros _; vm_compute; reflexivity. Qed.
Lemma te_said n R ks tr c t s : csteps (test_prog n R) (test_start n R) ks tr c -> t < n -> 1 <= said t s tr ->
  said t s tr = 1 /\ exists r, r <> Passed /\ In (InBar (ERet t r)) tr /\ s = match r with ThrewTimeout => oops_timeout | _ => oops_corrupt end.
Proof.
  intros H Ht Hs. destruct (te_inv _ _ _ _ _ H) as (D&I&_). rewrite (i_said _ _ _ _ _ _ I) in *. pose proof (i_shape _ _ _ _ _ _ I t) as S.
  destruct (c_thr c t) as [rest|].
  - destruct S as [[S _]|(_&d1&m&r&r0&d2&h&B1&B2&B3&B4&B5&B6)].
    + rewrite (te_code n R t Ht) in S. destruct (alternate _ _ _ S) as (_&_&A). rewrite A in Hs. lia.
    + rewrite (te_code n R t Ht) in B3. destruct (alternate _ _ _ B3) as (_&Am&A). destruct (Am _ _ eq_refl) as [_ ->]. inv B2. rewrite (oops n R r B1) in B5.
      rewrite B4, num_app, num_cons, A in *. cbn [is_say b2n] in *. destruct d2 as [|x [|y d2]]; [cbn in Hs; lia| |destruct d2; discriminate].
      injection B5 as <- _. rewrite num_one in *. cbn [is_say] in *. destruct (str_eqb_spec (match r with ThrewTimeout => oops_timeout | _ => oops_corrupt end) s) as [E|E]; cbn in *; [|lia].
      split; [lia|]. exists r. split; [exact B1|]. split; [apply btr_of; exact B6|congruence].
  - destruct S as [S _]. rewrite S in Hs. cbn in Hs. lia.
Qed.
Lemma te_one_line n R ks tr c t s s' : csteps (test_prog n R) (test_start n R) ks tr c -> t < n -> 1 <= said t s tr -> 1 <= said t s' tr -> s = s'.
Proof.
  intros H Ht Hs Hs'. destruct (te_inv _ _ _ _ _ H) as (D&I&_). rewrite (i_said _ _ _ _ _ _ I) in *. pose proof (i_shape _ _ _ _ _ _ I t) as S.
  destruct (c_thr c t) as [rest|].
  - destruct S as [[S _]|(_&d1&m&r&r0&d2&h&B1&B2&B3&B4&B5&B6)].
    + rewrite (te_code n R t Ht) in S. destruct (alternate _ _ _ S) as (_&_&A). rewrite A in Hs. lia.
    + rewrite (te_code n R t Ht) in B3. destruct (alternate _ _ _ B3) as (_&Am&A). destruct (Am _ _ eq_refl) as [_ ->]. inv B2. rewrite (oops n R r B1) in B5.
      rewrite B4, num_app, num_cons, A in *. cbn [is_say b2n] in *. destruct d2 as [|x [|y d2]]; [cbn in Hs; lia| |destruct d2; discriminate].
      injection B5 as <- _. rewrite num_one in *. cbn [is_say] in *. set (w := match r with ThrewTimeout => oops_timeout | _ => oops_corrupt end) in *.
      destruct (str_eqb_spec w s) as [E|E]; cbn in Hs; [|lia]. destruct (str_eqb_spec w s') as [E'|E']; cbn in Hs'; [congruence|lia].
  - destruct S as [S _]. rewrite S in Hs. cbn in Hs. lia.
Qed.
Lemma two_timeouts t u (tr : list bev) : In (ERet t ThrewTimeout) tr -> In (ERet u ThrewTimeout) tr -> count is_timeout_ret tr <= 1 -> t = u.
Proof.
  intros A B L. apply in_split in A as (a&b&->). unfold count in L. rewrite filter_app, app_length in L. cbn in L.
  apply in_app_iff in B as [B|[B|B]]; [exfalso|congruence|exfalso]; apply in_split in B as (x&y&->); rewrite filter_app, app_length in L; cbn in L; lia.
Qed.
Lemma te_one_timeout n R ks tr c t u : csteps (test_prog n R) (test_start n R) ks tr c -> t < n -> u < n ->
  1 <= said t oops_timeout tr -> 1 <= said u oops_timeout tr -> t = u.
Proof.
  intros H Ht Hu A B. destruct (te_said _ _ _ _ _ _ _ H Ht A) as (_&r&_&I&E). destruct (te_said _ _ _ _ _ _ _ H Hu B) as (_&r'&_&I'&E').
  assert (Q : forall r, oops_timeout = match r with ThrewTimeout => oops_timeout | _ => oops_corrupt end -> r = ThrewTimeout).
  { intros [] X; auto; exfalso; revert X; vm_compute; discriminate. }
  rewrite (Q _ E) in I. rewrite (Q _ E') in I'. apply btr_of in I, I'.
  destruct (run _ _ _ _ _ _ _ (te_wf n R) _ _ _ _ H) as (X&_). pose proof (one_timeout _ _ _ _ _ X) as O.
  eapply two_timeouts; eauto. lia.
Qed.

Lemma said_in_iff t s tr : 1 <= said t s tr <-> In (Said t s) tr.
Proof.
  split; [apply said_in|]. intros J. apply in_split in J as (a&b&->). unfold said, tally. rewrite filter_app, app_length. cbn [filter is_said].
  rewrite Nat.eqb_refl, str_eqb_refl. cbn. lia.
Qed.
Lemma pending P c ks tr c' t w : csteps P c ks tr c' -> c_thr c t = Some [Say w] ->
  c_thr c' t = Some [Say w] \/ (c_thr c' t = Some [] /\ In (Said t w) tr).
Proof.
  induction 1 as [|c ks tr c1 k e c2 H IH S]; intros F; [auto|]. specialize (IH F). rewrite in_app_iff.
  assert (K : c_thr c2 t = c_thr c1 t \/ (c_thr c1 t = Some [Say w] /\ c_thr c2 t = Some [] /\ In (Said t w) e)); [|destruct IH as [I|[I J]], K as [K|(K&L&M)]; rewrite ?K; auto; congruence].
  assert (W : c_thr c1 t = Some [Say w] \/ c_thr c1 t = Some []) by tauto. clear IH H.
  inv S; cbn [c_thr] in *; auto; unfold put_thr.
  - destruct (Nat.eqb_spec t t0) as [<-|]; [|auto]. right. destruct W as [W|W]; rewrite W in *; [|discriminate]. match goal with X : Some _ = Some _ |- _ => inv X end. cbn; auto.
  - destruct (Nat.eqb_spec t t0) as [<-|]; [|auto]. destruct W as [W|W]; rewrite W in *; discriminate.
  - destruct (Nat.eqb_spec t u) as [<-|]; [destruct W; congruence|]. destruct (Nat.eqb_spec t t0) as [<-|]; [|auto]. destruct W as [W|W]; rewrite W in *; discriminate.
  - destruct (Nat.eqb_spec t t0) as [<-|]; [|auto]. destruct W as [W|W]; rewrite W in *; discriminate.
  - destruct (Nat.eqb_spec t t0) as [<-|]; [|auto]. destruct W as [W|W]; rewrite W in *; discriminate.
Qed.
Lemma te_reported n R ks tr c t r : csteps (test_prog n R) (test_start n R) ks tr c -> stopped_for_good (test_prog n R) c -> t < n ->
  In (InBar (ERet t r)) tr -> r <> Passed -> said t (match r with ThrewTimeout => oops_timeout | _ => oops_corrupt end) tr = 1.
Proof.
  intros H St Ht J Nr. destruct (in_split _ _ J) as (a&b&E).
  destruct (csteps_split _ _ _ _ _ H _ _ _ E) as (k1&c1&k&c2&k2&H1&S&H2&_).
  assert (F : c_thr c2 t = Some [Say (match r with ThrewTimeout => oops_timeout | _ => oops_corrupt end)]).
  { destruct (te_inv _ _ _ _ _ H1) as (D&I&_). inversion S; subst.
    - exfalso. destruct e as [|x e]; [discriminate|]. match goal with X : map InBar _ = _ |- _ => injection X as -> _ end. match goal with X : forall t r, ~ In (ERet t r) _ |- _ => apply (X t r) end. left. reflexivity.
    - cbn [c_thr]. unfold put_thr. rewrite Nat.eqb_refl. pose proof (i_shape _ _ _ _ _ _ I t) as Sh. cbn [c_thr c_bar] in Sh.
      match goal with X : f t = Some _ |- _ => rewrite X in Sh end.
      destruct Sh as [[Sh _]|[Sh _]]; [|match goal with X : bstep _ _ _ _ |- _ => apply bstep_ret in X end; intuition congruence].
      rewrite (te_code n R t Ht) in Sh. destruct (alternate _ _ _ Sh) as (_&B&_). destruct (B _ _ eq_refl) as [_ ->].
      match goal with X : go_on _ _ _ _ = Some _ |- _ => rename X into G end.
      assert (G' : Some (test_catch (thrown (test_prog n R) 100 r)) = Some q) by (destruct r; [congruence|exact G|exact G]).
      rewrite (oops n R r Nr) in G'. congruence.
    - exfalso. match goal with X : go_on _ _ _ _ = None |- _ => destruct r; discriminate X end. }
  destruct (te_ends _ _ _ _ _ H St) as (a'&E'). destruct (te_last _ _ _ _ _ _ _ H E') as (_&_&_&Fi).
  destruct (pending _ _ _ _ _ _ _ H2 F) as [X|[_ X]]; [rewrite Fi in X by lia; discriminate|].
  apply (te_said _ _ _ _ _ _ _ H Ht). apply said_in_iff. rewrite E, in_app_iff. right. right. exact X.
Qed.

(* ---- schedules for the examples ---- *)
Definition steps_of (t : tid) (k : nat) : list (option kind * tid) := repeat (None, t) k.
Definition inside (l : list (kind * tid)) : list (option kind * tid) := map (fun x => (Some (fst x), snd x)) l.
Lemma cexec_run P c l : match cexec P c [] [] l with Some (ks, tr, c') => csteps P c ks tr c' | None => True end.
Proof. destruct (cexec P c [] [] l) as [[[ks tr] c']|] eqn:E; [|exact I]. eapply cexec_sound; [apply cs_nil|exact E]. Qed.
Definition is_expiry (k : ckind) : bool := match k with KBar KExpire => true | _ => false end.
Lemma calm_if ks : existsb is_expiry ks = false -> calm ks.
Proof. intros E J. assert (existsb is_expiry ks = true) by (apply existsb_exists; exists (KBar KExpire); auto). congruence. Qed.
Lemma returns_rets t tr : returns t tr = rets t (btr tr).
Proof.
  unfold returns, tally, rets, count, btr. induction tr as [|e tr IH]; [reflexivity|]. cbn [flat_map filter]. rewrite filter_app, app_length, <- IH.
  destruct e as [| | | |[]]; cbn; try reflexivity. destruct (Nat.eqb _ _); reflexivity.
Qed.
