(* C_TestRun.v -- the runs of BarrierTest with int numbers (C133) *)
From Verif Require Import Base M_Stream M_Barrier S_Barrier M_BarrierUse S_BarrierUse L_BarrierUse C_BarrierUse P_BarrierUse M_TestMain.

Lemma bt_same R n : (0 <= n < two31)%Z -> bt_prog R n = test_prog (Z.to_nat n) (Z.to_nat R) /\ bt_start R n = test_start (Z.to_nat n) (Z.to_nat R).
Proof.
  intros B. assert (E : bt_prog R n = test_prog (Z.to_nat n) (Z.to_nat R)).
  { unfold bt_prog, test_prog, bt_code, test_main. rewrite Z2Nat.id by lia. reflexivity. }
  split; [exact E|]. unfold bt_start, test_start. rewrite E, Z2Nat.id by lia. f_equal. unfold to_u32. rewrite Z.mod_small; [reflexivity|]. unfold two31, two32 in *. lia.
Qed.
(* a program of one thread that only speaks *)
Lemma idle_bar n b0 k e st : bstep (binit n b0) k e st -> k = KCall.
Proof. intros H. inversion H; subst; cbn in *; try discriminate; try reflexivity. Qed.
Section Speak.
Variables (P : bprog) (n : Z) (l : list str).
Hypothesis code : p_code P (p_main P) = map Say l.
Lemma speak ks tr c : csteps P (cstart P n) ks tr c ->
  exists a b, l = a ++ b /\ tr = map (Said (p_main P)) a /\ ks = repeat KAct (length a) /\
    c_bar c = binit n 0 /\ c_dead c = false /\ (forall t, c_thr c t = if Nat.eqb t (p_main P) then Some (map Say b) else None).
Proof.
  remember (cstart P n) as c0 eqn:E0. induction 1 as [c|c ks tr c1 k e c2 H IH S]; subst.
  - exists [], l. repeat split. intros t. cbn. destruct (Nat.eqb_spec t (p_main P)) as [->|]; [rewrite code|]; reflexivity.
  - destruct (IH eq_refl) as (a & b & -> & -> & -> & B & D & T). 
    assert (X : exists s b', b = s :: b' /\ k = KAct /\ e = [Said (p_main P) s] /\ c_bar c2 = c_bar c1 /\ c_dead c2 = false /\
      forall t, c_thr c2 t = if Nat.eqb t (p_main P) then Some (map Say b') else None).
    { clear IH H. inversion S; subst; cbn [c_bar c_thr c_dead] in *;
        try (match goal with F : ?f ?t = Some _ |- _ => rewrite T in F; destruct (Nat.eqb_spec t (p_main P)) as [->|]; [|discriminate];
             destruct b as [|s9 b9]; [discriminate|]; cbn [map] in F; try discriminate; injection F as -> <- end).
      - exists s, b9. repeat split. intros t. unfold put_thr. rewrite T. destruct (Nat.eqb t (p_main P)); reflexivity.
      - exfalso. match goal with N : ?k <> KCall |- _ => apply N end. subst. eapply idle_bar. eassumption. }
    destruct X as (s & b' & -> & -> & -> & B' & D' & T'). exists (a ++ [s]), b'. rewrite <- app_assoc.
    split; [reflexivity|]. split; [rewrite map_app; reflexivity|]. split; [rewrite app_length, Nat.add_comm; cbn; clear; induction (length a); cbn; congruence|].
    split; [congruence|]. auto.
Qed.
End Speak.
Lemma created_in P n ks tr c : csteps P (cstart P n) ks tr c -> forall t, c_thr c t <> None -> t = p_main P \/ In (Created t) tr.
Proof.
  remember (cstart P n) as c0 eqn:E0. induction 1 as [c|c ks tr c1 k e c2 H IH S]; subst; intros t N.
  - cbn in N. destruct (Nat.eqb_spec t (p_main P)); [auto|congruence].
  - assert (X : c_thr c1 t <> None \/ In (Created t) e).
    { clear IH H. inversion S; subst; cbn [c_thr] in *; unfold put_thr in N;
        repeat match goal with H : context [Nat.eqb ?x ?y] |- _ => destruct (Nat.eqb_spec x y); subst end; auto; try (left; congruence). right. left. reflexivity. }
    destruct X as [X|X]; [destruct (IH eq_refl t X); auto|]; right; apply in_or_app; auto.
Qed.
(* only the threads of main's program are created *)
Lemma created_spawn P n : (forall t u, In (Spawn u) (p_code P t) -> u < p_main P) ->
  (forall e a, p_catch P = Some a -> forall u, ~ In (Spawn u) (a e)) ->
  forall ks tr c, csteps P (cstart P n) ks tr c ->
  (forall u, In (Created u) tr -> u < p_main P) /\ (forall t p u, c_thr c t = Some p -> In (Spawn u) p -> u < p_main P).
Proof.
  intros HC HK ks tr c H. remember (cstart P n) as c0 eqn:E0. induction H as [c|c ks tr c1 k e c2 H IH S]; subst.
  - split; [intros u []|]. intros t p u F. cbn in F. destruct (Nat.eqb t (p_main P)); [injection F as <-; apply HC|discriminate].
  - destruct (IH eq_refl) as [A B]. clear IH H. split.
    + intros u I. apply in_app_or in I as [I|I]; [auto|]. inversion S; subst; cbn [c_thr] in *; try (destruct I as [I|[]]; try discriminate).
      * injection I as <-. eapply B; [eassumption|left; reflexivity].
      * apply in_map_iff in I as (x & X & _). discriminate.
    + intros t p u F I. inversion S; subst; cbn [c_thr] in *; unfold put_thr in F;
        repeat match goal with H : context [Nat.eqb ?x ?y] |- _ => destruct (Nat.eqb_spec x y); subst end;
        try exact (B _ _ _ F I); try (injection F as <-; eapply B; [eassumption|right; exact I]); try (injection F as <-; eapply HC; exact I).
      { injection F as <-. match goal with J : f _ = Some (Join _ :: _) |- _ => exact (B _ _ _ J (or_intror I)) end. }
      match goal with G : go_on P _ _ ?r = Some _ |- _ => unfold go_on in G; destruct r; [injection G as <-|..] end.
      * injection F as <-. eapply B; [eassumption|right; exact I].
      * destruct (p_catch P) as [h|] eqn:EK; [|discriminate]. injection F as <-. match goal with G : Some _ = Some _ |- _ => injection G as <- end. destruct (HK _ _ eq_refl _ I).
      * destruct (p_catch P) as [h|] eqn:EK; [|discriminate]. injection F as <-. match goal with G : Some _ = Some _ |- _ => injection G as <- end. destruct (HK _ _ eq_refl _ I).
Qed.

Lemma bt_no_spawn R n t u : In (Spawn u) (p_code (bt_prog R n) t) -> u < p_main (bt_prog R n).
Proof.
  cbn [p_code p_main bt_prog]. destruct (Nat.eqb t (Z.to_nat n)); intros I.
  - unfold bt_code in I. rewrite !in_app_iff in I. destruct I as [I|[I|[I|[I|I]]]].
    + cbn in I. destruct I as [I|[I|[]]]; discriminate.
    + apply in_map_iff in I as (x & E & I). injection E as ->. apply in_seq in I. lia.
    + destruct I as [I|[]]; discriminate.
    + apply in_map_iff in I as (x & E & I). discriminate.
    + destruct I as [I|[]]; discriminate.
  - unfold test_thread in I. apply in_concat in I as (l & A & I). apply repeat_spec in A. subst l. destruct I as [I|[I|[]]]; discriminate.
Qed.
Lemma bt_created R n ks tr c u : csteps (bt_prog R n) (bt_start R n) ks tr c -> In (Created u) tr -> u < Z.to_nat n.
Proof.
  intros H. apply (created_spawn (bt_prog R n) (to_u32 n) (bt_no_spawn R n)) in H as [A _]; [exact (A u)|].
  intros e a E v I. cbn in E. injection E as <-. destruct I as [I|[]]; discriminate.
Qed.
Lemma bt_ends R n ks tr c : (- two31 <= n < two31)%Z -> csteps (bt_prog R n) (bt_start R n) ks tr c ->
  let k := Z.to_nat n in
  c_dead c = false /\ effort ks <= (3 * k + 16) * k * Z.to_nat R + 3 * k + 5 + 2 * spurious ks /\
  (stopped_for_good (bt_prog R n) c -> exists a, tr = a ++ [Said k (lit "Joined all threads" ++ [nl])]) /\
  (forall a b, tr = a ++ Said k (lit "Joined all threads" ++ [nl]) :: b ->
     b = [] /\ (forall x e c', ~ cstep (bt_prog R n) c x e c') /\ forall t, t <= k -> c_thr c t = Some []).
Proof.
  intros B H. cbv zeta. destruct (Z.lt_ge_cases n 0) as [N|N].
  - set (l := [lit "Creating threads" ++ [nl]; lit "Spawning " ++ put_int n ++ lit " threads" ++ [nl];
      lit "Waiting to join threads" ++ [nl]; lit "Joined all threads" ++ [nl]]).
    assert (Z0 : Z.to_nat n = 0) by lia.
    assert (CD : p_code (bt_prog R n) (p_main (bt_prog R n)) = map Say l).
    { cbn [p_code p_main bt_prog]. rewrite Nat.eqb_refl. unfold bt_code. rewrite Z0. reflexivity. }
    assert (MN : p_main (bt_prog R n) = 0) by exact Z0.
    destruct (speak (bt_prog R n) (to_u32 n) l CD ks tr c H) as (a & b & EL & -> & -> & BB & D & T). rewrite MN in *.
    assert (LEN : length a <= 4) by (apply (f_equal (@length str)) in EL; rewrite app_length in EL; cbn in EL; lia).
    assert (EF : effort (repeat KAct (length a)) = length a).
    { unfold effort. clear. induction (length a); cbn; congruence. }
    assert (LAST : forall x y, map (Said 0) a = x ++ Said 0 (lit "Joined all threads" ++ [nl]) :: y -> y = [] /\ b = []).
    { intros x y E. assert (NL : forall k, nth_error l k = Some (lit "Joined all threads" ++ [nl]) -> k = 3).
      { intros [|[|[|[|k]]]] X; [discriminate| |discriminate|reflexivity|destruct k; discriminate].
        cbn [nth_error l] in X. injection X as X. discriminate. }
      assert (NA : nth_error a (length x) = Some (lit "Joined all threads" ++ [nl])).
      { assert (Y : nth_error (map (Said 0) a) (length x) = Some (Said 0 (lit "Joined all threads" ++ [nl]))) by (rewrite E, nth_error_app2, Nat.sub_diag by lia; reflexivity).
        rewrite nth_error_map in Y. destruct (nth_error a (length x)); [|discriminate]. injection Y as ->. reflexivity. }
      assert (L3 : length x = 3).
      { apply NL. rewrite EL, nth_error_app1; [exact NA|]. apply nth_error_Some. congruence. }
      assert (LA : length a = length x + S (length y)).
      { apply (f_equal (@length cev)) in E. rewrite map_length, app_length in E. cbn [length] in E. exact E. }
      apply (f_equal (@length str)) in EL. rewrite app_length in EL. change (length l) with 4 in EL.
      split; [destruct y; [reflexivity|cbn in *; lia]|destruct b; [reflexivity|cbn in *; lia]]. }
    split; [exact D|]. split; [rewrite EF; lia|]. rewrite Z0. split.
    + intros St. destruct b as [|s b].
      * rewrite app_nil_r in EL. subst a. exists (map (Said 0) (removelast l)). reflexivity.
      * exfalso. destruct c as [cb cf cd]. cbn [c_bar c_thr c_dead] in *. subst cd.
        assert (X := c_say (bt_prog R n) cb cf 0 s (map Say b)). rewrite T in X. specialize (X eq_refl). apply St in X. discriminate.
    + intros x y E. destruct (LAST x y E) as [-> ->]. split; [reflexivity|]. split.
      * intros k e c' S. inversion S; subst; cbn [c_bar c_thr c_dead] in *;
          try (match goal with F : ?f ?t = Some (_ :: _) |- _ => rewrite T in F; destruct (Nat.eqb t 0); discriminate end).
        match goal with NC : ?k <> KCall |- _ => apply NC end. subst. eapply idle_bar. eassumption.
      * intros t Ht. rewrite T. assert (t = 0) by lia. subst. reflexivity.
  - destruct (bt_same R n) as [E1 E2]; [lia|]. rewrite E1, E2 in *. destruct (C124_always_ends _ _ _ _ _ H) as (A & C & D & F). auto.
Qed.
(* main can create its threads one after the other *)
Lemma bt_spawns R n j : (0 <= n < two31)%Z -> j <= Z.to_nat n -> exists ks tr c, csteps (bt_prog R n) (bt_start R n) ks tr c /\
  c_dead c = false /\ (forall u, u < j -> In (Created u) tr) /\ (forall u, j <= u < Z.to_nat n -> c_thr c u = None) /\
  c_thr c (Z.to_nat n) = Some (map Spawn (seq j (Z.to_nat n - j)) ++ [Say (lit "Waiting to join threads" ++ [nl])] ++
    map Join (seq 0 (Z.to_nat n)) ++ [Say (lit "Joined all threads" ++ [nl])]).
Proof.
  intros B. induction j as [|j IH]; intros J.
  - set (P := bt_prog R n). set (k := Z.to_nat n).
    assert (C0 : c_thr (bt_start R n) k = Some (bt_code n)).
    { cbn [bt_start cstart c_thr p_main p_code bt_prog]. fold k. rewrite !Nat.eqb_refl. reflexivity. }
    unfold bt_code in C0. fold k in C0. cbn [app] in C0.
    pose proof (c_say P (c_bar (bt_start R n)) (c_thr (bt_start R n)) k _ _ C0) as S1.
    eexists. eexists. eexists. split.
    { eapply cs_snoc; [eapply cs_snoc; [apply cs_nil|exact S1]|]. apply c_say with (t := k). unfold put_thr. rewrite Nat.eqb_refl. reflexivity. }
    cbn [c_dead c_thr]. split; [reflexivity|]. split; [intros u Hu; lia|]. split.
    + intros u Hu. unfold put_thr. destruct (Nat.eqb_spec u k); [subst k; lia|]. cbn [bt_start cstart c_thr p_main bt_prog]. fold k.
      destruct (Nat.eqb_spec u k); [lia|reflexivity].
    + unfold put_thr. rewrite Nat.eqb_refl, Nat.sub_0_r. reflexivity.
  - destruct IH as (ks & tr & c & H & D & A & N & T); [lia|]. set (k := Z.to_nat n) in *.
    destruct c as [cb cf cd]. cbn [c_dead c_thr] in *. subst cd.
    assert (SQ : seq j (k - j) = j :: seq (S j) (k - S j)). { replace (k - j) with (S (k - S j)) by lia. reflexivity. }
    rewrite SQ in T. cbn [map app] in T.
    pose proof (c_spawn (bt_prog R n) cb cf k j _ T (N j ltac:(lia))) as S1.
    eexists. eexists. eexists. split; [eapply cs_snoc; [exact H|exact S1]|]. cbn [c_dead c_thr]. split; [reflexivity|]. split.
    + intros u Hu. apply in_or_app. destruct (Nat.eq_dec u j) as [->|]; [right; left; reflexivity|left; apply A; lia].
    + split.
      * intros u Hu. unfold put_thr. destruct (Nat.eqb_spec u j); [lia|]. destruct (Nat.eqb_spec u k); [lia|]. apply N. lia.
      * unfold put_thr. destruct (Nat.eqb_spec k j); [lia|]. rewrite Nat.eqb_refl. reflexivity.
Qed.
