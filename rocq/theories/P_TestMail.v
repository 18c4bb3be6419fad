(* P_TestMail.v -- C134: the program test/MailBoxTest.cxx with its command line. *)
From Verif Require Import Base M_Options M_Stream S_Num S_Options S_OptionsExample S_TestMain C_TestMain.
From Verif Require Import M_MailBox M_MailBoxConc M_Barrier M_Exchange S_Exchange L_ExchangeP P_Exchange M_TestMain C_TestMail.

(* main: the numbers given on the command line, or 1, 2 and 1, are those of the
   test; before it, what the refused conversion of a mailbox said is written *)
Theorem C134_numbers : forall tyname base_ty m argv is, understood mailbox_test (tl argv) is ->
  mt_main tyname base_ty m argv =
    Ok (Calls (mkMT (number (lit "msgs") 1 is) (number (lit "th") 2 is) (number (lit "trials") 1 is) (flag (lit "noecho") is))
      (lit "SoDa::MailBox[MessageMailbox] MailBoxBase::convert attempted to promote from " ++ base_ty ++ lit " to " ++ tyname 1 ++
       lit ". That isn't right." ++ ["010"; "010"]%char ++ lit "test 2" ++ ["010"%char])) /\
  is_int (number (lit "msgs") 1 is) /\ is_int (number (lit "th") 2 is) /\ is_int (number (lit "trials") 1 is).
Proof.
  intros tyname base_ty m argv is U. split; [apply mt_calls; exact U|]. repeat split; eapply number_int; try eassumption; unfold is_int; lia.
Qed.
Print Assumptions C134_numbers.
Theorem C134_complains : forall tyname base_ty m argv why, complaint mailbox_test (tl argv) why ->
  mt_main tyname base_ty m argv = Ok (Quits (lines why)).
Proof. exact mt_quits. Qed.
Print Assumptions C134_complains.
Theorem C134_every_line : forall ts, Forall (fun t => ~ In "000"%char t) ts ->
  (exists is, understood mailbox_test ts is) \/ exists why, complaint mailbox_test ts why.
Proof. exact mt_every. Qed.
Print Assumptions C134_every_line.

(* Numbers with which the test works: no thread dies; one that finishes has done
   all trials and reports success; each has got in each trial from each other
   thread exactly what that one sent, in order; from wherever they are the threads can
   finish, and then the mailbox is empty. *)
Theorem C134_works_partial : forall m t r ne ks g, (1 <= t < 2 ^ 31)%Z -> works m t r ne ->
  let a := mkMT m t r ne in mt_run a (mt_start a) ks g -> in_time ks ->
  (forall i, i < Z.to_nat t -> l_at (x_thr g i) <> PDied /\
     (forall res, l_at (x_thr g i) = PEnd res -> res = 0%Z /\ length (l_past (x_thr g i)) = Z.to_nat r) /\
     (forall k u, k < length (l_past (x_thr g i)) ->
        filter (from u) (nth k (l_past (x_thr g i)) []) =
          if (u <? Z.to_nat t) && negb (ne && Nat.eqb u i) then map (mkX u k) (seq 0 (Z.to_nat m)) else [])) /\
  (exists ks' g', mt_run a g ks' g' /\ in_time ks' /\ forall i, i < Z.to_nat t -> l_at (x_thr g' i) = PEnd 0%Z) /\
  ((forall i, i < Z.to_nat t -> exists res, l_at (x_thr g i) = PEnd res) -> mb_queues (boxes (x_box g) 0) = []).
Proof.
  intros m t r ne ks g B W a H I. assert (G : good a) by exact W. assert (F := good_fits a B G).
  assert (OG : forall i, ok_of a (x_thr g i)) by (intros i R; apply (ok_run a ks g H R i)).
  assert (OP : (r <= 0)%Z -> forall i, l_past (x_thr g i) = []) by (intros R i; apply (ok_run a ks g H R i)).
  assert (S0 := start_same a B). rewrite S0 in H.
  assert (O0 : forall i, ok_of a (x_thr (xinit (cfg_of a)) i)) by (intros i _; exact Logic.I).
  apply (same_of a _ _ _ B G O0) in H. assert (RG : reached (cfg_of a) g) by (exists ks; auto).
  split; [|split].
  - intros i Hi. destruct (C113_success _ _ i F RG Hi) as [A1 A2]. split; [exact A1|]. split; [exact A2|].
    intros k u Hk. destruct (C113_each_trial_exact _ _ i F RG Hi k Hk) as [A3 _]. rewrite A3. unfold due. cbn [c_threads c_noecho c_msgs cfg_of a a_threads a_noecho a_msgs a_trials].
    destruct (Z.leb_spec r 0) as [R|R]; [|reflexivity]. rewrite (OP R i) in Hk. cbn in Hk. lia.
  - destruct (C113_can_finish _ _ F RG) as (ks' & g' & H' & I' & E'). exists ks', g'. split; [apply (same_of a _ _ _ B G OG), H'|]. split; [exact I'|exact E'].
  - apply (C113_nothing_left (cfg_of a)); assumption.
Qed.
Print Assumptions C134_works_partial.
(* REFUTED: that the test ends for all numbers.  With all others no thread ever
   finishes: it waits forever for messages nobody sends, or comes to an overflow of int *)
Theorem C134_ends_refuted : forall m t r ne ks g, is_int m -> (1 <= t < 2 ^ 31)%Z -> ~ works m t r ne ->
  let a := mkMT m t r ne in mt_run a (mt_start a) ks g -> forall i res, l_at (x_thr g i) <> PEnd res.
Proof.
  intros m t r ne ks g IM B W a H i res E. assert (R : (1 <= r)%Z) by (destruct (Z.lt_ge_cases 0 r); [lia|destruct W; left; lia]).
  destruct (in_int (m * t)) eqn:O.
  - assert (M : (- 2 ^ 31 <= m < 0)%Z).
    { unfold is_int in IM. destruct (Z.lt_ge_cases m 0); [lia|]. destruct W. right. left. apply in_int_iff in O. lia. }
    destruct (waits_run a ks g B R M O W H) as [A _]. destruct (A i) as [_ X]. rewrite E in X. exact X.
  - assert (X := soon_run a ks g R O H i). unfold soon in X. rewrite E in X. exact X.
Qed.
Print Assumptions C134_ends_refuted.
(* no threads: there is nothing to wait for *)
Theorem C134_no_threads : forall m t r ne k g, (t <= 0)%Z -> let a := mkMT m t r ne in ~ mt_step a (mt_start a) k g.
Proof.
  intros m t r ne k g T a S. assert (N : mt_threads a = 0) by (unfold mt_threads; cbn [a_threads a]; lia).
  inversion S; subst; try lia.
  - match goal with X : k <> KCall, Y : bstep _ _ _ _ |- _ => apply X; inversion Y; subst; cbn in *; try discriminate; reflexivity end.
  - match goal with Y : cstep _ _ _ |- _ => inversion Y; subst; cbn in *; discriminate end.
  - match goal with Y : cstep _ _ _ |- _ => inversion Y; subst; cbn in *; discriminate end.
  - match goal with Y : bstep _ _ _ _ |- _ => inversion Y; subst; cbn in *; discriminate end.
Qed.
Print Assumptions C134_no_threads.

(* "MailBoxTest -m 5 -n -t 3" works; minus one message does not *)
Example C134_nonvacuous : (forall tyname base_ty m, exists err,
    mt_main tyname base_ty m (map lit ["MailBoxTest"; "-m"; "5"; "-n"; "-t"; "3"]%string) = Ok (Calls (mkMT 5 3 1 true) err)) /\
  works 5 3 1 true /\ ~ works (-1) 3 1 true /\ ~ works 65536 32768 1 false /\ works (-1) 1 4 true /\
  let a := mkMT 5 3 1 true in exists ks g, mt_run a (mt_start a) ks g /\ in_time ks /\
    filter (from 1) (nth 0 (l_past (x_thr g 0)) []) = map (mkX 1 0) [0; 1; 2; 3; 4] /\
    filter (from 0) (nth 0 (l_past (x_thr g 0)) []) = [].
Proof.
  assert (W : works 5 3 1 true) by (right; left; lia).
  split; [|split; [exact W|split; [intros [X|[X|(X & Y & Z)]]; lia|split; [intros [X|[X|(X & Y & Z)]]; lia|split; [right; right; lia|]]]]].
  - intros tyname base_ty m.
    assert (N : forall t z, ty_read ty_int t = M_StreamIn.RdOk (VInt z) -> int_text t z /\ is_int z) by (intros t z E; apply int_text_read; exact E).
    assert (U : understood mailbox_test (map lit ["-m"; "5"; "-n"; "-t"; "3"]%string) [TNum (lit "msgs") 5; TFlag (lit "noecho"); TNum (lit "th") 3]).
    { left. destruct (N (lit "5") 5%Z) as [A B]; [vm_compute; reflexivity|]. destruct (N (lit "3") 3%Z) as [A' B']; [vm_compute; reflexivity|].
      apply (T_num _ (nth 0 mailbox_test (mkT [] "000" true []))); auto; [left; reflexivity|right; exists []; reflexivity|].
      apply (T_flag _ (nth 1 mailbox_test (mkT [] "000" true []))); auto; [right; left; reflexivity|right; exists []; reflexivity|].
      apply (T_num _ (nth 2 mailbox_test (mkT [] "000" true []))); auto; [right; right; left; reflexivity|right; exists []; reflexivity|].
      apply T_end. }
    destruct (C134_numbers tyname base_ty m (lit "MailBoxTest" :: map lit ["-m"; "5"; "-n"; "-t"; "3"]%string) _ U) as [E _]. eexists. exact E.
  - cbv zeta. assert (IT : in_time []) by (intros []). assert (B3 : (1 <= 3 < 2 ^ 31)%Z) by lia.
    destruct (C134_works_partial 5 3 1 true [] _ B3 W (mr_nil _ _) IT) as (_ & (ks & g & H & T & E) & _).
    exists ks, g. split; [exact H|]. split; [exact T|].
    destruct (C134_works_partial 5 3 1 true ks g B3 W H T) as (P & _). assert (I0 : 0 < Z.to_nat 3) by (cbn; lia).
    destruct (P 0 I0) as (_ & P1 & P2). destruct (P1 _ (E 0 I0)) as [_ L]. split; rewrite P2 by (rewrite L; cbn; lia); reflexivity.
Qed.
