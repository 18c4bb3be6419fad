(* L_Exchange.v -- proofs about the exchange program. *)
From Verif Require Import Base M_MailBox M_MailBoxConc M_Barrier M_Exchange S_Barrier S_Exchange L_Map L_MailBox L_MailBoxConc.
From Verif Require C_Barrier.
From Coq Require Import Sorted.

(* ---- the mailbox seen as atomic calls ---- *)
Inductive aph := AIdle | AWant (b : nat) (c : call xmsg) | ADone (r : mret xmsg).
Definition set_ph (f : nat -> aph) t x : nat -> aph := fun t' => if Nat.eqb t' t then x else f t'.
Record lin names (st : cstate xmsg) (w : world xmsg) (ph : nat -> aph) : Prop := {
  n_names : forall b, mb_name (boxes st b) = names b;
  n_namesw : forall b, mb_name (w b) = names b;
  n_sorted : forall b, ksorted Z.compare (mb_queues (w b));
  n_thr : forall t, match thr st t with
    | Idle => ph t = AIdle
    | Want b c => ph t = AWant b c
    | Inside b p => owner st b = Some t /\ exists r, ph t = ADone r /\ brun names b (boxes st b) p (w b) r
    | Leaving r => ph t = ADone r
    end;
  n_own : forall b, match owner st b with
    | None => boxes st b = w b
    | Some t => exists p, thr st t = Inside b p
    end }.
Inductive astep names (w : world xmsg) (ph : nat -> aph) : list (ev xmsg) -> world xmsg -> (nat -> aph) -> Prop :=
| a_skip : astep names w ph [] w ph
| a_call : forall t b c, ph t = AIdle -> astep names w ph [Inv t b c] w (set_ph ph t (AWant b c))
| a_do : forall t b c mb r, ph t = AWant b c -> exec1 names b (w b) c = (mb, r) ->
    astep names w ph [] (upd w b mb) (set_ph ph t (ADone r))
| a_ret : forall t r, ph t = ADone r -> astep names w ph [Ret t r] w (set_ph ph t AIdle).

Lemma set_ph_same f t x : set_ph f t x t = x.
Proof. unfold set_ph. rewrite Nat.eqb_refl. reflexivity. Qed.
Lemma set_ph_other f t x t' : t' <> t -> set_ph f t x t' = f t'.
Proof. intros D. unfold set_ph. destruct (Nat.eqb_spec t' t); [contradiction|reflexivity]. Qed.

Lemma exec1_name names b (mb : mbox xmsg) cc : mb_name (fst (exec1 names b mb cc)) = mb_name mb.
Proof.
  assert (U : forall i, mb_name (fst (unsubscribe mb i)) = mb_name mb).
  { intros i. unfold unsubscribe. destruct (getQueue mb i); reflexivity. }
  destruct cc as [|s|m s|s| |s|i| |s]; cbn; auto.
  - unfold subscribe. destruct (_ <? _)%Z; reflexivity.
  - unfold get. destruct (getIndex _ _ _); cbn; auto. destruct (getQueue _ _) as [[|]| |]; reflexivity.
  - unfold put. destruct (match s with None => _ | _ => _ end); reflexivity.
  - unfold readyCount. destruct (getIndex _ _ _); cbn; auto. destruct (getQueue _ _); reflexivity.
  - unfold clear. destruct (getIndex _ _ _); cbn; auto. destruct (getQueue _ _); reflexivity.
  - unfold drop. specialize (U (sub_idx s)). destruct (unsubscribe _ _); exact U.
Qed.

Lemma lin_step names st w ph e st' : lin names st w ph -> cstep st e st' ->
  exists w' ph', lin names st' w' ph' /\ astep names w ph e w' ph'.
Proof.
  intros [In Inw Is It Io] S.
  assert (NX : forall x, names_of (boxes st) x = names x) by exact In.
  inversion S; subst; clear S.
  - (* call *)
    pose proof (It t) as Ht. rewrite H in Ht.
    exists w, (set_ph ph t (AWant b c)). split; [|constructor; exact Ht]. constructor; auto.
    + intros t'. destruct (Nat.eq_dec t' t) as [->|D]; [rewrite set_thr_same, set_ph_same; reflexivity|].
      rewrite set_thr_other, set_ph_other by exact D. apply It.
    + intros b'. cbn. pose proof (Io b') as H0. destruct (owner st b') as [t'|]; [|exact H0].
      destruct H0 as [p Hp]. exists p. destruct (Nat.eqb_spec t' t); [congruence|exact Hp].
  - (* lock *)
    pose proof (It t) as Ht. rewrite H in Ht. pose proof (Io b) as Hb. rewrite H0 in Hb.
    destruct (exec1 names b (w b) c) as [mb r] eqn:EX.
    exists (upd w b mb), (set_ph ph t (ADone r)). split; [|eapply a_do; eassumption]. constructor; auto.
    + intros b'. destruct (Nat.eq_dec b' b) as [->|D]; [rewrite upd_same|rewrite upd_other by exact D; apply Inw].
      rewrite <- (Inw b). pose proof (exec1_name names b (w b) c) as X. rewrite EX in X. exact X.
    + intros b'. destruct (Nat.eq_dec b' b) as [->|D]; [rewrite upd_same|rewrite upd_other by exact D; apply Is].
      pose proof (exec1_sorted names b (w b) c (Is b)) as X. rewrite EX in X. exact X.
    + intros t'. destruct (Nat.eq_dec t' t) as [->|D].
      * rewrite set_thr_same, set_ph_same. cbn. rewrite Nat.eqb_refl. split; [reflexivity|]. exists r. split; [reflexivity|].
        rewrite upd_same, Hb. pose proof (body_correct names b (w b) c (Is b)) as X. rewrite EX in X. exact X.
      * rewrite set_thr_other, set_ph_other by exact D. pose proof (It t') as H1. cbn.
        destruct (thr st t') as [|b1 c1|b1 p1|r1]; auto. destruct H1 as (X2 & r1 & X3 & X4).
        assert (Db : b1 <> b) by congruence. split.
        { destruct (Nat.eqb_spec b1 b); [contradiction|exact X2]. }
        exists r1. split; [exact X3|]. rewrite upd_other by exact Db. exact X4.
    + intros b'. cbn. destruct (Nat.eqb_spec b' b) as [->|D].
      * rewrite Nat.eqb_refl. eauto.
      * pose proof (Io b') as H1. destruct (owner st b') as [t'|].
        -- destruct H1 as [p Hp]. exists p. destruct (Nat.eqb_spec t' t); [congruence|exact Hp].
        -- rewrite upd_other by exact D. exact H1.
  - (* work *)
    rewrite (bstep_ext _ names) in H0 by exact NX.
    pose proof (It t) as Ht. rewrite H in Ht. destruct Ht as (A2 & r & A3 & A4).
    exists w, ph. split; [|constructor]. constructor; auto.
    + intros b'. cbn. destruct (Nat.eq_dec b' b) as [->|D]; [rewrite upd_same|rewrite upd_other by exact D; apply In].
      rewrite <- (In b). pose proof (bstep_name names b (boxes st b) p) as X. rewrite H0 in X. exact X.
    + intros t'. destruct (Nat.eq_dec t' t) as [->|D].
      * rewrite set_thr_same. split; [exact A2|]. exists r. split; [exact A3|].
        cbn. rewrite upd_same. eapply brun_inl; eauto.
      * rewrite set_thr_other by exact D. cbn. pose proof (It t') as H1.
        destruct (thr st t') as [|b1 c1|b1 p1|r1]; auto. destruct H1 as (X2 & r1 & X3 & X4).
        assert (Db : b1 <> b) by congruence. split; [exact X2|].
        exists r1. split; [exact X3|]. rewrite upd_other by exact Db. exact X4.
    + intros b'. cbn. pose proof (Io b') as H1. destruct (Nat.eq_dec b' b) as [->|D].
      * rewrite A2 in *. rewrite Nat.eqb_refl. eauto.
      * destruct (owner st b') as [t'|].
        -- destruct H1 as [p1 Hp]. exists p1. destruct (Nat.eqb_spec t' t); [congruence|exact Hp].
        -- rewrite upd_other by exact D. exact H1.
  - (* unlock *)
    rewrite (bstep_ext _ names) in H0 by exact NX.
    pose proof (It t) as Ht. rewrite H in Ht. destruct Ht as (A2 & r1 & A3 & A4).
    destruct (brun_inr _ _ _ _ _ _ _ _ A4 H0) as [-> ->].
    exists w, ph. split; [|constructor]. constructor; auto.
    + intros b'. cbn. destruct (Nat.eq_dec b' b) as [->|D]; [rewrite upd_same; apply Inw|rewrite upd_other by exact D; apply In].
    + intros t'. destruct (Nat.eq_dec t' t) as [->|D].
      * rewrite set_thr_same. auto.
      * rewrite set_thr_other by exact D. cbn. pose proof (It t') as H1.
        destruct (thr st t') as [|b1 c1|b1 p1|r2]; auto. destruct H1 as (X2 & r2 & X3 & X4).
        assert (Db : b1 <> b) by congruence. split.
        { destruct (Nat.eqb_spec b1 b); [contradiction|exact X2]. }
        exists r2. split; [exact X3|]. rewrite upd_other by exact Db. exact X4.
    + intros b'. cbn. destruct (Nat.eqb_spec b' b) as [->|D].
      * rewrite upd_same. reflexivity.
      * pose proof (Io b') as H1. destruct (owner st b') as [t'|].
        -- destruct H1 as [p1 Hp]. exists p1. destruct (Nat.eqb_spec t' t); [congruence|exact Hp].
        -- rewrite upd_other by exact D. exact H1.
  - (* return *)
    pose proof (It t) as Ht. rewrite H in Ht.
    exists w, (set_ph ph t AIdle). split; [|constructor; exact Ht]. constructor; auto.
    + intros t'. destruct (Nat.eq_dec t' t) as [->|D]; [rewrite set_thr_same, set_ph_same; reflexivity|].
      rewrite set_thr_other, set_ph_other by exact D. apply It.
    + intros b'. cbn. pose proof (Io b') as H0. destruct (owner st b') as [t'|]; [|exact H0].
      destruct H0 as [p Hp]. exists p. destruct (Nat.eqb_spec t' t); [congruence|exact Hp].
Qed.
Lemma lin_init names : lin names (cinit names) (fresh names) (fun _ => AIdle).
Proof. constructor; cbn; auto. intros b. constructor. Qed.
