(* P_MailBoxLife.v -- C115: mailboxes and subscriptions that come and go. *)
From Coq Require Import Lia.
From Verif Require Import Base M_MailBox S_MailBox C_MailBox M_MailBoxLife S_MailBoxLife L_MailBoxLife.

(* REFUTED as documented: a Subscription does not keep its mailbox.  A program
   that lets its last MailBoxPtr go before its Subscription dereferences freed
   memory, although it does nothing the language would prevent *)
Theorem C115_outlive_refuted : exists (h : list (act nat)) rs w,
  lrun lnone h = (w, rs) /\ throughout possible nothing h rs /\
  h = [AMake 0 (lit "cmds"); ACall 0 CSubscribe; ADropPtr 0; ADropSub (mkSub 0 0)] /\ In MUB rs.
Proof.
  exists [AMake 0 (lit "cmds"); ACall 0 CSubscribe; ADropPtr 0; ADropSub (mkSub 0 0)]. do 2 eexists.
  split; [apply surjective_pairing|]. split; [|split; [reflexivity|vm_compute; tauto]].
  vm_compute. repeat split; auto; intros; discriminate.
Qed.
Print Assumptions C115_outlive_refuted.
(* and before that a Subscription of a mailbox that is gone may be taken for one
   of a mailbox made later at the same place: here it gets the message meant
   for that mailbox's only subscriber *)
Theorem C115_stale_refuted : exists (h : list (act nat)) rs w,
  lrun lnone h = (w, rs) /\ throughout possible nothing h rs /\
  h = [AMake 0 (lit "cmds"); ACall 0 CSubscribe; ADropPtr 0;
       AMake 0 (lit "data"); ACall 0 CSubscribe; ACall 0 (CPut (Some 7) None);
       ACall 0 (CGet (Some (mkSub 0 0)))] /\ nth 6 rs MUB = MOk (RMsg (Some 7)) /\ ~ In MUB rs.
Proof.
  eexists. do 2 eexists. split; [apply surjective_pairing|]. split; [|split; [reflexivity|]].
  - vm_compute. repeat split; auto; intros; try discriminate;
      match goal with H : Some _ = Some _ |- _ => injection H as <- end; auto.
  - split; [reflexivity|]. vm_compute. intuition discriminate.
Qed.
Print Assumptions C115_stale_refuted.

(* what does hold: if every mailbox outlives its subscriptions (and no null
   Subscription is used, nor unsubscribe by number), nothing goes wrong *)
Theorem C115_outlived_safe_partial : forall (M : Type) (h : list (act M)) w rs,
  lrun lnone h = (w, rs) -> throughout possible nothing h rs -> throughout careful nothing h rs ->
  (Z.of_nat (length h) < two31)%Z -> forall r, In r rs -> r <> MUB /\ r <> MTerminate.
Proof. intros M h w rs E P C L. eapply (lsafe h 0); [apply I0|exact L|exact E|exact P|exact C]. Qed.
Print Assumptions C115_outlived_safe_partial.
(* a mailbox starts afresh, whatever was there before: from its making on, as
   long as it lives, what its calls return is what the same calls return on a
   new mailbox of that name *)
Theorem C115_starts_afresh : forall (M : Type) (h1 h2 : list (act M)) a name w1 rs1 w r rs2 mb n,
  lrun lnone h1 = (w1, rs1) -> lrun w1 (AMake a name :: h2) = (w, r :: rs2) ->
  (forall name', ~ In (AMake a name') h2) -> (forall r', In r' rs2 -> r' <> MUB) -> w a = Some (mb, n) ->
  exists w', reach (fun _ => name) (map (fun p => (a, fst p)) (calls_at a h2 rs2)) (map snd (calls_at a h2 rs2)) w' /\ w' a = mb.
Proof.
  intros M h1 h2 a name w1 rs1 w r rs2 mb n _ E N NU A. cbn [lrun lexec] in E.
  destruct (lrun (lset w1 a (Some (newBox name, 1))) h2) as [w2 rs] eqn:E2. injection E as <- _ <-.
  destruct (lifetime h2 a name _ _ _ (newBox name) 1 mb n (fresh (fun _ => name)) E2 N NU (lset_same _ _ _) A eq_refl eq_refl) as (v & R & V).
  exists v. split; [|exact V]. split; [exact R|].
  intros x Hx. apply in_map_iff in Hx. destruct Hx as ([c y] & <- & Hp). cbn. apply NU.
  clear - Hp. revert rs Hp. induction h2 as [|z h2 IH]; intros [|q rs] H; cbn in H; try destruct z as [b nm|b|b|b c0|s]; try destruct H;
    try (right; apply IH; exact H);
    (destruct (Nat.eqb _ a); [destruct H as [H|H]; [left; congruence|right; apply IH; exact H]|right; apply IH; exact H]).
Qed.
Print Assumptions C115_starts_afresh.

(* a mailbox exists as long as a MailBoxPtr to it *)
Lemma ptrs_step M (k : holds) (w : lworld M) x w' r : (forall a, match w a with Some (_, n) => h_ptrs k a = n /\ 0 < n | None => h_ptrs k a = 0 end) ->
  possible k x -> lexec w x = (w', r) ->
  forall a, match w' a with Some (_, n) => h_ptrs (held_after k x r) a = n /\ 0 < n | None => h_ptrs (held_after k x r) a = 0 end.
Proof.
  intros I P E a. pose proof (I a) as Ia. destruct x as [b nm|b|b|b c|s]; cbn [lexec held_after possible] in *.
  - injection E as <- <-. unfold lset, set_ptrs. cbn. destruct (Nat.eqb a b); [auto|exact Ia].
  - specialize (I b). destruct (w b) as [[mb n]|] eqn:W; [|lia]. injection E as <- <-. unfold lset, set_ptrs. cbn. destruct (Nat.eqb a b); [lia|exact Ia].
  - specialize (I b). destruct (w b) as [[mb [|[|n]]]|] eqn:W; try lia; injection E as <- <-; unfold lset, set_ptrs; cbn; destruct (Nat.eqb a b); lia || exact Ia.
  - assert (K : h_ptrs (match c, r with CSubscribe, MOk (RSub s) => mkHolds (h_ptrs k) (s :: h_subs k) | _, _ => k end) = h_ptrs k)
      by (destruct c; try reflexivity; destruct r as [[]| | |]; reflexivity).
    assert (K' : h_ptrs (held_after k (ACall b c) r) = h_ptrs k) by (destruct c; try reflexivity; destruct r as [[]| | |]; reflexivity).
    cbn [held_after] in K'. rewrite K'. clear K K'. pose proof (I b) as Ib. destruct (w b) as [[mb n]|] eqn:W.
    + destruct (dangling w b c); [injection E as <- <-; exact Ia|]. destruct (exec1 _ b mb c) as [mb' r']. injection E as <- <-. unfold lset.
      destruct (Nat.eqb_spec a b) as [->|]; [exact Ib|exact Ia].
    + injection E as <- <-. exact Ia.
  - cbn. pose proof (I (sub_mbox s)) as Ib. destruct (w (sub_mbox s)) as [[mb n]|] eqn:W.
    + destruct (drop mb s) as [mb' r']. injection E as <- <-. unfold lset. destruct (Nat.eqb_spec a (sub_mbox s)) as [->|]; [exact Ib|exact Ia].
    + injection E as <- <-. exact Ia.
Qed.
Lemma ptrs_run M h : forall (k : holds) (w : lworld M) w' rs, (forall a, match w a with Some (_, n) => h_ptrs k a = n /\ 0 < n | None => h_ptrs k a = 0 end) ->
  throughout possible k h rs -> lrun w h = (w', rs) ->
  forall a, match w' a with Some (_, n) => h_ptrs (holding k h rs) a = n /\ 0 < n | None => h_ptrs (holding k h rs) a = 0 end.
Proof.
  induction h as [|x h IH]; intros k w w' rs I P E; cbn in E; [injection E as <- <-; exact I|].
  destruct (lexec w x) as [w1 r] eqn:E1. destruct (lrun w1 h) as [w2 rs'] eqn:E2. injection E as <- <-. destruct P as [P1 P2].
  cbn [holding]. eapply IH; [eapply ptrs_step; eassumption|exact P2|exact E2].
Qed.
(* a Subscription handed to a mailbox that is not its own is refused as long as
   its own mailbox exists (C59), and is undefined once that one is gone: the
   message of the exception asks it for its name *)
Theorem C115_foreign_subscription : forall (M : Type) (h : list (act M)) w rs a c s,
  lrun lnone h = (w, rs) -> throughout possible nothing h rs -> possible (holding nothing h rs) (ACall a c) ->
  sub_of c = Some s -> sub_mbox s <> a ->
  (0 < h_ptrs (holding nothing h rs) (sub_mbox s) ->
     exists w' e, lexec w (ACall a c) = (w', MThrow e) /\ ex_class e = SubscriptionMismatch /\ forall b, w' b = w b) /\
  (h_ptrs (holding nothing h rs) (sub_mbox s) = 0 -> snd (lexec w (ACall a c)) = MUB).
Proof.
  intros M h w rs a c s E P Pc S N. assert (I := ptrs_run M h nothing lnone w rs (fun _ => eq_refl) P E). cbn [possible] in Pc. destruct Pc as (Pa & _ & _).
  pose proof (I a) as Ia. pose proof (I (sub_mbox s)) as Is. cbn [lexec]. destruct (w a) as [[mb n]|] eqn:W; [|lia]. unfold dangling. rewrite S.
  destruct (Nat.eqb_spec (sub_mbox s) a) as [|_]; [contradiction|]. cbn [negb andb]. destruct (w (sub_mbox s)) as [[mb2 n2]|] eqn:W2.
  - split; [intros _|lia]. destruct c as [|s'|m s'|s'| |s'|j| |s']; cbn in S; try discriminate S; subst s'; cbn [exec1];
      unfold get, put, readyCount, clear, getIndex; destruct (Nat.eqb_spec (sub_mbox s) a) as [|_]; try contradiction; cbn;
      do 2 eexists; (split; [reflexivity|split; [reflexivity|]]); intros b; unfold lset; destruct (Nat.eqb_spec b a) as [->|]; auto.
  - split; [lia|intros _; reflexivity].
Qed.
Print Assumptions C115_foreign_subscription.
(* both cases happen *)
Definition life_foreign : list (act nat) :=
  [AMake 0 (lit "cmds"); AMake 1 (lit "data"); ACall 0 CSubscribe; ACall 1 (CGet (Some (mkSub 0 0))); ADropPtr 0].
Example C115_foreign_nonvacuous : let rs := snd (lrun lnone life_foreign) in
  throughout possible nothing life_foreign rs /\ possible (M := nat) (holding nothing life_foreign rs) (ACall 1 (CGet (Some (mkSub 0 0)))) /\
  h_ptrs (holding nothing life_foreign rs) 0 = 0 /\ (exists e, nth 3 rs MUB = MThrow e).
Proof.
  cbv zeta. split; [|split; [|split; [reflexivity|vm_compute; eexists; reflexivity]]]; vm_compute; repeat split; auto; intros; try discriminate;
    match goal with H : Some _ = Some _ |- _ => injection H as <- end; auto.
Qed.

(* two mailboxes one after the other at the same place, a second pointer, and
   subscriptions dropped in time *)
Definition life_demo : list (act nat) :=
  [AMake 0 (lit "cmds"); ACopyPtr 0; ACall 0 CSubscribe; ADropPtr 0; ACall 0 (CPut (Some 5) None); ADropSub (mkSub 0 0); ADropPtr 0;
   AMake 0 (lit "data"); ACall 0 CSubscribe; ACall 0 (CGet (Some (mkSub 0 0)))].
Example C115_nonvacuous : let rs := snd (lrun lnone life_demo) in
  throughout possible nothing life_demo rs /\ throughout careful nothing life_demo rs /\
  nth 9 rs MUB = MOk (RMsg None) /\
  exists w1 rs1 w rs2, lrun lnone (firstn 7 life_demo) = (w1, rs1) /\
    lrun w1 (AMake 0 (lit "data") :: skipn 8 life_demo) = (w, MOk RUnit :: rs2) /\ (exists x, w 0 = Some x) /\
    calls_at 0 (skipn 8 life_demo) rs2 = [(CSubscribe, MOk (RSub (mkSub 0 0))); (CGet (Some (mkSub 0 0)), MOk (RMsg None))].
Proof.
  cbv zeta. split; [|split; [|split; [reflexivity|]]].
  - vm_compute. repeat split; auto; intros; try discriminate;
      match goal with H : Some _ = Some _ |- _ => injection H as <- end; auto.
  - vm_compute. repeat split; auto; intros; try discriminate; contradiction.
  - do 4 eexists. split; [apply surjective_pairing|]. split; [reflexivity|]. split; [eexists; reflexivity|reflexivity].
Qed.
