(* L_Seq.v -- sequences of states and of numbers *)
From Coq Require Import Classical_Prop.
From Verif Require Import Base.

Lemma first_change (Q : nat -> Prop) n m : n <= m -> Q n -> ~ Q m -> exists j, n <= j < m /\ Q j /\ ~ Q (S j).
Proof.
  intros H. induction H as [|m H IH]; intros A B; [contradiction|].
  destruct (classic (Q m)) as [C|C]; [exists m; auto|]. destruct (IH A C) as (j & D & F). exists j. split; [lia|exact F].
Qed.
Lemma settles (s : nat -> nat) B : (forall n, s n <= s (S n)) -> (forall n, s n <= B) -> exists N, forall n, N <= n -> s n = s N.
Proof.
  intros HM HB.
  assert (MO : forall n m, n <= m -> s n <= s m) by (intros n m H; induction H as [|m H IH]; [lia|specialize (HM m); lia]).
  assert (G : forall d N, B - s N <= d -> exists N, forall n, N <= n -> s n = s N).
  { induction d as [|d IH]; intros N H.
    - exists N. intros n Hn. specialize (MO N n Hn). specialize (HB n). lia.
    - destruct (classic (forall n, N <= n -> s n = s N)) as [A|A]; [eauto|].
      apply NNPP. intros C. apply A. intros n Hn. apply NNPP. intros D. apply C. apply (IH n). specialize (MO N n Hn). lia. }
  exact (G _ 0 (le_n _)).
Qed.
Lemma common (P : nat -> nat -> Prop) T : (forall t n m, n <= m -> P t n -> P t m) -> (forall t, t < T -> exists n, P t n) ->
  exists n, forall t, t < T -> P t n.
Proof.
  intros MO. induction T as [|T IH]; intros H; [exists 0; intros t Ht; lia|].
  destruct IH as (n & A); [intros t Ht; apply H; lia|]. destruct (H T (le_n _)) as (m & B). exists (Nat.max n m). intros t Ht.
  destruct (Nat.eq_dec t T) as [->|D]; [eapply MO, B; lia|eapply MO; [|apply A; lia]; lia].
Qed.
