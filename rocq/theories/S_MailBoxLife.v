(* S_MailBoxLife.v -- programs that make and destroy mailboxes: what the language
   guarantees, and what the programmer has to see to. *)
From Verif Require Import Base M_MailBox M_MailBoxLife.

Section S.
Context {M : Type}.

(* what the program holds: a MailBoxPtr count for each address, and the
   subscriptions that have not been dropped *)
Record holds := mkHolds { h_ptrs : nat -> nat; h_subs : list sub }.
Definition nothing : holds := mkHolds (fun _ => 0) [].
Definition set_ptrs (p : nat -> nat) (a n : nat) : nat -> nat := fun a' => if Nat.eqb a' a then n else p a'.
Definition same_sub (s s' : sub) : bool := Nat.eqb (sub_mbox s) (sub_mbox s') && (sub_idx s =? sub_idx s')%Z.

(* what it holds after an action with that result *)
Definition held_after (k : holds) (x : act M) (r : mret M) : holds :=
  match x, r with
  | AMake a _, _ => mkHolds (set_ptrs (h_ptrs k) a 1) (h_subs k)
  | ACopyPtr a, _ => mkHolds (set_ptrs (h_ptrs k) a (S (h_ptrs k a))) (h_subs k)
  | ADropPtr a, _ => mkHolds (set_ptrs (h_ptrs k) a (pred (h_ptrs k a))) (h_subs k)
  | ACall _ CSubscribe, MOk (RSub s) => mkHolds (h_ptrs k) (s :: h_subs k)
  | ACall _ _, _ => k
  | ADropSub s, _ => mkHolds (h_ptrs k) (filter (fun s' => negb (same_sub s s')) (h_subs k))
  end.

(* the language and the allocator see to these: memory in use is not handed
   out; pointers are used while they exist; a Subscription that is used or
   dropped exists *)
Definition possible (k : holds) (x : act M) : Prop :=
  match x with
  | AMake a _ => h_ptrs k a = 0
  | ACopyPtr a | ADropPtr a => 0 < h_ptrs k a
  | ACall a c => 0 < h_ptrs k a /\ (forall s, c <> CDrop s) /\ forall s, sub_of c = Some s -> In s (h_subs k)
  | ADropSub s => In s (h_subs k)
  end.
(* the programmer has to see to these: no null Subscription where one is
   needed, no unsubscribe by number, and no mailbox goes before its
   subscriptions *)
Definition careful (k : holds) (x : act M) : Prop :=
  match x with
  | ACall _ (CGet None) | ACall _ (CReadyCount None) | ACall _ (CClear None) | ACall _ (CUnsubscribe _) => False
  | ADropPtr a => h_ptrs k a = 1 -> forall s, In s (h_subs k) -> sub_mbox s <> a
  | _ => True
  end.

(* every action of a history with these results is such *)
Fixpoint throughout (P : holds -> act M -> Prop) (k : holds) (h : list (act M)) (rs : list (mret M)) : Prop :=
  match h, rs with
  | x :: h', r :: rs' => P k x /\ throughout P (held_after k x r) h' rs'
  | _, _ => True
  end.

(* what the program holds after a history with these results *)
Fixpoint holding (k : holds) (h : list (act M)) (rs : list (mret M)) : holds :=
  match h, rs with
  | x :: h', r :: rs' => holding (held_after k x r) h' rs'
  | _, _ => k
  end.

(* the calls made on the mailbox at address a (drops of its subscriptions
   among them), with their results *)
Fixpoint calls_at (a : nat) (h : list (act M)) (rs : list (mret M)) : list (call M * mret M) :=
  match h, rs with
  | ACall a' c :: h', r :: rs' => if Nat.eqb a' a then (c, r) :: calls_at a h' rs' else calls_at a h' rs'
  | ADropSub s :: h', r :: rs' => if Nat.eqb (sub_mbox s) a then (CDrop s, r) :: calls_at a h' rs' else calls_at a h' rs'
  | _ :: h', _ :: rs' => calls_at a h' rs'
  | _, _ => []
  end.
End S.
