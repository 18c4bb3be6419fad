(* S_MailBoxMem.v -- words used about mailboxes that run out of memory and
   about the lifetime of messages *)
From Verif Require Import Base M_MailBox S_MailBox M_MailBoxMem.

Section S.
Context {M : Type}.

(* the subscription is in use: readyCount answers *)
Definition alive (w : world M) (s : sub) : Prop :=
  exists n, answer w (sub_mbox s) (CReadyCount (Some s)) = MOk (RNum n).

(* the call takes from, asks about or gives up subscription s *)
Definition about (c : call M) (s : sub) : Prop :=
  c = CGet (Some s) \/ c = CReadyCount (Some s) \/ c = CClear (Some s) \/ c = CUnsubscribe (sub_idx s) \/ c = CDrop s.

(* x and then y are consecutive states of a run, given latest first; after are the later ones *)
Definition consecutive (states : list (rstate M)) (x y : rstate M) (after : list (rstate M)) : Prop :=
  exists before, states = after ++ y :: x :: before.

(* the operation empties a queue *)
Definition empties (op : rop M) : Prop :=
  match op with
  | RCall _ (CClear _) | RCall _ (CUnsubscribe _) | RCall _ (CDrop _) | REnd _ => True
  | _ => False
  end.

(* a get by some subscription of mailbox b would, now or later, return m *)
Definition obtainable (w : world M) (b : nat) (m : M) : Prop :=
  exists i k, nth_error (future w (mkSub b i) (S k)) k = Some (msg (Some m)).
End S.
