(* S_MailBoxConc.v -- what it means for an interleaved execution to be
   equivalent to a sequential one *)
From Verif Require Import Base M_MailBox M_MailBoxConc.

Section S.
Context {M : Type}.

(* the calls a thread made, and the results it saw, in order *)
Definition calls_of (t : nat) (tr : list (ev M)) : list (nat * call M) :=
  flat_map (fun e => match e with Inv t' b c => if Nat.eqb t' t then [(b, c)] else [] | Ret _ _ => [] end) tr.
Definition rets_of (t : nat) (tr : list (ev M)) : list (mret M) :=
  flat_map (fun e => match e with Ret t' r => if Nat.eqb t' t then [r] else [] | Inv _ _ _ => [] end) tr.

(* a sequential order: which thread makes which call *)
Definition order := list (nat * (nat * call M)).
Definition of_t (t : nat) {A} (l : list (nat * A)) : list A :=
  flat_map (fun '(t', x) => if Nat.eqb t' t then [x] else []) l.

Definition prefix {A} (a b : list A) : Prop := exists c, b = a ++ c.

(* rs are the results of the calls in that order, run one at a time *)
Definition sequential names (o : order) (w : world M) (rs : list (nat * mret M)) : Prop :=
  run (fresh names) (map snd o) = (w, map snd rs) /\ map fst rs = map fst o.

(* every call takes effect between its invocation and its return: at any
   moment the calls already returned are in the first part of the order, and
   the first part has only calls already invoked *)
Definition respects_time (tr : list (ev M)) (o : order) : Prop :=
  forall tr1 tr2, tr = tr1 ++ tr2 -> exists o1 o2, o = o1 ++ o2 /\
    forall t, length (rets_of t tr1) <= length (of_t t o1) <= length (calls_of t tr1).
End S.
