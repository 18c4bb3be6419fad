(* M_MailBoxLife.v -- mailboxes that are made and destroyed while subscriptions
   exist (include/MailBox.hxx).  A mailbox lives at an address, as long as some
   MailBoxPtr (std::shared_ptr) refers to it; a Subscription has a raw pointer
   to it (270-297).  Addresses of destroyed mailboxes may be used again. *)
From Verif Require Import Base M_MailBox.

Section Life.
Context {M : Type}.

(* at each address: the mailbox there, and how many MailBoxPtr (460) refer to it *)
Definition lworld := nat -> option (mbox M * nat).
(* no mailbox yet (bookkeeping) *)
Definition lnone : lworld := fun _ => None.
(* what is at address a changed (bookkeeping) *)
Definition lset (w : lworld) (a : nat) (x : option (mbox M * nat)) : lworld :=
  fun a' => if Nat.eqb a' a then x else w a'.

(* what a program does, lines of MailBox.hxx *)
Inductive act :=
| AMake (a : nat) (name : str)       (* makeMailBox 455-458; a is where make_shared put it *)
| ACopyPtr (a : nat)                 (* a further MailBoxPtr to the mailbox at a *)
| ADropPtr (a : nat)                 (* one of them goes; the last one destroys the mailbox, 263-268 *)
| ACall (a : nat) (c : call M)       (* a call through a MailBoxPtr; c is not CDrop *)
| ADropSub (s : sub).                (* ~SubscriptionCl, 278-280: through this_mbox *)

(* the subscription handed to a call (327, 350, 370, 404) *)
Definition sub_of (c : call M) : option sub :=
  match c with CGet s | CPut _ s | CReadyCount s | CClear s => s | _ => None end.
(* getName(), 231 *)
Definition lnames (w : lworld) (a : nat) : str := match w a with Some (mb, _) => mb_name mb | None => [] end.
(* getIndex (282-289) reads the name of the subscription's own mailbox if that
   is another one *)
Definition dangling (w : lworld) (a : nat) (c : call M) : bool :=
  match sub_of c with
  | Some s => negb (Nat.eqb (sub_mbox s) a) && match w (sub_mbox s) with None => true | Some _ => false end
  | None => false
  end.

(* one such action; lines as at act *)
Definition lexec (w : lworld) (x : act) : lworld * mret M :=
  match x with
  | AMake a name => (lset w a (Some (newBox name, 1)), MOk RUnit)
  | ACopyPtr a =>
    match w a with
    | Some (mb, n) => (lset w a (Some (mb, S n)), MOk RUnit)
    | None => (w, MUB)
    end
  | ADropPtr a =>
    match w a with
    | Some (mb, S (S n)) => (lset w a (Some (mb, S n)), MOk RUnit)
    | Some (mb, _) => (lset w a None, MOk RUnit)
    | None => (w, MUB)
    end
  | ACall a c =>
    match w a with
    | Some (mb, n) => if dangling w a c then (w, MUB)
                      else let '(mb', r) := exec1 (lnames w) a mb c in (lset w a (Some (mb', n)), r)
    | None => (w, MUB)
    end
  | ADropSub s =>
    match w (sub_mbox s) with
    | Some (mb, n) => let '(mb', r) := drop mb s in (lset w (sub_mbox s) (Some (mb', n)), r)
    | None => (w, MUB)
    end
  end.

(* a history of them (bookkeeping) *)
Fixpoint lrun (w : lworld) (h : list act) : lworld * list (mret M) :=
  match h with
  | [] => (w, [])
  | x :: h' => let '(w1, r) := lexec w x in let '(w2, rs) := lrun w1 h' in (w2, r :: rs)
  end.
End Life.
Arguments lworld : clear implicits.
Arguments act : clear implicits.
