(* P_Convert.v -- C114: MailBoxBase::convert. *)
From Verif Require Import Base M_MailBox P_Messages.

(* A: the mailbox objects; type_of: the class of each; name_of: its name;
   tyname: how a type's name is written in messages; base_ty: how that of the
   argument (a pointer to MailBoxBase) is. *)

(* it is the mailbox itself that comes back, exactly when it is of the wanted type *)
Theorem C114_convert_gives_same : forall (A : Type) (type_of : A -> nat) name_of tyname base_ty T x y,
  convert type_of name_of tyname base_ty T (Some x) = Ok y <-> type_of x = T /\ y = x.
Proof.
  intros A type_of name_of tyname base_ty T x y. unfold convert. destruct (Nat.eqb_spec (type_of x) T) as [E|E]; split.
  - intros [= <-]. auto.
  - intros [_ ->]. reflexivity.
  - discriminate.
  - intros [E2 _]. contradiction.
Qed.
Print Assumptions C114_convert_gives_same.

(* any other mailbox is refused, with a message naming it and the wanted type *)
Theorem C114_convert_refuses : forall (A : Type) (type_of : A -> nat) name_of tyname base_ty T x,
  type_of x <> T ->
  exists e, convert type_of name_of tyname base_ty T (Some x) = Throw e /\ ex_class e = BadConversion /\
    ex_what e = lit "SoDa::MailBox[" ++ name_of x ++ lit "] MailBoxBase::convert attempted to promote from " ++ base_ty ++
                lit " to " ++ tyname T ++ lit ". That isn't right." ++ ["010"%char].
Proof.
  intros A type_of name_of tyname base_ty T x N. unfold convert. destruct (Nat.eqb_spec (type_of x) T) as [E|_]; [contradiction|].
  eexists. split; [reflexivity|]. split; [reflexivity|]. destruct C79_texts_partial as (_ & _ & _ & _ & H & _). exact (H _ _ _).
Qed.
Print Assumptions C114_convert_refuses.

(* REFUTED: that the message tells what the mailbox was promoted from.  Two
   mailboxes of different types, alike in name, get the same message. *)
Theorem C114_source_type_refuted : forall (A : Type) (type_of : A -> nat) name_of tyname base_ty T x y,
  name_of x = name_of y -> type_of x <> T -> type_of y <> T ->
  convert type_of name_of tyname base_ty T (Some x) = convert type_of name_of tyname base_ty T (Some y).
Proof.
  intros A type_of name_of tyname base_ty T x y E Nx Ny. unfold convert.
  destruct (Nat.eqb_spec (type_of x) T); [contradiction|]. destruct (Nat.eqb_spec (type_of y) T); [contradiction|]. rewrite E. reflexivity.
Qed.
Print Assumptions C114_source_type_refuted.

(* mailboxes given by name and type: a mailbox of strings (7), asked for as one
   of strings and as one of numbers (8) *)
Example C114_nonvacuous : let box := (lit "log", 7) in
  convert snd fst (fun n => if Nat.eqb n 7 then lit "S" else lit "N") (lit "B") 7 (Some box) = Ok box /\
  exists e, convert snd fst (fun n => if Nat.eqb n 7 then lit "S" else lit "N") (lit "B") 8 (Some box) = Throw e /\
    ex_what e = lit "SoDa::MailBox[log] MailBoxBase::convert attempted to promote from B to N. That isn't right." ++ ["010"%char].
Proof. split; [reflexivity|]. eexists. split; [reflexivity|]. vm_compute. reflexivity. Qed.
