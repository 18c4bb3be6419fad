(* S_TreeObj.v -- what a program with several trees should see: every object
   belongs to a family; a family is the list of the files read into it. *)
From Verif Require Import Base M_PropertyTree M_TreeObj.

(* for every family the files read so far, in order; for every object its family (None: destroyed) *)
Record fam := mkF { f_read : list (list load_result); f_objs : list (option nat) }.
Definition family (f : fam) (i : nat) : option nat :=
  match nth_error (f_objs f) i with Some (Some r) => Some r | _ => None end.
Definition files (f : fam) (i : nat) : option (list load_result) :=
  match family f i with Some r => nth_error (f_read f) r | None => None end.
Fixpoint add_to (l : list (list load_result)) (i : nat) (r : load_result) : list (list load_result) :=
  match l, i with
  | [], _ => []
  | x :: t, O => (x ++ [r]) :: t
  | x :: t, S j => x :: add_to t j r
  end.
(* new objects found a family, copies join that of the original, assignment
   moves an object to another family; what is read goes to the whole family.
   [ok]: did the constructor succeed *)
Definition fdo (f : fam) (o : top) (ok : bool) : fam :=
  match o with
  | TNew => mkF (f_read f ++ [[]]) (f_objs f ++ [Some (length (f_read f))])
  | TOpen r => mkF (f_read f ++ [[r]]) (if ok then f_objs f ++ [Some (length (f_read f))] else f_objs f)
  | TCopy i => mkF (f_read f) (f_objs f ++ [family f i])
  | TAssign i j => mkF (f_read f) (put_nth (f_objs f) i (family f j))
  | TRead i r => match family f i with Some k => mkF (add_to (f_read f) k r) (f_objs f) | None => f end
  | TEnd i => mkF (f_read f) (put_nth (f_objs f) i None)
  end.
Fixpoint frun (f : fam) (p : list top) (es : list (option exn)) : fam :=
  match p, es with
  | o :: r, e :: es => frun (fdo f o (match e with None => true | Some _ => false end)) r es
  | _, _ => f
  end.
Definition no_objects : fam := mkF [] [].
(* programs without copies *)
Definition plain (o : top) : Prop := match o with TCopy _ | TAssign _ _ => False | _ => True end.
