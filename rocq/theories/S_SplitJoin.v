(* S_SplitJoin.v -- lists of fields that survive being written in a line and
   split again. *)
From Verif Require Import Base.

(* no two spaces in a row in a field, no space at the beginning of the first
   or at the end of the last field, and the last field is not empty *)
Definition tidy (l : list str) : Prop :=
  (forall f a b, In f l -> f <> a ++ " "%char :: " "%char :: b) /\
  (forall f r, l = f :: r -> hd_error f <> Some " "%char) /\
  (forall r f, l = r ++ [f] -> f <> [] /\ hd_error (rev f) <> Some " "%char).
