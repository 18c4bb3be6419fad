(* S_TreeTypes.v -- vocabulary for C127 and C128: what a text says to PropNode::get *)
From Verif Require Import Base S_Options.

(* the text begins with the integer z *)
Definition begins_with_int (text : str) (z : Z) : Prop :=
  exists neg n, leading_int text neg n /\ z = signed_value neg n.

(* the text has characters that are not white space, but begins with no integer *)
Definition no_integer (text : str) : Prop :=
  ~ blank text /\ forall neg n, ~ leading_int text neg n.

(* the variable that held d holds v after a get that assigned o *)
Definition holds_after {A} (d : A) (o : option A) (v : A) : Prop :=
  v = match o with Some x => x | None => d end.

(* the first character that is not white space *)
Definition first_visible (text : str) (c : ascii) : Prop :=
  exists w r, text = w ++ c :: r /\ blank w /\ ~ space c.
