(* P_Dump.v -- property theorems: the text printed by PropertyTree::dump. *)
From Coq Require Import Permutation.
From Verif Require Import Base M_PropertyTree S_PropertyTree S_Dump L_PropertyTreeP C_PropertyTree L_Dump.

(* ---- C110: dump prints exactly what has been loaded ---- *)
Theorem C110_dump_exact : forall nk l, exists t, dump (tree nk l) = Ok t /\ shown nk [] (loaded nk l) t.
Proof. exact c110. Qed.
Print Assumptions C110_dump_exact.
(* the specification admits one text only *)
Theorem C110_picture_unique : forall nk ind ps t u, shown nk ind ps t -> shown nk ind ps u -> t = u.
Proof. exact c110_unique. Qed.
Print Assumptions C110_picture_unique.
(* trees with the same content look the same, however they came about *)
Theorem C110_same_content : forall nk l1 l2, same_content nk (loaded nk l1) (loaded nk l2) ->
  dump (tree nk l1) = dump (tree nk l2).
Proof. exact c110_same. Qed.
Print Assumptions C110_same_content.
(* in particular the order of the entries of a mapping does not show *)
Theorem C110_entry_order : forall nk es1 es2, Permutation es1 es2 -> maps_scalars (YMap es1) -> readable nk (YMap es1) ->
  NoDup (map (fun e : ynode * ynode => as_string nk (fst e)) es1) ->
  dump (tree nk [Loaded (YMap es1)]) = dump (tree nk [Loaded (YMap es2)]).
Proof. exact c110_order. Qed.
Print Assumptions C110_entry_order.

Definition entry_a := (YScalar (lit "a"), YMap [(YScalar (lit "b"), YScalar (lit "7"))]).
Definition entry_c := (YScalar (lit "c"), YScalar (lit "5")).
Example C110_nonvacuous :
  Permutation [entry_a; entry_c] [entry_c; entry_a] /\ maps_scalars (YMap [entry_a; entry_c]) /\
  readable None (YMap [entry_a; entry_c]) /\ NoDup (map (fun e : ynode * ynode => as_string None (fst e)) [entry_a; entry_c]) /\
  dump (tree None [Loaded (YMap [entry_c; entry_a])]) =
    Ok (lit "<<<DICTIONARY>>>" ++ nl ++ lit "a:  " ++ nl ++ lit "<<<DICTIONARY>>>" ++ nl ++ lit "  b:  7" ++ nl ++ lit "c:  5" ++ nl) /\
  dump (tree None [Loaded (YMap [(YScalar (lit "s"), YSeq [YScalar (lit "y"); YScalar (lit "x")]); entry_c])]) =
    Ok (lit "<<<PROPLIST>>>" ++ nl ++ lit "y" ++ nl ++ lit "x" ++ nl ++ lit "<<<DICTIONARY>>>" ++ nl ++ lit "c:  5" ++ nl).
Proof.
  split; [apply perm_swap|]. split.
  { constructor. intros k v [E|[E|[]]]; injection E as <- <-; repeat constructor. intros k v [E|[]]; injection E as <- <-; constructor. }
  split; [apply readable_iff; reflexivity|]. split.
  { repeat constructor; cbn; intuition discriminate. }
  split; reflexivity.
Qed.
