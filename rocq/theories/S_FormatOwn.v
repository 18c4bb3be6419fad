(* S_FormatOwn.v -- what a call in a chain on a MyFormat is to put into the next
   field: a library call its text, addSBW its string backwards. *)
From Verif Require Import Base M_FormatOwn.

Definition own_text (c : own_call) : str := match c with OLib t => t | OSBW v => rev v end.
