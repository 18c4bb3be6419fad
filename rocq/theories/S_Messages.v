(* S_Messages.v -- what the exceptions of the library are supposed to say. *)
From Verif Require Import Base S_Num S_PropertyTree.

(* what(): the message up to the first NUL byte *)
Definition what (e : exn) : str := c_string (ex_what e).
Definition no_nul (s : str) : Prop := ~ In "000"%char s.
