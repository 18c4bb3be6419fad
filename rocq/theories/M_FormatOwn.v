(* M_FormatOwn.v -- a class that extends Format with a method of its own: the
   class MyFormat of examples/FormatExample.cxx. *)
From Verif Require Import Base M_Format M_FormatExt.

(* FormatExample.cxx 18-21: rv = c + rv for the characters from left to right *)
Definition backwards (v : str) : str := fold_left (fun rv c => c :: rv) v [].

(* a call in a chain on a MyFormat: one of the library's addX, known by the text
   it inserts (Format.hxx 585-615), or addSBW (FormatExample.cxx 17) *)
Inductive own_call := OLib (t : str) | OSBW (v : str).

(* One call through a MyFormat & to the object i: the memory and the object the
   returned MyFormat & refers to.  FormatExample.cxx 22-23: addSBW calls addS
   with width 0 on its own object, drops what that returns, returns *this. *)
Definition do_own (im : ctype_impl) (m : mem) (i : nat) (c : own_call) : outcome (mem * nat) :=
  match c with
  | OLib t => do x <- do_call im m i true (KAdd t); let '(m', j, _) := x in Ok (m', j)
  | OSBW v =>
    do t <- addS_text (backwards v) 0;
    do x <- do_call im m i true (KAdd t);
    let '(m', _, _) := x in Ok (m', i)
  end.
(* o_i.addX(..).addSBW(..)...: each call on what the one before returned
   (FormatExample.cxx 29, 45-48).  The object the last reference is to is
   what << prints. *)
Fixpoint own_chain (im : ctype_impl) (m : mem) (i : nat) (cs : list own_call) : outcome (mem * nat) :=
  match cs with
  | [] => Ok (m, i)
  | c :: r => do x <- do_own im m i c; let '(m', j) := x in own_chain im m' j r
  end.
