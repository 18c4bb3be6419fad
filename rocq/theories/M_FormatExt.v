(* M_FormatExt.v -- SoDa::Format_ext<T> as objects in memory: what a call
   returns is the object its saved pointer points to, so copies matter. *)
From Verif Require Import Base M_Format.

(* Format.hxx 525-554: a Format is its segment list, original text and argument
   number, all copied by the implicit copy constructor and assignment.
   Format.hxx 565-618: a Format_ext<T> adds saved_ptr, which the implicit copy
   constructor and assignment copy as it is.  An object is known by its place
   in the memory; saved_ptr is such a place. *)
Inductive obj := OPlain (f : fmt) | OExt (f : fmt) (saved : nat).
(* the Format part of an object (Format.hxx 565: Format_ext is derived from Format) *)
Definition o_fmt (o : obj) : fmt := match o with OPlain f => f | OExt f _ => f end.
(* its Format part changed (bookkeeping) *)
Definition o_set (o : obj) (f : fmt) : obj :=
  match o with OPlain _ => OPlain f | OExt _ p => OExt f p end.

(* the program's memory; None: the object was destroyed (no line of /repo) *)
Definition mem := list (option obj).
(* the object at place i, if there is one (bookkeeping) *)
Definition look (m : mem) (i : nat) : option obj :=
  match nth_error m i with Some (Some o) => Some o | _ => None end.
(* place i changed (bookkeeping) *)
Fixpoint store (m : mem) (i : nat) (o : option obj) : mem :=
  match m, i with
  | [], _ => []
  | _ :: r, O => o :: r
  | x :: r, S j => x :: store r j o
  end.

(* the calls of a chain: an addX that inserts the text t, or reset (Format.cxx 144-555) *)
Inductive call := KAdd (t : str) | KReset.

(* One call through a reference to the object i.  ext: the static type of the
   reference is the derived class, so that the shadowing addX of Format_ext is
   called.  Returns the memory and the reference returned.
   Format.cxx 144-536: every Format::addX returns *this.
   Format.hxx 585-615: every Format_ext::addX returns *saved_ptr; forming that
   reference when the object is gone is undefined.
   Format.cxx 551-555: reset is not shadowed; it returns a Format &. *)
Definition do_call (im : ctype_impl) (m : mem) (i : nat) (ext : bool) (c : call)
  : outcome (mem * nat * bool) :=
  match look m i with
  | None => UB
  | Some o =>
    match c with
    | KAdd t =>
      let m' := store m i (Some (o_set o (insertField (o_fmt o) t))) in
      match ext, o with
      | true, OExt _ p => match look m' p with Some _ => Ok (m', p, true) | None => UB end
      | _, _ => Ok (m', i, ext)
      end
    | KReset =>
      do f <- reset im (o_fmt o);
      Ok (store m i (Some (o_set o f)), i, false)
    end
  end.

(* o.addX(..).addX(..)...: each call through the reference the one before returned *)
Fixpoint do_chain (im : ctype_impl) (m : mem) (i : nat) (ext : bool) (cs : list call) : outcome mem :=
  match cs with
  | [] => Ok m
  | c :: r => do x <- do_call im m i ext c; let '(m', j, e) := x in do_chain im m' j e r
  end.

(* the static type of a named object (bookkeeping) *)
Definition is_ext (o : obj) : bool := match o with OExt _ _ => true | OPlain _ => false end.

(* what a program does with its formatters; new objects get the next place *)
Inductive stmt :=
| MakeExt (s : str)              (* MyFormat x(s);  -- FormatExample.cxx 14 passes this *)
| MakePlain (s : str)            (* Format x(s); *)
| CopyOf (i : nat)               (* auto x = o_i; *)
| SliceOf (i : nat)              (* Format x(o_i); *)
| Assign (i j : nat)             (* o_i = o_j;  when only o_i is a MyFormat this does not
                                    compile, and stands for (Format &) o_i = o_j; *)
| End (i : nat)                  (* o_i goes out of scope *)
| Chain (i : nat) (cs : list call).  (* o_i.addX(..).addX(..)...; *)

(* one statement; Format.hxx 576-578 and Format.cxx 52-59 for the constructors *)
Definition step (im : ctype_impl) (m : mem) (s : stmt) : outcome mem :=
  match s with
  | MakeExt t => do f <- newFormat im t; Ok (m ++ [Some (OExt f (length m))])
  | MakePlain t => do f <- newFormat im t; Ok (m ++ [Some (OPlain f)])
  | CopyOf i => match look m i with Some o => Ok (m ++ [Some o]) | None => UB end
  | SliceOf i => match look m i with Some o => Ok (m ++ [Some (OPlain (o_fmt o))]) | None => UB end
  | Assign i j =>
    match look m i, look m j with
    | Some (OExt _ _), Some (OExt g p) => Ok (store m i (Some (OExt g p)))
    | Some o, Some o' => Ok (store m i (Some (o_set o (o_fmt o'))))
    | _, _ => UB
    end
  | End i => match look m i with Some _ => Ok (store m i None) | None => UB end
  | Chain i cs =>
    match look m i with Some o => do_chain im m i (is_ext o) cs | None => UB end
  end.
(* a program, statement by statement *)
Fixpoint run (im : ctype_impl) (m : mem) (p : list stmt) : outcome mem :=
  match p with
  | [] => Ok m
  | s :: r => do m' <- step im m s; run im m' r
  end.

(* x.str(check) (Format.cxx 558-579) *)
Definition text_of (m : mem) (i : nat) (check : bool) : outcome str :=
  match look m i with Some o => fmt_str (o_fmt o) check | None => UB end.
