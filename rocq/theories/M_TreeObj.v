(* M_TreeObj.v -- several SoDa::PropertyTreeYAML objects in one program, copies
   of them, and their end. *)
From Verif Require Import Base M_PropertyTree.

(* PropertyTree.hxx 264: the only member of an object is the raw pointer root.
   t_heaps: for every root ever allocated, the nodes allocated under it; nodes
   under different roots have nothing in common.  t_objs: the objects in order
   of creation, with the root each points to; None once destroyed.  The library
   never deletes a node: there is no destructor, and the implicit one leaves
   what a raw pointer points to alone. *)
Record tworld := mkT { t_heaps : list heap; t_objs : list (option nat) }.
(* no object yet (bookkeeping of the model) *)
Definition t_none : tworld := mkT [] [].

(* entry i of a list replaced (bookkeeping) *)
Fixpoint put_nth {A} (l : list A) (i : nat) (x : A) : list A :=
  match l, i with
  | [], _ => []
  | _ :: r, O => x :: r
  | y :: r, S j => y :: put_nth r j x
  end.
(* the root (PropertyTree.hxx 264) of a living object *)
Definition root_of (w : tworld) (i : nat) : option nat :=
  match nth_error (t_objs w) i with Some (Some r) => Some r | _ => None end.
(* the tree one sees through object i (PropertyTree.hxx 130-140) *)
Definition tree_of (w : tworld) (i : nat) : option heap :=
  match root_of w i with Some r => nth_error (t_heaps w) r | None => None end.

Inductive top :=
| TNew                                  (* PropertyTreeYAML.cxx 36-38, PropertyTree.cxx 36-38 *)
| TOpen (r : load_result)               (* PropertyTreeYAML.cxx 40-42: constructor with a file name *)
| TCopy (i : nat)                       (* implicit copy (and move) constructor: copies the pointer *)
| TAssign (i j : nat)                   (* implicit assignment: object i = object j *)
| TRead (i : nat) (r : load_result)     (* readFile *)
| TEnd (i : nat).                       (* the object is destroyed *)

(* one statement: the new world and the exception that leaves it; None: the
   statement uses an object that does not exist.  When the constructor throws
   there is no object, but its base part has already allocated the root. *)
Definition tdo (nk : option str) (w : tworld) (o : top) : option (tworld * option exn) :=
  match o with
  | TNew => Some (mkT (t_heaps w ++ [new_tree]) (t_objs w ++ [Some (length (t_heaps w))]), None)
  | TOpen r =>
    let '(h, e) := readFile nk new_tree r in
    Some (mkT (t_heaps w ++ [h]) (match e with None => t_objs w ++ [Some (length (t_heaps w))] | Some _ => t_objs w end), e)
  | TCopy i => match root_of w i with Some r => Some (mkT (t_heaps w) (t_objs w ++ [Some r]), None) | None => None end
  | TAssign i j =>
    match root_of w i, root_of w j with
    | Some _, Some r => Some (mkT (t_heaps w) (put_nth (t_objs w) i (Some r)), None)
    | _, _ => None
    end
  | TRead i r =>
    match root_of w i with
    | Some k => match nth_error (t_heaps w) k with
                | Some h => let '(h', e) := readFile nk h r in Some (mkT (put_nth (t_heaps w) k h') (t_objs w), e)
                | None => None
                end
    | None => None
    end
  | TEnd i => match root_of w i with Some _ => Some (mkT (t_heaps w) (put_nth (t_objs w) i None), None) | None => None end
  end.
(* a program whose exceptions are caught statement by statement; the exceptions (bookkeeping) *)
Fixpoint trun (nk : option str) (w : tworld) (p : list top) : option (tworld * list (option exn)) :=
  match p with
  | [] => Some (w, [])
  | o :: r => match tdo nk w o with
              | Some (w1, e) => match trun nk w1 r with Some (w2, es) => Some (w2, e :: es) | None => None end
              | None => None
              end
  end.
