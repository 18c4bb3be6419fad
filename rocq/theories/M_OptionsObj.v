(* M_OptionsObj.v -- several SoDa::Options objects in one program, and copies
   of them. *)
From Verif Require Import Base M_Options.

(* Options.hxx 653-661: the members of one object.  Both maps hold
   std::shared_ptr<OptBase>, so what they point to -- and with it the member
   OptBase::present (Options.hxx 463) -- is not part of the object. *)
Record part := mkPart {
  q_long : list (str * opt); q_ab : list (ascii * opt); q_info : list str;
  q_pos : list str; q_kvp : bool; q_wfs : bool }.

(* the objects in order of creation, and what they share: the OptBase objects (Options.hxx 455),
   the variables of the program, std::cerr *)
Record world := mkWorld {
  w_parts : list part; w_next : nat; w_present : nat -> bool;
  w_mem : nat -> val; w_vmem : nat -> list val; w_cerr : str }.

(* what the member functions of one object work on (bookkeeping of the model) *)
Definition view_part (w : world) (q : part) : st :=
  mkSt (q_long q) (q_ab q) (q_info q) (q_pos q) (q_kvp q) (q_wfs q)
       (w_next w) (w_present w) (w_mem w) (w_vmem w) (w_cerr w).
(* the same for object i (bookkeeping) *)
Definition view (w : world) (i : nat) : option st := option_map (view_part w) (nth_error (w_parts w) i).
(* its own members, Options.hxx 653-661 (bookkeeping) *)
Definition part_of (s : st) : part :=
  mkPart (long_map s) (ab_map s) (info_list s) (pos_arg_vec s) (is_kvp s) (waiting_for_signed s).
(* object i changed (bookkeeping) *)
Fixpoint set_part (l : list part) (i : nat) (q : part) : list part :=
  match l, i with
  | [], _ => []
  | _ :: r, O => q :: r
  | x :: r, S j => x :: set_part r j q
  end.
(* the world after a member function left object i in state s (bookkeeping) *)
Definition back (w : world) (i : nat) (s : st) : world :=
  mkWorld (set_part (w_parts w) i (part_of s)) (next_id s) (present s) (mem s) (vmem s) (cerr s).

(* Options.cxx 42-45 *)
Definition w_new (w : world) (kvp : bool) : world :=
  mkWorld (w_parts w ++ [mkPart [] [] [] [] kvp false]) (w_next w) (w_present w) (w_mem w) (w_vmem w) (w_cerr w).
(* the implicit copy constructor: Options.hxx 653-661 member by member *)
Definition w_copy (w : world) (q : part) : world :=
  mkWorld (w_parts w ++ [q]) (w_next w) (w_present w) (w_mem w) (w_vmem w) (w_cerr w).
(* implicit copy assignment, Options.hxx 653-661 *)
Definition w_assign (w : world) (i : nat) (q : part) : world :=
  mkWorld (set_part (w_parts w) i q) (w_next w) (w_present w) (w_mem w) (w_vmem w) (w_cerr w).
(* the program assigns to its own variables (no line of /repo) *)
Definition w_vars (w : world) (m : nat -> val) (vm : nat -> list val) : world :=
  mkWorld (w_parts w) (w_next w) (w_present w) m vm (w_cerr w).
