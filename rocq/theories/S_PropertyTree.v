(* S_PropertyTree.v -- what a property tree holds and what a YAML document
   puts into it, stated with the public members of PropNode (dictionary,
   prop_list, val_string, is_terminal, parent) and the document alone. *)
From Verif Require Import Base S_Split M_StreamIn M_PropertyTree.

(* ---- trees ---- *)
(* from node n, the dictionary keys ks lead to node m *)
Inductive follows (h : heap) : nat -> list str -> nat -> Prop :=
| F_here n : n < length h -> follows h n [] n
| F_key n x k m ks q :
    nth_error h n = Some x -> In (k, m) (n_dict x) -> follows h m ks q ->
    follows h n (k :: ks) q.

(* n is a terminal node whose value text is s *)
Definition terminal_with (h : heap) (n : nat) (s : str) : Prop :=
  exists x, nth_error h n = Some x /\ n_term x = true /\ n_val x = s.
(* n is not a terminal node *)
Definition branch (h : heap) (n : nat) : Prop :=
  exists x, nth_error h n = Some x /\ n_term x = false.

(* the components of a path name: runs of spaces collapsed, cut at ':' *)
Definition path_keys (p : str) : list str :=
  drop_last_empty (fields (In_delims (lit ":")) (join (lit " ") (words p))).
(* a key that can be written in a path name *)
Definition plain_key (k : str) : Prop :=
  k <> [] /\ ~ In ":"%char k /\ ~ In " "%char k.

Definition contains (t u : str) : Prop := exists a b, t = a ++ u ++ b.

Fixpoint spaces (n : nat) : str := match n with O => [] | S k => lit "  " ++ spaces k end.

(* strictly ascending byte order *)
Inductive ascending : list str -> Prop :=
| A_nil : ascending []
| A_one k : ascending [k]
| A_cons a b l : str_compare a b = Lt -> ascending (b :: l) -> ascending (a :: b :: l).

(* ---- documents of mappings and scalars ---- *)
Inductive maps_scalars : ynode -> Prop :=
| MS_scalar s : maps_scalars (YScalar s)
| MS_map es : (forall k v, In (k, v) es -> maps_scalars v) -> maps_scalars (YMap es).

(* the value of the last entry with key text k *)
Fixpoint last_entry (nk : option str) (k : str) (es : list (ynode * ynode)) : option ynode :=
  match es with
  | [] => None
  | (key, v) :: r =>
    match last_entry nk k r with
    | Some w => Some w
    | None => match as_string nk key with
              | Some t => if str_eqb t k then Some v else None
              | None => None
              end
    end
  end.

(* the part of the document under the keys ks *)
Fixpoint at_path (nk : option str) (d : ynode) (ks : list str) : option ynode :=
  match ks with
  | [] => Some d
  | k :: r => match d with
              | YMap es => match last_entry nk k es with
                           | Some v => at_path nk v r
                           | None => None
                           end
              | _ => None
              end
  end.

(* ---- arbitrary documents ---- *)
(* What loading a document into a node adds to it, in order: named entries
   (the value is a scalar or a mapping) and list items.  The flag tells whether
   the document is read to its end; if not, loading stops there with an
   exception. *)
Inductive piece := PKey (k : str) (v : ynode) | PItem (s : str).

Definition then_ {A} (f : A -> list piece * bool) : list A -> list piece * bool :=
  fix go (l : list A) : list piece * bool :=
    match l with
    | [] => ([], true)
    | x :: r => let '(a, ok) := f x in
                if ok then let '(b, ok2) := go r in (a ++ b, ok2) else (a, false)
    end.

Fixpoint contribution (nk : option str) (d : ynode) : list piece * bool :=
  match d with
  | YNull => ([], true)
  | YScalar s => ([PItem s], true)
  | YSeq [] => ([], true)
  | YSeq _ => ([], false)                       (* a sequence that is not a mapping's value *)
  | YMap es =>
    then_ (fun (e : ynode * ynode) =>
             let (k, v) := e in
             match v with
             | YNull => ([], true)              (* dropped *)
             | YSeq l => then_ (contribution nk) l     (* poured into the enclosing node *)
             | YScalar _ => match as_string nk k with
                            | Some t => ([PKey t v], true)
                            | None => ([], false)
                            end
             | YMap _ => match as_string nk k with
                         | Some t => ([PKey t v], snd (contribution nk v))
                         | None => ([], false)
                         end
             end) es
  end.
Definition pieces (nk : option str) (d : ynode) : list piece := fst (contribution nk d).

(* the last value stored under a key *)
Fixpoint last_value (k : str) (l : list piece) : option ynode :=
  match l with
  | [] => None
  | PKey t v :: r => match last_value k r with
                     | Some w => Some w
                     | None => if str_eqb t k then Some v else None
                     end
  | PItem _ :: r => last_value k r
  end.
Definition items (l : list piece) : list str :=
  flat_map (fun p => match p with PItem s => [s] | PKey _ _ => [] end) l.

(* what is found under the keys ks: a text, or a node with these pieces *)
Inductive found := FText (s : str) | FNode (l : list piece).
Fixpoint lookup (nk : option str) (l : list piece) (ks : list str) : option found :=
  match ks with
  | [] => Some (FNode l)
  | k :: r => match last_value k l with
              | Some (YScalar s) => match r with [] => Some (FText s) | _ => None end
              | Some (YMap es) => lookup nk (pieces nk (YMap es)) r
              | _ => None
              end
  end.

(* the pieces put into a tree by a series of readFile calls *)
Definition loaded (nk : option str) (l : list load_result) : list piece :=
  flat_map (fun r => match r with Loaded d => pieces nk d | _ => [] end) l.

(* the documents readFile can read to the end: keys convert to strings and no
   sequence lies directly in a sequence or at the top (unless empty) *)
Inductive readable (nk : option str) : ynode -> Prop :=
| R_null : readable nk YNull
| R_scalar s : readable nk (YScalar s)
| R_empty : readable nk (YSeq [])
| R_map es : (forall k v, In (k, v) es -> readable_entry nk k v) -> readable nk (YMap es)
with readable_entry (nk : option str) : ynode -> ynode -> Prop :=
| RE_null k : readable_entry nk k YNull
| RE_scalar k t s : as_string nk k = Some t -> readable_entry nk k (YScalar s)
| RE_map k t es : as_string nk k = Some t -> readable nk (YMap es) -> readable_entry nk k (YMap es)
| RE_seq k l : (forall d, In d l -> readable nk d) -> readable_entry nk k (YSeq l).

(* a tree on which readFile has been called any number of times, with any
   results; [nk]: see as_string *)
Definition tree (nk : option str) (l : list load_result) : heap := after_reads nk new_tree l.

(* what a get of type A gives that reads the text "root" *)
Definition read_root {A} (read : str -> rd A) (tyname : str) (te : bool) : option A * outcome bool :=
  match read (lit "root") with
  | RdOk v => (Some v, Ok true)
  | RdFail o => (o, if te then Throw (badPropertyType [] tyname (lit "root")) else Ok false)
  end.

(* the scalars of a sequence *)
Definition seq_texts (v : ynode) : list str :=
  match v with
  | YSeq l => flat_map (fun d => match d with YScalar s => [s] | _ => [] end) l
  | _ => []
  end.
(* if v is a sequence, it is one of scalars *)
Definition scalar_seq (v : ynode) : Prop :=
  forall l, v = YSeq l -> forall d, In d l -> exists s, d = YScalar s.

(* the text up to the first NUL byte: what a C string shows of it *)
Fixpoint c_string (t : str) : str :=
  match t with
  | [] => []
  | c :: r => if Ascii.eqb c "000"%char then [] else c :: c_string r
  end.
