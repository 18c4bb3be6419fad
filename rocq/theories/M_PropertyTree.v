(* M_PropertyTree.v -- model of include/PropertyTree.hxx, src/PropertyTree.cxx
   and src/PropertyTreeYAML.cxx.
   PropNodes live in a heap that only grows (the library never deletes one); a
   PropNode pointer is an index into it. *)
From Verif Require Import Base M_Stream M_StreamIn M_Split M_Format M_MailBox.

(* PropertyTree.hxx 150-154 *)
Record pnode := mkNode {
  n_parent : option nat;                 (* None: nullptr *)
  n_val : str;
  n_term : bool;
  n_list : list nat;
  n_dict : list (str * nat)              (* std::map: sorted by key *)
}.
(* all nodes of a tree (PropertyTree.hxx 264: root) *)
Definition heap := list pnode.

(* PropertyTree.cxx 50-56: new PropNode(parent, val_string, is_terminal); the
   pointer is the old length of the heap *)
Definition new_node (h : heap) (parent : option nat) (val : str) (term : bool) : heap * nat :=
  (h ++ [mkNode parent val term [] []], length h).

(* *p changed by f (bookkeeping of the model; no line of /repo) *)
Fixpoint update (h : heap) (n : nat) (f : pnode -> pnode) : heap :=
  match h, n with
  | [], _ => []
  | x :: r, O => f x :: r
  | x :: r, S k => x :: update r k f
  end.

(* prop->prop_list.push_back(p) (PropertyTreeYAML.cxx 65) *)
Definition push_list (h : heap) (n p : nat) : heap :=
  update h n (fun x => mkNode (n_parent x) (n_val x) (n_term x) (n_list x ++ [p]) (n_dict x)).
(* prop->dictionary[key] = p (PropertyTreeYAML.cxx 76, 85) *)
Definition set_dict (h : heap) (n : nat) (key : str) (p : nat) : heap :=
  update h n (fun x => mkNode (n_parent x) (n_val x) (n_term x) (n_list x)
                              (smap_insert str_compare key p (n_dict x))).

(* the root pointer of a tree: PropertyTree.cxx 36-38 *)
Definition root : nat := 0.
(* PropertyTree.cxx 36-38 *)
Definition new_tree : heap := [mkNode None (lit "root") false [] []].

(* ---- exceptions: PropertyTree.cxx 141-161 ---- *)
(* PropertyTree.cxx 141-145 *)
Definition fileNotFound (s : str) : exn :=
  mkExn FileNotFound (format_with (lit "PropertyTree::PropNode::FileNotFound ""%0""") [s]).
(* PropertyTree.cxx 146-151 *)
Definition propertyNotFound (s : str) : exn :=
  mkExn PropertyNotFound (format_with (lit "PropertyTree::PropNode::PropertyNotFound ""%0""") [s]).
(* PropertyTree.cxx 153-161 *)
Definition badPropertyType (path_name type_name val_string : str) : exn :=
  mkExn BadPropertyType
    (format_with (lit "PropertyTree::PropNode::BadPropertyType at node name ""%0"" with value string ""%1"" which cannot be converted to type ""2""")
       [path_name; val_string; type_name]).

(* ---- PropNode::getPathName: PropertyTree.cxx 40-47 ---- *)
(* PropertyTree.cxx 40-47.  A pointer outside the heap, or a recursion deeper than the number of nodes
   (a cycle of parents, which overflows the stack), is undefined behaviour. *)
Fixpoint path_name (fuel : nat) (h : heap) (n : nat) : outcome str :=
  match fuel with
  | O => UB
  | S f =>
    match nth_error h n with
    | None => UB
    | Some x => match n_parent x with
                | None => Ok []
                | Some p => do t <- path_name f h p; Ok (t ++ lit ":" ++ n_val x)
                end
    end
  end.
(* PropertyTree.cxx 40-47 *)
Definition getPathName (h : heap) (n : nat) : outcome str := path_name (length h) h n.

(* ---- PropNode::getProp: PropertyTree.cxx 60-86 ---- *)
(* [None]: nullptr *)
Fixpoint getPropRecursive (h : heap) (this : nat) (pathlist : list str) (orig : str) (throw_exception : bool)
  : outcome (option nat) :=
  match pathlist with
  | [] => Ok (Some this)
  | front :: rest =>
    match nth_error h this with
    | None => UB
    | Some x => match smap_find str_compare front (n_dict x) with
                | Some _ => getPropRecursive h this rest orig throw_exception   (* 77: this-> *)
                | None => if throw_exception then Throw (propertyNotFound orig) else Ok None
                end
    end
  end.
(* PropertyTree.cxx 60-66 *)
Definition getProp (h : heap) (this : nat) (pathname : str) (throw_exception : bool) : outcome (option nat) :=
  do pathlist <- split pathname (lit ":") false;
  getPropRecursive h this pathlist pathname throw_exception.

(* PropertyTree.cxx 88-90 and 92-98 *)
Definition getList (h : heap) (n : nat) : outcome (list nat) :=
  match nth_error h n with Some x => Ok (n_list x) | None => UB end.
(* PropertyTree.cxx 92-98 *)
Definition getKeys (h : heap) (n : nat) : outcome (list str) :=
  match nth_error h n with
  | Some x => Ok (fold_left (fun keys a => keys ++ [fst a]) (n_dict x) [])
  | None => UB
  end.

(* ---- PropNode::get<T>: PropertyTree.hxx 168-178 ---- *)
(* PropertyTree.hxx 168-178.  [read] is operator>> for T, [tyname] is typeid(v).name().  The result: what
   v was assigned (None: v is untouched) and what the call returned. *)
Definition node_get {A} (read : str -> rd A) (tyname : str) (h : heap) (n : nat) (throw_exception : bool)
  : option A * outcome bool :=
  match nth_error h n with
  | None => (None, UB)
  | Some x =>
    match read (n_val x) with
    | RdOk v => (Some v, Ok true)
    | RdFail asg =>
      (asg, if throw_exception
             then do path <- getPathName h n; Throw (badPropertyType path tyname (n_val x))
             else Ok false)
    end
  end.

(* PropertyTree::get<T>: PropertyTree.hxx 130-140 *)
Definition tree_get {A} (read : str -> rd A) (tyname : str) (h : heap) (pathname : str) (throw_exception : bool)
  : option A * outcome bool :=
  match getProp h root pathname throw_exception with
  | UB => (None, UB)
  | Throw e => (None, Throw e)
  | Ok None => (None, Throw (propertyNotFound pathname))
  | Ok (Some pn) => node_get read tyname h pn throw_exception
  end.

(* operator>>(istream&, std::string&): a word (PropertyTree.hxx 170 with T = std::string) *)
Fixpoint take_word (s : str) : str :=
  match s with
  | [] => []
  | c :: r => if space_byte c then [] else c :: take_word r
  end.
(* T = std::string in PropertyTree.hxx 168-178 *)
Definition read_string (s : str) : rd str :=
  match skip_ws s with
  | [] => RdFail None
  | t => RdOk (take_word t)
  end.

(* ---- dump: PropertyTree.cxx 101-139 ---- *)
(* The text sent to the stream (a stream with default formatting and no
   pending width; PropertyTree.cxx 101-139).  Undefined behaviour as for getPathName. *)
Definition nl : str := ["010"%char].
(* for(auto v : list) os << ... (PropertyTree.cxx 114, 126) *)
Fixpoint concat_out {A} (f : A -> outcome str) (l : list A) : outcome str :=
  match l with
  | [] => Ok []
  | x :: r => do a <- f x; do b <- concat_out f r; Ok (a ++ b)
  end.
(* PropertyTree.cxx 105-139 *)
Fixpoint dump_node (fuel : nat) (h : heap) (n : nat) (indent : str) : outcome str :=
  match fuel with
  | O => UB
  | S f =>
    match nth_error h n with
    | None => UB
    | Some x =>
      if n_term x then Ok (indent ++ n_val x ++ nl)
      else
        do a <- match n_list x with
                | [] => Ok []
                | _ =>
                  do t <- concat_out
                            (fun v => match nth_error h v with
                                      | None => UB
                                      | Some y => if n_term y then Ok (indent ++ n_val y ++ nl)
                                                  else dump_node f h v (indent ++ lit "  ")
                                      end) (n_list x);
                  Ok (lit "<<<PROPLIST>>>" ++ nl ++ t)
                end;
        do b <- match n_dict x with
                | [] => Ok []
                | _ =>
                  do t <- concat_out
                            (fun v => match nth_error h (snd v) with
                                      | None => UB
                                      | Some y =>
                                        do u <- (if n_term y then Ok (n_val y ++ nl)
                                                 else do w <- dump_node f h (snd v) (indent ++ lit "  ");
                                                      Ok (nl ++ w));
                                        Ok (indent ++ fst v ++ lit ":  " ++ u)
                                      end) (n_dict x);
                  Ok (lit "<<<DICTIONARY>>>" ++ nl ++ t)
                end;
        Ok (a ++ b)
    end
  end.
(* PropertyTree.cxx 101-103 *)
Definition dump (h : heap) : outcome str := dump_node (length h) h root [].

(* ---- YAML ---- *)
(* PropertyTreeYAML.cxx 60-88.  A parsed document as yaml-cpp presents it: IsNull / IsScalar / IsSequence /
   IsMap.  A map is the list of its pairs in document order, duplicates
   included.  Aliases are expanded (fillRecurse only reads nodes); a document
   that contains itself through an alias is not modelled.  as<std::string>()
   of a null key depends on the yaml-cpp release: [null_key] is the text it
   gives (newer), or None if it throws (older). *)
Inductive ynode :=
| YNull
| YScalar (text : str)
| YSeq (l : list ynode)
| YMap (l : list (ynode * ynode)).

(* it->first.as<std::string>() (PropertyTreeYAML.cxx 76, 85) *)
Definition as_string (null_key : option str) (k : ynode) : option str :=
  match k with
  | YScalar s => Some s
  | YNull => null_key
  | _ => None
  end.

(* exceptions of yaml-cpp; their texts are not modelled.  Thrown in PropertyTreeYAML.cxx 72 *)
Definition yamlInvalidNode : exn := mkExn YamlInvalidNode [].
(* thrown in PropertyTreeYAML.cxx 76, 85 *)
Definition yamlBadConversion : exn := mkExn YamlBadConversion [].

(* a for loop that an exception may leave (PropertyTreeYAML.cxx 68, 93) *)
Definition each {A} (f : A -> heap -> heap * option exn) : list A -> heap -> heap * option exn :=
  fix go (l : list A) (h : heap) {struct l} : heap * option exn :=
    match l with
    | [] => (h, None)
    | x :: r => match f x h with
                | (h1, None) => go r h1
                | (h1, Some e) => (h1, Some e)
                end
    end.

(* PropertyTreeYAML.cxx 58-98.  The heap is returned also when an exception
   leaves the function.  Iterating over a sequence node gives pairs whose
   second member is an invalid node, on which IsMap (72) throws.  In 76 and 85
   the PropNode is allocated before the key is converted. *)
Fixpoint fillRecurse (nk : option str) (node : ynode) (h : heap) (prop : nat) {struct node} : heap * option exn :=
  match node with
  | YScalar s =>                                                        (* 60-67 *)
    let '(h1, pnp) := new_node h (Some prop) s true in
    (push_list h1 prop pnp, None)
  | YNull => (h, None)
  | YSeq [] => (h, None)
  | YSeq (_ :: _) => (h, Some yamlInvalidNode)
  | YMap es =>
    each (fun (it : ynode * ynode) (h : heap) =>
            let (first, second) := it in
            match second with
            | YMap _ =>                                                 (* 72-78 *)
              let '(h1, pnp) := new_node h (Some prop) [] false in
              match as_string nk first with
              | None => (h1, Some yamlBadConversion)
              | Some key => fillRecurse nk second (set_dict h1 prop key pnp) pnp
              end
            | YScalar s =>                                              (* 80-86 *)
              let '(h1, pnp) := new_node h (Some prop) s true in
              match as_string nk first with
              | None => (h1, Some yamlBadConversion)
              | Some key => (set_dict h1 prop key pnp, None)
              end
            | YSeq l => each (fun n h => fillRecurse nk n h prop) l h   (* 88-96 *)
            | YNull => (h, None)
            end) es h
  end.

(* what YAML::LoadFile (PropertyTreeYAML.cxx 48) does: returns a document, throws BadFile (with a text),
   or throws something else (ParserException) *)
Inductive load_result :=
| Loaded (doc : ynode)
| LoadBadFile (what : str)
| LoadOther (e : exn).

(* PropertyTreeYAML.cxx 44-56 *)
Definition readFile (nk : option str) (h : heap) (r : load_result) : heap * option exn :=
  match r with
  | LoadBadFile w => (h, Some (fileNotFound w))
  | LoadOther e => (h, Some e)
  | Loaded doc => fillRecurse nk doc h root
  end.

(* PropertyTreeYAML.cxx 100-101: an empty body.  [files] gives the contents of
   every file. *)
Definition writeFile (h : heap) (files : str -> option str) (filename : str)
  : heap * (str -> option str) := (h, files).

(* a tree (PropertyTreeYAML.cxx 36-42) on which readFile has been called with
   the given results, the exceptions having been caught *)
Fixpoint after_reads (nk : option str) (h : heap) (l : list load_result) : heap :=
  match l with
  | [] => h
  | r :: rest => after_reads nk (fst (readFile nk h r)) rest
  end.
