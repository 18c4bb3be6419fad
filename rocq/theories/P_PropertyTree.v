(* P_PropertyTree.v -- property theorems for PropertyTree and PropertyTreeYAML.
   [tree nk l] is any tree obtained by readFile calls with results l (documents
   or failures); nk: how yaml-cpp converts a null key. *)
From Verif Require Import Base S_Num L_Num M_Split S_Split M_StreamIn M_MailBox M_PropertyTree S_PropertyTree L_PropertyTree L_PropertyTreeP C_PropertyTree.

(* C72 is false: get does not descend.  It looks up every component of the
   path in the root's dictionary and, if all are there, reads the root's own
   text, which is "root". *)
Theorem C72_get_follows_path_refuted : exists d h,
  (forall nk, readFile nk new_tree (Loaded d) = (h, None)) /\
  (forall nk, at_path nk d [lit "a"; lit "b"] = Some (YScalar (lit "7"))) /\
  (forall nk, at_path nk d [lit "c"] = Some (YScalar (lit "5"))) /\
  (forall ty te, tree_get read_i32 ty h (lit "a:b") te = (None, Throw (propertyNotFound (lit "a:b")))) /\
  (forall ty te, tree_get read_string ty h (lit "c") te = (Some (lit "root"), Ok true)).
Proof. exact c72_refuted. Qed.
Print Assumptions C72_get_follows_path_refuted.

Theorem C72_get_exact_partial : forall A nk l (read : str -> rd A) tyname p te,
  (exists c, In c p /\ c <> " "%char) ->
  ((forall k, In k (path_keys p) -> exists m, follows (tree nk l) root [k] m) ->
   tree_get read tyname (tree nk l) p te = read_root read tyname te) /\
  ((exists k, In k (path_keys p) /\ forall m, ~ follows (tree nk l) root [k] m) ->
   tree_get read tyname (tree nk l) p te = (None, Throw (propertyNotFound p))).
Proof. exact @get_exact. Qed.
Print Assumptions C72_get_exact_partial.

(* the components of a path made of ordinary keys are those keys *)
Theorem C72_path_components_partial : forall ks,
  ks <> [] -> (forall k, In k ks -> plain_key k) ->
  path_keys (join (lit ":") ks) = ks /\ (exists c, In c (join (lit ":") ks) /\ c <> " "%char).
Proof. intros ks A B. split; [exact (plain_path ks A B)|exact (plain_nonblank ks A B)]. Qed.
Print Assumptions C72_path_components_partial.

Theorem C72_get_blank_path_partial : forall A nk l (read : str -> rd A) tyname p te,
  (forall c, In c p -> c = " "%char) -> tree_get read tyname (tree nk l) p te = (None, UB).
Proof. exact @get_blank. Qed.
Print Assumptions C72_get_blank_path_partial.

Example C72_nonvacuous :
  let h := tree None [Loaded demo_doc] in
  path_keys (lit "a:c") = [lit "a"; lit "c"] /\
  (forall k, In k (path_keys (lit "a:c")) -> exists m, follows h root [k] m) /\
  tree_get read_i32 (lit "i") h (lit "a:c") false = (Some 0%Z, Ok false) /\
  (forall m, ~ follows h root [lit "b"] m) /\
  tree_get read_i32 (lit "i") h (lit "a:b") false = (None, Throw (propertyNotFound (lit "a:b"))).
Proof.
  split; [reflexivity|]. split.
  { intros k [<-|[<-|[]]]; [exists 1|exists 3]; (econstructor; [reflexivity|cbn; tauto|constructor; cbn; lia]). }
  split; [reflexivity|]. split; [|reflexivity].
  intros m F. apply follows_cons_inv in F. destruct F as (x & q & Hx & Hin & _). cbn in Hx. injection Hx as <-.
  destruct Hin as [E|[E|[]]]; discriminate E.
Qed.

(* C73 is false: the missing path is reported by an exception whatever
   throw_exception says.  Exactly then; and the PropNode calls do honour it. *)
Theorem C73_get_no_throw_refuted : exists p, forall ty,
  tree_get read_string ty new_tree p false = (None, Throw (propertyNotFound p)).
Proof. exact c73_refuted. Qed.
Print Assumptions C73_get_no_throw_refuted.

Theorem C73_get_throws_exactly_partial : forall A nk l (read : str -> rd A) tyname p,
  (exists c, In c p /\ c <> " "%char) ->
  ((exists e, snd (tree_get read tyname (tree nk l) p false) = Throw e) <->
   exists k, In k (path_keys p) /\ forall m, ~ follows (tree nk l) root [k] m).
Proof. exact @c73_partial. Qed.
Print Assumptions C73_get_throws_exactly_partial.

Theorem C73_node_no_throw_partial : forall A h n (read : str -> rd A) tyname p e,
  snd (node_get read tyname h n false) <> Throw e /\ getProp h n p false <> Throw e.
Proof. exact @c73_node. Qed.
Print Assumptions C73_node_no_throw_partial.

Example C73_nonvacuous :
  (exists e, snd (tree_get read_string [] (tree None [Loaded demo_doc]) (lit "x") false) = Throw e) /\
  snd (tree_get read_string [] (tree None [Loaded demo_doc]) (lit "a") false) = Ok true /\
  getProp (tree None [Loaded demo_doc]) root (lit "x") false = Ok None.
Proof. split; [eexists; reflexivity|split; reflexivity]. Qed.

(* C74: loading a document of mappings and scalars into a new tree *)
Theorem C74_yaml_maps_loaded : forall nk d h,
  maps_scalars d -> readFile nk new_tree (Loaded d) = (h, None) ->
  forall ks s, ks <> [] ->
  (at_path nk d ks = Some (YScalar s) <-> exists m, follows h root ks m /\ terminal_with h m s).
Proof. exact c74. Qed.
Print Assumptions C74_yaml_maps_loaded.

(* C74, in general: every history of readFile calls, every document (also one
   that stops with an exception half way) *)
Theorem C74_yaml_history : forall nk l ks,
  (forall s, lookup nk (loaded nk l) ks = Some (FText s) <->
             exists m, follows (tree nk l) root ks m /\ terminal_with (tree nk l) m s) /\
  ((exists ps, lookup nk (loaded nk l) ks = Some (FNode ps)) <->
   exists m, follows (tree nk l) root ks m /\ branch (tree nk l) m).
Proof. exact c74_history. Qed.
Print Assumptions C74_yaml_history.

(* a key path leads to at most one node *)
Theorem C74_path_unique : forall nk l ks m m',
  follows (tree nk l) root ks m -> follows (tree nk l) root ks m' -> m = m'.
Proof. intros nk l ks m m' A B. exact (follows_fun (tree nk l) (tree_wf nk l) root ks m A m' B). Qed.
Print Assumptions C74_path_unique.

Example C74_nonvacuous :
  let d := YMap [(YScalar (lit "a"), YMap [(YScalar (lit "b"), YScalar (lit "1"))]);
                 (YScalar (lit "c"), YScalar (lit "2"));
                 (YScalar (lit "a"), YMap [(YScalar (lit "d"), YScalar (lit "3"))])] in
  maps_scalars d /\ snd (readFile None new_tree (Loaded d)) = None /\
  at_path None d [lit "a"; lit "d"] = Some (YScalar (lit "3")) /\
  at_path None d [lit "a"; lit "b"] = None.
Proof.
  split; [|split; [reflexivity|split; reflexivity]].
  constructor. intros k v [E|[E|[E|[]]]]; injection E as <- <-; repeat constructor;
    intros k v [E|[]]; injection E as <- <-; constructor.
Qed.

(* C75 is false: the key of a sequence is lost and its scalars go to the list
   of the node that holds the mapping. *)
Theorem C75_yaml_sequence_refuted : exists d h,
  (forall nk, readFile nk new_tree (Loaded d) = (h, None)) /\
  (forall nk, at_path nk d [lit "a"] = Some (YSeq [YScalar (lit "x"); YScalar (lit "y")])) /\
  (forall m, ~ follows h root [lit "a"] m).
Proof. exact c75_refuted. Qed.
Print Assumptions C75_yaml_sequence_refuted.

Theorem C75_yaml_sequences_poured_partial : forall nk es h,
  (forall k v, In (k, v) es -> scalar_seq v) ->
  readFile nk new_tree (Loaded (YMap es)) = (h, None) ->
  exists ids, getList h root = Ok ids /\
    Forall2 (terminal_with h) ids (flat_map (fun e => seq_texts (snd e)) es).
Proof. exact c75_root. Qed.
Print Assumptions C75_yaml_sequences_poured_partial.

Theorem C75_yaml_list_history_partial : forall nk l ks ps m,
  lookup nk (loaded nk l) ks = Some (FNode ps) -> follows (tree nk l) root ks m ->
  exists ids, getList (tree nk l) m = Ok ids /\ Forall2 (terminal_with (tree nk l)) ids (items ps).
Proof. exact c75_list. Qed.
Print Assumptions C75_yaml_list_history_partial.

Definition seq_doc : ynode :=
  YMap [(YScalar (lit "a"), YSeq [YScalar (lit "x"); YScalar (lit "y")]);
        (YScalar (lit "b"), YMap [(YScalar (lit "c"), YSeq [YScalar (lit "z")])]);
        (YScalar (lit "d"), YSeq [YScalar (lit "w")])].
Example C75_nonvacuous :
  snd (readFile None new_tree (Loaded seq_doc)) = None /\
  items (loaded None [Loaded seq_doc]) = [lit "x"; lit "y"; lit "w"] /\
  (exists ps, lookup None (loaded None [Loaded seq_doc]) [lit "b"] = Some (FNode ps) /\ items ps = [lit "z"]) /\
  getList (tree None [Loaded seq_doc]) root = Ok [1; 2; 5].
Proof. split; [reflexivity|]. split; [reflexivity|]. split; [eexists; split; reflexivity|reflexivity]. Qed.

(* C76 *)
Theorem C76_getKeys : forall nk l n, n < length (tree nk l) ->
  exists ks, getKeys (tree nk l) n = Ok ks /\ ascending ks /\ NoDup ks /\
    forall k, In k ks <-> exists m, follows (tree nk l) n [k] m.
Proof. exact c76_keys. Qed.
Print Assumptions C76_getKeys.

Theorem C76_getKeys_loaded : forall nk l ks ps m,
  lookup nk (loaded nk l) ks = Some (FNode ps) -> follows (tree nk l) root ks m ->
  exists keys, getKeys (tree nk l) m = Ok keys /\ ascending keys /\ NoDup keys /\
    forall k, In k keys <-> exists v, In (PKey k v) ps.
Proof. exact c76_doc. Qed.
Print Assumptions C76_getKeys_loaded.

Theorem C76_getList_loaded : forall nk l ks ps m,
  lookup nk (loaded nk l) ks = Some (FNode ps) -> follows (tree nk l) root ks m ->
  exists ids, getList (tree nk l) m = Ok ids /\ Forall2 (terminal_with (tree nk l)) ids (items ps).
Proof. exact c75_list. Qed.
Print Assumptions C76_getList_loaded.

Example C76_nonvacuous :
  getKeys (tree None [Loaded (YMap [(YScalar (lit "b"), YScalar (lit "1")); (YScalar (lit "a"), YNull);
             (YScalar (lit "B"), YScalar (lit "2")); (YScalar (lit "b"), YScalar (lit "3"))])]) root
  = Ok [lit "B"; lit "b"].
Proof. reflexivity. Qed.

(* C77 is false: getPathName strings the values together, not the keys *)
Theorem C77_getPathName_refuted : exists d h m,
  (forall nk, readFile nk new_tree (Loaded d) = (h, None)) /\
  follows h root [lit "a"] m /\ getPathName h m = Ok (lit ":") /\ branch h m /\
  exists m2, follows h root [lit "c"] m2 /\ getPathName h m2 = Ok (lit ":5").
Proof. exact c77_refuted. Qed.
Print Assumptions C77_getPathName_refuted.

Theorem C77_getPathName_exact_partial : forall nk l ks m, follows (tree nk l) root ks m ->
  getPathName (tree nk l) m = Ok (repeat ":"%char (length ks)) /\ branch (tree nk l) m \/
  exists s, terminal_with (tree nk l) m s /\ getPathName (tree nk l) m = Ok (repeat ":"%char (length ks) ++ s).
Proof. exact c77_partial. Qed.
Print Assumptions C77_getPathName_exact_partial.

Example C77_nonvacuous :
  follows (tree None [Loaded demo_doc]) root [lit "a"; lit "b"] 2 /\
  getPathName (tree None [Loaded demo_doc]) 2 = Ok (lit "::7").
Proof.
  split; [|reflexivity]. econstructor; [reflexivity|left; reflexivity|].
  econstructor; [reflexivity|left; reflexivity|]. constructor. cbn. lia.
Qed.

(* C78: every key, with its value if it has one, and every list entry, is on a
   line of its own, indented by its depth *)
Theorem C78_dump_complete : forall nk l, exists t, dump (tree nk l) = Ok t /\
  (forall ks k m, follows (tree nk l) root (ks ++ [k]) m ->
     (forall s, terminal_with (tree nk l) m s -> contains t (spaces (length ks) ++ k ++ lit ":  " ++ s ++ nl)) /\
     (branch (tree nk l) m -> contains t (spaces (length ks) ++ k ++ lit ":  " ++ nl))) /\
  (forall ks n ids i s, follows (tree nk l) root ks n -> getList (tree nk l) n = Ok ids -> In i ids ->
     terminal_with (tree nk l) i s -> contains t (spaces (length ks) ++ s ++ nl)).
Proof. exact c78. Qed.
Print Assumptions C78_dump_complete.

Example C78_nonvacuous :
  dump (tree None [Loaded demo_doc]) =
  Ok (lit "<<<DICTIONARY>>>" ++ nl ++ lit "a:  " ++ nl ++ lit "<<<DICTIONARY>>>" ++ nl ++ lit "  b:  7" ++ nl ++ lit "c:  5" ++ nl) /\
  follows (tree None [Loaded demo_doc]) root ([lit "a"] ++ [lit "b"]) 2 /\
  terminal_with (tree None [Loaded demo_doc]) 2 (lit "7").
Proof.
  split; [reflexivity|]. split.
  - econstructor; [reflexivity|left; reflexivity|]. econstructor; [reflexivity|left; reflexivity|]. constructor. cbn. lia.
  - eexists. split; [reflexivity|split; reflexivity].
Qed.

(* C83 is false: exceptions of yaml-cpp leave readFile.  Exactly the readable
   documents are read without one. *)
Theorem C83_readFile_exceptions_refuted : exists d1 d2,
  (forall nk, snd (readFile nk new_tree (Loaded d1)) = Some yamlInvalidNode) /\
  (forall nk, snd (readFile nk new_tree (Loaded d2)) = Some yamlBadConversion).
Proof. exact c83_refuted. Qed.
Print Assumptions C83_readFile_exceptions_refuted.

Theorem C83_readFile_result_partial : forall nk l d,
  let r := readFile nk (tree nk l) (Loaded d) in
  (snd r = None <-> readable nk d) /\
  (forall e, snd r = Some e -> e = yamlInvalidNode \/ e = yamlBadConversion).
Proof. exact read_result. Qed.
Print Assumptions C83_readFile_result_partial.

Theorem C83_readFile_bad_file_partial : forall nk h w,
  readFile nk h (LoadBadFile w) = (h, Some (fileNotFound w)) /\
  ex_class (fileNotFound w) = FileNotFound /\ contains (ex_what (fileNotFound w)) w.
Proof.
  intros nk h w. split; [reflexivity|]. split; [reflexivity|].
  exists (lit "PropertyTree::PropNode::FileNotFound """), (lit """"). reflexivity.
Qed.
Print Assumptions C83_readFile_bad_file_partial.

Example C83_nonvacuous :
  readable None seq_doc /\ ~ readable None (YMap [(YNull, YScalar (lit "1"))]) /\
  readable (Some (lit "null")) (YMap [(YNull, YScalar (lit "1"))]).
Proof.
  split; [apply readable_iff; reflexivity|]. split; [|apply readable_iff; reflexivity].
  intros H. apply readable_iff in H. discriminate H.
Qed.

(* C84: the files read one after another act as one document, their top-level
   entries in order *)
Theorem C84_several_files : forall nk ds,
  (forall es, In es ds -> maps_scalars (YMap es) /\ readable nk (YMap es)) ->
  forall ks s, ks <> [] ->
  (at_path nk (YMap (concat ds)) ks = Some (YScalar s) <->
   exists m, follows (tree nk (map (fun es => Loaded (YMap es)) ds)) root ks m /\
             terminal_with (tree nk (map (fun es => Loaded (YMap es)) ds)) m s).
Proof. exact c84. Qed.
Print Assumptions C84_several_files.

Example C84_nonvacuous :
  let e1 := [(YScalar (lit "a"), YScalar (lit "1")); (YScalar (lit "b"), YScalar (lit "2"))] in
  let e2 := [(YScalar (lit "a"), YScalar (lit "3"))] in
  (forall es, In es [e1; e2] -> maps_scalars (YMap es) /\ readable None (YMap es)) /\
  at_path None (YMap (concat [e1; e2])) [lit "a"] = Some (YScalar (lit "3")) /\
  at_path None (YMap (concat [e1; e2])) [lit "b"] = Some (YScalar (lit "2")).
Proof.
  split; [|split; reflexivity]. intros es [<-|[<-|[]]]; (split; [|apply readable_iff; reflexivity]); constructor;
    intros k v H; cbn in H; repeat (destruct H as [H|H]; [injection H as <- <-; constructor|]); destruct H.
Qed.

(* C85 is false: get<std::string> reads one word *)
Theorem C85_get_string_refuted : exists d h m,
  (forall nk, readFile nk new_tree (Loaded d) = (h, None)) /\
  terminal_with h m (lit "hello world") /\
  forall ty te, node_get read_string ty h m te = (Some (lit "hello"), Ok true).
Proof. exact c85_refuted. Qed.
Print Assumptions C85_get_string_refuted.

(* exactly: without white space at its ends and inside, the value is given whole *)
Theorem C85_get_string_partial : forall nk l m lead w rest ty te,
  (forall c, In c lead -> white c = true) ->
  w <> [] -> (forall c, In c w -> white c = false) ->
  (match rest with [] => True | c :: _ => white c = true end) ->
  terminal_with (tree nk l) m (lead ++ w ++ rest) ->
  node_get read_string ty (tree nk l) m te = (Some w, Ok true).
Proof.
  intros nk l m lead w rest ty te HL W HW HR. apply c85_word; auto.
  - intros c I. rewrite <- white_eq. auto.
  - intros c I. rewrite <- white_eq. auto.
  - destruct rest; [exact I|]. rewrite <- white_eq. exact HR.
Qed.
Print Assumptions C85_get_string_partial.

Theorem C85_get_string_blank_partial : forall nk l m s ty te,
  (forall c, In c s -> white c = true) -> terminal_with (tree nk l) m s ->
  fst (node_get read_string ty (tree nk l) m te) = None /\
  snd (node_get read_string ty (tree nk l) m te) <> Ok true.
Proof.
  intros nk l m s ty te HS. apply c85_blank. intros c I. rewrite <- white_eq. auto.
Qed.
Print Assumptions C85_get_string_blank_partial.

Example C85_nonvacuous :
  terminal_with (tree None [Loaded (YMap [(YScalar (lit "a"), YScalar (lit " bc d"))])]) 1 (lit " " ++ lit "bc" ++ lit " d").
Proof. eexists. split; [reflexivity|split; reflexivity]. Qed.

(* C86 is false: what was read before the failure stays in the tree (C74_yaml_history
   tells exactly what).  A file that cannot be opened or parsed changes nothing. *)
Theorem C86_failed_read_refuted : exists d h m,
  (forall nk, readFile nk new_tree (Loaded d) = (h, Some yamlInvalidNode)) /\
  follows h root [lit "a"] m /\ ~ follows new_tree root [lit "a"] m.
Proof. exact c86_refuted. Qed.
Print Assumptions C86_failed_read_refuted.

Theorem C86_failed_open_partial : forall nk h w e,
  fst (readFile nk h (LoadBadFile w)) = h /\ fst (readFile nk h (LoadOther e)) = h /\
  snd (readFile nk h (LoadOther e)) = Some e.
Proof. intros. repeat split. Qed.
Print Assumptions C86_failed_open_partial.

Example C86_nonvacuous :
  readFile None (tree None [Loaded demo_doc]) (LoadBadFile (lit "x.yml")) =
  (tree None [Loaded demo_doc], Some (fileNotFound (lit "x.yml"))).
Proof. reflexivity. Qed.

(* C87 is false: writeFile does nothing *)
Theorem C87_writeFile_refuted : exists h name,
  h = tree None [Loaded demo_doc] /\ follows h root [lit "a"; lit "b"] 2 /\ terminal_with h 2 (lit "7") /\
  forall files, files name = None -> snd (writeFile h files name) name = None.
Proof.
  eexists. exists (lit "out.yml"). split; [reflexivity|]. split; [|split].
  - econstructor; [reflexivity|left; reflexivity|]. econstructor; [reflexivity|left; reflexivity|]. constructor. cbn. lia.
  - eexists. split; [reflexivity|split; reflexivity].
  - intros files H. exact H.
Qed.
Print Assumptions C87_writeFile_refuted.

(* C88 *)
Theorem C88_nodes_stay : forall nk l l2 n x, nth_error (tree nk l) n = Some x ->
  exists y, nth_error (tree nk (l ++ l2)) n = Some y /\
    n_parent y = n_parent x /\ n_val y = n_val x /\ n_term y = n_term x /\
    (n <> root -> y = x).
Proof. exact c88. Qed.
Print Assumptions C88_nodes_stay.

(* in terms of what a program gets: PropNode's functions answer as before the reads *)
Theorem C88_same_answers : forall nk l l2 n, n < length (tree nk l) ->
  getPathName (tree nk (l ++ l2)) n = getPathName (tree nk l) n /\
  (forall A (read : str -> rd A) ty te, node_get read ty (tree nk (l ++ l2)) n te = node_get read ty (tree nk l) n te) /\
  (n <> root ->
   getKeys (tree nk (l ++ l2)) n = getKeys (tree nk l) n /\
   getList (tree nk (l ++ l2)) n = getList (tree nk l) n /\
   forall p te, getProp (tree nk (l ++ l2)) n p te = getProp (tree nk l) n p te).
Proof. exact c88_answers. Qed.
Print Assumptions C88_same_answers.

Example C88_nonvacuous :
  nth_error (tree None [Loaded demo_doc]) 1 =
  nth_error (tree None ([Loaded demo_doc] ++ [Loaded (YMap [(YScalar (lit "a"), YScalar (lit "new"))])])) 1 /\
  nth_error (tree None [Loaded demo_doc]) 1 <> None.
Proof. split; [reflexivity|discriminate]. Qed.
