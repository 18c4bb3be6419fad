(* S_Dump.v -- what dump prints, in terms of what has been loaded. *)
From Verif Require Import Base M_PropertyTree S_PropertyTree.

(* a block: nothing if it is empty *)
Definition list_block (ind : str) (texts : list str) : str :=
  match texts with
  | [] => []
  | _ => lit "<<<PROPLIST>>>" ++ nl ++ concat (map (fun s => ind ++ s ++ nl) texts)
  end.
Definition dict_block (entries : list str) : str :=
  match entries with
  | [] => []
  | _ => lit "<<<DICTIONARY>>>" ++ nl ++ concat entries
  end.

(* [shown nk ind ps t]: t is the picture, indented by ind, of a node holding ps:
   its list items in order, then its keys in ascending order, each with its
   text or followed by the picture of the node under it *)
Inductive shown (nk : option str) : str -> list piece -> str -> Prop :=
| Shown ind ps keys entries :
    ascending keys -> (forall k, In k keys <-> exists f, lookup nk ps [k] = Some f) ->
    shown_keys nk ind ps keys entries ->
    shown nk ind ps (list_block ind (items ps) ++ dict_block entries)
with shown_keys (nk : option str) : str -> list piece -> list str -> list str -> Prop :=
| SK_nil ind ps : shown_keys nk ind ps [] []
| SK_text ind ps k keys s entries :
    lookup nk ps [k] = Some (FText s) -> shown_keys nk ind ps keys entries ->
    shown_keys nk ind ps (k :: keys) ((ind ++ k ++ lit ":  " ++ s ++ nl) :: entries)
| SK_node ind ps k keys qs t entries :
    lookup nk ps [k] = Some (FNode qs) -> shown nk (ind ++ lit "  ") qs t -> shown_keys nk ind ps keys entries ->
    shown_keys nk ind ps (k :: keys) ((ind ++ k ++ lit ":  " ++ nl ++ t) :: entries).

(* the same texts and lists are found under every sequence of keys *)
Definition same_content (nk : option str) (a b : list piece) : Prop :=
  forall ks, match lookup nk a ks, lookup nk b ks with
             | Some (FText s), Some (FText t) => s = t
             | Some (FNode p), Some (FNode q) => items p = items q
             | None, None => True
             | _, _ => False
             end.
