(* S_OptionsObj.v -- histories of a program with several Options objects. *)
From Verif Require Import Base M_Options S_Options M_OptionsObj.

(* one parse call of any form, in a program state s *)
Inductive parses (s : st) : bool -> st -> Prop :=
| PC_list : forall ts b s', parse_list s ts = Ok (b, s') -> parses s b s'
| PC_string : forall im t b s', parse_string im s t = Ok (b, s') -> parses s b s'
| PC_argv : forall n v b s', parse_argv s n v = Ok (b, s') -> parses s b s'
| PC_kv : forall t b s', parseKeyValue s t = Ok (b, s') -> parses s b s'.

(* one call on object i: addInfo, a registration, or a parse *)
Inductive calls (w : world) (i : nat) : world -> Prop :=
| CL_info : forall s t, view w i = Some s -> calls w i (back w i (addInfo s t))
| CL_reg : forall s r, view w i = Some s -> is_reg r -> calls w i (back w i (rg_add r s))
| CL_parse : forall s b s', view w i = Some s -> parses s b s' -> calls w i (back w i s').

(* program states; copies says whether Options objects were copied or assigned *)
Inductive history (copies : bool) : world -> Prop :=
| H_start : forall m vm, history copies (mkWorld [] 0 (fun _ => false) m vm [])
| H_new : forall w kvp, history copies w -> history copies (w_new w kvp)
| H_vars : forall w m vm, history copies w -> history copies (w_vars w m vm)
| H_call : forall w i w', history copies w -> calls w i w' -> history copies w'
| H_copy : forall w j q, copies = true -> history copies w -> nth_error (w_parts w) j = Some q ->
    history copies (w_copy w q)
| H_assign : forall w i j q, copies = true -> history copies w -> nth_error (w_parts w) j = Some q ->
    history copies (w_assign w i q).

(* any number of parse calls, each on object i or object k *)
Inductive parses_on (i k : nat) : world -> world -> Prop :=
| PO_none : forall w, parses_on i k w w
| PO_more : forall w j s b s' w', j = i \/ j = k -> view w j = Some s -> parses s b s' ->
    parses_on i k (back w j s') w' -> parses_on i k w w'.
