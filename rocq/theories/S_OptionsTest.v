(* S_OptionsTest.v -- how a line is read when the tests look at the program *)
From Verif Require Import Base M_StreamIn M_Options M_OptionsTest S_Options.

(* the program after one item of the line *)
Definition store (s : st) (i : item) : st :=
  match i with
  | Pos w => push_pos s w
  | Flag _ o => match o_kind o with KPresence a => set_present (set_mem s a (VBool true)) (o_id o) | _ => s end
  | Given _ o _ v => match o_kind o with
                     | KScalar _ a _ => set_present (set_mem s a v) (o_id o)
                     | KVector _ a _ => set_present (push_vec s a v) (o_id o)
                     | KPresence _ => s
                     end
  | Bare _ o => set_present s (o_id o)
  end.

(* everything a test function can see of the program *)
Definition sight (s : st) : view := mkView (mem s) (vmem s) (fun id => present s id) (getPosArgs s).

(* the text reads as v, and the verdict d of o's test is formed when the
   program is as after the earlier items, except that the variable of a scalar
   option already holds v *)
Definition judged (T : nat -> tester) (s : st) (o : opt) (text : str) (v : val) (d : verdict) : Prop :=
  match o_kind o with
  | KScalar t a _ => ty_read t text = RdOk v /\ T (o_id o) (sight (set_mem s a v)) v = d
  | KVector t _ _ => ty_read t text = RdOk v /\ T (o_id o) (sight s) v = d
  | KPresence _ => False
  end.

(* reads_t T s ts is s' rest: the tokens ts say the items is, which leave the
   program at s', and then rest is left (compare S_Options.reads) *)
Inductive reads_t (T : nat -> tester) : st -> list str -> list item -> st -> list str -> Prop :=
| T_end : forall s ts, reads_t T s ts [] s ts
| T_pos : forall s w ts is s' rest,
    ~ looks_like_option w -> reads_t T (store s (Pos w)) ts is s' rest ->
    reads_t T s (w :: ts) (Pos w :: is) s' rest
| T_flag : forall s tok o ts is s' rest,
    names s tok o -> is_flag o -> reads_t T (store s (Flag tok o)) ts is s' rest ->
    reads_t T s (tok :: ts) (Flag tok o :: is) s' rest
| T_given : forall s tok o text v ts is s' rest,
    names s tok o -> judged T s o text v Accept -> (looks_like_option text -> greedy o) ->
    reads_t T (store s (Given tok o text v)) ts is s' rest ->
    reads_t T s (tok :: text :: ts) (Given tok o text v :: is) s' rest
| T_bare : forall s tok o t ts is s' rest,
    names s tok o -> ~ is_flag o -> ~ greedy o -> looks_like_option t ->
    reads_t T (store s (Bare tok o)) (t :: ts) is s' rest ->
    reads_t T s (tok :: t :: ts) (Bare tok o :: is) s' rest.

(* how a line can end after the items that were understood *)
Inductive ending_t (T : nat -> tester) (s : st) : list str -> Prop :=
| Et_done : ending_t T s []
| Et_missing : forall tok o, names s tok o -> ~ is_flag o -> ending_t T s [tok]
| Et_help : forall tok rest, asks_help tok -> ending_t T s (tok :: rest)
| Et_unknown : forall tok rest, looks_like_option tok -> ~ asks_help tok ->
    (forall o, ~ names s tok o) -> ending_t T s (tok :: rest)
| Et_rejected : forall tok o text rest, names s tok o -> ~ is_flag o ->
    (looks_like_option text -> greedy o) -> (forall v, ~ judged T s o text v Accept) -> ending_t T s (tok :: text :: rest).

(* The reading stopped at an option of signed type whose value was missing or
   was not accepted. *)
Definition stalls_t (T : nat -> tester) (s : st) (rest : list str) : Prop :=
  exists tok o, names s tok o /\ ~ is_flag o /\ o_signed o = true /\
    (rest = [tok] \/ exists text r, rest = tok :: text :: r /\ forall v, ~ judged T s o text v Accept).

(* Programs none of whose parse calls so far stalled in that way. *)
Inductive ready (T : nat -> tester) : st -> Prop :=
| Rd_new : forall kvp m vm, ready T (newOptions kvp m vm)
| Rd_info : forall s i, ready T s -> ready T (addInfo s i)
| Rd_reg : forall s r, ready T s -> is_reg r -> ready T (rg_add r s)
| Rd_mem : forall s m vm, ready T s ->
    ready T (mkSt (long_map s) (ab_map s) (info_list s) (pos_arg_vec s) (is_kvp s)
                  (waiting_for_signed s) (next_id s) (present s) m vm (cerr s))
| Rd_line : forall s ts is s1 rest p s', ready T s -> reads_t T s ts is s1 rest -> ending_t T s1 rest ->
    ~ stalls_t T s1 rest -> parse_list_t T s ts = Ok (p, s') -> ready T s'.

(* T, with every exception replaced by a refusal *)
Definition refusing (T : nat -> tester) : nat -> tester :=
  fun id w v => match T id w v with Raise _ => Refuse | d => d end.
