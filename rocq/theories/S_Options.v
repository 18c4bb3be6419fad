(* S_Options.v -- how a command line is to be read, stated without the parser.
   The vocabulary is that of the API: registered options, tokens, variables. *)
From Verif Require Import Base M_StreamIn M_Options S_Num S_Split.

(* A token has the shape of an option: '-' and a character other than '-', or
   "--" and something. *)
Definition looks_like_option (t : str) : Prop :=
  (exists c r, t = "-"%char :: c :: r /\ c <> "-"%char) \/
  (exists c r, t = "-"%char :: "-"%char :: c :: r).

(* A request for help: "--help", or a short option whose letter is h. *)
Definition asks_help (t : str) : Prop :=
  t = lit "--help" \/ exists r, t = "-"%char :: "h"%char :: r.

(* Token t stands for option o: "--" and its long name, or '-' and its letter
   (what follows the letter plays no role). *)
Inductive names (s : st) : str -> opt -> Prop :=
| N_long : forall n o, n <> [] -> n <> lit "help" -> findOpt_long s n = Some o ->
    names s (lit "--" ++ n) o
| N_short : forall c r o, c <> "-"%char -> c <> "h"%char -> findOpt_ab s c = Some o ->
    names s ("-"%char :: c :: r) o.

Definition is_flag (o : opt) : Prop := exists a, o_kind o = KPresence a.

(* The option's type reads v from the text, and the option's test accepts v. *)
Definition accepts (o : opt) (text : str) (v : val) : Prop :=
  match o_kind o with
  | KScalar t _ test | KVector t _ test => ty_read t text = RdOk v /\ test v = true
  | KPresence _ => False
  end.

(* The option always takes the token after it as its value, even one that looks
   like an option: it has no default, or its type is signed. *)
Definition greedy (o : opt) : Prop := o_default o = false \/ o_signed o = true.

(* What a stretch of the command line says. *)
Inductive item :=
| Pos (w : str)                              (* a positional word *)
| Flag (tok : str) (o : opt)                 (* a presence option *)
| Given (tok : str) (o : opt) (text : str) (v : val)   (* an option and its value *)
| Bare (tok : str) (o : opt).                (* an option left at its default, another option follows *)

(* reads s ts is rest: the tokens ts say the items is, and then rest is left *)
Inductive reads (s : st) : list str -> list item -> list str -> Prop :=
| R_end : forall ts, reads s ts [] ts
| R_pos : forall w ts is rest,
    ~ looks_like_option w -> reads s ts is rest ->
    reads s (w :: ts) (Pos w :: is) rest
| R_flag : forall tok o ts is rest,
    names s tok o -> is_flag o -> reads s ts is rest ->
    reads s (tok :: ts) (Flag tok o :: is) rest
| R_given : forall tok o text v ts is rest,
    names s tok o -> accepts o text v -> (looks_like_option text -> greedy o) ->
    reads s ts is rest ->
    reads s (tok :: text :: ts) (Given tok o text v :: is) rest
| R_bare : forall tok o t ts is rest,
    names s tok o -> ~ is_flag o -> ~ greedy o -> looks_like_option t ->
    reads s (t :: ts) is rest ->
    reads s (tok :: t :: ts) (Bare tok o :: is) rest.

(* The value an item stores in / appends to the variable at address a, the
   word it contributes, whether it mentions option object id. *)
Definition stored (a : nat) (i : item) : list val :=
  match i with
  | Given _ o _ v => match o_kind o with KScalar _ b _ => if Nat.eqb a b then [v] else [] | _ => [] end
  | Flag _ o => match o_kind o with KPresence b => if Nat.eqb a b then [VBool true] else [] | _ => [] end
  | _ => []
  end.
Definition appended (a : nat) (i : item) : list val :=
  match i with
  | Given _ o _ v => match o_kind o with KVector _ b _ => if Nat.eqb a b then [v] else [] | _ => [] end
  | _ => []
  end.
Definition word (i : item) : list str := match i with Pos w => [w] | _ => [] end.
Definition mentions (id : nat) (i : item) : bool :=
  match i with
  | Pos _ => false
  | Flag _ o | Given _ o _ _ | Bare _ o => Nat.eqb id (o_id o)
  end.

(* The program after a stretch of the line: each variable holds the value
   stored last (else what it held), each vector has the values appended in
   order, and so on; nothing else changed, apart from the text on stderr. *)
Record after (s s' : st) (is : list item) : Prop := mkAfter {
  af_mem : forall a, mem s' a = last (flat_map (stored a) is) (mem s a);
  af_vec : forall a, vmem s' a = vmem s a ++ flat_map (appended a) is;
  af_pos : pos_arg_vec s' = pos_arg_vec s ++ flat_map word is;
  af_present : forall id, present s' id = present s id || existsb (mentions id) is;
  af_long : long_map s' = long_map s;
  af_ab : ab_map s' = ab_map s;
  af_info : info_list s' = info_list s;
  af_kvp : is_kvp s' = is_kvp s;
  af_next : next_id s' = next_id s }.

(* the variable an option writes *)
Definition target (o : opt) (a : nat) : Prop :=
  match o_kind o with KScalar _ b _ | KPresence b => a = b | KVector _ _ _ => False end.
Definition vec_target (o : opt) (a : nat) : Prop :=
  match o_kind o with KVector _ b _ => a = b | _ => False end.

(* o is registered under some name *)
Definition registered (s : st) (o : opt) : Prop :=
  (exists n, findOpt_long s n = Some o) \/ (exists c, findOpt_ab s c = Some o).

(* A help line; p is the long name padded to 20 columns on the right *)
Definition plain_line (o : opt) : str :=
  lit "   --" ++ o_long o ++ repeat " "%char (20 - length (o_long o)) ++ lit " -" ++ [o_ab o] ++
  lit "     " ++ o_doc o ++ ["010"%char].
Definition kvp_line (o : opt) : str :=
  ["009"%char] ++ o_long o ++ ["009"%char] ++ o_doc o ++ ["010"%char].

(* A registration: what is added and under which names. *)
Record reg := mkReg { rg_long : str; rg_ab : ascii; rg_add : st -> st }.
Inductive is_reg : reg -> Prop :=
| RG_def : forall t v ln ab d doc test err,
    is_reg (mkReg ln ab (fun s => add_def s t v ln ab d doc test err))
| RG_nodef : forall t v ln ab doc test err,
    is_reg (mkReg ln ab (fun s => add_nodef s t v ln ab doc test err))
| RG_flag : forall v ln ab doc, is_reg (mkReg ln ab (fun s => addP s v ln ab doc))
| RG_vec : forall t v ln ab doc test err,
    is_reg (mkReg ln ab (fun s => addV s t v ln ab doc test err)).

(* States a program can be in: construct, add, parse, in any order. *)
Inductive reach : st -> Prop :=
| RC_new : forall kvp m vm, reach (newOptions kvp m vm)
| RC_info : forall s i, reach s -> reach (addInfo s i)
| RC_reg : forall s r, reach s -> is_reg r -> reach (rg_add r s)
| RC_mem : forall s m vm, reach s ->   (* the program assigns its variables *)
    reach (mkSt (long_map s) (ab_map s) (info_list s) (pos_arg_vec s) (is_kvp s)
                (waiting_for_signed s) (next_id s) (present s) m vm (cerr s))
| RC_list : forall s ts b s', reach s -> parse_list s ts = Ok (b, s') -> reach s'
| RC_string : forall im s t b s', reach s -> parse_string im s t = Ok (b, s') -> reach s'
| RC_argv : forall s n v b s', reach s -> parse_argv s n v = Ok (b, s') -> reach s'
| RC_kv : forall s t b s', reach s -> parseKeyValue s t = Ok (b, s') -> reach s'.

(* s is reached by a program whose registrations are, in order, those of rs *)
Inductive program : list reg -> st -> Prop :=
| PR_new : forall kvp m vm, program [] (newOptions kvp m vm)
| PR_info : forall rs s i, program rs s -> program rs (addInfo s i)
| PR_reg : forall rs s r, program rs s -> is_reg r -> program (rs ++ [r]) (rg_add r s)
| PR_mem : forall rs s m vm, program rs s ->
    program rs (mkSt (long_map s) (ab_map s) (info_list s) (pos_arg_vec s) (is_kvp s)
                     (waiting_for_signed s) (next_id s) (present s) m vm (cerr s))
| PR_list : forall rs s ts b s', program rs s -> parse_list s ts = Ok (b, s') -> program rs s'
| PR_string : forall rs im s t b s', program rs s -> parse_string im s t = Ok (b, s') -> program rs s'
| PR_argv : forall rs s n v b s', program rs s -> parse_argv s n v = Ok (b, s') -> program rs s'
| PR_kv : forall rs s t b s', program rs s -> parseKeyValue s t = Ok (b, s') -> program rs s'.

(* Lines that can be typed as one string. *)
Definition space (c : ascii) : Prop := white c = true.
Definition blank (w : str) : Prop := Forall space w.
Definition no_quote (t : str) : Prop := ~ In """"%char t.
(* the tokens, each wrapped in double quotes, white space between *)
Inductive quoted_line : list str -> str -> Prop :=
| QL_end : forall w, blank w -> quoted_line [] w
| QL_tok : forall w t ts l, blank w -> no_quote t -> quoted_line ts l ->
    quoted_line (t :: ts) (w ++ [""""%char] ++ t ++ [""""%char] ++ l).
(* the tokens as they are, white space between *)
Inductive plain_text : list str -> str -> Prop :=
| PL_end : forall w, blank w -> plain_text [] w
| PL_last : forall w t, blank w -> t <> [] -> no_quote t -> Forall (fun c => ~ space c) t ->
    plain_text [t] (w ++ t)
| PL_tok : forall w t c ts l, blank w -> t <> [] -> no_quote t -> Forall (fun c => ~ space c) t ->
    space c -> plain_text ts l ->
    plain_text (t :: ts) (w ++ t ++ [c] ++ l).

(* quoted and unquoted tokens mixed *)
Inductive typed_line : list str -> str -> Prop :=
| TL_end : forall w, blank w -> typed_line [] w
| TL_quoted : forall w t ts l, blank w -> no_quote t -> typed_line ts l ->
    typed_line (t :: ts) (w ++ [""""%char] ++ t ++ [""""%char] ++ l)
| TL_last : forall w t, blank w -> t <> [] -> no_quote t -> Forall (fun c => ~ space c) t ->
    typed_line [t] (w ++ t)
| TL_plain : forall w t c ts l, blank w -> t <> [] -> no_quote t -> Forall (fun c => ~ space c) t ->
    space c -> typed_line ts l ->
    typed_line (t :: ts) (w ++ t ++ [c] ++ l).

(* Any string.  A token is a run of characters other than white space and
   quotes, ended by white space or by the end of the string; or such a run
   (possibly empty) followed directly by a quotation, with which it is joined
   into one token.  A quotation that is not closed runs to the end of the
   string; it gives a token only if there is something to it. *)
Definition plain_run (t : str) : Prop := no_quote t /\ Forall (fun c => ~ space c) t.
Inductive command_line : list str -> str -> Prop :=
| CL_end : forall w, blank w -> command_line [] w
| CL_word : forall w t r ts, blank w -> plain_run t -> t <> [] ->
    (r = [] \/ exists c r', r = c :: r' /\ space c) -> command_line ts r ->
    command_line (t :: ts) (w ++ t ++ r)
| CL_quoted : forall w t q ts r, blank w -> plain_run t -> no_quote q -> command_line ts r ->
    command_line ((t ++ q) :: ts) (w ++ t ++ [""""%char] ++ q ++ [""""%char] ++ r)
| CL_open : forall w t q, blank w -> plain_run t -> no_quote q -> t ++ q <> [] ->
    command_line [t ++ q] (w ++ t ++ [""""%char] ++ q)
| CL_lone : forall w, blank w -> command_line [] (w ++ [""""%char]).

(* How a line can end after the items that were understood. *)
Inductive ending (s : st) : list str -> Prop :=
| E_done : ending s []
| E_missing : forall tok o, names s tok o -> ~ is_flag o -> ending s [tok]   (* value missing *)
| E_help : forall tok rest, asks_help tok -> ending s (tok :: rest)
| E_unknown : forall tok rest, looks_like_option tok -> ~ asks_help tok ->
    (forall o, ~ names s tok o) -> ending s (tok :: rest)
| E_rejected : forall tok o text rest, names s tok o -> ~ is_flag o ->
    (looks_like_option text -> greedy o) -> (forall v, ~ accepts o text v) ->
    ending s (tok :: text :: rest).

(* What a rejected text leaves in the variable of a scalar option. *)
Definition leaves (o : opt) (text : str) : option val :=
  match o_kind o with
  | KScalar t _ _ => match ty_read t text with RdOk v => Some v | RdFail x => x end
  | _ => None
  end.

(* The integer a text begins with: white space, an optional sign, a maximal
   non-empty run of digits worth n, and anything after. *)
Definition leading_int (text : str) (neg : bool) (n : N) : Prop :=
  exists w sign ds rest,
    text = w ++ sign ++ ds ++ rest /\ blank w /\
    (if neg then sign = lit "-" else sign = [] \/ sign = lit "+") /\
    value false 10 ds = Some n /\
    match rest with c :: _ => digit_byte c = false | [] => True end.
Definition signed_value (neg : bool) (n : N) : Z := if neg then (- Z.of_N n)%Z else Z.of_N n.

(* The reading stopped at an option of signed type whose value was missing or
   was rejected. *)
Definition stalls (s : st) (rest : list str) : Prop :=
  exists tok o, names s tok o /\ ~ is_flag o /\ o_signed o = true /\
    (rest = [tok] \/ exists text r, rest = tok :: text :: r /\ forall v, ~ accepts o text v).
Definition calm (s : st) (ts : list str) : Prop :=
  exists is rest, reads s ts is rest /\ ending s rest /\ ~ stalls s rest.

(* "k1=v1, k2=v2": pairs separated by commas, blanks (spaces) around pairs *)
Definition spaces (w : str) : Prop := forall c, In c w -> c = " "%char.
Inductive kv_text : list (str * str) -> str -> Prop :=
| KV_one : forall w k v w', spaces w -> spaces w' ->
    kv_text [(k, v)] (w ++ (k ++ lit "=" ++ v) ++ w')
| KV_more : forall w k v w' l t, spaces w -> spaces w' -> kv_text l t ->
    kv_text ((k, v) :: l) ((w ++ (k ++ lit "=" ++ v) ++ w') ++ lit "," ++ t).
Definition plain_kv (p : str * str) : Prop :=
  let u := fst p ++ lit "=" ++ snd p in
  snd p <> [] /\ ~ In "="%char (fst p ++ snd p) /\ ~ In ","%char u /\
  (* no blanks at the ends, no two together *)
  hd_error u <> Some " "%char /\ hd_error (rev u) <> Some " "%char /\
  (forall a b, u <> a ++ " "%char :: " "%char :: b).
Definition kv_tokens_of (l : list (str * str)) : list str :=
  flat_map (fun p => [lit "--" ++ fst p; snd p]) l.

(* Any text: it is cut at the commas; a last piece with nothing but spaces
   does not count.  A piece is stripped and its runs of spaces become one; the
   key is what stands before its first '=', the value what stands after its
   last '='; where nothing does, the part before. *)
Definition kv_cut (t : str) : list str :=
  let f := fields (In_delims (lit ",")) t in
  match words (last f []) with [] => removelast f | _ => f end.
Definition kv_pair (piece : str) : str * str :=
  let f := fields (In_delims (lit "=")) (join (lit " ") (words piece)) in (hd [] f, last (drop_last_empty f) []).

(* Programs none of whose parse calls so far stalled in that way. *)
Inductive settled : st -> Prop :=
| ST_new : forall kvp m vm, settled (newOptions kvp m vm)
| ST_info : forall s i, settled s -> settled (addInfo s i)
| ST_reg : forall s r, settled s -> is_reg r -> settled (rg_add r s)
| ST_mem : forall s m vm, settled s ->
    settled (mkSt (long_map s) (ab_map s) (info_list s) (pos_arg_vec s) (is_kvp s)
                  (waiting_for_signed s) (next_id s) (present s) m vm (cerr s))
| ST_list : forall s ts b s', settled s -> calm s ts -> parse_list s ts = Ok (b, s') -> settled s'
| ST_string : forall im s ts t b s', settled s -> is_kvp s = false -> command_line ts t -> calm s ts ->
    parse_string im s t = Ok (b, s') -> settled s'
| ST_argv : forall s prog ts b s', settled s -> is_kvp s = false -> calm s ts ->
    parse_argv s (Z.of_nat (S (length ts))) (prog :: ts) = Ok (b, s') -> settled s'
| ST_kv : forall s t b s', settled s -> calm s (kv_tokens_of (map kv_pair (kv_cut t))) ->
    parseKeyValue s t = Ok (b, s') -> settled s'.

(* A history of lines, each understood to the end. *)
Inductive understood : st -> list (list item) -> st -> Prop :=
| U_none : forall s, understood s [] s
| U_line : forall s ts is s1 l s2, reads s ts is [] -> parse_list s ts = Ok (true, s1) ->
    understood s1 l s2 -> understood s (is :: l) s2.

(* The tokens an item was read from, and the option it is about. *)
Definition item_tokens (i : item) : list str :=
  match i with
  | Pos w => [w]
  | Flag tok _ | Bare tok _ => [tok]
  | Given tok _ text _ => [tok; text]
  end.
Definition item_opt (i : item) : option opt :=
  match i with Pos _ => None | Flag _ o | Bare _ o | Given _ o _ _ => Some o end.

(* What a registration makes: kind, default, description, error text. *)
Inductive makes : reg -> kind -> bool -> str -> str -> Prop :=
| MK_def : forall t v ln ab d doc test err,
    makes (mkReg ln ab (fun s => add_def s t v ln ab d doc test err)) (KScalar t v test) true doc err
| MK_nodef : forall t v ln ab doc test err,
    makes (mkReg ln ab (fun s => add_nodef s t v ln ab doc test err)) (KScalar t v test) false doc err
| MK_flag : forall v ln ab doc, makes (mkReg ln ab (fun s => addP s v ln ab doc)) (KPresence v) true doc []
| MK_vec : forall t v ln ab doc test err,
    makes (mkReg ln ab (fun s => addV s t v ln ab doc test err)) (KVector t v test) true doc err.

(* Two programs with the same options, variables and positional arguments. *)
Record alike (s1 s2 : st) : Prop := mkAlike {
  al_long : long_map s1 = long_map s2; al_ab : ab_map s1 = ab_map s2;
  al_info : info_list s1 = info_list s2; al_kvp : is_kvp s1 = is_kvp s2;
  al_mem : forall a, mem s1 a = mem s2 a; al_vmem : forall a, vmem s1 a = vmem s2 a;
  al_pos : pos_arg_vec s1 = pos_arg_vec s2 }.

(* What no parse call touches: variables no option writes, and the table of
   options. *)
Record untouched (s s' : st) : Prop := mkUntouched {
  ut_mem : forall a, (forall o, registered s o -> ~ target o a) -> mem s' a = mem s a;
  ut_vec : forall a, (forall o, registered s o -> ~ vec_target o a) -> vmem s' a = vmem s a;
  ut_long : forall n, findOpt_long s' n = findOpt_long s n;
  ut_ab : forall c, findOpt_ab s' c = findOpt_ab s c }.

(* The text starts with character c or d. *)
Definition begins (text : str) (c d : ascii) : Prop := exists r, text = c :: r \/ text = d :: r.

(* isspace is given characters it is defined for (all of them, in glibc). *)
Definition defined_on (im : ctype_impl) (s : str) : Prop :=
  match im with Glibc => True | Strict => forallb (fun c => negb (high_byte c)) s = true end.

(* An exception's text is printed as a C string: all of it, or up to its first
   NUL character. *)
Definition printed (text p : str) : Prop :=
  ~ In "000"%char p /\ (text = p \/ exists r, text = p ++ "000"%char :: r).
