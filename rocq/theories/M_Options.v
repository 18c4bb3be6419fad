(* M_Options.v -- model of src/Options.cxx, include/Options.hxx *)
From Flocq Require IEEE754.BinarySingleNaN.
From Verif Require Import Base M_Stream M_StreamIn M_Float M_StreamFloat M_Split M_Format.

(* Values of the target variables (Options.hxx 120-124). *)
Inductive val := VInt (z : Z) | VBool (b : bool) | VStr (s : str) | VChar (c : ascii)
| VFloat (x : single) | VDouble (x : double).

(* An option's value type T: T(), std::is_signed<T>::value, and setValBase(T&,
   vstr) (Options.hxx 497-536): the value stored, or BadOptValueException after
   possibly storing something.  Any type with these three is covered; the
   instances below are the ones of the documentation (Options.hxx 120-124). *)
Record ty := mkTy { ty_zero : val; ty_signed : bool; ty_read : str -> rd val }.

(* Options.hxx 497-504, T = int, long, unsigned, unsigned long, char, float, double *)
Definition ty_int := mkTy (VInt 0) true (fun s => rd_map VInt (read_i32 s)).
(* Options.hxx 497-504, T = long *)
Definition ty_long := mkTy (VInt 0) true (fun s => rd_map VInt (read_i64 s)).
(* Options.hxx 497-504, T = unsigned int *)
Definition ty_uint := mkTy (VInt 0) false (fun s => rd_map VInt (read_u32 s)).
(* Options.hxx 497-504, T = unsigned long *)
Definition ty_ulong := mkTy (VInt 0) false (fun s => rd_map VInt (read_u64 s)).
(* Options.hxx 497-504, T = char (signed on the platforms considered) *)
Definition ty_char := mkTy (VChar "000"%char) true (fun s => rd_map VChar (read_char s)).
(* Options.hxx 497-504, T = float *)
Definition ty_float := mkTy (VFloat (BinarySingleNaN.B754_zero false)) true (fun s => rd_map VFloat (read_float s)).
(* Options.hxx 497-504, T = double *)
Definition ty_double := mkTy (VDouble dzero) true (fun s => rd_map VDouble (read_double s)).
(* Options.hxx 506-508 *)
Definition ty_string := mkTy (VStr []) false (fun s => RdOk (VStr s)).
(* Options.hxx 510-536.  vs[0] of an empty string is the NUL character, so the
   empty text stores false (515-517) and then fails in the stream (527-529). *)
Definition read_bool (vstr : str) : rd bool :=
  let vs := map to_upper vstr in
  let v0 := hd "000"%char vs in
  if str_eqb vs (lit "TRUE") || Ascii.eqb v0 "T"%char then RdOk true
  else if str_eqb vs (lit "FALSE") || Ascii.eqb v0 "F"%char then RdOk false
  else match read_i32 vs with
       | RdOk foo => RdOk (negb (foo =? 0)%Z)
       | RdFail _ => RdFail (match vs with [] => Some false | _ => None end)
       end.
(* Options.hxx 510-536 *)
Definition ty_bool := mkTy (VBool false) false (fun s => rd_map VBool (read_bool s)).

(* Options.hxx 544-639: the three subclasses of OptBase.  Target variables are
   addresses: scalars and vectors live in separate memories.  A test function
   is a total, pure predicate here; M_OptionsTest has the general case. *)
Inductive kind :=
| KScalar (t : ty) (val_p : nat) (test : val -> bool)
| KVector (t : ty) (argvec_p : nat) (test : val -> bool)
| KPresence (val_p : nat).

(* Options.hxx 455-542: an OptBase object.  [o_id] is its identity; its mutable
   member [present] is kept in the state, indexed by o_id. *)
Record opt := mkOpt {
  o_id : nat; o_long : str; o_ab : ascii; o_doc : str; o_err : str;
  o_signed : bool; o_default : bool; o_kind : kind }.

(* Options.hxx 653-661 plus the variables the program registered and what has
   been written to std::cerr.  ab_map is ordered by byte value (the code
   compares char; the order of ab_map is not observable). *)
Record st := mkSt {
  long_map : list (str * opt);
  ab_map : list (ascii * opt);
  info_list : list str;
  pos_arg_vec : list str;
  is_kvp : bool;
  waiting_for_signed : bool;
  next_id : nat;
  present : nat -> bool;
  mem : nat -> val;
  vmem : nat -> list val;
  cerr : str }.

(* f with f(k) = v (bookkeeping of the model; no line of /repo) *)
Definition upd {A} (f : nat -> A) (k : nat) (v : A) : nat -> A :=
  fun x => if Nat.eqb x k then v else f x.

(* *val_p = v (Options.hxx 500, 507, 555, 565, 634) *)
Definition set_mem (s : st) (a : nat) (v : val) : st :=
  mkSt (long_map s) (ab_map s) (info_list s) (pos_arg_vec s) (is_kvp s) (waiting_for_signed s)
       (next_id s) (present s) (upd (mem s) a v) (vmem s) (cerr s).
(* argvec_p->push_back(v) (Options.hxx 603) *)
Definition push_vec (s : st) (a : nat) (v : val) : st :=
  mkSt (long_map s) (ab_map s) (info_list s) (pos_arg_vec s) (is_kvp s) (waiting_for_signed s)
       (next_id s) (present s) (mem s) (upd (vmem s) a (vmem s a ++ [v])) (cerr s).
(* present = true (Options.hxx 479, 605, 629) *)
Definition set_present (s : st) (id : nat) : st :=
  mkSt (long_map s) (ab_map s) (info_list s) (pos_arg_vec s) (is_kvp s) (waiting_for_signed s)
       (next_id s) (upd (present s) id true) (mem s) (vmem s) (cerr s).
(* waiting_for_signed = b (Options.cxx 199, 210, 235) *)
Definition set_wfs (s : st) (b : bool) : st :=
  mkSt (long_map s) (ab_map s) (info_list s) (pos_arg_vec s) (is_kvp s) b
       (next_id s) (present s) (mem s) (vmem s) (cerr s).
(* pos_arg_vec.push_back(tkn) (Options.cxx 204) *)
Definition push_pos (s : st) (tkn : str) : st :=
  mkSt (long_map s) (ab_map s) (info_list s) (pos_arg_vec s ++ [tkn]) (is_kvp s) (waiting_for_signed s)
       (next_id s) (present s) (mem s) (vmem s) (cerr s).
(* std::cerr << t (Options.cxx 217, 224, 246, 250-251) *)
Definition print_err (s : st) (t : str) : st :=
  mkSt (long_map s) (ab_map s) (info_list s) (pos_arg_vec s) (is_kvp s) (waiting_for_signed s)
       (next_id s) (present s) (mem s) (vmem s) (cerr s ++ t).

(* the order of ab_map (Options.hxx 654) *)
Definition char_compare (a b : ascii) : comparison := N.compare (N_of_ascii a) (N_of_ascii b).

(* Options.cxx 42-45, in a program whose variables hold m and vm *)
Definition newOptions (kvp : bool) (m : nat -> val) (vm : nat -> list val) : st :=
  mkSt [] [] [] [] kvp false 0 (fun _ => false) m vm [].

(* Options.cxx 47-50 *)
Definition addInfo (s : st) (info : str) : st :=
  mkSt (long_map s) (ab_map s) (info_list s ++ [info]) (pos_arg_vec s) (is_kvp s) (waiting_for_signed s)
       (next_id s) (present s) (mem s) (vmem s) (cerr s).

(* Options.cxx 287-293; make_shared gives the object a fresh identity, with
   present = false (Options.hxx 463) *)
Definition registerOpt (s : st) (k : kind) (sgn def : bool) (doc err : str) (long_name : str) (ab_name : ascii) : st :=
  let o := mkOpt (next_id s) long_name ab_name doc err sgn def k in
  mkSt (smap_insert str_compare long_name o (long_map s))
       (smap_insert char_compare ab_name o (ab_map s))
       (info_list s) (pos_arg_vec s) (is_kvp s) (waiting_for_signed s)
       (S (next_id s)) (upd (present s) (next_id s) false) (mem s) (vmem s) (cerr s).

(* Options.hxx 229-246, 547-556 *)
Definition add_def (s : st) (t : ty) (v : nat) (ln : str) (ab : ascii) (def_val : val)
           (doc : str) (test : val -> bool) (err : str) : st :=
  registerOpt (set_mem s v def_val) (KScalar t v test) (ty_signed t) true doc err ln ab.
(* Options.hxx 248-262, 558-566 *)
Definition add_nodef (s : st) (t : ty) (v : nat) (ln : str) (ab : ascii)
           (doc : str) (test : val -> bool) (err : str) : st :=
  registerOpt (set_mem s v (ty_zero t)) (KScalar t v test) (ty_signed t) false doc err ln ab.
(* Options.hxx 277-284, 616-621 *)
Definition addP (s : st) (v : nat) (ln : str) (ab : ascii) (doc : str) : st :=
  registerOpt (set_mem s v (VBool false)) (KPresence v) false true doc [] ln ab.
(* Options.hxx 308-320, 585-593: is_signed is false, has_default defaults to true *)
Definition addV (s : st) (t : ty) (v : nat) (ln : str) (ab : ascii)
           (doc : str) (test : val -> bool) (err : str) : st :=
  registerOpt s (KVector t v test) false true doc err ln ab.

(* Options.cxx 258-270 *)
Definition findOpt_long (s : st) (n : str) : option opt := smap_find str_compare n (long_map s).
(* Options.cxx 265-270 *)
Definition findOpt_ab (s : st) (c : ascii) : option opt := smap_find char_compare c (ab_map s).

(* Options.cxx 273-285 *)
Definition isPresent_long (s : st) (n : str) : bool :=
  match findOpt_long s n with None => false | Some o => present s (o_id o) end.
(* Options.cxx 280-285 *)
Definition isPresent_ab (s : st) (c : ascii) : bool :=
  match findOpt_ab s c with None => false | Some o => present s (o_id o) end.

(* Options.hxx 151-155, 165-173 *)
Definition badOptionName (tkn : str) : exn :=
  mkExn BadOptionName (lit "Command option [[" ++ tkn ++ lit "]] is unknown.").
(* Options.hxx 165-173 *)
Definition badOptValue (long_name badstr err_msg : str) : exn :=
  mkExn BadOptValue (long_name ++ lit " unacceptable value """ ++ badstr ++ lit """ " ++ err_msg).

(* OptBase::setPresent, OptPresent::setPresent (Options.hxx 477-481, 633-636) *)
Definition opt_setPresent (s : st) (o : opt) : st :=
  match o_kind o with
  | KPresence a => set_present (set_mem s a (VBool true)) (o_id o)
  | _ => set_present s (o_id o)
  end.

(* Opt::setVal, OptVec::setVal, OptPresent::setVal (Options.hxx 568-574,
   595-608, 627-631): the state afterwards, and the exception if one is thrown *)
Definition opt_setVal (s : st) (o : opt) (vstr : str) : st * option exn :=
  match o_kind o with
  | KScalar t a test =>
    match ty_read t vstr with
    | RdFail (Some v) => (set_mem s a v, Some (badOptValue (o_long o) vstr (o_err o)))
    | RdFail None => (s, Some (badOptValue (o_long o) vstr (o_err o)))
    | RdOk v =>
      let s1 := set_mem s a v in
      if test v then (set_present s1 (o_id o), None)
      else (s1, Some (badOptValue (o_long o) vstr (o_err o)))
    end
  | KVector t a test =>
    match ty_read t vstr with
    | RdFail _ => (s, Some (badOptValue (o_long o) vstr (o_err o)))
    | RdOk v =>
      if test v then (set_present (push_vec s a v) (o_id o), None)
      else (s, Some (badOptValue (o_long o) vstr (o_err o)))
    end
  | KPresence a => (set_present (set_mem s a (VBool true)) (o_id o), None)
  end.

(* Options.hxx 472, 623 *)
Definition isPresentOpt (o : opt) : bool := match o_kind o with KPresence _ => true | _ => false end.

(* Options.cxx 134-160 *)
Definition isSwitch (s : st) (tkn : str) : nat :=
  if waiting_for_signed s then 0
  else if length tkn <? 2 then 0
  else if negb (Ascii.eqb (nth 0 tkn "000"%char) "-"%char) then 0
  else if Ascii.eqb (nth 1 tkn "000"%char) "-"%char
  then (if length tkn <? 3 then 0 else 2)
  else 1.

(* how the token loop (Options.cxx 179-243) ends: it runs out of tokens, it meets a help request
   (the caller then prints the help and returns false), or it throws *)
Inductive lres := LTrue | LHelp | LThrow (e : exn).

(* Options.cxx 179-243: the token loop *)
Fixpoint parse_loop (s : st) (arg_p : option opt) (tokens : list str) : st * lres :=
  match tokens with
  | [] => (s, LTrue)
  | tkn :: rest =>
    let sw_len := match arg_p with                                     (* 184-191 *)
                  | None => isSwitch s tkn
                  | Some o => if o_default o then isSwitch s tkn else 0
                  end in
    if Nat.eqb sw_len 0 then                                           (* 194-206 *)
      match arg_p with
      | Some o =>
        match opt_setVal s o tkn with
        | (s1, Some e) => (s1, LThrow e)
        | (s1, None) => parse_loop (set_wfs s1 false) None rest
        end
      | None => parse_loop (push_pos s tkn) None rest
      end
    else
      let s1 := match arg_p with                                       (* 208-211 *)
                | Some o => set_wfs (opt_setPresent s o) (o_signed o)
                | None => s
                end in
      let help := if Nat.eqb sw_len 1 then Ascii.eqb (nth 1 tkn "000"%char) "h"%char
                  else str_eqb tkn (lit "--help") in                   (* 215-226 *)
      if help then (s1, LHelp)
      else
        let found := if Nat.eqb sw_len 1 then findOpt_ab s1 (nth 1 tkn "000"%char)
                     else findOpt_long s1 (skipn 2 tkn) in
        match found with
        | None => (s1, LThrow (badOptionName tkn))                     (* 230-232 *)
        | Some o =>
          let s2 := if o_signed o then set_wfs s1 true else s1 in      (* 234-236 *)
          if isPresentOpt o then parse_loop (opt_setPresent s2 o) None rest   (* 238-241 *)
          else parse_loop s2 (Some o) rest
        end
  end.

(* Options.cxx 65-70, 295-298: one option's help line *)
Definition help_line (kvp : bool) (o : opt) : outcome str :=
  do head <- (if kvp then Ok (["009"%char] ++ o_long o ++ ["009"%char])
              else do f0 <- newFormat Strict (lit "   --%0 -%1     ");
                   do f1 <- addS f0 (o_long o) (-20);
                   fmt_str (addC f1 (o_ab o)) false);
  Ok (head ++ o_doc o ++ ["010"%char]).
(* Options.cxx 59-71: for(auto ele : long_map) *)
Fixpoint help_lines (kvp : bool) (m : list (str * opt)) : outcome str :=
  match m with
  | [] => Ok []
  | (_, o) :: r => do l <- help_line kvp o; do t <- help_lines kvp r; Ok (l ++ t)
  end.
(* Options.cxx 52-74: the text printHelp writes *)
Definition printHelp (s : st) : outcome str :=
  do t <- help_lines (is_kvp s) (long_map s);
  Ok (concat (map (fun i => i ++ ["010"%char]) (info_list s)) ++ t).

(* operator<< of a C string: up to the first NUL (Options.cxx 246, 250) *)
Fixpoint c_str (s : str) : str :=
  match s with
  | [] => []
  | c :: r => if Ascii.eqb c "000"%char then [] else c :: c_str r
  end.
(* std::endl or a newline (Options.cxx 246, 250) *)
Definition endl : str := ["010"%char].

(* Options.cxx 176-256, with the handlers 245-253.  The help texts of 216-226
   are printed here instead of inside the loop. *)
Definition parse_list (s : st) (tokens : list str) : outcome (bool * st) :=
  match parse_loop s None tokens with
  | (s1, LTrue) => Ok (true, s1)
  | (s1, LHelp) => do h <- printHelp s1; Ok (false, print_err s1 h)
  | (s1, LThrow e) =>
    let s2 := print_err s1 (c_str (ex_what e) ++ endl) in
    match ex_class e with
    | BadOptionName => do h <- printHelp s2; Ok (false, print_err s2 h)
    | _ => Ok (false, s2)
    end
  end.

(* Options.cxx 85-94.  argv has at least argc entries, each a NUL-terminated
   string; a missing one is a null pointer: undefined. *)
Fixpoint args_from (n : nat) (argv : list str) : outcome (list str) :=
  match n with
  | O => Ok []
  | S n' => match argv with
            | [] => UB
            | a :: r => do t <- args_from n' r; Ok (a :: t)
            end
  end.
(* Options.cxx 85-94 *)
Definition buildTokenList_argv (argc : Z) (argv : list str) : outcome (list str) :=
  if (argc <? 2)%Z then Ok [] else args_from (Z.to_nat (argc - 1)) (tl argv).

(* Options.cxx 100-131: the character loop *)
Fixpoint tok_loop (im : ctype_impl) (s : str) (ret : list str) (cur_tkn : str) (in_quote : bool) : outcome (list str) :=
  match s with
  | [] => Ok (if 0 <? length cur_tkn then ret ++ [cur_tkn] else ret)
  | c :: r =>
    do sp <- c_isspace im c;
    if sp then
      if in_quote then tok_loop im r ret (cur_tkn ++ [c]) in_quote
      else if 0 <? length cur_tkn then tok_loop im r (ret ++ [cur_tkn]) [] in_quote
      else tok_loop im r ret cur_tkn in_quote
    else if Ascii.eqb c """"%char then
      if in_quote then tok_loop im r (ret ++ [cur_tkn]) [] false
      else tok_loop im r ret cur_tkn true
    else tok_loop im r ret (cur_tkn ++ [c]) in_quote
  end.
(* Options.cxx 96-132 *)
Definition buildTokenList (im : ctype_impl) (s : str) : outcome (list str) := tok_loop im s [] [] false.

(* Options.cxx 315-330.  front()/back() of an empty list would be undefined. *)
Fixpoint kv_tokens (l : list str) : outcome (list str) :=
  match l with
  | [] => Ok []
  | kv_a :: r =>
    do kv <- squashSpaces kv_a;
    do kvp <- split kv (lit "=") false;
    match kvp with
    | [] => UB
    | key :: _ => do t <- kv_tokens r; Ok ((lit "--" ++ key) :: last kvp [] :: t)
    end
  end.
(* Options.cxx 309-333 *)
Definition parseKeyValue_list (s : st) (l : list str) : outcome (bool * st) :=
  do t <- kv_tokens l; parse_list s t.
(* Options.cxx 300-307 *)
Definition parseKeyValue (s : st) (t : str) : outcome (bool * st) :=
  match t with
  | [] => Ok (false, s)
  | _ => do l <- split t (lit ",") false;
         match l with [] => Ok (false, s) | _ => parseKeyValue_list s l end
  end.

(* Options.cxx 162-166 *)
Definition parse_argv (s : st) (argc : Z) (argv : list str) : outcome (bool * st) :=
  do tokens <- buildTokenList_argv argc argv;
  if is_kvp s then parseKeyValue_list s tokens else parse_list s tokens.
(* Options.cxx 168-174 *)
Definition parse_string (im : ctype_impl) (s : st) (t : str) : outcome (bool * st) :=
  if is_kvp s then parseKeyValue s t
  else do tokens <- buildTokenList im t; parse_list s tokens.

(* Options.cxx 76-78 *)
Definition getPosArgs (s : st) : list str := pos_arg_vec s.
(* Options.cxx 80-83: idx > size() compares as size_t; reading at or past the
   end is undefined *)
Definition getPosArg (s : st) (idx : Z) : outcome str :=
  if (Z.of_nat (length (pos_arg_vec s)) <? to_u64 idx)%Z then Ok []
  else match nth_error (pos_arg_vec s) (Z.to_nat (to_u64 idx)) with
       | Some t => Ok t
       | None => UB
       end.
(* Options.hxx 408 *)
Definition numPosArgs (s : st) : Z := to_i32 (Z.of_nat (length (pos_arg_vec s))).
