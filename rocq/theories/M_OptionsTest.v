(* M_OptionsTest.v -- include/Options.hxx, src/Options.cxx with test functions
   that look at the program they belong to, or throw.  M_Options takes a test
   for a predicate on values; here it is any function of the program's
   variables, of what isPresent and getPosArgs tell, and of the value. *)
From Verif Require Import Base M_StreamIn M_Options.

(* what a test function (Options.hxx 570, 599) can look at *)
Record view := mkView { v_mem : nat -> val; v_vec : nat -> list val; v_present : nat -> bool; v_pos : list str }.
(* the variables, isPresent (Options.cxx 273-285), getPosArgs (Options.cxx 76-78) *)
Definition view_of (s : st) : view := mkView (mem s) (vmem s) (present s) (pos_arg_vec s).

(* how a call of it ends (Options.hxx 570, 599).  Simplification: it changes nothing. *)
Inductive verdict := Accept | Refuse | Raise (e : exn).
(* std::function<bool(T)> (Options.hxx 229-262) *)
Definition tester := view -> val -> verdict.

(* Opt::setVal, OptVec::setVal, OptPresent::setVal (Options.hxx 568-574,
   595-608, 627-631).  T gives the test function of each option object; the
   test in o_kind plays no role here. *)
Definition opt_setVal_t (T : nat -> tester) (s : st) (o : opt) (vstr : str) : st * option exn :=
  match o_kind o with
  | KScalar t a _ =>
    match ty_read t vstr with
    | RdFail (Some v) => (set_mem s a v, Some (badOptValue (o_long o) vstr (o_err o)))
    | RdFail None => (s, Some (badOptValue (o_long o) vstr (o_err o)))
    | RdOk v =>
      let s1 := set_mem s a v in                                          (* 569 *)
      match T (o_id o) (view_of s1) v with                                (* 570 *)
      | Accept => (set_present s1 (o_id o), None)                         (* 573 *)
      | Refuse => (s1, Some (badOptValue (o_long o) vstr (o_err o)))      (* 571 *)
      | Raise e => (s1, Some e)
      end
    end
  | KVector t a _ =>
    match ty_read t vstr with
    | RdFail _ => (s, Some (badOptValue (o_long o) vstr (o_err o)))
    | RdOk v =>
      match T (o_id o) (view_of s) v with                                 (* 599 *)
      | Accept => (set_present (push_vec s a v) (o_id o), None)           (* 603-605 *)
      | Refuse => (s, Some (badOptValue (o_long o) vstr (o_err o)))       (* 600 *)
      | Raise e => (s, Some e)
      end
    end
  | KPresence a => (set_present (set_mem s a (VBool true)) (o_id o), None)
  end.

(* Options.cxx 179-243, as M_Options.parse_loop *)
Fixpoint parse_loop_t (T : nat -> tester) (s : st) (arg_p : option opt) (tokens : list str) : st * lres :=
  match tokens with
  | [] => (s, LTrue)
  | tkn :: rest =>
    let sw_len := match arg_p with                                     (* 184-191 *)
                  | None => isSwitch s tkn
                  | Some o => if o_default o then isSwitch s tkn else 0
                  end in
    if Nat.eqb sw_len 0 then                                           (* 194-206 *)
      match arg_p with
      | Some o =>
        match opt_setVal_t T s o tkn with
        | (s1, Some e) => (s1, LThrow e)
        | (s1, None) => parse_loop_t T (set_wfs s1 false) None rest
        end
      | None => parse_loop_t T (push_pos s tkn) None rest
      end
    else
      let s1 := match arg_p with                                       (* 208-211 *)
                | Some o => set_wfs (opt_setPresent s o) (o_signed o)
                | None => s
                end in
      let help := if Nat.eqb sw_len 1 then Ascii.eqb (nth 1 tkn "000"%char) "h"%char
                  else str_eqb tkn (lit "--help") in                   (* 215-226 *)
      if help then (s1, LHelp)
      else
        let found := if Nat.eqb sw_len 1 then findOpt_ab s1 (nth 1 tkn "000"%char)
                     else findOpt_long s1 (skipn 2 tkn) in
        match found with
        | None => (s1, LThrow (badOptionName tkn))                     (* 230-232 *)
        | Some o =>
          let s2 := if o_signed o then set_wfs s1 true else s1 in      (* 234-236 *)
          if isPresentOpt o then parse_loop_t T (opt_setPresent s2 o) None rest   (* 238-241 *)
          else parse_loop_t T s2 (Some o) rest
        end
  end.

(* how a parse (Options.cxx 176-256) ends: it returns, or an exception leaves it *)
Inductive pres := Returned (b : bool) | Escaped (e : exn).

(* Options.cxx 176-256.  The handlers 245-253 take BadOptValueException and
   BadOptionNameException, whoever threw them; others pass. *)
Definition parse_list_t (T : nat -> tester) (s : st) (tokens : list str) : outcome (pres * st) :=
  match parse_loop_t T s None tokens with
  | (s1, LTrue) => Ok (Returned true, s1)
  | (s1, LHelp) => do h <- printHelp s1; Ok (Returned false, print_err s1 h)
  | (s1, LThrow e) =>
    match ex_class e with
    | BadOptValue => Ok (Returned false, print_err s1 (c_str (ex_what e) ++ endl))
    | BadOptionName =>
      let s2 := print_err s1 (c_str (ex_what e) ++ endl) in
      do h <- printHelp s2; Ok (Returned false, print_err s2 h)
    | _ => Ok (Escaped e, s1)
    end
  end.
