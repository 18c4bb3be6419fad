(* M_OptionsExample.v -- model of examples/OptionsExample.cxx, a program that
   uses SoDa::Options *)
From Verif Require Import Base M_Stream M_Split M_Format M_Options.

(* What a finished run leaves: the argument of exit, and the texts written to
   std::cout and std::cerr (each in order; how the two interleave is not kept). *)
Record run := mkRun { r_exit : Z; r_out : str; r_err : str }.

(* The variables: int_arg, bool_arg, pres_arg and str_arg at addresses 0 to 3,
   strvec_arg at address 0 of the vectors (OptionsExample.cxx 43-46). *)
(* OptionsExample.cxx 58 *)
Definition ex_test (v : val) : bool :=
  match v with VInt z => (-5 <=? z)%Z && (z <=? 5)%Z | _ => true end.
(* the default test_func of Options.hxx 235 *)
Definition ex_any (v : val) : bool := true.
(* OptionsExample.cxx 43-62; m is what the uninitialised variables hold *)
Definition ex_options (m : nat -> val) : st :=
  let cmd := newOptions false m (fun _ => []) in
  let cmd := addP cmd 2 (lit "presarg") "p" [] in
  let cmd := add_def cmd ty_bool 1 (lit "boolarg") "b" (VBool false) (lit "<true/false/zero/non-zero>") ex_any [] in
  let cmd := add_def cmd ty_string 3 (lit "strarg") "s" (VStr []) (lit "<string>") ex_any [] in
  let cmd := addV cmd ty_string 0 (lit "strvecarg") "l" (lit "<string>") ex_any [] in
  let cmd := add_nodef cmd ty_int 0 (lit "intarg") "i" (lit "An integer argument between -5 and 5 inclusive")
               ex_test (lit "Please pick something from -5 to 5.") in
  let cmd := addInfo cmd (["010"%char] ++ lit "usage:" ++ ["009"%char] ++ lit "OptionsExample [options] [posargs]") in
  addInfo cmd (["010"%char; "009"%char] ++ lit "A simple demonstration of the SoDa::Options parser").

(* operator<< for int, bool and std::string; the other types do not occur *)
Definition ex_put (v : val) : str :=
  match v with
  | VInt z => put_int z
  | VBool b => if b then lit "1" else lit "0"
  | VStr s => s
  | _ => []
  end.
(* OptionsExample.cxx 72-76 and 94-98 *)
Definition ex_values (s : st) : str :=
  lit "intarg = " ++ ex_put (mem s 0) ++ ["010"%char] ++
  lit "boolarg = " ++ ex_put (mem s 1) ++ ["010"%char] ++
  lit "pres_arg = " ++ ex_put (mem s 2) ++ ["010"%char] ++
  lit "str_arg = [" ++ ex_put (mem s 3) ++ lit "]" ++ ["010"%char] ++
  lit "strvecarg s = " ++ ["010"%char].
(* OptionsExample.cxx 77-79 *)
Definition ex_vec (s : st) : str :=
  flat_map (fun sa => ["009"%char] ++ lit "[" ++ ex_put sa ++ lit "]" ++ ["010"%char]) (vmem s 0).
(* OptionsExample.cxx 81-83; each argv[i] is a C string *)
Fixpoint ex_args (i : Z) (argv : list str) : str :=
  match argv with
  | [] => []
  | a :: r => lit "ARG[" ++ put_int i ++ lit "] = [" ++ a ++ lit "]" ++ ["010"%char] ++ ex_args (i + 1) r
  end.
(* OptionsExample.cxx 87-89: n more turns of the loop, from index i *)
Fixpoint ex_posargs (s : st) (n : nat) (i : Z) : outcome str :=
  match n with
  | O => Ok []
  | S n' => do t <- getPosArg s i;
            do r <- ex_posargs s n' (i + 1);
            Ok (["009"%char] ++ put_int i ++ ["009"%char] ++ t ++ ["010"%char] ++ r)
  end.

(* OptionsExample.cxx 41-101.  version and gitid are what UtilsBase's
   getVersion and getGitID return: constants of the build. *)
Definition ex_main (version gitid : str) (im : ctype_impl) (m : nat -> val) (argv : list str) : outcome run :=
  do p <- parse_argv (ex_options m) (Z.of_nat (length argv)) argv;
  let (ok, s) := p in
  if negb ok then Ok (mkRun (-1) [] (cerr s)) else
  let s := print_err s (lit "SoDaUtils version [" ++ version ++ lit "]" ++ ["010"%char]) in
  let s := print_err s (lit "SoDaUtils git id [" ++ gitid ++ lit "]" ++ ["010"%char]) in
  let out := ex_values s ++ ex_vec s ++ ex_args 0 argv in
  let s := print_err s ((if isPresent_long s (lit "intarg") then lit "An" else lit "No") ++ lit " intarg option was present" ++ ["010"%char]) in
  do pos <- ex_posargs s (Z.to_nat (numPosArgs s)) 0;
  let out := out ++ lit "posargs = " ++ ["010"%char] ++ pos in
  do p2 <- parse_string im s (lit "-i 3 -s ""this is a test""");
  let (ok2, s2) := p2 in
  if negb ok2 then Ok (mkRun (-1) out (cerr s2)) else Ok (mkRun 0 (out ++ ex_values s2) (cerr s2)).
