(* M_OptionsTestProg.v -- model of test/OptionsTest.cxx, the test program of
   SoDa::Options *)
From Verif Require Import Base M_Stream M_StreamFloat M_Float M_Format M_Options M_OptionsExample.
From Flocq Require Import IEEE754.BinarySingleNaN.

(* The variables (OptionsTest.cxx 6-15): pres_val, b_val, si_val, u_val,
   f0_val, f1_val, s_val and sind_val at addresses 0 to 7; s_val_list and
   a_val_list at addresses 0 and 1 of the vectors.  They are global: zero and
   empty when main starts. *)
Definition ot_globals (a : nat) : val :=
  match a with
  | 0 | 1 => VBool false
  | 2 | 3 => VInt 0
  | 4 | 5 => VFloat (B754_zero false)
  | _ => VStr []
  end.
(* OptionsTest.cxx 104-115 *)
Definition ot_options : st :=
  let cmd := newOptions false ot_globals (fun _ => []) in
  let cmd := addP cmd 0 (lit "pres") "p" [] in
  let cmd := add_nodef cmd ty_bool 1 (lit "boo") "b" [] ex_any [] in
  let cmd := add_nodef cmd ty_int 2 (lit "sint") "I" [] ex_any [] in
  let cmd := add_nodef cmd ty_int 3 (lit "uint") "U" [] ex_any [] in
  let cmd := add_nodef cmd ty_float 4 (lit "fva0") "f" [] ex_any [] in
  let cmd := add_nodef cmd ty_float 5 (lit "fva1") "F" [] ex_any [] in
  let cmd := add_nodef cmd ty_string 6 (lit "sva") "s" [] ex_any [] in
  let cmd := add_nodef cmd ty_string 7 (lit "s-ind") "c" [] ex_any [] in
  let cmd := addV cmd ty_string 0 (lit "sla") "l" [] ex_any [] in
  addV cmd ty_int 1 (lit "ala") "L" [] ex_any [].

(* std::list::merge (OptionsTest.cxx 34): what the list holds afterwards; the
   other list is left empty.  The standard asks for sorted lists, which these
   are not; this is what libstdc++ does with any two lists: the head of the
   second is taken when it is less than the head of the first. *)
Fixpoint merge1 (xs : list str) : list str -> list str :=
  fix go (ys : list str) : list str :=
    match xs, ys with
    | [], _ => ys
    | _, [] => xs
    | x :: xs', y :: ys' =>
      match str_compare y x with
      | Lt => y :: go ys'
      | _ => x :: merge1 xs' ys
      end
    end.
(* OptionsTest.cxx 34: both lists after arglist.merge(poslist) *)
Definition merge (xs ys : list str) : list str * list str := (merge1 xs ys, []).

(* OptionsTest.cxx 19-26 *)
Definition ot_arglist : list str :=
  [lit "--sint"; lit "-3"; lit "--uint"; lit "3"; lit "--fva0"; lit "-1.1"; lit "--fva1"; lit "1.1";
   lit "--sva"; lit """--this is a test"""; lit "--s-ind"; lit "'--args=""type=b200,serial=c00ld00d""'"].
(* OptionsTest.cxx 29-30 *)
Definition ot_poslist : list str := [lit "po0"; lit "po1"; lit "po2"].

(* The members of Options that the test calls (OptionsTest.cxx 37, 68, 73, 81):
   parse, numPosArgs, getPosArgs and getPosArg.  ot_library below is the
   library's own; the test itself is modelled for any. *)
Record api := mkApi {
  a_parse : st -> list str -> outcome (bool * st);
  a_num : st -> Z;
  a_all : st -> list str;
  a_one : st -> Z -> outcome str }.

(* the double literal 1.1 (OptionsTest.cxx 51, 55) *)
Definition d1p1 : double := @B754_finite 53 1024 false 4953959590107546 (-52) eq_refl.
(* the double literal 1e-6 (OptionsTest.cxx 51, 55) *)
Definition d1em6 : double := @B754_finite 53 1024 false 4722366482869645 (-72) eq_refl.
(* OptionsTest.cxx 43, 47: the condition of the complaint *)
Definition ot_int_bad (v : val) (z : Z) : bool := match v with VInt x => negb (x =? z)%Z | _ => true end.
(* OptionsTest.cxx 51, 55: std::fabs(v + d) > 1e-6, where op is + or - *)
Definition ot_float_bad (op : double -> double -> double) (v : val) : bool :=
  match v with VFloat x => dgt (dabs (op (float_to_double x) d1p1)) d1em6 | _ => true end.
(* OptionsTest.cxx 59, 64 *)
Definition ot_str_bad (v : val) (t : str) : bool := match v with VStr x => negb (str_eqb x t) | _ => true end.
(* if(bad) { std::cerr << text; is_good = false; } as in OptionsTest.cxx 43-46 *)
Definition ot_note (bad : bool) (text : str) (r : bool * str) : bool * str :=
  if bad then (false, snd r ++ text ++ ["010"%char]) else r.

(* OptionsTest.cxx 79-97.  Simplification: the two Format texts are written
   with their arguments in place. *)
Fixpoint ot_loop (A : api) (s : st) (pags : list str) (poslist : list str) (i : Z) (r : bool * str) : outcome (bool * str) :=
  match poslist with
  | [] => Ok r
  | refa :: more =>
    do pa <- a_one A s i;                                                              (* 81 *)
    let r := ot_note (negb (str_eqb pa refa))
               (lit "testPosArgs getPosArg got [" ++ pa ++ lit "] should be [" ++ refa ++ lit "]") r in
    match nth_error pags (Z.to_nat i) with                                             (* 89 *)
    | None => UB
    | Some p =>
      let r := ot_note (negb (str_eqb p refa))
                 (lit "testPosArgs getPosArgs[" ++ put_int i ++ lit "] got [" ++ pa ++ lit "] should be [" ++ refa ++ lit "]") r in
      ot_loop A s pags more (i + 1) r
    end
  end.

(* OptionsTest.cxx 17-100: is_good, and what went to std::cerr.  cmd is a copy
   of main's object; the option objects and the variables are shared. *)
Definition testPosArgs (A : api) (cmd : st) : outcome (bool * str) :=
  let cmd := set_mem cmd 2 (VInt 0) in                                                 (* 18 *)
  let (arglist, poslist) := merge ot_arglist ot_poslist in                             (* 34 *)
  do p <- a_parse A cmd arglist;                                                       (* 37 *)
  let (ok, s) := p in
  let r := (true, cerr s) in
  let r := ot_note (negb ok) (lit "testPosArgs bad parse") r in                        (* 37-40 *)
  let r := ot_note (ot_int_bad (mem s 2) (-3)) (lit "testPosArgs bad si_val") r in     (* 43-46 *)
  let r := ot_note (ot_int_bad (mem s 3) 3) (lit "testPosArgs bad u_val") r in         (* 47-50 *)
  let r := ot_note (ot_float_bad dadd (mem s 4)) (lit "testPosArgs bad f0_val") r in   (* 51-54 *)
  let r := ot_note (ot_float_bad dsub (mem s 5)) (lit "testPosArgs bad f1_val") r in   (* 55-58 *)
  let r := ot_note (ot_str_bad (mem s 7) (lit "'--args=""type=b200,serial=c00ld00d""'"))
             (lit "testPosArgs bad value for s-ind : [" ++ ex_put (mem s 7) ++ lit "]") r in   (* 59-62 *)
  let r := ot_note (ot_str_bad (mem s 6) (lit """--this is a test"""))
             (lit "testPosArgs bad value for sva : [" ++ ex_put (mem s 6) ++ lit "]") r in     (* 64-67 *)
  let r := ot_note (negb (a_num A s =? 3)%Z) (lit "testPosArgs got bad arg count") r in        (* 68-71 *)
  let pags := a_all A s in                                                             (* 73 *)
  let r := ot_note (negb (Nat.eqb (length pags) 3)) (lit "testPosArgs got bad arglist count") r in  (* 74-77 *)
  ot_loop A s pags poslist 0 r.                                                        (* 79-98 *)

(* the library's own members (Options.hxx 376-408, Options.cxx 76-83) *)
Definition ot_library : api := mkApi parse_list numPosArgs getPosArgs getPosArg.

(* OptionsTest.cxx 102-133 *)
Definition ot_main (A : api) (argv : list str) : outcome run :=
  let argc := Z.of_nat (length argv) in
  let out := lit "argc = " ++ put_int argc ++ ["010"%char] in                          (* 119 *)
  do r <- (if (argc <? 2)%Z then
             do g <- testPosArgs A ot_options;                                         (* 121-122 *)
             Ok (fst g, out ++ lit "We are in here." ++ ["010"%char], snd g)
           else
             do p <- parse_argv ot_options argc argv;                                  (* 126 *)
             let (_, s) := p in
             Ok (true, out ++ lit "Why are we here?" ++ ["010"%char] ++
                       lit "!!!! s_val = ??? [" ++ ex_put (mem s 6) ++ lit "]" ++ ["010"%char], cerr s));
  let '(is_good, out, err) := r in
  Ok (mkRun 0 (out ++ (if is_good : bool then lit "PASS" else lit "FAIL") ++ ["010"%char]) err).  (* 130-131 *)
