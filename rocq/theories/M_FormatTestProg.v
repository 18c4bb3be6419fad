(* M_FormatTestProg.v -- model of test/FormatTest.cxx, the test program of
   SoDa::Format.  Not modelled: the messages on std::cerr (lines 17-19, 34-36,
   68-71, 80-82, 84, 91-95, 107-109), the debug run with four or more arguments
   (lines 141-149), whose exit code says nothing. *)
From Verif Require Import Base M_Stream M_StreamIn M_StreamFloat M_Float M_Format M_FormatF M_Round.

(* FormatTest.cxx 8-24 for T = double: the flag returned *)
Definition bad_diff (v newval : double) (p : Z) : bool :=
  let diff := dsub v newval in
  let diff := if dgt diff dzero then diff else dopp diff in
  let norm := dmul (dlit 5) (dpow10 (- p)) in
  let err := ddiv diff v in
  dgt err norm.
(* FormatTest.cxx 26-39: newval is not initialised, so reading it is undefined
   when >> left it alone *)
Definition check_val (v : double) (text : str) (p : Z) : outcome bool :=
  match read_double text with
  | RdOk newval => Ok (bad_diff v newval p)
  | RdFail (Some newval) => Ok (bad_diff v newval p)
  | RdFail None => UB
  end.
(* FormatTest.cxx 41-45; the int arguments p and w become unsigned in addF
   (the test passes 0 to 4 and 0 to 9).  None: the loops of addF are still
   running after [fuel] rounds. *)
Definition do_test (fuel : nat) (im : ctype_impl) (sep : ascii) (v : double) (p w : Z) (fm : ascii) : option (outcome bool) :=
  match newFormat im (lit "%0") with
  | Ok f =>
      option_map (fun o => do f' <- o; do t <- fmt_str f' false; check_val v t p) (addF fuel sep f v fm (to_u32 w) (to_u32 p))
  | Throw e => Some (Throw e)
  | UB => Some UB
  end.

(* where runBigTest is: counting errors, or gone through exit(-1) (line 72) *)
Inductive big_run := Counting (errcount : Z) | TooMany.
(* FormatTest.cxx 67-73 *)
Definition one_more (errcount : Z) : big_run :=
  if (10 <? errcount + 1)%Z then TooMany else Counting (errcount + 1).
(* FormatTest.cxx 64-74: || looks at the second number only when the first one
   was not complained about *)
Definition big_body fuel im sep (v iv : double) (p w : Z) (r : option (outcome big_run)) (fm : ascii) : option (outcome big_run) :=
  match r with
  | Some (Ok (Counting n)) =>
      match do_test fuel im sep v p w fm with
      | Some (Ok true) => Some (Ok (one_more n))
      | Some (Ok false) =>
          match do_test fuel im sep iv p w fm with
          | Some (Ok true) => Some (Ok (one_more n))
          | Some (Ok false) => r
          | Some (Throw e) => Some (Throw e)
          | Some UB => Some UB
          | None => None
          end
      | Some (Throw e) => Some (Throw e)
      | Some UB => Some UB
      | None => None
      end
  | _ => r
  end.
(* the int loops "for(x = lo; x < hi; x += by)" of FormatTest.cxx 56, 58, 61, 62:
   n rounds *)
Definition counter (lo by_ : Z) (n : nat) : list Z := map (fun k => lo + by_ * Z.of_nat k)%Z (seq 0 n).
(* FormatTest.cxx 62-76 *)
Definition big_widths fuel im sep v iv (r : option (outcome big_run)) (p : Z) : option (outcome big_run) :=
  fold_left (fun r w => fold_left (big_body fuel im sep v iv p w) (lit "esg") r) (counter 0 1 10) r.
(* FormatTest.cxx 58-78; e is a double that takes whole values *)
Definition big_exps fuel im sep (test_v test_iv : double) (r : option (outcome big_run)) (e : Z) : option (outcome big_run) :=
  let v := dmul test_v (dpow10 e) in
  let iv := dmul test_iv (dpow10 e) in
  fold_left (big_widths fuel im sep v iv) (counter 0 1 5) r.
(* FormatTest.cxx 53, 79: test_v in round k; [random k] is the value the k-th
   call of unif(re) returns, used in the round after it *)
Definition test_value (random : nat -> double) (k : nat) : double :=
  match k with O => dlit 64 | S k' => random k' end.
(* FormatTest.cxx 57-82 *)
Definition big_round fuel im sep (random : nat -> double) (r : option (outcome big_run)) (k : nat) : option (outcome big_run) :=
  fold_left (big_exps fuel im sep (test_value random k) (dlit (13 * Z.of_nat k))) (counter (-18) 1 36) r.
(* FormatTest.cxx 55-56: i = 0, 13, 26, ... while i < itcount: the number of
   rounds *)
Definition big_rounds (itcount : Z) : nat := Z.to_nat ((itcount + 12) / 13).
(* FormatTest.cxx 47-87; the code has itcount = 50000 *)
Definition run_big_test fuel im sep (itcount : Z) (random : nat -> double) : option (outcome big_run) :=
  fold_left (big_round fuel im sep random) (seq 0 (big_rounds itcount)) (Some (Ok (Counting 0))).

(* FormatTest.cxx 97-100 *)
Definition bool_test (im : ctype_impl) : outcome bool :=
  do f <- newFormat im (lit "%0"); do true_str <- fmt_str (addB f true) false;
  do g <- newFormat im (lit "%0"); do false_str <- fmt_str (addB g false) false;
  Ok (str_eqb true_str (lit "T") && str_eqb false_str (lit "F")).
(* FormatTest.cxx 111-119 *)
Definition fill_test (im : ctype_impl) : outcome bool :=
  do f <- newFormat im (lit "%0 %1 %2 %3");
  let f := addI f 33 5 nul "0" in
  let f := addI f 44444 7 "," "0" in
  let f := addI f 55555 7 "," nul in
  let f := addI f 66666 7 nul nul in
  do check_str <- fmt_str f false;
  Ok (str_eqb check_str (lit "00033 044,444  55,555   66666")).
(* FormatTest.cxx 89-140 with fewer than four arguments: the exit code; a
   SoDa::Exception is caught around runBigTest only *)
Definition format_test_main fuel im sep (itcount : Z) (random : nat -> double) : option (outcome Z) :=
  match bool_test im with
  | Ok false => Some (Ok (-1)%Z)
  | Ok true =>
      match fill_test im with
      | Ok false => Some (Ok (-1)%Z)
      | Ok true =>
          option_map (fun o => match o with
            | Ok TooMany => Ok (-1)%Z
            | Ok (Counting rval) => Ok (if (0 <? rval)%Z then -1 else 0)%Z
            | Throw _ => Ok (-1)%Z
            | UB => UB
            end) (run_big_test fuel im sep itcount random)
      | Throw e => Some (Throw e)
      | UB => Some UB
      end
  | Throw e => Some (Throw e)
  | UB => Some UB
  end.
