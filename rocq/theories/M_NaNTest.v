(* M_NaNTest.v -- the test program test/FormatNaN.cxx, as a function of the
   text that addF inserts, so that one can ask what its success tells. *)
From Verif Require Import Base M_Stream M_Format M_Float M_FormatF.
From Flocq Require Import IEEE754.BinarySingleNaN.

(* the text addF(v, fmt, width, significant_digits) inserts (Format.hxx 408);
   None: the call does not return *)
Definition renderer := double -> ascii -> Z -> Z -> option (outcome str).
(* Format.cxx 392-494; fuel bounds the loops as in M_FormatF.addF_text *)
Definition lib_renderer (fuel : nat) : renderer := fun v fm w sd => addF_text fuel "."%char v fm w sd.

(* FormatNaN.cxx 13-14 and the like: one addF call; significant_digits is 6
   (Format.hxx 408) *)
Definition add_call (r : renderer) (f : fmt) (v : double) (w : Z) : option (outcome fmt) :=
  option_map (fun o => do t <- o; Ok (insertField f t)) (r v "f"%char w 6%Z).
(* the call after a call that may not return or may throw (FormatNaN.cxx 13-16) *)
Definition after {A B} (x : option (outcome A)) (k : A -> option (outcome B)) : option (outcome B) :=
  match x with
  | None => None
  | Some (Ok a) => k a
  | Some (Throw e) => Some (Throw e)
  | Some UB => Some UB
  end.
(* FormatNaN.cxx 8-24: the exit code.  1.0 / 0.0 is positive infinity and
   sqrt(-1.0) a NaN; the sign of the NaN is not modelled.  What is written on
   std::cout is left out. *)
Definition nan_run (r : renderer) (one : double) : option (outcome Z) :=
  after (Some (newFormat Glibc (lit "ok %0 inf %1 nan %2"))) (fun f0 =>
  after (add_call r f0 one 6) (fun f1 =>
  after (add_call r f1 (B754_infinity false) 4) (fun f2 =>
  after (add_call r f2 B754_nan 4) (fun f3 =>
  after (Some (fmt_str f3 true)) (fun foo =>
  Some (Ok (if str_eqb foo (lit "ok 1.000000 inf inf  nan nan ") then 0%Z else (-1)%Z))))))).
(* FormatNaN.cxx 8-24, with the literal 1.0 of line 13 *)
Definition nan_main (r : renderer) : option (outcome Z) := nan_run r (dlit 1).
