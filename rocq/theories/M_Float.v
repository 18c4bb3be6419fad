(* M_Float.v -- the C++ double and the parts of <cmath> and of iostream output
   of doubles that Format.cxx uses.
   This models the compiler and the C and C++ libraries, not /repo; it is part
   of the trusted base.  double is IEEE 754 binary64; + * / round to nearest,
   ties to even (x86-64 SSE2 arithmetic, FLT_EVAL_METHOD 0, default rounding
   mode).  The operations are those of Flocq (definitions only, no axioms). *)
From Flocq Require Import Core.Core IEEE754.BinarySingleNaN.
From Verif Require Import Base M_Stream.

(* binary64: 53 bits of precision ... *)
Definition prec64 : Prec_gt_0 53 := eq_refl.
(* ... and exponents below 1024 (IEEE 754; no line of /repo) *)
Definition emax64 : Prec_lt_emax 53 1024 := eq_refl.
(* the type double, as in Format.hxx 408 *)
Definition double := binary_float 53 1024.

(* x + y, as in Format.cxx 302 *)
Definition dadd (x y : double) : double := @Bplus 53 1024 prec64 emax64 mode_NE x y.
(* x - y, as in Format.cxx 583 *)
Definition dsub (x y : double) : double := @Bminus 53 1024 prec64 emax64 mode_NE x y.
(* x * y, as in Format.cxx 292, 306 *)
Definition dmul (x y : double) : double := @Bmult 53 1024 prec64 emax64 mode_NE x y.
(* x / y, as in Format.cxx 288 *)
Definition ddiv (x y : double) : double := @Bdiv 53 1024 prec64 emax64 mode_NE x y.
(* x < y, x >= y, x > y, x == y: false when one of them is a NaN (Format.cxx 287, 291, 309, 316) *)
Definition dlt (x y : double) : bool := @Bltb 53 1024 x y.
(* as in Format.cxx 287 *)
Definition dge (x y : double) : bool := @Bleb 53 1024 y x.
(* as in Format.cxx 316, 326 *)
Definition dgt (x y : double) : bool := @Bltb 53 1024 y x.
(* as in Format.cxx 438 *)
Definition deq (x y : double) : bool := @Beqb 53 1024 x y.
(* the literals 1.0, 10.0, ...; int to double *)
Definition dlit (n : Z) : double := @binary_normalize 53 1024 prec64 emax64 mode_NE n 0 false.
(* the literals 0.0 and 0 (Format.cxx 438, 464) *)
Definition dzero : double := B754_zero false.

(* std::isnan, std::isinf, unary minus, fabs (Format.cxx 403, 407, 446) *)
Definition d_isnan (x : double) : bool := is_nan x.
(* Format.cxx 407 *)
Definition d_isinf (x : double) : bool := match x with B754_infinity _ => true | _ => false end.
(* Format.cxx 403 *)
Definition dopp (x : double) : double := @Bopp 53 1024 x.
(* Format.cxx 446 *)
Definition dabs (x : double) : double := @Babs 53 1024 x.
(* floor, trunc (Format.cxx 371, 603, 606) *)
Definition dfloor (x : double) : double := @Bnearbyint 53 1024 emax64 mode_DN x.
(* as in Format.cxx 606 *)
Definition dtrunc (x : double) : double := @Bnearbyint 53 1024 emax64 mode_ZR x.
(* modf(x, &ip) (Format.cxx 342, 373): the integer part by truncation and the exact difference (for finite x; the
   sign of a zero result is not modelled) *)
Definition dmodf (x : double) : double * double := let ip := dtrunc x in (dsub x ip, ip).
(* conversion to int (Format.cxx 346, 371): truncation; undefined outside the range of int *)
Definition d_to_int (x : double) : outcome Z :=
  if is_finite x then
    let n := @Btrunc 53 1024 x in
    if ((- two31 <=? n) && (n <? two31))%Z then Ok n else UB
  else UB.

(* ---- ostream << double (libstdc++: num_put calls vsnprintf with %.*f, %.*e
   or %.*g, which print the exact value correctly rounded, ties to even) ---- *)

(* the magnitude of a finite double is exactly [fst] * 10 ^ [snd] *)
Definition dec_parts (x : double) : Z * Z :=
  match x with
  | B754_finite _ m e _ => if (0 <=? e)%Z then (Z.pos m * 2 ^ e, 0)%Z else (Z.pos m * 5 ^ (- e), e)%Z
  | _ => (0, 0)%Z
  end.
(* a / b to nearest, ties to even (C library, for Format.cxx 416-427) *)
Definition round_div (a b : Z) : Z :=
  let q := (a / b)%Z in
  match (2 * (a mod b) ?= b)%Z with
  | Lt => q
  | Gt => q + 1
  | Eq => if Z.even q then q else q + 1
  end%Z.
(* m * 10 ^ k to the nearest integer *)
Definition scale10 (m k : Z) : Z :=
  if (0 <=? k)%Z then (m * 10 ^ k)%Z else round_div m (10 ^ (- k)).

(* the decimal numeral of n (printf; no line of /repo) *)
Definition zdec (n : Z) : str := put_dec (Z.to_N n).
(* the p decimal digits of n < 10 ^ p, with leading zeros *)
Definition zdec_pad (p n : Z) : str := if (p <=? 0)%Z then [] else pad_l "0"%char p (zdec n).
(* "." and the fraction digits, nothing if there are none (printf, for Format.cxx 416-427) *)
Definition point (frac : str) : str := match frac with [] => [] | _ => "."%char :: frac end.
(* a minus sign, also for -0.0 (printf; no line of /repo) *)
Definition sign_text (x : double) : str := if Bsign x then lit "-" else [].

(* %.pf (Format.cxx 416) *)
Definition fixed_parts (p : Z) (x : double) : str * str :=
  let '(m, e) := dec_parts x in
  let n := scale10 m (e + p) in
  (zdec (n / 10 ^ p), zdec_pad p (n mod 10 ^ p)).
(* ss << std::fixed << x (Format.cxx 413-417) *)
Definition put_fixed (p : Z) (x : double) : str :=
  let '(i, f) := fixed_parts p x in sign_text x ++ i ++ point f.

(* %.pe: the p+1 digits as an integer and the exponent *)
Definition sci_parts (p : Z) (x : double) : Z * Z :=
  let '(m, e) := dec_parts x in
  if (m =? 0)%Z then (0, 0)%Z
  else
    let l := Z.of_nat (length (zdec m)) in
    let n := scale10 m (p + 1 - l) in
    if (n =? 10 ^ (p + 1))%Z then (10 ^ p, e + l)%Z else (n, e + l - 1)%Z.
(* the exponent: a sign and at least two digits (printf, for Format.cxx 421, 427) *)
Definition exp_text (x : Z) : str :=
  (if (x <? 0)%Z then lit "e-" else lit "e+") ++ pad_l "0"%char 2 (zdec (Z.abs x)).
(* ss << std::scientific << x (Format.cxx 418-422) *)
Definition put_sci (p : Z) (x : double) : str :=
  let '(n, ex) := sci_parts p x in
  sign_text x ++ zdec (n / 10 ^ p) ++ point (zdec_pad p (n mod 10 ^ p)) ++ exp_text ex.

(* %.pg: without trailing zeros in the fraction (Format.cxx 427) *)
Fixpoint drop_zeros (s : str) : str :=
  match s with
  | [] => []
  | c :: r => match drop_zeros r with
              | [] => if Ascii.eqb c "0" then [] else [c]
              | t => c :: t
              end
  end.
(* ss << x without a floatfield (Format.cxx 423-428) *)
Definition put_gen (p : Z) (x : double) : str :=
  let P := if (p =? 0)%Z then 1%Z else p in
  let '(n, ex) := sci_parts (P - 1) x in
  if ((-4 <=? ex) && (ex <? P))%Z then
    let '(i, f) := fixed_parts (P - 1 - ex) x in
    sign_text x ++ i ++ point (drop_zeros f)
  else
    sign_text x ++ zdec (n / 10 ^ (P - 1)) ++ point (drop_zeros (zdec_pad (P - 1) (n mod 10 ^ (P - 1)))) ++ exp_text ex.

(* std::setprecision(p), p an int: libstdc++ takes 6 when it is negative *)
Definition stream_prec (p : Z) : Z := if (p <? 0)%Z then 6%Z else p.
