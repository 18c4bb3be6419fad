(* M_StreamFloat.v -- operator>> for float and double of libstdc++ in the "C"
   locale, as used by Options.hxx 499-503 and PropertyTree.hxx 168-178 with
   T = float, double: num_get::_M_extract_float collects the characters of a
   numeral, std::__convert_to_v converts them with strtof or strtod.
   This models the C and C++ libraries, not /repo; it is part of the trusted
   base.  glibc's strtod returns the nearest representable number, ties to
   even, for every decimal numeral. *)
From Coq Require Import SpecFloat.
From Flocq Require Import Core.Core Calc.Div Calc.Bracket IEEE754.BinarySingleNaN.
From Verif Require Import Base M_StreamIn M_Float.

(* '+' or '-' (C library; no line of /repo) *)
Definition is_sign (c : ascii) : bool := Ascii.eqb c "+" || Ascii.eqb c "-".

(* locale_facets.tcc, _M_extract_float: the loop over digits, one point and one
   exponent; [xt] is what has been collected *)
Fixpoint float_chars (s xt : str) (mantissa dec sci : bool) : str :=
  match s with
  | [] => xt
  | c :: r =>
    if digit_byte c then float_chars r (xt ++ [c]) true dec sci
    else if Ascii.eqb c "." && negb dec && negb sci then float_chars r (xt ++ lit ".") mantissa true sci
    else if (Ascii.eqb c "e" || Ascii.eqb c "E") && negb sci && mantissa then
      match r with
      | c2 :: r2 => if is_sign c2 then float_chars r2 (xt ++ lit "e" ++ [c2]) mantissa dec true
                    else float_chars r (xt ++ lit "e") mantissa dec true
      | [] => xt ++ lit "e"
      end
    else xt
  end.
(* the sign, the leading zeros (collected as one), the loop *)
Definition collect_float (s : str) : str :=
  let '(sign, s1) := match s with
                     | c :: r => if is_sign c then ([c], r) else ([], s)
                     | [] => ([], [])
                     end in
  let '(s2, zero) := skip_zeros s1 false in
  float_chars s2 (sign ++ (if zero then lit "0" else [])) zero false false.

(* strtod on such a text: the sign, the digits of the mantissa as an integer n,
   the exponent k of ten (so that the number is n * 10^k) and the text not
   consumed; None: nothing was consumed *)
Fixpoint span_digits (s : str) : str * str :=
  match s with
  | c :: r => if digit_byte c then let '(d, t) := span_digits r in (c :: d, t) else ([], s)
  | [] => ([], [])
  end.
(* the value of a string of digits (C library) *)
Definition digits_N (s : str) : N := fold_left (fun a c => 10 * a + digit_val c)%N s 0%N.
(* strtod, as described above (C library) *)
Definition strtod_parse (t : str) : option (bool * N * Z * str) :=
  let '(neg, t1) := match t with
                    | c :: r => if is_sign c then (Ascii.eqb c "-", r) else (false, t)
                    | [] => (false, [])
                    end in
  let '(ip, t2) := span_digits t1 in
  let '(fp, t3) := match t2 with
                   | c :: r => if Ascii.eqb c "." then span_digits r else ([], t2)
                   | [] => ([], [])
                   end in
  if (length (ip ++ fp) =? 0)%nat then None
  else
    let n := digits_N (ip ++ fp) in
    let k := (- Z.of_nat (length fp))%Z in
    let '(eneg, t4) := match t3 with
                       | c :: c2 :: r => if Ascii.eqb c "e" then (if is_sign c2 then (Ascii.eqb c2 "-", r) else (false, c2 :: r))
                                         else (false, [])
                       | _ => (false, [])
                       end in
    let '(ed, t5) := span_digits t4 in
    match ed with
    | [] => Some (neg, n, k, t3)
    | _ => Some (neg, n, (k + (if eneg then - Z.of_N (digits_N ed) else Z.of_N (digits_N ed)))%Z, t5)
    end.

Section Format.
Context (prec emax : Z) (Hp : Prec_gt_0 prec) (Hm : Prec_lt_emax prec emax).
(* a number of Flocq without its bounds, put into a binary_float (Flocq; no line of /repo) *)
Definition sf_to_float (z : spec_float) : binary_float prec emax :=
  match Bool.bool_dec (valid_binary prec emax z) true with
  | left H => SF2B z H
  | right _ => B754_nan
  end.
(* (-1)^neg * n * 10^k to nearest, ties to even *)
Definition dec_to_float (neg : bool) (n : N) (k : Z) : binary_float prec emax :=
  match n with
  | N0 => B754_zero neg
  | Npos _ =>
    let '(m, e, l) := @Fdiv radix2 (SpecFloat.fexp prec emax) (Float radix2 (Z.of_N n * 10 ^ Z.max 0 k) 0)
                        (Float radix2 (10 ^ Z.max 0 (- k)) 0) in
    sf_to_float (binary_round_aux prec emax mode_NE neg m e l)
  end.
(* std::__convert_to_v (c++locale.cc): a text not consumed entirely gives 0 and
   an overflow the largest number; both set failbit *)
Definition convert_to_v (t : str) : binary_float prec emax * bool :=
  match strtod_parse t with
  | Some (neg, n, k, []) =>
    match dec_to_float neg n k with
    | B754_infinity s => (if s then Bopp (@Bmax_float prec emax Hp Hm) else @Bmax_float prec emax Hp Hm, false)
    | x => (x, true)
    end
  | _ => (B754_zero false, false)
  end.
(* ss >> v (Options.hxx 500, PropertyTree.hxx 170) *)
Definition read_fp : str -> rd (binary_float prec emax) := read_with (fun s => convert_to_v (collect_float s)).
End Format.

(* Options.hxx 500, PropertyTree.hxx 170, T = double *)
Definition read_double : str -> rd double := read_fp 53 1024 prec64 emax64.
(* binary32: 24 bits of precision ... *)
Definition prec32 : Prec_gt_0 24 := eq_refl.
(* ... and exponents below 128 (IEEE 754) *)
Definition emax32 : Prec_lt_emax 24 128 := eq_refl.
(* the type float *)
Definition single := binary_float 24 128.
(* Options.hxx 500, PropertyTree.hxx 170, T = float *)
Definition read_float : str -> rd single := read_fp 24 128 prec32 emax32.

(* the conversion from float to double, as when a float is given to Format::addF
   (Format.hxx 408);
   every float is representable, so it is exact *)
Definition float_to_double (x : single) : double :=
  match x with
  | B754_zero s => B754_zero s
  | B754_infinity s => B754_infinity s
  | B754_nan => B754_nan
  | B754_finite s m e _ => binary_normalize 53 1024 prec64 emax64 mode_NE (SpecFloat.cond_Zopp s (Zpos m)) e s
  end.
