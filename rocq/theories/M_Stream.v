(* M_Stream.v -- the part of <iostream>/<iomanip> output formatting that
   Format.cxx uses, in the "C" locale (C++11 [facet.num.put], [ostream.formatted]).
   This models the C++ standard library, not /repo; it is part of the trusted base. *)
From Verif Require Import Base.

(* digit characters: lower or upper case (operator<<, Format.cxx 265, 276) *)
Definition dig_char (up : bool) (d : N) : ascii :=
  if (d <? 10)%N then ascii_of_N (48 + d)
  else ascii_of_N ((if up then 55 else 87) + d).

(* numeral of n in base b, most significant digit first.
   [fuel] bounds the number of digits; S (N.size_nat n) is enough for b >= 2. *)
Fixpoint numeral_loop (fuel : nat) (up : bool) (b n : N) (acc : str) : str :=
  match fuel with
  | O => acc
  | S f =>
    let acc' := dig_char up (n mod b)%N :: acc in
    if (n / b =? 0)%N then acc' else numeral_loop f up b (n / b)%N acc'
  end.
(* with enough fuel *)
Definition numeral (up : bool) (b n : N) : str := numeral_loop (S (N.size_nat n)) up b n [].

(* ss << unsigned, std::dec (Format.cxx 213-217, 567) *)
Definition put_dec (n : N) : str := numeral false 10 n.
(* ss << int (Format.cxx 153, 158, 466) *)
Definition put_int (v : Z) : str :=
  if (v <? 0)%Z then "-"%char :: put_dec (Z.to_N (- v)) else put_dec (Z.to_N v).
(* ss << std::hex << v, with std::uppercase if up (Format.cxx 256-269) *)
Definition put_hex (up : bool) (n : N) : str := numeral up 16 n.
(* ss.setf(showbase); ss << std::oct << v: a 0 prefix, except for zero *)
Definition put_oct_base (n : N) : str :=
  if (n =? 0)%N then put_dec 0 else "0"%char :: numeral false 8 n.

(* field width handling.  [w] is the int given to std::setw; the field is
   padded when w exceeds the length. *)
Definition fill_count (w : Z) (s : str) : nat := Z.to_nat (w - Z.of_nat (length s)).
(* std::right, or no adjustfield set: fill on the left (Format.cxx 151, 470) *)
Definition pad_l (fill : ascii) (w : Z) (s : str) : str := repeat fill (fill_count w s) ++ s.
(* std::left: fill on the right (Format.cxx 397) *)
Definition pad_r (fill : ascii) (w : Z) (s : str) : str := s ++ repeat fill (fill_count w s).
