(* M_StreamIn.v -- formatted input (operator>>) of libstdc++ in the "C" locale,
   as used by Options.hxx 499-503 and 526-528: istream sentry (skip white
   space), num_get::_M_extract_int with base 10, and operator>>(char&).
   This models the C++ standard library, not /repo; it is part of the trusted base. *)
From Verif Require Import Base.

(* Options.hxx 500, PropertyTree.hxx 170: istream::sentry with skipws: ctype<char>::space in the "C" locale *)
Fixpoint skip_ws (s : str) : str :=
  match s with
  | [] => []
  | c :: r => if space_byte c then skip_ws r else s
  end.

(* locale_facets.tcc, _M_extract_int: leading zeros (base 10) *)
Fixpoint skip_zeros (s : str) (found : bool) : str * bool :=
  match s with
  | [] => ([], found)
  | c :: r => if Ascii.eqb c "0"%char then skip_zeros r true else (s, found)
  end.

(* the digit loop: result, overflow flag, "some digit was accumulated".
   max is the largest magnitude, smax = max / 10. *)
Fixpoint digits_loop (max : N) (s : str) (result : N) (ovf got : bool) : N * bool * bool :=
  match s with
  | [] => (result, ovf, got)
  | c :: r =>
    if digit_byte c then
      let digit := digit_val c in
      if (max / 10 <? result)%N then digits_loop max r result true got
      else
        let result' := (result * 10)%N in
        let ovf' := ovf || (max - digit <? result')%N in
        digits_loop max r (result' + digit)%N ovf' true
    else (result, ovf, got)
  end.

(* _M_extract_int for an integer type with values lo..hi (lo < 0 iff signed;
   an unsigned type negates modulo hi+1).  Returns the value written and
   whether the extraction succeeded (failbit not set). *)
Definition extract_int (lo hi : Z) (s : str) : Z * bool :=
  let is_signed := (lo <? 0)%Z in
  let '(neg, s1) := match s with
                    | [] => (false, [])
                    | c :: r => if Ascii.eqb c "-"%char then (true, r)
                                else if Ascii.eqb c "+"%char then (false, r)
                                else (false, s)
                    end in
  let '(s2, found_zero) := skip_zeros s1 false in
  let max := if neg && is_signed then Z.to_N (- lo) else Z.to_N hi in
  let '(result, ovf, got) := digits_loop max s2 0%N false false in
  if negb got && negb found_zero then (0%Z, false)
  else if ovf then ((if neg && is_signed then lo else hi), false)
  else if neg then (if is_signed then - Z.of_N result else (- Z.of_N result) mod (hi + 1), true)%Z
  else (Z.of_N result, true).

(* Options.hxx 500, PropertyTree.hxx 170: the result of  ss >> v  on a fresh stringstream: the value assigned, or the
   stream failed, leaving in v either what it held before (None) or some value *)
Inductive rd (A : Type) := RdOk (v : A) | RdFail (left : option A).
Arguments RdOk {A} v.
Arguments RdFail {A} left.

(* Options.hxx 500, PropertyTree.hxx 170: a blank text fails in the sentry and assigns nothing *)
Definition read_with {A} (get : str -> A * bool) (s : str) : rd A :=
  match skip_ws s with
  | [] => RdFail None
  | t => let '(v, ok) := get t in if ok then RdOk v else RdFail (Some v)
  end.

(* Options.hxx 500, PropertyTree.hxx 170, T = long; unsigned long and unsigned int likewise: num_get directly *)
Definition read_i64 : str -> rd Z := read_with (extract_int (- two63) (two63 - 1)).
(* Options.hxx 500, PropertyTree.hxx 170, T = unsigned long *)
Definition read_u64 : str -> rd Z := read_with (extract_int 0 (two64 - 1)).
(* Options.hxx 500, PropertyTree.hxx 170, T = unsigned int *)
Definition read_u32 : str -> rd Z := read_with (extract_int 0 (two32 - 1)).
(* Options.hxx 500, PropertyTree.hxx 170, T = int: istream.cc, through a long, then clamped *)
Definition read_i32 : str -> rd Z :=
  read_with (fun t =>
    let '(l, ok) := extract_int (- two63) (two63 - 1) t in
    if (l <? - two31)%Z then ((- two31)%Z, false)
    else if (two31 - 1 <? l)%Z then ((two31 - 1)%Z, false)
    else (l, ok)).
(* short: istream.cc, as int (PropertyTree.hxx 170 with T = short) *)
Definition read_i16 : str -> rd Z :=
  read_with (fun t =>
    let '(l, ok) := extract_int (- two63) (two63 - 1) t in
    if (l <? - 32768)%Z then ((- 32768)%Z, false)
    else if (32767 <? l)%Z then (32767%Z, false)
    else (l, ok)).
(* unsigned short: num_get directly (PropertyTree.hxx 170 with T = unsigned short) *)
Definition read_u16 : str -> rd Z := read_with (extract_int 0 65535).
(* bool without boolalpha: locale_facets.tcc, num_get::do_get(bool&), reads a long
   (PropertyTree.hxx 170 with T = bool; Options reads bool otherwise, Options.hxx 510-536) *)
Definition read_flag : str -> rd bool :=
  read_with (fun t =>
    let '(l, ok) := extract_int (- two63) (two63 - 1) t in
    if (l =? 0)%Z then (false, ok)
    else if (l =? 1)%Z then (true, ok)
    else (true, false)).
(* Options.hxx 500, PropertyTree.hxx 170, T = char: the first character after white space *)
Definition read_char (s : str) : rd ascii :=
  match skip_ws s with
  | [] => RdFail None
  | c :: _ => RdOk c
  end.

(* the value v is put into a variable by f (bookkeeping of the model) *)
Definition rd_map {A B} (f : A -> B) (r : rd A) : rd B :=
  match r with RdOk v => RdOk (f v) | RdFail o => RdFail (option_map f o) end.
