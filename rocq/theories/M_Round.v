(* M_Round.v -- model of Format::roundToSigDigs, src/Format.cxx 581-609 (a
   protected member for classes derived from Format) and of operator<<,
   Format.cxx 613-617. *)
From Flocq Require Import IEEE754.BinarySingleNaN.
From Verif Require Import Base M_Stream M_Float M_Format M_FormatF.

(* pow(10.0, n) of glibc: exact where 10^n is representable (0 <= n <= 22);
   outside that range the last place may differ; for negative n the theorems use
   only that the result is between 0 and 1/8 *)
Definition dpow10 (n : Z) : double := if (n <? 0)%Z then ddiv d1 (dlit (10 ^ (- n))) else dlit (10 ^ n).
(* the literals 0.1 and 0.5 *)
Definition d0p1 : double := @B754_finite 53 1024 false 7205759403792794 (-56) eq_refl.
(* Format.cxx 583, 604 *)
Definition d0p5 : double := @B754_finite 53 1024 false 4503599627370496 (-53) eq_refl.

(* Format.cxx 583 *)
Definition threshold (sig_digits : Z) : double := dsub (dpow10 sig_digits) d0p5.

(* Format.cxx 586-600: (ret, shift_correction).  None: a loop is still running
   after [fuel] iterations. *)
Definition rts_scale (fuel : nat) (v T : double) : option (double * double) :=
  if dgt v T then
    while fuel (fun s => dgt (fst s) T) (fun s => (dmul (fst s) d0p1, dmul (snd s) d10)) (v, d1)
  else if dlt v T then
    option_map (fun s => (dmul (fst s) d0p1, dmul (snd s) d10))
      (while fuel (fun s => dlt (fst s) T) (fun s => (dmul (fst s) d10, dmul (snd s) d0p1)) (v, d1))
  else Some (v, d1).

(* Format.cxx 602-608 *)
Definition rts_round (ret : double) : double :=
  let fpart := dsub ret (dfloor ret) in
  dtrunc (if dge fpart d0p5 then dadd ret d0p5 else ret).
(* Format.cxx 581-609 *)
Definition roundToSigDigs (fuel : nat) (v : double) (sig_digits : Z) : option double :=
  option_map (fun s => dmul (rts_round (fst s)) (snd s)) (rts_scale fuel v (threshold sig_digits)).

(* Format.cxx 613-617 with ostream << std::string: padded to the stream's width
   with its fill character, on the right if the stream is set to std::left; the
   width is then reset to 0. *)
Record ostream := mkOs { os_width : Z; os_fill : ascii; os_left : bool; os_text : str }.
(* Format.cxx 613-617 *)
Definition print (os : ostream) (f : fmt) : outcome ostream :=
  do s <- fmt_str f false;
  let t := if os_left os then pad_r (os_fill os) (os_width os) s else pad_l (os_fill os) (os_width os) s in
  Ok (mkOs 0 (os_fill os) (os_left os) (os_text os ++ t)).
