(* S_NaNTest.v -- what test/FormatNaN.cxx accepts. *)
From Verif Require Import Base.

(* the texts for one, infinity and NaN that give the line the program compares
   with; the first triple is the one that is meant *)
Definition accepted : list (str * str * str) :=
  [(lit "1.000000", lit "inf ", lit "nan ");
   (lit "1.000000", lit "inf  nan", []);
   (lit "1.000000 inf", [], lit "nan ");
   (lit "1.000000 inf", lit " nan", [])].
