(* S_SmallTests.v -- what test/SplitTest.cxx and test/FormatHexTest.cxx are
   meant to check. *)
From Verif Require Import Base.

(* the three fields of "this,that,the other thing" *)
Definition three_fields : list str := [lit "this"; lit "that"; lit "the other thing"].

(* a request to print a number -- value, format letter, width, separator -- and
   the text demanded: all lines of the tables of FormatHexTest but one *)
Definition demand : Type := N * ascii * Z * ascii * str.
Definition checked : list demand := [
  (0%N, "X", 0%Z, "000", lit "0x0"); (0%N, "X", 3%Z, "000", lit "0x000"); (0%N, "X", 4%Z, "000", lit "0x0000");
  (256%N, "X", 0%Z, "000", lit "0x100"); (256%N, "X", 4%Z, "000", lit "0x0100"); (256%N, "X", 8%Z, "000", lit "0x00000100");
  (256%N, "X", 16%Z, "000", lit "0x0000000000000100");
  (0%N, "X", 0%Z, "_", lit "0x0"); (0%N, "X", 3%Z, "_", lit "0x000"); (256%N, "X", 0%Z, "_", lit "0x100");
  (256%N, "X", 4%Z, "_", lit "0x0100"); (256%N, "X", 8%Z, "_", lit "0x0000_0100"); (256%N, "X", 16%Z, "_", lit "0x0000_0000_0000_0100");
  (0%N, "000", 0%Z, "000", lit "0"); (0%N, "000", 3%Z, "000", lit "  0"); (100%N, "000", 0%Z, "000", lit "100");
  (100%N, "000", 4%Z, "000", lit " 100"); (100%N, "000", 8%Z, "000", lit "     100"); (100%N, "000", 16%Z, "000", lit "             100");
  (0%N, "o", 0%Z, "000", lit "0"); (0%N, "o", 3%Z, "000", lit "000"); (95%N, "o", 0%Z, "000", lit "0137");
  (95%N, "o", 8%Z, "000", lit "00000137"); (95%N, "o", 16%Z, "000", lit "0000000000000137")]%char.
(* the remaining line, the second with the text 0137 (FormatHexTest.cxx 46) *)
Definition unchecked : demand := (95%N, "o"%char, 4%Z, "000"%char, lit "0137").
Definition met (p : N -> ascii -> Z -> ascii -> outcome str) (d : demand) : Prop :=
  let '(v, fm, w, sep, pat) := d in p v fm w sep = Ok pat.
