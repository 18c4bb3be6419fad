(* S_FormatTestProg.v -- what FormatTest should find out about a text. *)
From Coq Require Import Reals.
From Flocq Require Import Core.Core IEEE754.BinarySingleNaN.
From Verif Require Import Base M_Float S_FormatF S_FloatIn.
Local Open Scope R_scope.

(* the number a text begins with, as the nearest double *)
Definition reads_as (text : str) (y : double) : Prop :=
  exists neg ip fp ex x, leading_float text neg ip fp ex /\ denotes neg ip fp ex x /\ is_nearest neg x y.
(* y is off from v by at most the part t of v *)
Definition within (t : R) (v y : double) : Prop := Rabs (real_of y - real_of v) <= t * Rabs (real_of v).
(* the tolerance of the test with p digits *)
Definition tolerance (p : Z) : R := 5 * powerRZ 10 (- p).
(* 10^-9: the room left for the rounding of the check's own arithmetic *)
Definition room : R := powerRZ 10 (-9).
(* a positive number away from the ends of the format *)
Definition ordinary (v : double) : Prop := finite v /\ powerRZ 2 (-1015) <= real_of v <= powerRZ 2 1000.
(* what the random generator may hand out: 0, or a number in [2^-900, 11/10] *)
Definition drawable (v : double) : Prop := v = B754_zero false \/ finite v /\ powerRZ 2 (-900) <= real_of v <= 11 / 10.
Definition tested_format (fm : ascii) : Prop := fm = "e"%char \/ fm = "s"%char \/ fm = "g"%char.
