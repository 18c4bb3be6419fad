(* S_FloatIn.v -- floating-point numerals in a text and the nearest
   representable number. *)
From Coq Require Import Reals.
From Flocq Require Import Core.Core IEEE754.BinarySingleNaN.
From Verif Require Import Base S_Num S_Options S_FormatF.
Local Open Scope R_scope.

(* an optional sign *)
Definition sign_of (neg : bool) (sg : str) : Prop :=
  if neg then sg = lit "-" else sg = [] \/ sg = lit "+".

(* [sign] digits [. digits] [(e|E) [sign] digits]; the point may come first or
   last, but the mantissa has at least one digit.  [pt] and [xp] are the point
   and the exponent as written. *)
Definition float_numeral (t : str) (neg : bool) (ip pt fp xp : str) (ex : Z) : Prop :=
  exists sg, t = sg ++ ip ++ pt ++ fp ++ xp /\ sign_of neg sg /\
    all_digits ip /\ all_digits fp /\ ip ++ fp <> [] /\
    (pt = lit "." \/ pt = [] /\ fp = []) /\
    (xp = [] /\ ex = 0%Z \/
     exists e sg' ed eneg n, xp = e :: sg' ++ ed /\ (e = "e"%char \/ e = "E"%char) /\ sign_of eneg sg' /\
       value false 10 ed = Some n /\ all_digits ed /\ ex = signed_value eneg n).

(* The numeral a text begins with: white space, a numeral that cannot be
   continued, and anything after. *)
Definition leading_float (text : str) (neg : bool) (ip fp : str) (ex : Z) : Prop :=
  exists w t pt xp rest,
    text = w ++ t ++ rest /\ blank w /\ float_numeral t neg ip pt fp xp ex /\
    match rest with
    | [] => True
    | c :: _ => digit_byte c = false /\
                (xp = [] -> c <> "e"%char /\ c <> "E"%char) /\
                (pt = [] -> xp = [] -> c <> "."%char)
    end.

(* x to the nearest number with prec binary digits (ties to even), down to the
   smallest exponent of the format *)
Definition nearest_even (prec emax : Z) (x : R) : R :=
  round radix2 (FLT_exp (3 - emax - prec) prec) ZnearestE x.
(* v is that number, with the sign of the numeral; it is not too large *)
Definition is_nearest {prec emax : Z} (neg : bool) (x : R) (v : binary_float prec emax) : Prop :=
  is_finite v = true /\ Bsign v = neg /\ B2R v = nearest_even prec emax x /\
  Rabs (nearest_even prec emax x) < bpow radix2 emax.
