(* S_FormatF.v -- decimal texts and the numbers they denote. *)
From Coq Require Import Reals.
From Flocq Require Import IEEE754.BinarySingleNaN.
From Verif Require Import Base S_Num S_Field.
Local Open Scope R_scope.

(* the real number a double stands for; 0 for NaN and the infinities *)
Notation real_of := (@B2R 53 1024).
Notation finite x := (@is_finite 53 1024 x = true).

Definition all_digits (s : str) : Prop := forallb digit_byte s = true.

(* the sign, the integer digits ip, the fraction digits fp and the power of
   ten ex denote the number x *)
Definition denotes (neg : bool) (ip fp : str) (ex : Z) (x : R) : Prop :=
  exists n, value false 10 (ip ++ fp) = Some n /\
    x = (if neg then -1 else 1) * IZR (Z.of_N n) * powerRZ 10 (ex - Z.of_nat (length fp)).

(* the fraction with its point; nothing when there are no digits *)
Definition fraction (fp : str) : str := match fp with [] => [] | _ => lit "." ++ fp end.
Definition minus (neg : bool) : str := if neg then lit "-" else [].

(* the text of an 'e' field: a minus sign or a blank, integer digits, fraction,
   e, the signed exponent, blanks *)
Definition engineering (t : str) (neg : bool) (ip fp : str) (ex : Z) : Prop :=
  exists ed blanks,
    t = (if neg then lit "-" else lit " ") ++ ip ++ fraction fp ++ lit "e" ++
        (if (ex <? 0)%Z then lit "-" else lit "+") ++ ed ++ blanks /\
    ip <> [] /\ all_digits ip /\ all_digits fp /\
    numeral_of false 10 (Z.to_N (Z.abs ex)) ed /\
    (forall c, In c blanks -> c = " "%char).

(* the number of characters asked for: width, or significant_digits + 4 in
   unsigned arithmetic when width is 0 *)
Definition requested (width sd : Z) : Z := if (width =? 0)%Z then ((sd + 4) mod two32)%Z else width.

(* [-]digits[.digits] *)
Definition decimal (neg : bool) (ip fp : str) : str := minus neg ++ ip ++ fraction fp.
(* [-]digits[.digits]e(+|-)digits, at least two exponent digits *)
Definition scientific (t : str) (neg : bool) (ip fp : str) (ex : Z) : Prop :=
  exists ed, t = decimal neg ip fp ++ lit "e" ++ (if (ex <? 0)%Z then lit "-" else lit "+") ++ ed /\
    all_digits ed /\ (2 <= length ed)%nat /\ value false 10 ed = Some (Z.to_N (Z.abs ex)).
(* no leading zero, except for zero itself *)
Definition no_leading_zero (ip : str) : Prop := ip = lit "0" \/ hd_error ip <> Some "0"%char.
(* the digit count as a signed number: from 2^31 on it counts as none *)
Definition counted (sd : Z) : Z := if (sd <? two31)%Z then sd else 0%Z.

(* the largest number the 'e' format returns for, in units of 2^971 (the last
   place of the largest doubles), for 0, 1, ..., 15 and for 16 or more digits *)
Definition limits : list Z :=
  [5010420900022427; 6501988804729780; 8756678209739875; 8982147150240885;
   9004694044290991; 9006948733695985; 9007174202636491; 9007196749530545;
   9007199004219939; 9007199229688883; 9007199252235786; 9007199254490458;
   9007199254715943; 9007199254738481; 9007199254740735; 9007199254740960;
   9007199254740989]%Z.
Definition limit (sd : Z) : Z := nth (Z.to_nat (Z.min (counted sd) 16)) limits 0%Z.
