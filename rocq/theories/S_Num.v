(* S_Num.v -- numerals, stated as the value of a digit string. *)
From Verif Require Import Base.

(* white space: space, \t, \n, \v, \f, \r *)
Definition white (c : ascii) : bool :=
  existsb (Ascii.eqb c) [" "; "009"; "010"; "011"; "012"; "013"]%char.

(* the value of a digit character *)
Definition digit_of (up : bool) (c : ascii) : option N :=
  let n := N_of_ascii c in
  if ((48 <=? n) && (n <=? 57))%N then Some (n - 48)%N
  else if up then if ((65 <=? n) && (n <=? 70))%N then Some (n - 55)%N else None
  else if ((97 <=? n) && (n <=? 102))%N then Some (n - 87)%N else None.

(* positional value of a digit string, most significant digit first; None if
   empty or if some character is not a digit of base b *)
Fixpoint value_from (up : bool) (b acc : N) (s : str) : option N :=
  match s with
  | [] => Some acc
  | c :: r => match digit_of up c with
              | Some d => if (d <? b)%N then value_from up b (acc * b + d)%N r else None
              | None => None
              end
  end.
Definition value (up : bool) (b : N) (s : str) : option N :=
  match s with [] => None | _ => value_from up b 0 s end.

(* s is the shortest numeral of n in base b *)
Definition numeral_of (up : bool) (b n : N) (s : str) : Prop :=
  value up b s = Some n /\ (s = lit "0" \/ hd_error s <> Some "0"%char).

(* s is the shortest decimal numeral of the integer z *)
Definition int_numeral_of (z : Z) (s : str) : Prop :=
  (0 <= z /\ numeral_of false 10 (Z.to_N z) s)%Z \/
  (z < 0 /\ exists t, s = "-"%char :: t /\ numeral_of false 10 (Z.to_N (- z)) t)%Z.
