(* S_Field.v -- justification and digit grouping. *)
From Verif Require Import Base S_Num S_Split.

(* s is t right-justified with fill characters in a field of w characters *)
Definition right_justified (fill : ascii) (w : Z) (t s : str) : Prop :=
  exists k, s = repeat fill k ++ t /\ Z.of_nat k = Z.max 0 (w - Z.of_nat (length t)).

Definition left_justified (fill : ascii) (w : Z) (t s : str) : Prop :=
  exists k, s = t ++ repeat fill k /\ Z.of_nat k = Z.max 0 (w - Z.of_nat (length t)).

(* s is the (non-empty) text t cut in groups of n counted from the right, with
   sep between the groups: all groups have n characters except that the first
   may be shorter *)
Definition grouped (n : nat) (sep : ascii) (t s : str) : Prop :=
  exists g gs, t = concat (g :: gs) /\ s = join [sep] (g :: gs) /\
    1 <= length g <= n /\ (forall h, In h gs -> length h = n).

Definition fill_char (c : ascii) : ascii := if Ascii.eqb c "000"%char then " "%char else c.

(* delete every occurrence of a character *)
Definition delete (c : ascii) (s : str) : str := filter (fun x => negb (Ascii.eqb x c)) s.
