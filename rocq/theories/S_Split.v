(* S_Split.v -- what squashSpaces and split are supposed to compute. *)
From Verif Require Import Base.

(* [fields p s]: cut s at every character satisfying p.  Always non-empty:
   n separators give n+1 (possibly empty) fields. *)
Fixpoint fields (p : ascii -> bool) (s : str) : list str :=
  match s with
  | [] => [[]]
  | c :: r =>
    if p c then [] :: fields p r
    else match fields p r with
         | f :: fs => (c :: f) :: fs
         | [] => [[c]]
         end
  end.

Definition nonempty (s : str) : bool := match s with [] => false | _ => true end.

Definition is_space (c : ascii) : bool := Ascii.eqb c " "%char.

(* the words of a text: its maximal runs of non-space characters *)
Definition words (s : str) : list str := filter nonempty (fields is_space s).

(* join with a separator *)
Fixpoint join (sep : str) (l : list str) : str :=
  match l with
  | [] => []
  | [x] => x
  | x :: r => x ++ sep ++ join sep r
  end.

(* drop the last field if it is empty *)
Fixpoint drop_last_empty (l : list str) : list str :=
  match l with
  | [] => []
  | [x] => if nonempty x then [x] else []
  | x :: r => x :: drop_last_empty r
  end.

(* put the delimiters ds back between the tokens *)
Fixpoint weave (toks : list str) (ds : str) : str :=
  match toks, ds with
  | t :: ts, d :: ds' => t ++ d :: weave ts ds'
  | t :: _, [] => t
  | [], _ => ds
  end.

Definition In_delims (delims : str) (c : ascii) : bool := existsb (Ascii.eqb c) delims.
