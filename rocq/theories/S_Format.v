(* S_Format.v -- the template language of SoDa::Format (Format.hxx 203-233). *)
From Verif Require Import Base S_Num.

(* a template is a sequence of plain characters and numbered fields *)
Inductive item := IChar (c : ascii) | IField (n : N).

Definition starts_with_digit (s : str) : bool :=
  match s with c :: _ => digit_byte c | [] => false end.

Inductive template : str -> list item -> Prop :=
| T_nil : template [] []
| T_char c s it :
    c <> "%"%char -> template s it -> template (c :: s) (IChar c :: it)
| T_escape s it :                                   (* %% *)
    template s it -> template ("%"%char :: "%"%char :: s) (IChar "%"%char :: it)
| T_lone c s it :                                   (* % before anything else *)
    c <> "%"%char -> digit_byte c = false -> template s it ->
    template ("%"%char :: c :: s) (IChar "%"%char :: IChar c :: it)
| T_last : template ["%"%char] [IChar "%"%char]     (* % at the end *)
| T_field ds n s it :                               (* % and a maximal run of digits *)
    value false 10 ds = Some n -> starts_with_digit s = false -> template s it ->
    template ("%"%char :: ds ++ s) (IField n :: it).

(* the text shown for a template when the values [vals] have been added *)
Inductive shows (vals : list str) : list item -> str -> Prop :=
| Sh_nil : shows vals [] []
| Sh_char c it o : shows vals it o -> shows vals (IChar c :: it) (c :: o)
| Sh_filled n v it o :
    nth_error vals (N.to_nat n) = Some v -> shows vals it o ->
    shows vals (IField n :: it) (v ++ o)
| Sh_unfilled n t it o :
    nth_error vals (N.to_nat n) = None -> numeral_of false 10 n t -> shows vals it o ->
    shows vals (IField n :: it) ("%"%char :: t ++ o).

(* field numbers are unsigned int in the implementation *)
Definition wrap_item (i : item) : item :=
  match i with IField n => IField (n mod 4294967296)%N | IChar c => IChar c end.

(* double every percent sign *)
Definition escape (s : str) : str :=
  flat_map (fun c => if Ascii.eqb c "%"%char then lit "%%" else [c]) s.
