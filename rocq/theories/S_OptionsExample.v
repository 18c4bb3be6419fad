(* S_OptionsExample.v -- the command lines of the example program OptionsExample
   and what it is to print for them, stated without the Options class. *)
From Verif Require Import Base S_Num S_Options.

(* What a stretch of the command line says.  None: the option stands alone,
   another option follows it. *)
Inductive ex_item :=
| Word (w : str)
| Presarg
| Boolarg (b : option bool)
| Strarg (t : option str)
| Strvecarg (t : option str)
| Intarg (z : Z).

(* "--long", or '-' and the letter c (what follows the letter plays no role) *)
Definition called (long : str) (c : ascii) (t : str) : Prop :=
  t = lit "--" ++ long \/ exists r, t = "-"%char :: c :: r.
(* text says the integer z: it begins with z's digits *)
Definition int_text (text : str) (z : Z) : Prop :=
  exists neg n, leading_int text neg n /\ z = signed_value neg n.
(* text says true or false: T..., F..., or an integer that is (not) zero *)
Definition bool_text (text : str) (b : bool) : Prop :=
  (b = true /\ begins text "t" "T") \/ (b = false /\ begins text "f" "F") \/
  (exists z, int_text text z /\ (- 2 ^ 31 <= z < 2 ^ 31)%Z /\ b = negb (z =? 0)%Z).

(* line ts is rest: the arguments ts say the items is, and then rest is left *)
Inductive line : list str -> list ex_item -> list str -> Prop :=
| X_end : forall ts, line ts [] ts
| X_word : forall w ts is rest, ~ looks_like_option w -> line ts is rest ->
    line (w :: ts) (Word w :: is) rest
| X_pres : forall t ts is rest, called (lit "presarg") "p" t -> line ts is rest ->
    line (t :: ts) (Presarg :: is) rest
| X_bool : forall t v b ts is rest, called (lit "boolarg") "b" t -> ~ looks_like_option v -> bool_text v b ->
    line ts is rest -> line (t :: v :: ts) (Boolarg (Some b) :: is) rest
| X_str : forall t v ts is rest, called (lit "strarg") "s" t -> ~ looks_like_option v ->
    line ts is rest -> line (t :: v :: ts) (Strarg (Some v) :: is) rest
| X_vec : forall t v ts is rest, called (lit "strvecarg") "l" t -> ~ looks_like_option v ->
    line ts is rest -> line (t :: v :: ts) (Strvecarg (Some v) :: is) rest
| X_int : forall t v z ts is rest, called (lit "intarg") "i" t -> int_text v z -> (-5 <= z <= 5)%Z ->
    line ts is rest -> line (t :: v :: ts) (Intarg z :: is) rest
| X_bare : forall t v ts i is rest, looks_like_option v ->
    called (lit "boolarg") "b" t /\ i = Boolarg None \/
    called (lit "strarg") "s" t /\ i = Strarg None \/
    called (lit "strvecarg") "l" t /\ i = Strvecarg None ->
    line (v :: ts) is rest -> line (t :: v :: ts) (i :: is) rest.

(* The values the items give: the last one counts, else the default *)
Definition int_of (is : list ex_item) : Z :=
  last (flat_map (fun i => match i with Intarg z => [z] | _ => [] end) is) 0%Z.
Definition bool_of (is : list ex_item) : bool :=
  last (flat_map (fun i => match i with Boolarg (Some b) => [b] | _ => [] end) is) false.
Definition str_of (is : list ex_item) : str :=
  last (flat_map (fun i => match i with Strarg (Some t) => [t] | _ => [] end) is) [].
Definition strvec_of (is : list ex_item) : list str :=
  flat_map (fun i => match i with Strvecarg (Some t) => [t] | _ => [] end) is.
Definition words_of (is : list ex_item) : list str :=
  flat_map (fun i => match i with Word w => [w] | _ => [] end) is.
(* "-p" is among the items; an integer is *)
Definition has_pres (is : list ex_item) : bool := existsb (fun i => match i with Presarg => true | _ => false end) is.
Definition has_int (is : list ex_item) : bool := existsb (fun i => match i with Intarg _ => true | _ => false end) is.

Definition lines (l : list str) : str := flat_map (fun t => t ++ ["010"%char]) l.
Definition tab : str := ["009"%char].
(* numbered f k l: f k x0, f (k+1) x1, ... *)
Fixpoint numbered (f : Z -> str -> str) (k : Z) (l : list str) : list str :=
  match l with [] => [] | x :: r => f k x :: numbered f (k + 1) r end.
Definition bit (b : bool) : str := if b then lit "1" else lit "0".

(* The report; dec writes an integer in decimal. *)
Definition values (dec : Z -> str) (i : Z) (b p : bool) (s : str) : list str :=
  [lit "intarg = " ++ dec i; lit "boolarg = " ++ bit b; lit "pres_arg = " ++ bit p;
   lit "str_arg = [" ++ s ++ lit "]"; lit "strvecarg s = "].
Definition report (dec : Z -> str) (argv : list str) (is : list ex_item) : list str :=
  values dec (int_of is) (bool_of is) (has_pres is) (str_of is) ++
  map (fun t => tab ++ lit "[" ++ t ++ lit "]") (strvec_of is) ++
  numbered (fun k a => lit "ARG[" ++ dec k ++ lit "] = [" ++ a ++ lit "]") 0 argv ++
  [lit "posargs = "] ++
  numbered (fun k w => tab ++ dec k ++ tab ++ w) 0 (words_of is).
Definition notes (version gitid : str) (is : list ex_item) : list str :=
  [lit "SoDaUtils version [" ++ version ++ lit "]"; lit "SoDaUtils git id [" ++ gitid ++ lit "]";
   (if has_int is then lit "An" else lit "No") ++ lit " intarg option was present"].
(* the token names an option that takes a value *)
Definition value_option (t : str) : Prop :=
  called (lit "boolarg") "b" t \/ called (lit "strarg") "s" t \/ called (lit "strvecarg") "l" t \/ called (lit "intarg") "i" t.
(* The usage text: options in alphabetical order, names padded to 20 columns. *)
Definition usage_line (long : str) (c : ascii) (doc : str) : str :=
  lit "   --" ++ long ++ repeat " "%char (20 - length long) ++ lit " -" ++ [c] ++ lit "     " ++ doc.
Definition usage : list str :=
  [[]; lit "usage:" ++ tab ++ lit "OptionsExample [options] [posargs]";
   []; tab ++ lit "A simple demonstration of the SoDa::Options parser";
   usage_line (lit "boolarg") "b" (lit "<true/false/zero/non-zero>");
   usage_line (lit "intarg") "i" (lit "An integer argument between -5 and 5 inclusive");
   usage_line (lit "presarg") "p" [];
   usage_line (lit "strarg") "s" (lit "<string>");
   usage_line (lit "strvecarg") "l" (lit "<string>")].
