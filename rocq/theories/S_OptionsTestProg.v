(* S_OptionsTestProg.v -- the command lines of the test program OptionsTest,
   stated without the Options class. *)
From Coq Require Import Reals.
From Flocq Require Import IEEE754.BinarySingleNaN.
From Verif Require Import Base M_StreamFloat M_Options S_Num S_FormatF S_FloatIn S_Options S_OptionsExample.

(* text says a float: it begins with a numeral, and some float is nearest to it *)
Definition float_text (text : str) : Prop :=
  exists neg ip fp ex x (w : single), leading_float text neg ip fp ex /\ denotes neg ip fp ex x /\ is_nearest neg x w.
(* text says an int *)
Definition i32_text (text : str) : Prop := exists z, int_text text z /\ (- 2 ^ 31 <= z < 2 ^ 31)%Z.

(* The options with a value. *)
Definition t_sva (t : str) : Prop := called (lit "sva") "s" t.
Definition t_sind (t : str) : Prop := called (lit "s-ind") "c" t.
Definition t_boo (t : str) : Prop := called (lit "boo") "b" t.
Definition t_int (t : str) : Prop := called (lit "sint") "I" t \/ called (lit "uint") "U" t.
Definition t_float (t : str) : Prop := called (lit "fva0") "f" t \/ called (lit "fva1") "F" t.
Definition t_sla (t : str) : Prop := called (lit "sla") "l" t.
Definition t_ala (t : str) : Prop := called (lit "ala") "L" t.
Definition t_option (t : str) : Prop := t_sva t \/ t_sind t \/ t_boo t \/ t_int t \/ t_float t \/ t_sla t \/ t_ala t.
(* v is no value for the option t that it follows *)
Definition t_wrong (t v : str) : Prop :=
  t_boo t /\ ~ (exists b, bool_text v b) \/ t_int t /\ ~ i32_text v \/ t_float t /\ ~ float_text v \/
  t_ala t /\ ~ looks_like_option v /\ ~ i32_text v.

(* t_line ts vs rest: up to rest the line ts is in order, and gives --sva the
   values vs.  An option with one value takes the next argument, whatever it
   looks like; a list option only one that does not look like an option. *)
Inductive t_line : list str -> list str -> list str -> Prop :=
| TP_end : forall ts, t_line ts [] ts
| TP_word : forall w ts vs rest, ~ looks_like_option w -> t_line ts vs rest -> t_line (w :: ts) vs rest
| TP_pres : forall t ts vs rest, called (lit "pres") "p" t -> t_line ts vs rest -> t_line (t :: ts) vs rest
| TP_sva : forall t v ts vs rest, t_sva t -> t_line ts vs rest -> t_line (t :: v :: ts) (v :: vs) rest
| TP_sind : forall t v ts vs rest, t_sind t -> t_line ts vs rest -> t_line (t :: v :: ts) vs rest
| TP_boo : forall t v b ts vs rest, t_boo t -> bool_text v b -> t_line ts vs rest -> t_line (t :: v :: ts) vs rest
| TP_int : forall t v ts vs rest, t_int t -> i32_text v -> t_line ts vs rest -> t_line (t :: v :: ts) vs rest
| TP_float : forall t v ts vs rest, t_float t -> float_text v -> t_line ts vs rest -> t_line (t :: v :: ts) vs rest
| TP_sla : forall t v ts vs rest, t_sla t -> ~ looks_like_option v -> t_line ts vs rest -> t_line (t :: v :: ts) vs rest
| TP_ala : forall t v ts vs rest, t_ala t -> ~ looks_like_option v -> i32_text v -> t_line ts vs rest ->
    t_line (t :: v :: ts) vs rest
| TP_bare : forall t v ts vs rest, t_sla t \/ t_ala t -> looks_like_option v -> t_line (v :: ts) vs rest ->
    t_line (t :: v :: ts) vs rest.

(* nothing is left, or an option whose value is missing *)
Definition t_complete (rest : list str) : Prop := rest = [] \/ exists t, rest = [t] /\ t_option t.
(* what is left begins with a request for help, an unknown option, or an
   option and something that is no value for it *)
Definition t_stuck (rest : list str) : Prop :=
  (exists t r, rest = t :: r /\ asks_help t) \/
  (exists t r, rest = t :: r /\ looks_like_option t /\ ~ asks_help t /\ ~ called (lit "pres") "p" t /\ ~ t_option t) \/
  (exists t v r, rest = t :: v :: r /\ t_wrong t v).

(* The test compares with the doubles nearest to 1.1 and 1e-6. *)
Definition about_1p1 : R := (4953959590107546 / 2 ^ 52)%R.
Definition about_1em6 : R := (4722366482869645 / 2 ^ 72)%R.
(* a float within 1e-6 of r *)
Definition near (v : val) (r : R) : Prop :=
  exists x : single, v = VFloat x /\ is_finite x = true /\ (Rabs (B2R x - r) <= about_1em6)%R.
Definition not_a_number (v : val) : Prop := v = VFloat B754_nan.
(* What a library has to do for the test to pass: parse the test's line, and
   leave these values and counts.  The test calls no more of the class. *)
Definition passes (A_num : Z) (A_all : list str) (ok : bool) (s : st) : Prop :=
  ok = true /\ mem s 2 = VInt (-3) /\ mem s 3 = VInt 3 /\
  (near (mem s 4) (- about_1p1) \/ not_a_number (mem s 4)) /\ (near (mem s 5) about_1p1 \/ not_a_number (mem s 5)) /\
  mem s 6 = VStr (lit """--this is a test""") /\ mem s 7 = VStr (lit "'--args=""type=b200,serial=c00ld00d""'") /\
  A_num = 3%Z /\ length A_all = 3.
(* the arguments of the test *)
Definition test_line : list str :=
  [lit "--sint"; lit "-3"; lit "--uint"; lit "3"; lit "--fva0"; lit "-1.1"; lit "--fva1"; lit "1.1";
   lit "--sva"; lit """--this is a test"""; lit "--s-ind"; lit "'--args=""type=b200,serial=c00ld00d""'";
   lit "po0"; lit "po1"; lit "po2"].
