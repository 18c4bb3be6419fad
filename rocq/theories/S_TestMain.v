(* S_TestMain.v -- command lines of programs whose options are numbers of type
   int and flags, stated without the Options class. *)
From Verif Require Import Base S_Num S_Options S_OptionsExample.

(* An option: --long or -letter, with a number or (not t_number) alone *)
Record topt := mkT { t_long : str; t_letter : ascii; t_number : bool; t_doc : str }.
(* what a stretch of the command line says: a word, a flag, an option with its number *)
Inductive titem := TWord (w : str) | TFlag (long : str) | TNum (long : str) (z : Z).
Definition is_int (z : Z) : Prop := (- 2 ^ 31 <= z < 2 ^ 31)%Z.

(* tline tbl ts is rest: with the options of tbl the arguments ts say the items
   is, and then rest is left.  The argument after a number option is its value,
   also if it looks like an option. *)
Inductive tline (tbl : list topt) : list str -> list titem -> list str -> Prop :=
| T_end : forall ts, tline tbl ts [] ts
| T_word : forall w ts is rest, ~ looks_like_option w -> tline tbl ts is rest ->
    tline tbl (w :: ts) (TWord w :: is) rest
| T_flag : forall o t ts is rest, In o tbl -> t_number o = false -> called (t_long o) (t_letter o) t ->
    tline tbl ts is rest -> tline tbl (t :: ts) (TFlag (t_long o) :: is) rest
| T_num : forall o t v z ts is rest, In o tbl -> t_number o = true -> called (t_long o) (t_letter o) t ->
    int_text v z -> is_int z -> tline tbl ts is rest ->
    tline tbl (t :: v :: ts) (TNum (t_long o) z :: is) rest.

(* what an option has been set to, d if not at all: the last time counts; whether a flag was given *)
Definition numbers (long : str) (is : list titem) : list Z :=
  flat_map (fun i => match i with TNum l z => if str_eqb l long then [z] else [] | _ => [] end) is.
Definition number (long : str) (d : Z) (is : list titem) : Z := last (numbers long is) d.
Definition flag (long : str) (is : list titem) : bool :=
  existsb (fun i => match i with TFlag l => str_eqb l long | _ => false end) is.

(* The line is understood: to its end, or up to a last option whose number is missing *)
Definition understood (tbl : list topt) (ts : list str) (is : list titem) : Prop :=
  tline tbl ts is [] \/
  exists o tok, tline tbl ts is [tok] /\ In o tbl /\ t_number o = true /\ called (t_long o) (t_letter o) tok.
(* It is not, and this is the reason given *)
Definition tusage (tbl : list topt) : list str := map (fun o => usage_line (t_long o) (t_letter o) (t_doc o)) tbl.
Inductive complaint (tbl : list topt) (ts : list str) : list str -> Prop :=
| CP_help : forall is tok rest, tline tbl ts is (tok :: rest) -> asks_help tok -> complaint tbl ts (tusage tbl)
| CP_unknown : forall is tok rest, tline tbl ts is (tok :: rest) -> looks_like_option tok -> ~ asks_help tok ->
    (forall o, In o tbl -> ~ called (t_long o) (t_letter o) tok) -> ~ In "000"%char tok ->
    complaint tbl ts ((lit "Command option [[" ++ tok ++ lit "]] is unknown.") :: tusage tbl)
| CP_rejected : forall is o tok text rest, tline tbl ts is (tok :: text :: rest) -> In o tbl -> t_number o = true ->
    called (t_long o) (t_letter o) tok -> ~ (exists z, int_text text z /\ is_int z) -> ~ In "000"%char text ->
    complaint tbl ts [t_long o ++ lit " unacceptable value """ ++ text ++ lit """ "].

(* the options of BarrierTest and of MailBoxTest *)
Definition barrier_test : list topt :=
  [mkT (lit "maddur") "m" true (lit "Max time in us for the random wait between barriers");
   mkT (lit "threads") "t" true (lit "Number of threads in test.");
   mkT (lit "trials") "r" true (lit "Number of passes through the barrier")].
Definition mailbox_test : list topt :=
  [mkT (lit "msgs") "m" true (lit "Number of messages to send from each thread");
   mkT (lit "noecho") "n" false (lit "When present, a thread will not ""see"" its own outbound messages.");
   mkT (lit "th") "t" true (lit "Number of threads in test.");
   mkT (lit "trials") "r" true (lit "Number of trials to run.")].

(* BarrierTest: the numbers of threads and of microseconds for which the threads'
   first lines are defined.  (Thread 9157 would have the seed 9157 * 234525 + 23919 >= 2^31.) *)
Definition harmless (threads maddur : Z) : Prop := (threads <= 0 \/ (threads <= 9157 /\ maddur <> 0))%Z.
(* MailBoxTest: the numbers with which the test works: nothing to do, or messages
   that can be counted, or one thread that waits for no message *)
Definition works (msgs threads trials : Z) (noecho : bool) : Prop :=
  (trials <= 0)%Z \/ (0 <= msgs /\ msgs * threads < 2 ^ 31)%Z \/
  ((- 2 ^ 31 < msgs < 0)%Z /\ noecho = true /\ threads = 1%Z).
