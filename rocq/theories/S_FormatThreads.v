(* S_FormatThreads.v -- what threads that format may expect. *)
From Verif Require Import Base M_Stream M_Float M_Format M_FormatF M_FormatMem M_FormatThreads.

(* what str gave when the program runs alone, the separator being [sep] at
   first; a call that never returns or is undefined is the end of it *)
Fixpoint alone (im : ctype_impl) (fuel : nat) (sep : ascii) (p : list taction)
    (fo : option fmt) (out : list (outcome str)) : list (outcome str) :=
  match p with
  | [] => out
  | TSetSep ch :: r => alone im fuel ch r fo out
  | a :: r => match t_do im fuel sep a fo out with
              | Some (fo', out') => alone im fuel sep r fo' out'
              | None => out
              end
  end.

(* the program assigns Format::separator; it prints a zero with addF 'e', the
   only text in which the separator appears *)
Definition assigns (p : list taction) : Prop := exists ch, In (TSetSep ch) p.
Definition prints_zero (p : list taction) : Prop :=
  exists s v w sd, In (TAdd (AF s v "e"%char w sd)) p /\ deq v dzero = true.

(* a data race on Format::separator: two threads are about to access it and one
   of them writes *)
Definition separator_race (g : tstate) : Prop :=
  exists i j b, i <> j /\ t_access (snd g i) = Some true /\ t_access (snd g j) = Some b.
