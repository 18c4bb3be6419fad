(* S_BarrierTime.v -- vocabulary for C130: how long a call of wait lasts *)
From Verif Require Import Base M_Barrier M_BarrierTime.

(* the time limit a caller asks for, in nanoseconds: so many milliseconds; for 0
   a thousand days *)
Definition limit (a : warg) : Z :=
  match a with WMs n | WDur n => if (n =? 0)%Z then (1000 * 24 * 3600 * 1000000000)%Z else (n * 1000000)%Z end.
(* arguments that mean what they say (C71): not the upper half of unsigned long *)
Definition sensible (a : warg) : Prop := match a with WMs n => (0 <= n < 2 ^ 63)%Z | WDur _ => True end.
Definition all_sensible (tr : list obs) : Prop := forall o, In o tr -> sensible (o_arg o).

(* c is the latest event e in tr *)
Definition latest (c : obs) (e : bev) (tr : list obs) : Prop :=
  exists a b, tr = a ++ c :: b /\ o_ev c = e /\ forall o, In o b -> o_ev o <> e.

(* every thread that has looked at the barrier's round sees a round completed
   within its time limit, if that much time has passed at all *)
Definition released_in_time (tr : list obs) (now : Z) : Prop :=
  forall a o b t, tr = a ++ o :: b -> o_ev o = ERead t -> (o_at o + limit (o_arg o) <= now)%Z ->
    exists g u, In g b /\ o_ev g = EGen u /\ (o_at g < o_at o + limit (o_arg o))%Z.
