(* S_Exchange.v -- what the exchange program is supposed to do. *)
From Verif Require Import Base M_Barrier M_Exchange.

Definition from (u : nat) (m : xmsg) : bool := Nat.eqb (x_from m) u.

(* what thread t must get from sender u in trial r, in this order *)
Definition due (c : cfg) (t r u : nat) : list xmsg :=
  if (u <? c_threads c) && negb (c_noecho c && Nat.eqb u t) then map (mkX u r) (seq 0 (c_msgs c)) else [].

(* num_msgs * num_threads is computed in int, and so is num_threads *)
Definition fits (c : cfg) : Prop :=
  1 <= c_threads c /\ (Z.of_nat (c_threads c) < two31)%Z /\ (Z.of_nat (c_msgs c * c_threads c) < two31)%Z.

(* the barrier's timeout of a thousand days does not run out *)
Definition in_time (ks : list kind) : Prop := ~ In KExpire ks.
Definition reached (c : cfg) (g : xst) : Prop := exists ks, xrun c (xinit c) ks g /\ in_time ks.
