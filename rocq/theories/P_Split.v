(* P_Split.v -- property theorems for Utils.hxx / Split.cxx. *)
From Verif Require Import Base M_Split S_Split L_Split C_Split.

(* C01 *)
Theorem C01_squashSpaces_words : forall s,
  (exists c, In c s /\ c <> " "%char) ->
  squashSpaces s = Ok (join (lit " ") (words s)).
Proof. exact c01. Qed.
Print Assumptions C01_squashSpaces_words.

(* C01, readable consequences of the above: shape, no loss, idempotence *)
Theorem C01_squashSpaces_shape : forall s t,
  squashSpaces s = Ok t ->
  hd_error t <> Some " "%char /\ hd_error (rev t) <> Some " "%char /\
  (forall a b, t <> a ++ " "%char :: " "%char :: b) /\
  filter (fun c => negb (is_space c)) t = filter (fun c => negb (is_space c)) s /\
  squashSpaces t = Ok t.
Proof. exact c01_shape. Qed.
Print Assumptions C01_squashSpaces_shape.

Example C01_nonvacuous :
  (exists c, In c (lit "  a  b ") /\ c <> " "%char) /\
  squashSpaces (lit "  a  b ") = Ok (lit "a b").
Proof. split; [exists "a"%char; split; [cbn; tauto|discriminate]|reflexivity]. Qed.

(* C02 is false: blank input (the empty string included) is undefined
   behaviour.  Exactly the blank inputs are affected. *)
Theorem C02_squashSpaces_total_refuted : exists s, squashSpaces s = UB.
Proof. exact c02_refuted. Qed.
Print Assumptions C02_squashSpaces_total_refuted.

Theorem C02_squashSpaces_domain_partial : forall s,
  (squashSpaces s = UB <-> forall c, In c s -> c = " "%char) /\
  (forall e, squashSpaces s <> Throw e).
Proof. exact c02_domain. Qed.
Print Assumptions C02_squashSpaces_domain_partial.
Example C02_nonvacuous : squashSpaces (lit "  ") = UB /\ squashSpaces (lit " a ") = Ok (lit "a").
Proof. split; vm_compute; reflexivity. Qed.

(* C03 *)
Theorem C03_split_fields : forall s delims,
  (exists c, In c s /\ c <> " "%char) ->
  split s delims false =
  Ok (drop_last_empty (fields (In_delims delims) (join (lit " ") (words s)))).
Proof. exact c03. Qed.
Print Assumptions C03_split_fields.

Theorem C03_split_rejoin : forall s delims toks sq,
  squashSpaces s = Ok sq ->
  split s delims false = Ok toks ->
  (forall t c, In t toks -> In c t -> ~ In c delims) /\
  (exists ds, (forall d, In d ds -> In d delims) /\ weave toks ds = sq /\
              length ds <= length toks <= S (length ds)).
Proof. exact c03_rejoin. Qed.
Print Assumptions C03_split_rejoin.

Example C03_nonvacuous :
  split (lit " this,that,  the other thing,") (lit ",") false =
  Ok [lit "this"; lit "that"; lit " the other thing"].
Proof. reflexivity. Qed.

(* C04 *)
Theorem C04_split_no_empty : forall s delims toks,
  split s delims false = Ok toks ->
  split s delims true = Ok (filter (fun t => negb (Nat.eqb (length t) 0)) toks).
Proof. exact c04. Qed.
Print Assumptions C04_split_no_empty.

Example C04_nonvacuous :
  split (lit "foo,,bar") (lit ",") false = Ok [lit "foo"; []; lit "bar"] /\
  split (lit "foo,,bar") (lit ",") true = Ok [lit "foo"; lit "bar"].
Proof. split; reflexivity. Qed.

(* C05 *)
Theorem C05_splitVec_split : forall s delims ne, splitVec s delims ne = split s delims ne.
Proof. exact splitVec_split. Qed.
Print Assumptions C05_splitVec_split.
