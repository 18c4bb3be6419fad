(* P_SplitJoin.v -- fields written into one line with a delimiter between them,
   and split again. *)
From Verif Require Import Base M_Split S_Split L_Split C_Split S_SplitJoin L_SplitJoin.

(* The claim that fields without delimiters always come back is false: an empty
   last field is lost, spaces are squashed, and a line of one blank field is
   undefined behaviour. *)
Theorem C149_fields_come_back_refuted :
  split (join (lit ",") [lit "a"; []]) (lit ",") false = Ok [lit "a"] /\
  split (join (lit ",") [lit "a  b"; lit " c "]) (lit ",") false = Ok [lit "a b"; lit " c"] /\
  split (join (lit ",") [lit " "]) (lit ",") false = UB.
Proof. split; [|split]; vm_compute; reflexivity. Qed.
Print Assumptions C149_fields_come_back_refuted.

(* Exactly the tidy lists come back, from split and from splitVec. *)
Theorem C149_come_back_iff_partial : forall d delims l, l <> [] ->
  In d delims -> ~ In " "%char delims -> (forall f c, In f l -> In c f -> ~ In c delims) ->
  (split (join [d] l) delims false = Ok l <-> tidy l) /\
  (splitVec (join [d] l) delims false = Ok l <-> tidy l).
Proof.
  intros d delims l N Id Ns Hf. rewrite splitVec_split.
  assert (Nd : d <> " "%char) by (intros ->; contradiction).
  assert (H := split_join d delims l N Id Nd Ns Hf). split; exact H.
Qed.
Print Assumptions C149_come_back_iff_partial.

(* When the space is one of the delimiters, no field contains a space.  Written
   with another delimiter, exactly the lists whose last field is not empty come
   back; written with a space, exactly the lists without an empty field.  With
   the theorem above this settles every set of delimiters. *)
Theorem C149_come_back_space_iff_partial : forall d delims l, l <> [] ->
  In d delims -> In " "%char delims -> (forall f c, In f l -> In c f -> ~ In c delims) ->
  (d <> " "%char -> (split (join [d] l) delims false = Ok l <-> forall r f, l = r ++ [f] -> f <> [])) /\
  (d = " "%char -> (split (join [d] l) delims false = Ok l <-> forall f, In f l -> f <> [])) /\
  splitVec (join [d] l) delims false = split (join [d] l) delims false.
Proof.
  intros d delims l N Id Is Hf. split; [|split].
  - intros Nd. apply split_join_other; assumption.
  - intros ->. apply split_join_space; assumption.
  - apply splitVec_split.
Qed.
Print Assumptions C149_come_back_space_iff_partial.

(* in particular fields without spaces, the last of them not empty *)
Theorem C149_words_come_back : forall d delims l w,
  In d delims -> ~ In " "%char delims -> (forall f c, In f (l ++ [w]) -> In c f -> ~ In c delims /\ c <> " "%char) -> w <> [] ->
  split (join [d] (l ++ [w])) delims false = Ok (l ++ [w]).
Proof.
  intros d delims l w Id Ns H Nw.
  apply (proj1 (C149_come_back_iff_partial d delims (l ++ [w]) ltac:(destruct l; discriminate) Id Ns (fun f c I J => proj1 (H f c I J)))).
  assert (S1 : forall f c, In f (l ++ [w]) -> In c f -> c <> " "%char) by (intros f c I J; apply (H f c I J)).
  split; [|split].
  - intros f a b I E. apply (S1 f " "%char I); [|reflexivity]. rewrite E. apply in_or_app. right. left. reflexivity.
  - intros f r E X. destruct f as [|c f]; [discriminate|]. injection X as ->. apply (S1 (" "%char :: f) " "%char); [rewrite E; left; reflexivity|left; reflexivity|reflexivity].
  - intros r f E. apply app_inj_tail in E. destruct E as (_ & <-). split; [exact Nw|]. intros X.
    apply (S1 w " "%char); [apply in_or_app; right; left; reflexivity| |reflexivity].
    apply in_rev. destruct (rev w); [discriminate|]. injection X as ->. left. reflexivity.
Qed.
Print Assumptions C149_words_come_back.

Example C149_nonvacuous : let l := [lit "a b"; []; lit " c"; lit "d"] in
  tidy l /\ (forall f c, In f l -> In c f -> ~ In c (lit ",;")) /\
  join (lit ";") l = lit "a b;; c;d" /\ split (lit "a b;; c;d") (lit ",;") false = Ok l /\ ~ tidy [lit "a"; []].
Proof.
  intros l. assert (Hd : forall f c, In f l -> In c f -> ~ In c (lit ",;")).
  { intros f c I J K. assert (X : forallb (fun f => forallb (fun c => negb (In_delims (lit ",;") c)) f) l = true) by (vm_compute; reflexivity).
    rewrite forallb_forall in X. specialize (X f I). rewrite forallb_forall in X. specialize (X c J). apply In_delims_iff in K. rewrite K in X. discriminate. }
  assert (E : split (lit "a b;; c;d") (lit ",;") false = Ok l) by (vm_compute; reflexivity).
  assert (Ns : ~ In " "%char (lit ",;")) by (intros K; apply In_delims_iff in K; vm_compute in K; discriminate).
  split; [|split; [exact Hd|split; [reflexivity|split; [exact E|]]]].
  - apply (proj1 (C149_come_back_iff_partial ";"%char (lit ",;") l ltac:(discriminate) ltac:(right; left; reflexivity) Ns Hd)). exact E.
  - intros (_ & _ & T). destruct (T [lit "a"] [] eq_refl) as (X & _). congruence.
Qed.
Example C149_space_nonvacuous : let l := [lit "ab"; lit "c"; lit "d"] in
  (forall f c, In f l -> In c f -> ~ In c (lit " ,")) /\ join (lit " ") l = lit "ab c d" /\
  split (lit "ab c d") (lit " ,") false = Ok l /\
  split (join (lit " ") [lit "a"; []; lit "b"]) (lit " ,") false = Ok [lit "a"; lit "b"] /\
  split (join (lit ",") [lit "a"; []; lit "b"]) (lit " ,") false = Ok [lit "a"; []; lit "b"].
Proof.
  intros l. split; [|repeat split; vm_compute; reflexivity].
  intros f c I J K. assert (X : forallb (fun f => forallb (fun c => negb (In_delims (lit " ,") c)) f) l = true) by (vm_compute; reflexivity).
  rewrite forallb_forall in X. specialize (X f I). rewrite forallb_forall in X. specialize (X c J). apply In_delims_iff in K. rewrite K in X. discriminate.
Qed.
