(* P_FormatExt.v -- chained calls, copies and assignments of formatters of a
   class derived from Format_ext. *)
From Verif Require Import Base M_Format S_Num S_Format C_Format M_FormatExt S_FormatExt L_FormatExt.

(* Formatters behave as values -- a chain of calls changes the formatter it is
   written on and no other, a copy starts with what its source held and lives
   on its own -- for every program that chains calls only on formatters that
   were not made by copying or assigning one of an extended class, or after a
   reset. *)
Theorem C111_formatters_are_values_partial : forall im prog l,
  (forall t, In (MakeExt t) prog \/ In (MakePlain t) prog ->
     im = Glibc \/ forallb (fun c => negb (high_byte c)) t = true) ->
  careful [] prog = true -> value_run [] prog = Some l ->
  exists m, run im [] prog = Ok m /\
  forall i p, seen l i = Some p -> forall items out,
    template (p_tpl p) items -> (forall n, In (IField n) items -> (n < 4294967296)%N) ->
    shows (p_vals p) items out -> text_of m i false = Ok out.
Proof.
  intros im prog l H. apply c111_values. intros s Hs.
  assert (D : forall t, im = Glibc \/ forallb (fun c => negb (high_byte c)) t = true ->
              exists f, newFormat im t = Ok f).
  { intros t [->|A]; [apply c06_defined|].
    destruct im; [apply (proj2 (c06_defined t) A)|apply c06_defined]. }
  destruct s; cbn; auto; apply D, H; auto.
Qed.
Print Assumptions C111_formatters_are_values_partial.

(* Where the values of a chain go in general: the first into the formatter the
   chain is written on, all others into the formatter its pointer leads to. *)
Theorem C111_where_values_go : forall im m i j f g t ts, i <> j ->
  look m i = Some (OExt f j) -> look m j = Some (OExt g j) ->
  exists m', step im m (Chain i (map KAdd (t :: ts))) = Ok m' /\
    (forall check, text_of m' i check = fmt_str (insertField f t) check) /\
    (forall check, text_of m' j check = fmt_str (fold_left insertField ts g) check) /\
    (forall k, k <> i -> k <> j -> look m' k = look m k).
Proof.
  intros im m i j f g t ts N Li Lj. eexists. split; [apply (c111_where im m i j f g t ts N Li Lj)|].
  assert (Hi : i < length m) by (eapply look_lt; eauto). assert (Hj : j < length m) by (eapply look_lt; eauto).
  unfold text_of. repeat split.
  - intros check. rewrite !look_store, !store_len, !Nat.eqb_refl.
    destruct (Nat.eqb_spec i j); [congruence|]. destruct (Nat.ltb_spec i (length m)); [reflexivity|lia].
  - intros check. rewrite !look_store, !store_len, !Nat.eqb_refl.
    destruct (Nat.ltb_spec j (length m)); [reflexivity|lia].
  - intros k Ki Kj. rewrite !look_store. destruct (Nat.eqb_spec k j); [congruence|].
    destruct (Nat.eqb_spec k i); [congruence|reflexivity].
Qed.
Print Assumptions C111_where_values_go.

(* The property without the restriction is false: of two values chained on a
   copy the second goes to the original ... *)
Theorem C111_copies_refuted : exists prog l m,
  value_run [] prog = Some l /\ seen l 1 = Some (mkPic (lit "%0 %1") [lit "a"; lit "b"] true false) /\
  seen l 0 = Some (mkPic (lit "%0 %1") [] true true) /\
  run Strict [] prog = Ok m /\
  text_of m 1 false = Ok (lit "a %1") /\ text_of m 0 false = Ok (lit "b %1").
Proof.
  exists [MakeExt (lit "%0 %1"); CopyOf 0; Chain 1 [KAdd (lit "a"); KAdd (lit "b")]].
  eexists. eexists. repeat split; vm_compute; reflexivity.
Qed.
Print Assumptions C111_copies_refuted.

(* ... a copy that outlives its original cannot be used with any chain ... *)
Theorem C111_outlives_refuted : forall s t ts,
  run Glibc [] [MakeExt s; CopyOf 0; End 0; Chain 1 (map KAdd (t :: ts))] = UB /\
  value_run [] [MakeExt s; CopyOf 0; End 0; Chain 1 (map KAdd (t :: ts))] <> None.
Proof.
  intros s t ts. split; [|discriminate].
  destruct (proj1 (c06_defined s)) as [f Hf]. cbn -[do_chain newFormat]. rewrite Hf. cbn [obind step look nth_error app store].
  reflexivity.
Qed.
Print Assumptions C111_outlives_refuted.

(* ... and assignment redirects a formatter in the same way. *)
Theorem C111_assignment_refuted : exists prog l m,
  value_run [] prog = Some l /\ seen l 0 = Some (mkPic (lit "<%0,%1>") [lit "a"; lit "b"] true false) /\
  run Strict [] prog = Ok m /\
  text_of m 0 false = Ok (lit "<a,%1>") /\ text_of m 1 false = Ok (lit "<b,%1>").
Proof.
  exists [MakeExt (lit "(%0)"); MakeExt (lit "<%0,%1>"); Assign 0 1; Chain 0 [KAdd (lit "a"); KAdd (lit "b")]].
  eexists. eexists. repeat split; vm_compute; reflexivity.
Qed.
Print Assumptions C111_assignment_refuted.

Example C111_nonvacuous : exists l,
  let prog := [MakeExt (lit "%0-%1"); MakePlain (lit "[%0%1]"); Chain 0 [KAdd (lit "x"); KAdd (lit "%1")];
               CopyOf 1; Chain 2 [KAdd (lit "p"); KAdd (lit "q")]; SliceOf 0; CopyOf 0;
               Chain 4 [KReset; KAdd (lit "y"); KAdd (lit "z")]; Assign 1 0; End 0; Chain 1 [KReset; KAdd (lit "w")]] in
  careful [] prog = true /\ value_run [] prog = Some l /\
  (exists m, run Strict [] prog = Ok m /\ map (fun i => text_of m i false) [0; 1; 2; 3; 4] =
     [UB; Ok (lit "w-%1"); Ok (lit "[pq]"); Ok (lit "x-%1"); Ok (lit "y-z")]) /\
  seen l 4 = Some (mkPic (lit "%0-%1") [lit "y"; lit "z"] true false).
Proof. eexists. repeat split; try (vm_compute; reflexivity). eexists. split; vm_compute; reflexivity. Qed.
Example C111_where_nonvacuous : exists m f g,
  run Strict [] [MakeExt (lit "%0 %1"); CopyOf 0] = Ok m /\
  look m 1 = Some (OExt f 0) /\ look m 0 = Some (OExt g 0).
Proof. do 3 eexists. repeat split; vm_compute; reflexivity. Qed.
