(* P_NaNTest.v -- what the success of test/FormatNaN.cxx tells about addF. *)
From Verif Require Import Base M_Stream M_Format M_Float M_FormatF L_Map M_NaNTest S_NaNTest L_NaNTest.
From Flocq Require Import IEEE754.BinarySingleNaN.

(* The claim that exit code 0 means that addF writes inf and nan for infinities
   and NaNs is false.  Whatever addF does elsewhere -- r' may throw or not
   return -- there is an addF that does the same for negative infinity and for
   all other formats, widths and digits, writes nothing for infinity, and
   passes. *)
Theorem C150_exit_refuted : forall r' : renderer, exists r : renderer,
  (forall fm w sd, r (B754_infinity true) fm w sd = r' (B754_infinity true) fm w sd) /\
  (forall v fm w sd, fm <> "f"%char \/ sd <> 6%Z \/ (w <> 4 /\ w <> 6)%Z -> r v fm w sd = r' v fm w sd) /\
  r (B754_infinity false) "f"%char 4%Z 6%Z = Some (Ok []) /\
  nan_main r = Some (Ok 0%Z).
Proof.
  intros r'.
  exists (fun v fm w sd =>
    if Ascii.eqb fm "f" && (sd =? 6)%Z then
      match v with
      | B754_infinity true => r' v fm w sd
      | B754_infinity false => if (w =? 4)%Z then Some (Ok []) else r' v fm w sd
      | B754_nan => if (w =? 4)%Z then Some (Ok (lit "nan ")) else r' v fm w sd
      | _ => if (w =? 6)%Z then Some (Ok (lit "1.000000 inf")) else r' v fm w sd
      end
    else r' v fm w sd).
  split; [|split; [|split]].
  - intros fm w sd. destruct (Ascii.eqb fm "f" && (sd =? 6)%Z); reflexivity.
  - intros v fm w sd H. destruct (Ascii.eqb_spec fm "f") as [Ef|Ef]; [|reflexivity].
    destruct (Z.eqb_spec sd 6) as [Es|Es]; [|reflexivity]. cbn [andb].
    destruct H as [H|[H|(H4 & H6)]]; [contradiction|contradiction|]. apply Z.eqb_neq in H4, H6. rewrite H4, H6.
    destruct v as [s|[|]| |s m e B]; reflexivity.
  - reflexivity.
  - vm_compute. reflexivity.
Qed.
Print Assumptions C150_exit_refuted.

(* Exit code 0 means that the three calls returned one of four triples of
   texts, and nothing else. *)
Theorem C150_exit_iff_partial : forall r : renderer,
  nan_main r = Some (Ok 0%Z) <->
  exists t0 t1 t2, r (dlit 1) "f"%char 6%Z 6%Z = Some (Ok t0) /\ r (B754_infinity false) "f"%char 4%Z 6%Z = Some (Ok t1) /\
    r B754_nan "f"%char 4%Z 6%Z = Some (Ok t2) /\ In (t0, t1, t2) accepted.
Proof. intros r. unfold nan_main. exact (nan_run_iff r (dlit 1)). Qed.
Print Assumptions C150_exit_iff_partial.

(* An addF that does not return for infinity, or throws, is noticed. *)
Theorem C150_hang_noticed : forall r : renderer,
  (forall t, r (B754_infinity false) "f"%char 4%Z 6%Z <> Some (Ok t)) -> nan_main r <> Some (Ok 0%Z).
Proof. intros r H X. apply C150_exit_iff_partial in X. destruct X as (t0 & t1 & t2 & _ & R & _). exact (H t1 R). Qed.
Print Assumptions C150_hang_noticed.

(* The program does not end exactly if a call that is reached does not return,
   and ends with an exception exactly if a call that is reached throws it;
   otherwise, if all calls return, it ends with an exit code. *)
Theorem C150_ends : forall (r : renderer) x0 x1 x2,
  r (dlit 1) "f"%char 6%Z 6%Z = x0 -> r (B754_infinity false) "f"%char 4%Z 6%Z = x1 -> r B754_nan "f"%char 4%Z 6%Z = x2 ->
  (forall e, nan_main r = Some (Throw e) <->
     x0 = Some (Throw e) \/ (exists t0, x0 = Some (Ok t0)) /\ (x1 = Some (Throw e) \/ (exists t1, x1 = Some (Ok t1)) /\ x2 = Some (Throw e))) /\
  (nan_main r = None <->
     x0 = None \/ (exists t0, x0 = Some (Ok t0)) /\ (x1 = None \/ (exists t1, x1 = Some (Ok t1)) /\ x2 = None)) /\
  ((exists t0 t1 t2, x0 = Some (Ok t0) /\ x1 = Some (Ok t1) /\ x2 = Some (Ok t2)) -> exists z, nan_main r = Some (Ok z)).
Proof. intros r x0 x1 x2. exact (nan_run_ends r (dlit 1) x0 x1 x2). Qed.
Print Assumptions C150_ends.

(* the library passes *)
Theorem C150_library_passes : forall fuel, nan_main (lib_renderer fuel) = Some (Ok 0%Z).
Proof.
  intros fuel. apply C150_exit_iff_partial. exists (lit "1.000000"), (lit "inf "), (lit "nan ").
  split; [vm_compute; reflexivity|]. split; [vm_compute; reflexivity|]. split; [vm_compute; reflexivity|]. left. reflexivity.
Qed.
Print Assumptions C150_library_passes.

Example C150_nonvacuous : exists r : renderer, (forall t, r (B754_infinity false) "f"%char 4%Z 6%Z <> Some (Ok t)) /\
  nan_main r = None /\ nan_main (fun _ _ _ _ => Some (Ok (lit "1"))) = Some (Ok (-1)%Z).
Proof.
  exists (fun v _ _ _ => match v with B754_infinity _ => None | _ => Some (Ok (lit "1.000000")) end).
  split; [discriminate|]. split; vm_compute; reflexivity.
Qed.
