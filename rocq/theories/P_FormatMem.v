(* P_FormatMem.v -- property theorems for a Format while memory runs out. *)
From Verif Require Import Base M_Stream M_Float M_Format M_FormatF M_FormatMem S_Num S_Format
  L_Num L_Format L_FormatMem.

(* C141: a call that throws is repeated until it returns, and so for any number
   of calls, and no stream loses characters: the text is that of a Format for
   which memory never ran out. *)
Theorem C141_repeat_partial : forall im fuel s f0 cs vals f items out,
  newFormat im s = Ok f0 ->
  tried_all im fuel f0 (map MAdd cs) f ->
  Forall2 (fun c t => full_text fuel c = Some t) cs vals ->
  template s items -> shows vals (map wrap_item items) out ->
  fmt_str f false = Ok out /\
  fmt_str f true = fmt_str (fold_left insertField vals f0) true.
Proof.
  intros im fuel s f0 cs vals f items out N H F T S.
  rewrite (tried_adds _ _ _ _ _ _ H F). split; [|reflexivity].
  rewrite (str_after_adds _ _ _ _ _ N T). f_equal.
  eapply shows_functional; [apply shows_items_text|exact S].
Qed.
Print Assumptions C141_repeat_partial.

(* after anything at all -- failed calls, cut streams, failed resets -- a reset
   that returns brings the Format back to what the constructor made *)
Theorem C141_reset_partial : forall im fuel s f0 f1 f2,
  newFormat im s = Ok f0 -> memhist im fuel f0 f1 -> tried im fuel f1 MReset f2 -> f2 = f0.
Proof. exact reset_back. Qed.
Print Assumptions C141_reset_partial.

(* what an add that throws leaves: the template splits in two, the value shows
   in the first part and does not in the second *)
Theorem C141_thrown_partial : forall im fuel s f0 vals c t f items,
  newFormat im s = Ok f0 ->
  memstep im fuel (fold_left insertField vals f0) (MAdd c) false true f ->
  full_text fuel c = Some t ->
  template s items ->
  exists i1 i2 o1 o2, map wrap_item items = i1 ++ i2 /\
    shows (vals ++ [t]) i1 o1 /\ shows vals i2 o2 /\
    fmt_str f false = Ok (o1 ++ o2).
Proof.
  intros im fuel s f0 vals c t f items N H F T.
  destruct (failed_shape _ _ _ _ _ _ _ _ _ N H F T) as (i1 & i2 & E & A).
  exists i1, i2, (items_text (arg_of (vals ++ [t])) i1), (items_text (arg_of vals) i2).
  repeat split; [exact E|apply shows_items_text|apply shows_items_text|].
  rewrite <- A. unfold fmt_str. destruct (assemble (f_segs f)). reflexivity.
Qed.
Print Assumptions C141_thrown_partial.

(* without a separator, a stream that runs out of memory shows the beginning
   of the right text; addS shows the right text or throws, and so does addF for
   a value that is not finite *)
Theorem C141_cut_partial : forall fuel c p t,
  (match c with AI _ _ sep _ => sep = nul | AU _ _ _ sep _ => sep = nul | _ => True end) ->
  full_text fuel c = Some p -> cut_text fuel c t -> exists r, p = t ++ r.
Proof. exact cut_prefix. Qed.
Print Assumptions C141_cut_partial.

Theorem C141_exact_partial : forall im fuel f c cut g,
  (match c with
   | AS _ _ => True
   | AF _ v _ _ _ => d_isnan v = true \/ d_isnan (dopp v) = true \/ d_isinf v = true
   | _ => False
   end) ->
  memstep im fuel f (MAdd c) cut false g ->
  exists p, full_text fuel c = Some p /\ g = insertField f p.
Proof.
  intros im fuel f c cut g Hc H. inversion H as [c0 cut0 t Ht| | | |]; subst.
  destruct cut; cbn in Ht; [|eauto].
  destruct Ht; try contradiction. exfalso.
  destruct Hc as [Hc|[Hc|Hc]]; congruence.
Qed.
Print Assumptions C141_exact_partial.

(* the claim fails: a call may return as if all were well and leave another
   number in the text, which str() takes for complete *)
Theorem C141_silent_refuted : exists f0 c p f,
  newFormat Glibc (lit "N = %0") = Ok f0 /\ c = AU 123456789012345678 "d"%char 0 nul 0 /\
  full_text 0 c = Some p /\ fmt_str (insertField f0 p) true = Ok (lit "N = 123456789012345678") /\
  memstep Glibc 0 f0 (MAdd c) true false f /\
  fmt_str f true = Ok (lit "N = 123456789012345").
Proof.
  exists (mkFmt [SLit (lit "N = "); SVal 0] (lit "N = %0") 0). eexists _, _, (insertField (mkFmt [SLit (lit "N = "); SVal 0] (lit "N = %0") 0) (lit "123456789012345")).
  split; [vm_compute; reflexivity|]. split; [reflexivity|].
  split; [vm_compute; reflexivity|]. split; [vm_compute; reflexivity|].
  split; cycle 1; [vm_compute; reflexivity|].
  apply mem_add. cbn [text_of].
  refine (cut_addU 0 _ _ _ _ _ _ _). exists (lit "678"). vm_compute. reflexivity.
Qed.
Print Assumptions C141_silent_refuted.

(* and a call that threw and is not repeated has left part of its value: the
   next value goes to the same field, and the text mixes the two *)
Theorem C141_given_up_refuted : exists f0 f1 f2,
  newFormat Glibc (lit "%0 is %0") = Ok f0 /\
  memstep Glibc 0 f0 (MAdd (AS (lit "cat") 0)) false true f1 /\
  memstep Glibc 0 f1 (MAdd (AS (lit "dog") 0)) false false f2 /\
  fmt_str f2 true = Ok (lit "cat is dog").
Proof.
  eexists _, _, _. split; [vm_compute; reflexivity|].
  split; [apply (mem_add_field Glibc 0 _ _ _ (lit "cat") [SVal 0; SLit (lit " is ")] []); reflexivity|].
  split; [apply mem_add; reflexivity|]. vm_compute. reflexivity.
Qed.
Print Assumptions C141_given_up_refuted.

(* a reset that threw has left part of the template, which str() takes for
   complete *)
Theorem C141_failed_reset_refuted : exists f0 f1,
  newFormat Glibc (lit "Total: %0") = Ok f0 /\
  memstep Glibc 0 f0 MReset false true f1 /\
  fmt_str f0 true <> Ok (lit "Total: ") /\ fmt_str f1 true = Ok (lit "Total: ").
Proof.
  eexists _, _. split; [vm_compute; reflexivity|].
  split; [apply (mem_reset_scan Glibc 0 _ [SLit (lit "Total: ")] [SVal 0]); reflexivity|].
  split; [vm_compute; discriminate|vm_compute; reflexivity].
Qed.
Print Assumptions C141_failed_reset_refuted.

(* a failed add half-way, a failed reset, a reset that works, a failed add that
   is repeated: the text of a Format that had memory *)
Example C141_nonvacuous : exists f0 f1 f2 f3,
  newFormat Glibc (lit "%0 is %0, %1") = Ok f0 /\
  memhist Glibc 0 f0 f1 /\ fmt_str f1 false = Ok (lit "cat is %0, %1") /\
  tried Glibc 0 f1 MReset f2 /\
  tried_all Glibc 0 f2 (map MAdd [AS (lit "dog") 0; AI 7 0 nul nul]) f3 /\
  fmt_str f3 true = Ok (lit "dog is dog, 7") /\
  Forall2 (fun c t => full_text 0 c = Some t) [AS (lit "dog") 0; AI 7 0 nul nul] [lit "dog"; lit "7"].
Proof.
  pose (o := lit "%0 is %0, %1").
  pose (r := [SLit (lit " is "); SVal 0; SLit (lit ", "); SVal 1]).
  exists (mkFmt (SVal 0 :: r) o 0), (mkFmt (SLit (lit "cat") :: r) o 0), (mkFmt (SVal 0 :: r) o 0),
    (insertField (insertField (mkFmt (SLit (lit "dog") :: r) o 0) (lit "dog")) (lit "7")).
  split; [vm_compute; reflexivity|]. split.
  { eapply memhist_cons; [|apply memhist_nil].
    apply (mem_add_field Glibc 0 (mkFmt (SVal 0 :: r) o 0) (AS (lit "cat") 0) false (lit "cat")
             [SVal 0; SLit (lit " is ")] [SLit (lit ", "); SVal 1]); reflexivity. }
  split; [vm_compute; reflexivity|]. split.
  { eapply tried_again.
    - apply (mem_reset_scan Glibc 0 _ [SVal 0; SLit (lit " is ")] [SVal 0; SLit (lit ", "); SVal 1]).
      reflexivity.
    - apply tried_done, mem_reset. reflexivity. }
  split; [|split; [vm_compute; reflexivity|repeat constructor]].
  cbn [map]. eapply tried_all_cons.
  { eapply tried_again.
    - apply (mem_add_field Glibc 0 (mkFmt (SVal 0 :: r) o 0) (AS (lit "dog") 0) false (lit "dog")
             [SVal 0; SLit (lit " is ")] [SLit (lit ", "); SVal 1]); reflexivity.
    - apply tried_done, (mem_add _ _ _ _ _ (lit "dog")). reflexivity. }
  eapply tried_all_cons; [|apply tried_all_nil].
  apply tried_done, (mem_add _ _ _ _ _ (lit "7")). reflexivity.
Qed.
