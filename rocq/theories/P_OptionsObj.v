(* P_OptionsObj.v -- several Options objects in one program. *)
From Verif Require Import Base M_Options S_Options L_OptionsI M_OptionsObj S_OptionsObj L_OptionsObj.

(* Objects that are not copies of one another are independent: whatever is
   called on one of them, another keeps its positional arguments, its options,
   its help text and its presence marks. *)
Theorem C112_separate_objects_partial : forall w i w' j s,
  history false w -> calls w i w' -> i <> j -> view w j = Some s ->
  exists s', view w' j = Some s' /\
    getPosArgs s' = getPosArgs s /\ printHelp s' = printHelp s /\
    (forall n, findOpt_long s' n = findOpt_long s n) /\ (forall c, findOpt_ab s' c = findOpt_ab s c) /\
    (forall n, isPresent_long s' n = isPresent_long s n) /\ (forall c, isPresent_ab s' c = isPresent_ab s c) /\
    waiting_for_signed s' = waiting_for_signed s.
Proof.
  intros w i w' j s H C D V.
  assert (Vi : exists si, view w i = Some si) by (destruct C; eauto). destruct Vi as [si Vi].
  destruct (frame_step false w i w' j s si H C D V Vi) as (s' & V' & P & K). exists s'. split; [exact V'|].
  unfold part_of in P. injection P as E1 E2 E3 E4 E5 E6.
  assert (K' : forall o, registered s o -> present s' (o_id o) = present s (o_id o))
    by (intros o R; apply K; [exact R|exact (apart w i j si s o H D Vi V R)]).
  unfold getPosArgs, printHelp, findOpt_long, findOpt_ab. rewrite E1, E2, E3, E4, E5, E6.
  repeat split.
  - intros n. unfold isPresent_long, findOpt_long. rewrite E1. destruct (smap_find str_compare n (long_map s)) as [o|] eqn:E; [|reflexivity].
    apply K'. left. exists n. exact E.
  - intros n. unfold isPresent_ab, findOpt_ab. rewrite E2. destruct (smap_find char_compare n (ab_map s)) as [o|] eqn:E; [|reflexivity].
    apply K'. right. exists n. exact E.
Qed.
Print Assumptions C112_separate_objects_partial.

(* In every program, also with copies, the only thing that can change is the
   presence mark of an option that both objects hold. *)
Theorem C112_shared_marks_only : forall w i w' j s si,
  history true w -> calls w i w' -> i <> j -> view w j = Some s -> view w i = Some si ->
  exists s', view w' j = Some s' /\
    getPosArgs s' = getPosArgs s /\ printHelp s' = printHelp s /\
    (forall n, findOpt_long s' n = findOpt_long s n) /\ (forall c, findOpt_ab s' c = findOpt_ab s c) /\
    waiting_for_signed s' = waiting_for_signed s /\
    (forall n o, findOpt_long s n = Some o -> ~ registered si o -> isPresent_long s' n = isPresent_long s n) /\
    (forall c o, findOpt_ab s c = Some o -> ~ registered si o -> isPresent_ab s' c = isPresent_ab s c).
Proof.
  intros w i w' j s si H C D V Vi.
  destruct (frame_step true w i w' j s si H C D V Vi) as (s' & V' & P & K). exists s'. split; [exact V'|].
  unfold part_of in P. injection P as E1 E2 E3 E4 E5 E6.
  unfold getPosArgs, printHelp, findOpt_long, findOpt_ab. rewrite E1, E2, E3, E4, E5, E6.
  repeat split.
  - intros n o F NR. unfold isPresent_long, findOpt_long. rewrite E1, F. apply K; [left; exists n; exact F|exact NR].
  - intros n o F NR. unfold isPresent_ab, findOpt_ab. rewrite E2, F. apply K; [right; exists n; exact F|exact NR].
Qed.
Print Assumptions C112_shared_marks_only.

(* A copy and its original agree about what is present, whichever of them
   parses which lines ... *)
Theorem C112_copies_agree : forall w i s w', view w i = Some s ->
  let k := length (w_parts w) in
  parses_on i k (w_copy w (part_of s)) w' ->
  exists si sk, view w' i = Some si /\ view w' k = Some sk /\
    (forall n, isPresent_long si n = isPresent_long sk n) /\ (forall c, isPresent_ab si c = isPresent_ab sk c).
Proof.
  intros w i s w' V k P.
  destruct (view_some _ _ _ V) as [q [E ->]].
  assert (L : i < length (w_parts w)) by (apply nth_error_Some; congruence).
  assert (P1 : part_of (view_part w q) = q) by (destruct q; reflexivity). rewrite P1 in P.
  destruct (parses_tables _ _ _ _ P i (view_part (w_copy w q) q)) as (si & Vi & A & B).
  { unfold view. cbn [w_copy w_parts]. rewrite nth_error_app1, E by exact L. reflexivity. }
  destruct (parses_tables _ _ _ _ P k (view_part (w_copy w q) q)) as (sk & Vk & A' & B').
  { unfold view. cbn [w_copy w_parts]. rewrite nth_error_app2, Nat.sub_diag by (unfold k; lia). reflexivity. }
  exists si, sk. split; [exact Vi|]. split; [exact Vk|].
  assert (PR : present si = present sk).
  { destruct (view_some _ _ _ Vi) as [qi [_ ->]]. destruct (view_some _ _ _ Vk) as [qk [_ ->]]. reflexivity. }
  unfold isPresent_long, isPresent_ab, findOpt_long, findOpt_ab. rewrite A, A', B, B', PR. split; reflexivity.
Qed.
Print Assumptions C112_copies_agree.

(* ... so a copy is not independent: a line parsed by the copy marks an option
   as present in the original, which never saw it. *)
Definition r_quiet : reg := mkReg (lit "loud") "l"%char (fun s => addP s 7 (lit "loud") "l"%char (lit "be loud")).
Definition w_start : world := mkWorld [] 0 (fun _ => false) (fun _ => VInt 0) (fun _ => []) [].
Definition s_one : st := rg_add r_quiet (newOptions false (fun _ => VInt 0) (fun _ => [])).
Definition w_one : world := back (w_new w_start false) 0 s_one.
Definition w_two : world := w_copy w_one (part_of s_one).
Definition after_line (s : st) (ts : list str) : st :=
  match parse_list s ts with Ok (_, s') => s' | _ => s end.
Lemma w_one_history c : history c w_one.
Proof.
  eapply H_call; [apply H_new, H_start|].
  eapply (CL_reg _ _ (newOptions false (fun _ => VInt 0) (fun _ => [])) r_quiet); [reflexivity|apply RG_flag].
Qed.
Theorem C112_copies_refuted : exists w w' s s' sk,
  history true w /\ history true w' /\ calls w 1 w' /\ view w 0 = Some s /\ 
  view w' 0 = Some s' /\ view w' 1 = Some sk /\
  isPresent_long s (lit "loud") = false /\ isPresent_long s' (lit "loud") = true /\
  getPosArgs s' = [] /\ getPosArgs sk = [lit "x"].
Proof.
  assert (H2 : history true w_two) by (eapply (H_copy true w_one 0); [reflexivity|apply w_one_history|reflexivity]).
  set (s2 := after_line s_one [lit "--loud"; lit "x"]).
  assert (C : calls w_two 1 (back w_two 1 s2)).
  { apply (CL_parse _ _ s_one true); [reflexivity|]. apply (PC_list _ [lit "--loud"; lit "x"]). reflexivity. }
  exists w_two, (back w_two 1 s2). do 3 eexists. split; [exact H2|]. split; [eapply H_call; eauto|]. split; [exact C|].
  repeat split; reflexivity.
Qed.
Print Assumptions C112_copies_refuted.

(* two separate objects with an option of the same name; the second parses *)
Example C112_nonvacuous : exists w w' s s2,
  history false w /\ calls w 1 w' /\ view w 0 = Some s /\ view w' 1 = Some s2 /\
  isPresent_long s (lit "loud") = false /\ isPresent_long s2 (lit "loud") = true /\ getPosArgs s2 = [lit "x"].
Proof.
  set (w := w_new w_one false). set (s0 := view_part w (mkPart [] [] [] [] false false)).
  set (w1 := back w 1 (rg_add r_quiet s0)).
  assert (H1 : history false w1).
  { eapply H_call; [apply H_new, w_one_history|]. eapply (CL_reg _ _ s0 r_quiet); [reflexivity|apply RG_flag]. }
  exists w1, (back w1 1 (after_line (rg_add r_quiet s0) [lit "-l"; lit "x"])). do 2 eexists.
  split; [exact H1|]. split.
  { apply (CL_parse _ _ (rg_add r_quiet s0) true); [reflexivity|]. apply (PC_list _ [lit "-l"; lit "x"]). reflexivity. }
  repeat split; reflexivity.
Qed.
