(* P_FormatThreads.v -- property theorems for threads that format at the same time. *)
From Verif Require Import Base M_Stream M_Float M_Format M_FormatF M_FormatMem M_FormatThreads S_FormatThreads L_FormatThreads.

(* C142: whenever a thread assigns Format::separator, no other thread assigns it
   or prints a zero with addF 'e': then there is no data race in any schedule *)
Theorem C142_no_race_partial : forall im fuel sep0 prog g,
  (forall i j, i <> j -> assigns (prog i) -> ~ (assigns (prog j) \/ prints_zero (prog j))) ->
  treach im fuel (t_start sep0 prog) g -> ~ separator_race g.
Proof. intros im fuel sep0 prog g A. exact (no_race im fuel sep0 prog A g). Qed.
Print Assumptions C142_no_race_partial.

(* and every thread gets what it gets alone: always a beginning of it, all of it
   when it is through or cannot go on *)
Theorem C142_as_alone_partial : forall im fuel sep0 prog g i,
  (forall i j, i <> j -> assigns (prog i) -> ~ (assigns (prog j) \/ prints_zero (prog j))) ->
  treach im fuel (t_start sep0 prog) g ->
  (exists more, alone im fuel sep0 (prog i) None [] = t_out (snd g i) ++ more) /\
  ((forall g', ~ tstep im fuel g i g') -> t_out (snd g i) = alone im fuel sep0 (prog i) None []).
Proof.
  intros im fuel sep0 prog g i A R. split.
  - destruct (track im fuel sep0 prog A g R i) as (_ & _ & E). rewrite <- E. apply alone_prefix.
  - intros N. destruct (goes_on im fuel sep0 prog A g i R) as [(g' & S)|E]; [destruct (N g' S)|exact E].
Qed.
Print Assumptions C142_as_alone_partial.

(* the condition cannot be weakened: among threads that first make a Format and
   whose calls all have a result, there is a schedule with a race exactly when
   one assigns the separator and another assigns it or prints a zero *)
Theorem C142_race_exactly : forall fuel sep0 prog,
  (forall i, prog i = [] \/ exists s p, prog i = TNew s :: p) ->
  (forall i c, In (TAdd c) (prog i) -> full_text fuel c <> None) ->
  ((exists g, treach Glibc fuel (t_start sep0 prog) g /\ separator_race g) <->
   exists i j, i <> j /\ assigns (prog i) /\ (assigns (prog j) \/ prints_zero (prog j))).
Proof.
  intros fuel sep0 prog N H. split.
  - intros (g & R & i & j & b & Ne & Ai & Aj).
    assert (sub : forall g, treach Glibc fuel (t_start sep0 prog) g -> forall k, exists d, prog k = d ++ t_rest (snd g k)).
    { clear. induction 1 as [|g1 m g2 _ IH S]; intros k; [exists []; reflexivity|].
      destruct (IH k) as (d & D). destruct S as [sep th m c r fo out E _|sep th m ch r fo out E|sep th m c x r fo out fo' out' E _|sep th m a r fo out fo' out' E _ _];
        cbn [snd] in *; unfold t_upd; destruct (Nat.eqb_spec k m) as [->|]; try (exists d; exact D);
        rewrite E in D; cbn [t_rest] in *; try (exists d; exact D); eexists (d ++ [_]); rewrite <- app_assoc; exact D. }
    exists i, j. split; [exact Ne|]. destruct (sub g R i) as (di & ->), (sub g R j) as (dj & ->). split.
    + apply assigns_app. unfold t_access in Ai. destruct (t_rest (snd g i)) as [|[s|c| |ck|ch] r]; try discriminate.
      * destruct (reads_sep c), (t_held (snd g i)); discriminate.
      * exists ch. left. reflexivity.
    + apply touches_app, access_touches. rewrite Aj. discriminate.
  - intros (i & j & Ne & A & T).
    destruct (N i) as [E|(s1 & p1 & E1)]; [rewrite E in A; destruct A as (? & [])|].
    destruct (N j) as [E|(s2 & p2 & E2)]; [rewrite E in T; destruct T as [(? & [])|(? & ? & ? & ? & [] & _)]|].
    eapply meet; eauto; intros c; apply H.
Qed.
Print Assumptions C142_race_exactly.

(* the claim fails: thread 0 wants a comma in its own text, and thread 1, which
   never touches the separator, gets a comma too *)
Definition p_comma : list taction := [TNew (lit "%0"); TSetSep ","%char; TAdd (AF nul dzero "e"%char 0 3); TStr true].
Definition p_zero : list taction := [TNew (lit "%0"); TAdd (AF nul dzero "e"%char 0 3); TStr true].
Definition two (p q : list taction) (i : nat) : list taction := match i with 0 => p | 1 => q | _ => [] end.
Lemma two_steps : exists g, treach Glibc 0 (t_start "."%char (two p_comma p_zero)) g /\
  t_out (snd g 1) = [Ok (lit "0,00e0")] /\ t_rest (snd g 1) = [].
Proof.
  eexists. split.
  { eapply tr_step; [eapply tr_step; [eapply tr_step; [eapply tr_step; [eapply tr_step; [eapply tr_step; [apply tr_here|]|]|]|]|]|].
    - eapply (ts_other Glibc 0 _ _ 0); [reflexivity|exact I|vm_compute; reflexivity].
    - eapply (ts_write Glibc 0 _ _ 0). reflexivity.
    - eapply (ts_other Glibc 0 _ _ 1); [reflexivity|exact I|vm_compute; reflexivity].
    - eapply (ts_read Glibc 0 _ _ 1); reflexivity.
    - eapply (ts_held Glibc 0 _ _ 1); [reflexivity|vm_compute; reflexivity].
    - eapply (ts_other Glibc 0 _ _ 1); [reflexivity|exact I|vm_compute; reflexivity]. }
  split; vm_compute; reflexivity.
Qed.
Theorem C142_apart_refuted : exists prog,
  ~ assigns (prog 1) /\
  alone Glibc 0 "."%char (prog 1) None [] = [Ok (lit "0.00e0")] /\
  (exists g, treach Glibc 0 (t_start "."%char prog) g /\ t_rest (snd g 1) = [] /\ t_out (snd g 1) = [Ok (lit "0,00e0")]) /\
  (exists g, treach Glibc 0 (t_start "."%char prog) g /\ separator_race g).
Proof.
  exists (two p_comma p_zero). split.
  { intros (ch & H). cbn in H. repeat (destruct H as [H|H]; [discriminate|]). destruct H. }
  split; [vm_compute; reflexivity|]. split.
  { destruct two_steps as (g & R & O & E). exists g. auto. }
  apply C142_race_exactly.
  - intros [|[|i]]; [right; eexists _, _; reflexivity|right; eexists _, _; reflexivity|left; reflexivity].
  - intros [|[|i]] c H; cbn in H;
      repeat (destruct H as [H|H]; [try discriminate; injection H as <-; vm_compute; discriminate|]); destruct H.
  - exists 0, 1. split; [discriminate|]. split.
    + exists ","%char. cbn. auto.
    + right. exists nul, dzero, 0%Z, 3%Z. split; [cbn; auto|reflexivity].
Qed.
Print Assumptions C142_apart_refuted.

(* the hypothesis of the first two: one thread uses its comma, the others print
   anything but zeroes with 'e' *)
Definition p_plain : list taction := [TNew (lit "<%0>"); TAdd (AI 12 5 nul nul); TStr true].
Example C142_nonvacuous :
  (forall i j, i <> j -> assigns (two p_comma p_plain i) ->
     ~ (assigns (two p_comma p_plain j) \/ prints_zero (two p_comma p_plain j))) /\
  assigns (two p_comma p_plain 0) /\
  alone Glibc 0 "."%char p_comma None [] = [Ok (lit "0,00e0")] /\
  alone Glibc 0 "."%char p_plain None [] = [Ok (lit "<   12>")].
Proof.
  split; [|split; [exists ","%char; cbn; auto|split; vm_compute; reflexivity]].
  intros i j Ne (ch & H). destruct i as [|[|i]]; cbn in H;
    [|repeat (destruct H as [H|H]; [discriminate|]); destruct H|destruct H].
  destruct j as [|[|j]]; [congruence| |].
  - intros [(c & K)|(s & v & w & sd & K & _)]; cbn in K; repeat (destruct K as [K|K]; [discriminate|]); destruct K.
  - intros [(c & K)|(s & v & w & sd & K & _)]; destruct K.
Qed.
