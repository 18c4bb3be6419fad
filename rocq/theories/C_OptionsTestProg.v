(* C_OptionsTestProg.v -- from the lines of the test program to the parser *)
From Verif Require Import Base M_Stream M_StreamIn M_StreamFloat M_Format M_Options M_OptionsExample M_OptionsTestProg.
From Verif Require Import S_Num S_FloatIn S_Options S_OptionsExample S_OptionsTestProg.
From Verif Require Import L_Num L_Map L_Options L_OptionsI L_OptionsT C_Options C_OptionsP P_Options P_FloatIn C_OptionsExample.

Definition y_pres := mkOpt 0 (lit "pres") "p" [] [] false true (KPresence 0).
Definition y_boo := mkOpt 1 (lit "boo") "b" [] [] false false (KScalar ty_bool 1 ex_any).
Definition y_sint := mkOpt 2 (lit "sint") "I" [] [] true false (KScalar ty_int 2 ex_any).
Definition y_uint := mkOpt 3 (lit "uint") "U" [] [] true false (KScalar ty_int 3 ex_any).
Definition y_fva0 := mkOpt 4 (lit "fva0") "f" [] [] true false (KScalar ty_float 4 ex_any).
Definition y_fva1 := mkOpt 5 (lit "fva1") "F" [] [] true false (KScalar ty_float 5 ex_any).
Definition y_sva := mkOpt 6 (lit "sva") "s" [] [] false false (KScalar ty_string 6 ex_any).
Definition y_sind := mkOpt 7 (lit "s-ind") "c" [] [] false false (KScalar ty_string 7 ex_any).
Definition y_sla := mkOpt 8 (lit "sla") "l" [] [] false true (KVector ty_string 0 ex_any).
Definition y_ala := mkOpt 9 (lit "ala") "L" [] [] false true (KVector ty_int 1 ex_any).
Definition ys := [y_ala; y_boo; y_fva0; y_fva1; y_pres; y_sind; y_sint; y_sla; y_sva; y_uint].
Definition ys_ab := [y_fva1; y_sint; y_ala; y_uint; y_boo; y_sind; y_fva0; y_sla; y_pres; y_sva].
Lemma y_long : long_map ot_options = map (fun o => (o_long o, o)) ys.
Proof. reflexivity. Qed.
Lemma y_ab : ab_map ot_options = map (fun o => (o_ab o, o)) ys_ab.
Proof. reflexivity. Qed.
Lemma y_settled : settled ot_options.
Proof.
  assert (A1 : forall s t v ln ab doc test err, settled s -> settled (add_nodef s t v ln ab doc test err)).
  { intros. apply (ST_reg s (mkReg ln ab (fun s => add_nodef s t v ln ab doc test err))); [assumption|constructor]. }
  assert (A2 : forall s t v ln ab doc test err, settled s -> settled (addV s t v ln ab doc test err)).
  { intros. apply (ST_reg s (mkReg ln ab (fun s => addV s t v ln ab doc test err))); [assumption|constructor]. }
  assert (A4 : forall s v ln ab doc, settled s -> settled (addP s v ln ab doc)).
  { intros. apply (ST_reg s (mkReg ln ab (fun s => addP s v ln ab doc))); [assumption|constructor]. }
  unfold ot_options. cbv zeta. apply A2, A2, A1, A1, A1, A1, A1, A1, A1, A4, ST_new.
Qed.
Lemma ys_same o : In o ys -> In o ys_ab.
Proof. unfold ys, ys_ab. cbn [In]. tauto. Qed.
Lemma ys_same' o : In o ys_ab -> In o ys.
Proof. unfold ys, ys_ab. cbn [In]. tauto. Qed.
Ltac each I := cbn [In ys ys_ab] in I; repeat (destruct I as [<-|I]; [|]); [..|destruct I].
Lemma y_find_long o : In o ys -> findOpt_long ot_options (o_long o) = Some o.
Proof. intros I. each I; reflexivity. Qed.
Lemma y_find_ab o : In o ys -> findOpt_ab ot_options (o_ab o) = Some o.
Proof. intros I. each I; reflexivity. Qed.
Lemma y_found_long n o : findOpt_long ot_options n = Some o -> In o ys /\ n = o_long o.
Proof.
  unfold findOpt_long. rewrite y_long. intros F. apply (find_some_in str_compare scmp_eq) in F.
  apply in_map_iff in F as (o' & E & I). injection E as E1 E2. subst. split; [exact I|reflexivity].
Qed.
Lemma y_found_ab c o : findOpt_ab ot_options c = Some o -> In o ys /\ c = o_ab o.
Proof.
  unfold findOpt_ab. rewrite y_ab. intros F. apply (find_some_in char_compare ccmp_eq) in F.
  apply in_map_iff in F as (o' & E & I). injection E as E1 E2. subst. split; [apply ys_same', I|reflexivity].
Qed.
Lemma y_long_ok o : In o ys -> o_long o <> [] /\ o_long o <> lit "help" /\ o_ab o <> "-"%char /\ o_ab o <> "h"%char.
Proof. intros I. each I; repeat split; discriminate. Qed.
Lemma y_names t o : names ot_options t o <-> In o ys /\ called (o_long o) (o_ab o) t.
Proof.
  pose proof y_found_long as FL. pose proof y_found_ab as FA. pose proof y_find_long as XL. pose proof y_find_ab as XA.
  generalize dependent ot_options. intros s FL FA XL XA. split.
  - intros H. destruct H as [n o Hn Hh F|c r o Hc Hh F].
    + apply FL in F as [I ->]. split; [exact I|]. left. reflexivity.
    + apply FA in F as [I ->]. split; [exact I|]. right. exists r. reflexivity.
  - intros [I K]. destruct (y_long_ok o I) as (A & B & C & D). destruct K as [->|(r & ->)].
    + apply N_long; auto.
    + apply N_short; auto.
Qed.

Lemma y_int_text text : i32_text text <-> exists v, ty_read ty_int text = RdOk v.
Proof.
  unfold i32_text, int_text. split.
  - intros (z & (neg & n & A & C) & B). exists (VInt z). apply C45_int_partial. exists neg, n. auto.
  - intros (v & H). destruct (x_ty_int _ _ H) as (z & ->). apply C45_int_partial in H as (neg & n & A & C & B). exists z. split; [eauto|exact B].
Qed.
Lemma y_bool_text text : (exists b, bool_text text b) <-> exists v, ty_read ty_bool text = RdOk v.
Proof.
  split.
  - intros (b & H). exists (VBool b). apply x_bool_text, H.
  - intros (v & H). destruct (x_ty_bool _ _ H) as (b & ->). exists b. apply x_bool_text, H.
Qed.
Lemma y_float_text text : float_text text <-> exists v, ty_read ty_float text = RdOk v.
Proof.
  split.
  - intros (neg & ip & fp & ex & x & w & A & B & C). exists (VFloat w). apply C91_float. exists neg, ip, fp, ex, x. auto.
  - intros (v & H). assert (E : exists w, v = VFloat w).
    { cbn [ty_float ty_read] in H. destruct (read_float text); cbn in H; inversion H. eauto. }
    destruct E as (w & ->). apply C91_float in H as (neg & ip & fp & ex & x & A & B & C). exists neg, ip, fp, ex, x, w. auto.
Qed.

(* the values the items give to --sva *)
Definition sva_of (its : list item) : list str :=
  flat_map (fun i => match stored 6 i with [VStr t] => [t] | _ => [] end) its.

Lemma t_line_reads ts vs rest : t_line ts vs rest -> exists its, reads ot_options ts its rest /\ sva_of its = vs.
Proof.
  assert (G : forall t v o ts its rest, In o ys -> called (o_long o) (o_ab o) t -> (looks_like_option v -> greedy o) ->
    reads ot_options ts its rest ->
    (exists x, match o_kind o with KScalar ty _ _ | KVector ty _ _ => ty_read ty v = RdOk x | _ => False end) ->
    stored 6 (Given t o v (VInt 0)) = [] ->
    exists its', reads ot_options (t :: v :: ts) its' rest /\ sva_of its' = sva_of its).
  { intros t v o ts' its rest' I K L R (x & A) S6. exists (Given t o v x :: its). split.
    - apply R_given; [apply y_names; auto| |exact L|exact R].
      unfold accepts. each I; cbn [o_kind y_ala y_boo y_fva0 y_fva1 y_pres y_sind y_sint y_sla y_sva y_uint] in *; unfold ex_any; auto.
    - unfold sva_of. cbn [flat_map]. unfold stored in *. each I; cbn in S6 |- *; try reflexivity. discriminate S6. }
  assert (GR : forall o, In o [y_boo; y_fva0; y_fva1; y_sind; y_sint; y_sva; y_uint] -> forall v, looks_like_option v -> greedy o).
  { intros o I v _. left. cbn [In] in I. repeat (destruct I as [<-|I]; [reflexivity|]). destruct I. }
  induction 1 as [ts|w ts vs rest L H (its & R & <-)|t ts vs rest K H (its & R & <-)|t v ts vs rest K H (its & R & <-)
    |t v ts vs rest K H (its & R & <-)|t v b ts vs rest K B H (its & R & <-)|t v ts vs rest K B H (its & R & <-)
    |t v ts vs rest K B H (its & R & <-)|t v ts vs rest K L H (its & R & <-)|t v ts vs rest K L B H (its & R & <-)|t v ts vs rest K L H (its & R & <-)].
  - exists []. split; [constructor|reflexivity].
  - exists (Pos w :: its). split; [apply R_pos; assumption|reflexivity].
  - exists (Flag t y_pres :: its). split; [|reflexivity].
    apply R_flag; [apply y_names; split; [cbn; tauto|exact K]|exists 0; reflexivity|exact R].
  - exists (Given t y_sva v (VStr v) :: its). split; [|reflexivity].
    apply R_given; [apply y_names; split; [cbn; tauto|exact K]|split; reflexivity|intros _; left; reflexivity|exact R].
  - apply (G t v y_sind); [cbn; tauto|exact K|apply GR; cbn; tauto|exact R|exists (VStr v); reflexivity|reflexivity].
  - apply (G t v y_boo); [cbn; tauto|exact K|apply GR; cbn; tauto|exact R|apply y_bool_text; eauto|reflexivity].
  - apply y_int_text in B.
    destruct K as [K|K]; [apply (G t v y_sint)|apply (G t v y_uint)]; (exact K || exact R || exact B || reflexivity || (cbn; tauto) || (apply GR; cbn; tauto)).
  - apply y_float_text in B.
    destruct K as [K|K]; [apply (G t v y_fva0)|apply (G t v y_fva1)]; (exact K || exact R || exact B || reflexivity || (cbn; tauto) || (apply GR; cbn; tauto)).
  - apply (G t v y_sla); [cbn; tauto|exact K|contradiction|exact R|exists (VStr v); reflexivity|reflexivity].
  - apply y_int_text in B. apply (G t v y_ala); [cbn; tauto|exact K|contradiction|exact R|exact B|reflexivity].
  - assert (B : forall o, In o [y_sla; y_ala] -> called (o_long o) (o_ab o) t ->
      exists its', reads ot_options (t :: v :: ts) its' rest /\ sva_of its' = sva_of its).
    { intros o I KO. exists (Bare t o :: its). split; [|reflexivity].
      apply R_bare; [apply y_names; split; [cbn in *; tauto|exact KO]|intros (a & E)|intros [E|E]|exact L|exact R];
        cbn in I; repeat (destruct I as [<-|I]; [discriminate|]); exact I. }
    destruct K as [K|K]; [apply (B y_sla)|apply (B y_ala)]; (exact K || (cbn; tauto)).
Qed.
Lemma reads_t_line ts its rest : reads ot_options ts its rest -> t_line ts (sva_of its) rest.
Proof.
  induction 1 as [ts|w ts its rest L H IH|t o ts its rest K F H IH|t o text v ts its rest K A G H IH|t o t' ts its rest K NF NG L H IH].
  - constructor.
  - apply TP_word; assumption.
  - apply y_names in K as [I K]. destruct F as (a & F). each I; try discriminate. apply TP_pres; assumption.
  - apply y_names in K as [I K]. unfold accepts in A.
    each I; cbn [o_kind y_ala y_boo y_fva0 y_fva1 y_pres y_sind y_sint y_sla y_sva y_uint] in A;
      try (destruct A as [A _]; pose proof (ex_intro (fun v => _ = RdOk v) v A) as A').
    + apply TP_ala; [exact K|intros X; destruct (G X); discriminate|apply y_int_text, A'|exact IH].
    + apply y_bool_text in A' as (b & A'). apply (TP_boo t text b); assumption.
    + apply TP_float; [left; exact K|apply y_float_text, A'|exact IH].
    + apply TP_float; [right; exact K|apply y_float_text, A'|exact IH].
    + destruct A.
    + apply TP_sind; assumption.
    + apply TP_int; [left; exact K|apply y_int_text, A'|exact IH].
    + apply TP_sla; [exact K|intros X; destruct (G X); discriminate|exact IH].
    + cbn in A. injection A as <-. apply TP_sva; assumption.
    + apply TP_int; [right; exact K|apply y_int_text, A'|exact IH].
  - apply y_names in K as [I K].
    each I; try (exfalso; apply NG; left; reflexivity); try (exfalso; apply NF; exists 0; reflexivity).
    + apply TP_bare; [right; exact K|exact L|exact IH].
    + apply TP_bare; [left; exact K|exact L|exact IH].
Qed.
(* the variable of --sva after the items *)
Lemma sva_stored its : Forall (fun i => match i with Given _ o _ v => In o ys /\ (o = y_sva -> exists t, v = VStr t) | Flag _ o => o = y_pres | _ => True end) its ->
  forall d, last (flat_map (stored 6) its) (VStr d) = VStr (last (sva_of its) d).
Proof.
  intros F d. rewrite <- (C_OptionsExample.last_map VStr). f_equal. induction F as [|i its C F IH]; [reflexivity|].
  unfold sva_of in *. cbn [flat_map]. rewrite IH, map_app. f_equal. destruct i as [w|t o|t o text v|t o]; try reflexivity.
  - subst o. reflexivity.
  - destruct C as [I C]. each I; try reflexivity. destruct (C eq_refl) as (x & ->). reflexivity.
Qed.
Lemma reads_shape ts its rest : reads ot_options ts its rest ->
  Forall (fun i => match i with Given _ o _ v => In o ys /\ (o = y_sva -> exists t, v = VStr t) | Flag _ o => o = y_pres | _ => True end) its.
Proof.
  induction 1 as [ts|w ts its rest L H IH|t o ts its rest K F H IH|t o text v ts its rest K A G H IH|t o t' ts its rest K NF NG L H IH];
    constructor; auto.
  - apply y_names in K as [I _]. destruct F as (a & F). each I; try discriminate. reflexivity.
  - apply y_names in K as [I _]. split; [exact I|]. intros ->. destruct A as [A _]. cbn in A. injection A as <-. eauto.
Qed.

(* ---------- what the program does with any line ---------- *)
Lemma y_help : exists h, printHelp ot_options = Ok h /\ h <> [].
Proof. eexists. split; [vm_compute; reflexivity|discriminate]. Qed.
Lemma y_parse ts vs rest : t_line ts vs rest -> t_complete rest \/ t_stuck rest ->
  exists ok s', parse_list ot_options ts = Ok (ok, s') /\ mem s' 6 = VStr (last vs []) /\
    (t_complete rest -> ok = true /\ cerr s' = []) /\ (t_stuck rest -> ok = false /\ cerr s' <> []).
Proof.
  intros L E. destruct (t_line_reads ts vs rest L) as (its & R & <-).
  pose proof (settled_reach _ y_settled) as SR.
  assert (M : forall s1, after ot_options s1 its -> mem s1 6 = VStr (last (sva_of its) [])).
  { intros s1 A. rewrite (af_mem _ _ _ A). exact (sva_stored its (reads_shape _ _ _ R) []). }
  assert (OPT : forall t, t_option t -> exists o, names ot_options t o /\ ~ is_flag o).
  { intros t K. assert (Q : forall o, In o ys -> o <> y_pres -> called (o_long o) (o_ab o) t -> exists o, names ot_options t o /\ ~ is_flag o).
    { intros o I NP KO. exists o. split; [apply y_names; auto|]. intros (a & F). each I; try discriminate. congruence. }
    unfold t_option, t_sva, t_sind, t_boo, t_int, t_float, t_sla, t_ala in K. cbn [In ys] in Q.
    destruct K as [K|[K|[K|[[K|K]|[[K|K]|[K|K]]]]]];
      [apply (Q y_sva)|apply (Q y_sind)|apply (Q y_boo)|apply (Q y_sint)|apply (Q y_uint)|apply (Q y_fva0)|apply (Q y_fva1)|apply (Q y_sla)|apply (Q y_ala)];
      (exact K || discriminate || (cbn; tauto)). }
  assert (X : t_complete rest -> ~ t_stuck rest).
  { intros [->|(t & -> & K)].
    - intros [(? & ? & ? & _)|[(? & ? & ? & _)|(? & ? & ? & ? & _)]]; discriminate.
    - intros [(? & ? & [= <- <-] & AH)|[(? & ? & [= <- <-] & _ & _ & _ & NO)|(? & ? & ? & ? & _)]]; [|contradiction|discriminate].
      destruct (OPT t K) as (o & N & _). apply y_names in N as [I KO]. destruct (y_long_ok o I) as (O1 & O2 & O3 & O4).
      destruct KO as [->|(r & ->)]; destruct AH as [AH|(r' & AH)].
      + apply app_inv_head with (l := lit "--") in AH. contradiction.
      + discriminate.
      + injection AH as AH _. contradiction.
      + injection AH as AH _. contradiction. }
  destruct E as [E|E].
  - destruct E as [->|(t & -> & K)].
    + destruct (c33 _ _ _ SR eq_refl R) as (s' & P & A & C & _). exists true, s'. repeat split; auto; try (apply X in H; [contradiction|]); auto;
        elim (X (or_introl eq_refl) H).
    + destruct (OPT t K) as (o & N & NF). destruct (last_missing _ _ _ _ o SR eq_refl R N NF) as (s' & P & A & C & _). exists true, s'.
      repeat split; auto; elim (X (or_intror (ex_intro _ t (conj eq_refl K))) H).
  - assert (NC : t_complete rest -> False) by (intros C; exact (X C E)).
    destruct E as [(t & r & -> & AH)|[(t & r & -> & LK & NH & NP & NO)|(t & v & r & -> & W)]].
    + destruct (c38 _ _ _ _ _ SR eq_refl R AH) as (s' & h & PH & P & A & C & _). exists false, s'.
      destruct y_help as (h' & PH' & NE). rewrite PH in PH'. injection PH' as <-.
      split; [exact P|]. split; [apply M, A|]. split; [contradiction|]. intros _. split; [reflexivity|]. rewrite C. exact NE.
    + destruct (c36 _ _ _ _ _ SR eq_refl R LK NH) as (s' & h & PH & P & A & C & _).
      { intros o N. apply y_names in N as [I K]. unfold t_option, t_sva, t_sind, t_boo, t_int, t_float, t_sla, t_ala in NO.
        each I; tauto. }
      exists false, s'. split; [exact P|]. split; [apply M, A|]. split; [contradiction|]. intros _. split; [reflexivity|].
      rewrite C. intros Z. apply (f_equal (@length ascii)) in Z. rewrite !app_length in Z. cbn in Z. lia.
    + assert (Q : forall o, In o ys -> o <> y_pres -> o <> y_sva -> called (o_long o) (o_ab o) t ->
        (looks_like_option v -> greedy o) -> (forall x, ~ accepts o v x) ->
        exists ok s', parse_list ot_options ts = Ok (ok, s') /\ mem s' 6 = VStr (last (sva_of its) []) /\
          (t_complete (t :: v :: r) -> ok = true /\ cerr s' = []) /\ (t_stuck (t :: v :: r) -> ok = false /\ cerr s' <> [])).
      { intros o I NP NS K G NA. destruct (c37 _ _ _ t o v r SR eq_refl R) as (s1 & s' & A & P & M1 & _ & _ & _ & _ & C & _);
          [apply y_names; auto|intros (a & F); each I; try discriminate; congruence|exact G|exact NA|].
        exists false, s'. split; [exact P|]. split.
        - rewrite M1; [apply M, A|]. left. unfold target. each I; try discriminate; try congruence; intros [].
        - split; [contradiction|]. intros _. split; [reflexivity|]. rewrite C. intros Z. apply (f_equal (@length ascii)) in Z.
          rewrite !app_length in Z. cbn in Z. lia. }
      unfold t_wrong in W. cbn [In ys] in Q.
      assert (NT : forall ty (b : nat) o (P : Prop), ((exists x, ty_read ty v = RdOk x) -> P) -> ~ P ->
        (exists k a, o_kind o = KScalar ty a k \/ o_kind o = KVector ty a k) -> forall x, ~ accepts o v x).
      { intros ty b o P HP NP (k & a & KD) x AC. apply NP, HP. exists x. unfold accepts in AC. destruct KD as [KD|KD]; rewrite KD in AC; apply AC. }
      destruct W as [(K & W)|[([K|K] & W)|[([K|K] & W)|(K & NL & W)]]].
      * apply (Q y_boo); try discriminate; [tauto|exact K|intros; left; reflexivity|].
        apply (NT ty_bool 0 y_boo _ (proj2 (y_bool_text v)) W). exists ex_any, 1. left. reflexivity.
      * apply (Q y_sint); try discriminate; [tauto|exact K|intros; left; reflexivity|].
        apply (NT ty_int 0 y_sint _ (proj2 (y_int_text v)) W). exists ex_any, 2. left. reflexivity.
      * apply (Q y_uint); try discriminate; [tauto|exact K|intros; left; reflexivity|].
        apply (NT ty_int 0 y_uint _ (proj2 (y_int_text v)) W). exists ex_any, 3. left. reflexivity.
      * apply (Q y_fva0); try discriminate; [tauto|exact K|intros; left; reflexivity|].
        apply (NT ty_float 0 y_fva0 _ (proj2 (y_float_text v)) W). exists ex_any, 4. left. reflexivity.
      * apply (Q y_fva1); try discriminate; [tauto|exact K|intros; left; reflexivity|].
        apply (NT ty_float 0 y_fva1 _ (proj2 (y_float_text v)) W). exists ex_any, 5. left. reflexivity.
      * apply (Q y_ala); try discriminate; [tauto|exact K|contradiction|].
        apply (NT ty_int 0 y_ala _ (proj2 (y_int_text v)) W). exists ex_any, 1. right. reflexivity.
Qed.
Lemma y_total ts : exists vs rest, t_line ts vs rest /\ (t_complete rest \/ t_stuck rest).
Proof.
  destruct (parse_total ot_options ts) as (its & rest & R & E). exists (sva_of its), rest. split; [apply (reads_t_line _ _ _ R)|].
  assert (OPT : forall t o, names ot_options t o -> ~ is_flag o -> t_option t).
  { intros t o N NF. apply y_names in N as [I K]. unfold t_option, t_sva, t_sind, t_boo, t_int, t_float, t_sla, t_ala.
    each I; try tauto. elim NF. exists 0. reflexivity. }
  destruct E as [|t o N F|t r H|t r L NH N|t o text r N F G NA].
  - left. left. reflexivity.
  - left. right. exists t. split; [reflexivity|]. apply (OPT t o N F).
  - right. left. eauto.
  - right. right. left. exists t, r. repeat split; auto.
    + intros K. apply (N y_pres), y_names. split; [cbn; tauto|exact K].
    + intros K. assert (Q : forall o, In o ys -> called (o_long o) (o_ab o) t -> False) by (intros o I KO; apply (N o), y_names; auto).
      unfold t_option, t_sva, t_sind, t_boo, t_int, t_float, t_sla, t_ala in K. cbn [In ys] in Q.
      destruct K as [K|[K|[K|[[K|K]|[[K|K]|[K|K]]]]]];
        [apply (Q y_sva)|apply (Q y_sind)|apply (Q y_boo)|apply (Q y_sint)|apply (Q y_uint)|apply (Q y_fva0)|apply (Q y_fva1)|apply (Q y_sla)|apply (Q y_ala)];
        (exact K || tauto).
  - right. right. right. exists t, text, r. split; [reflexivity|]. apply y_names in N as [I K]. unfold accepts in NA. unfold t_wrong.
    assert (NT : forall ty, (forall v, ~ (ty_read ty text = RdOk v /\ ex_any v = true)) -> ~ exists v, ty_read ty text = RdOk v).
    { intros ty H (v & A). apply (H v). auto. }
    each I; cbn [o_kind y_ala y_boo y_fva0 y_fva1 y_pres y_sind y_sint y_sla y_sva y_uint] in NA; try apply NT in NA.
    + right. right. right. split; [exact K|]. split; [intros X; destruct (G X); discriminate|]. rewrite y_int_text. exact NA.
    + left. split; [exact K|]. rewrite y_bool_text. exact NA.
    + right. right. left. split; [left; exact K|]. rewrite y_float_text. exact NA.
    + right. right. left. split; [right; exact K|]. rewrite y_float_text. exact NA.
    + elim F. exists 0. reflexivity.
    + elim NA. exists (VStr text). reflexivity.
    + right. left. split; [left; exact K|]. rewrite y_int_text. exact NA.
    + elim NA. exists (VStr text). reflexivity.
    + elim NA. exists (VStr text). reflexivity.
    + right. left. split; [right; exact K|]. rewrite y_int_text. exact NA.
Qed.
