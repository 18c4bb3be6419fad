(* C_Options.v -- the Options properties in the form in which they are stated. *)
From Verif Require Import Base M_StreamIn M_Stream M_Split M_Format M_Options S_Options S_Num L_Map L_Options L_OptionsI.
From Coq Require Import Sorted.

(* ---------- help ---------- *)
Lemma help_line_ok kvp o :
  help_line kvp o = Ok (if kvp then kvp_line o else
    lit "   --" ++ o_long o ++ repeat " "%char (Z.to_nat (to_i32 (to_u64 (20 - Z.of_nat (length (o_long o)))))) ++
    lit " -" ++ [o_ab o] ++ lit "     " ++ o_doc o ++ ["010"%char]).
Proof.
  unfold help_line. destruct kvp.
  - unfold kvp_line. cbn [obind]. rewrite <- !app_assoc. reflexivity.
  - assert (N : newFormat Strict (lit "   --%0 -%1     ") =
                Ok (mkFmt [SLit (lit "   --"); SVal 0; SLit (lit " -"); SVal 1; SLit (lit "     ")] (lit "   --%0 -%1     ") 0))
      by (vm_compute; reflexivity).
    rewrite N. cbn [obind]. unfold addS, addS_text.
    change ((-20 <? 0)%Z) with true. change ((-20 =? - two31)%Z) with false. cbv iota.
    cbn [obind]. unfold addC, insertField, fmt_str. cbn [f_cur f_segs f_orig map fill_seg N.eqb].
    change (u32 (0 + 1)) with 1%N. cbn [fill_seg N.eqb Pos.eqb assemble andb obind].
    change (- -20 - Z.of_nat (length (o_long o)))%Z with (20 - Z.of_nat (length (o_long o)))%Z.
    unfold addC_text. rewrite app_nil_r, <- !app_assoc. reflexivity.
Qed.

Definition help_text (s : st) : str :=
  match printHelp s with Ok t => t | _ => [] end.
Lemma help_lines_ok kvp m : exists t, help_lines kvp m = Ok t.
Proof.
  induction m as [|[n o] m (t & IH)]; cbn; [eauto|]. rewrite help_line_ok, IH. cbn [obind]. eauto.
Qed.
Lemma printHelp_ok s : printHelp s = Ok (help_text s).
Proof.
  unfold help_text, printHelp. destruct (help_lines_ok (is_kvp s) (long_map s)) as (t & ->). reflexivity.
Qed.

Lemma pad20 (n : nat) : (Z.of_nat n < two31)%Z ->
  Z.to_nat (to_i32 (to_u64 (20 - Z.of_nat n))) = 20 - n.
Proof.
  unfold to_i32, to_u64, two31, two32, two64. intros H.
  rewrite <- Znumtheory.Zmod_div_mod; [|lia|lia|exists 4294967296%Z; reflexivity].
  destruct (Z.leb_spec (Z.of_nat n) 20).
  - rewrite Z.mod_small by lia. destruct (Z.ltb_spec (20 - Z.of_nat n) 2147483648); lia.
  - replace ((20 - Z.of_nat n) mod 4294967296)%Z with (20 - Z.of_nat n + 4294967296)%Z.
    2:{ rewrite <- (Z.mod_small (20 - Z.of_nat n + 4294967296) 4294967296) by lia.
        rewrite <- Z.add_mod_idemp_r by lia. rewrite Z.mod_same by lia. rewrite Z.add_0_r. reflexivity. }
    destruct (Z.ltb_spec (20 - Z.of_nat n + 4294967296) 2147483648); lia.
Qed.

Lemma c51 s : reach s ->
  exists l, StronglySorted (fun a b => str_compare (o_long a) (o_long b) = Lt) l /\
    (forall o, In o l <-> findOpt_long s (o_long o) = Some o) /\
    (forall n, (exists o, findOpt_long s n = Some o) <-> In n (map o_long l)) /\
    ((forall o, In o l -> (Z.of_nat (length (o_long o)) < two31)%Z) ->
     printHelp s = Ok (concat (map (fun i => i ++ ["010"%char]) (info_list s)) ++
                       concat (map (if is_kvp s then kvp_line else plain_line) l))).
Proof.
  intros R. pose proof (reach_inv s R) as I. exists (map snd (long_map s)).
  pose proof (inv_sorted _ I) as SO. pose proof (ksorted_nodup str_compare scmp_eq (long_map s) SO) as ND.
  assert (K : forall n o, In (n, o) (long_map s) -> o_long o = n).
  { intros n o H. eapply inv_long; [exact I|]. apply in_find; [exact scmp_eq|exact ND|exact H]. }
  assert (E : map o_long (map snd (long_map s)) = map fst (long_map s)).
  { rewrite map_map. apply map_ext_in. intros [n o] H. apply K in H. exact H. }
  assert (F : forall n o, findOpt_long s n = Some o <-> In (n, o) (long_map s)).
  { intros n o. split; [apply find_some_in; exact scmp_eq|apply in_find; [exact scmp_eq|exact ND]]. }
  repeat split.
  - unfold ksorted in SO. rewrite <- E in SO. clear -SO. induction (map snd (long_map s)) as [|o l IH]; [constructor|].
    cbn in SO. inversion SO as [|? ? A B]; subst. constructor; [auto|]. rewrite Forall_map in B. exact B.
  - intros H. apply in_map_iff in H as ((n & o') & <- & H). apply F. cbn. rewrite (K n o' H). exact H.
  - intros H. apply F in H. apply (in_map snd) in H. exact H.
  - intros (o & H). rewrite E. apply F in H. apply (in_map fst) in H. exact H.
  - rewrite E. intros H. apply in_map_iff in H as ((n' & o) & <- & H). exists o. apply F. exact H.
  - intros LN. unfold printHelp.
    assert (HL : help_lines (is_kvp s) (long_map s) =
                 Ok (concat (map (if is_kvp s then kvp_line else plain_line) (map snd (long_map s))))).
    { clear -LN. induction (long_map s) as [|[n o] m IH]; [reflexivity|]. cbn [help_lines map snd concat].
      rewrite help_line_ok, IH by (intros o' H; apply LN; right; exact H). cbn [obind]. f_equal. f_equal.
      destruct (is_kvp s); [reflexivity|]. unfold plain_line.
      rewrite pad20 by (apply LN; left; reflexivity). reflexivity. }
    rewrite HL. reflexivity.
Qed.

(* ---------- one parse ---------- *)
Lemma wfs_print s t : waiting_for_signed (print_err s t) = waiting_for_signed s.
Proof. reflexivity. Qed.

(* the state in which the items have been read and the loop goes on *)
Lemma parse_reads s ts is rest : inv s -> waiting_for_signed s = false -> reads s ts is rest ->
  exists s1, after s s1 is /\ cerr s1 = cerr s /\ waiting_for_signed s1 = false /\ frame s s1 /\
    parse_loop s None ts = parse_loop s1 None rest.
Proof.
  intros I W R. exists (apply_items s is).
  destruct (loop_reads s ts is rest (inv_flags_unsigned s I) R s (same_maps_refl s) W) as [E W1].
  destruct (after_items is (reads_ok _ _ _ _ R) s) as [A C].
  repeat split; auto; try apply A.
Qed.

Lemma c33 s ts is : reach s -> waiting_for_signed s = false -> reads s ts is [] ->
  exists s', parse_list s ts = Ok (true, s') /\ after s s' is /\ cerr s' = cerr s /\ waiting_for_signed s' = false.
Proof.
  intros R W H. destruct (parse_reads s ts is [] (reach_inv s R) W H) as (s1 & A & C & W1 & _ & E).
  exists s1. unfold parse_list. rewrite E. cbn. auto.
Qed.

Lemma last_missing s ts is tok o : reach s -> waiting_for_signed s = false ->
  reads s ts is [tok] -> names s tok o -> ~ is_flag o ->
  exists s', parse_list s ts = Ok (true, s') /\ after s s' is /\ cerr s' = cerr s /\ waiting_for_signed s' = o_signed o.
Proof.
  intros R W H N F. destruct (parse_reads s ts is [tok] (reach_inv s R) W H) as (s1 & A & C & W1 & FR & E).
  exists (arm s1 o). unfold parse_list. rewrite E.
  rewrite (step_named s1 tok o [] W1 (names_same _ _ _ _ (frame_same_maps _ _ FR) N)), (isPresentOpt_false o F).
  cbn [parse_loop]. split; [reflexivity|].
  split; [destruct A; unfold arm; destruct (o_signed o); constructor; assumption|].
  split; [unfold arm; destruct (o_signed o); exact C|]. apply wfs_arm. exact W1.
Qed.

Lemma after_print s s1 is t : after s s1 is -> after s (print_err s1 t) is.
Proof. intros A. destruct A. constructor; assumption. Qed.

Lemma help_text_frame s s' : frame s s' -> help_text s' = help_text s.
Proof. intros F. unfold help_text, printHelp. rewrite (fr_kvp _ _ F), (fr_long _ _ F), (fr_info _ _ F). reflexivity. Qed.

Lemma c_str_printed t : printed t (c_str t).
Proof.
  induction t as [|a t (N & IH)]; [split; [intros []|left; reflexivity]|]. cbn. destruct (Ascii.eqb_spec a "000"%char) as [->|D].
  - split; [intros []|]. right. exists t. reflexivity.
  - split; [intros [H|H]; [congruence|exact (N H)]|]. destruct IH as [IH|(r & IH)].
    + left. congruence.
    + right. exists r. cbn. congruence.
Qed.

Lemma c36 s ts is tok rest : reach s -> waiting_for_signed s = false ->
  reads s ts is (tok :: rest) -> looks_like_option tok -> ~ asks_help tok -> (forall o, ~ names s tok o) ->
  exists s' help, printHelp s = Ok help /\ parse_list s ts = Ok (false, s') /\ after s s' is /\
    cerr s' = cerr s ++ c_str (lit "Command option [[" ++ tok ++ lit "]] is unknown.") ++ ["010"%char] ++ help /\
    waiting_for_signed s' = false.
Proof.
  intros R W H L NH N. destruct (parse_reads s ts is _ (reach_inv s R) W H) as (s1 & A & C & W1 & FR & E).
  eexists. exists (help_text s). split; [apply printHelp_ok|]. unfold parse_list. rewrite E.
  rewrite step_unknown; [|assumption..|].
  2:{ intros o Ho. apply (N o). apply (names_same s1 s); [apply same_maps_sym, frame_same_maps, FR|exact Ho]. }
  cbn [badOptionName ex_class ex_what]. rewrite printHelp_ok. cbn [obind]. split; [reflexivity|].
  split; [apply after_print, after_print, A|]. split; [|exact W1].
  cbn [print_err cerr]. rewrite C, (help_text_frame s) by (eapply frame_trans; [exact FR|apply frame_print]).
  unfold endl. rewrite <- !app_assoc. reflexivity.
Qed.

Lemma c38 s ts is tok rest : reach s -> waiting_for_signed s = false ->
  reads s ts is (tok :: rest) -> asks_help tok ->
  exists s' help, printHelp s = Ok help /\ parse_list s ts = Ok (false, s') /\ after s s' is /\
    cerr s' = cerr s ++ help /\ waiting_for_signed s' = false.
Proof.
  intros R W H AH. destruct (parse_reads s ts is _ (reach_inv s R) W H) as (s1 & A & C & W1 & FR & E).
  eexists. exists (help_text s). split; [apply printHelp_ok|]. unfold parse_list. rewrite E, step_help by assumption.
  rewrite printHelp_ok. cbn [obind]. split; [reflexivity|].
  split; [apply after_print, A|]. split; [|exact W1].
  cbn [print_err cerr]. rewrite C, (help_text_frame s) by exact FR. reflexivity.
Qed.

(* a rejected value *)
Lemma setVal_rejected s o text : ~ is_flag o -> (forall v, ~ accepts o text v) ->
  exists s1, opt_setVal s o text = (s1, Some (badOptValue (o_long o) text (o_err o))) /\
    s1 = match o_kind o with
         | KScalar _ b _ => match leaves o text with Some v => set_mem s b v | None => s end
         | _ => s end.
Proof.
  unfold is_flag, accepts, leaves, opt_setVal. intros NF NA.
  destruct (o_kind o) as [t b test|t b test|b] eqn:K; [..|elim NF; eauto].
  - destruct (ty_read t text) as [v|[v|]]; eauto. destruct (test v) eqn:T; [elim (NA v); auto|eauto].
  - destruct (ty_read t text) as [v|l]; eauto. destruct (test v) eqn:T; [elim (NA v); auto|eauto].
Qed.

Lemma c37 s ts is tok o text rest : reach s -> waiting_for_signed s = false ->
  reads s ts is (tok :: text :: rest) -> names s tok o -> ~ is_flag o ->
  (looks_like_option text -> greedy o) -> (forall v, ~ accepts o text v) ->
  exists s1 s', after s s1 is /\ parse_list s ts = Ok (false, s') /\
    (forall a, ~ target o a \/ leaves o text = None -> mem s' a = mem s1 a) /\
    (forall a v, target o a -> leaves o text = Some v -> mem s' a = v) /\
    (forall a, vmem s' a = vmem s1 a) /\ (forall id, present s' id = present s1 id) /\
    pos_arg_vec s' = pos_arg_vec s1 /\
    cerr s' = cerr s ++ c_str (o_long o ++ lit " unacceptable value """ ++ text ++ lit """ " ++ o_err o) ++ ["010"%char] /\
    waiting_for_signed s' = o_signed o.
Proof.
  intros R W H N F G NA. destruct (parse_reads s ts is _ (reach_inv s R) W H) as (s1 & A & C & W1 & FR & E).
  exists s1. destruct (setVal_rejected (arm s1 o) o text F NA) as (s2 & SV & S2).
  exists (print_err s2 (c_str (o_long o ++ lit " unacceptable value """ ++ text ++ lit """ " ++ o_err o) ++ endl)).
  split; [exact A|]. split.
  { unfold parse_list. rewrite E.
    rewrite (step_named s1 tok o _ W1 (names_same _ _ _ _ (frame_same_maps _ _ FR) N)), (isPresentOpt_false o F).
    rewrite step_value by assumption. rewrite SV. reflexivity. }
  cbn [print_err mem vmem present pos_arg_vec cerr waiting_for_signed]. unfold endl.
  assert (B : (forall a, mem (arm s1 o) a = mem s1 a) /\ vmem (arm s1 o) = vmem s1 /\ present (arm s1 o) = present s1 /\
              pos_arg_vec (arm s1 o) = pos_arg_vec s1 /\ cerr (arm s1 o) = cerr s).
  { unfold arm. destruct (o_signed o); repeat split; exact C. }
  destruct B as (B1 & B2 & B3 & B4 & B5).
  pose proof (wfs_arm s1 o W1) as B6.
  unfold target, leaves in *. destruct (o_kind o) as [t b test|t b test|b] eqn:K; [..|elim F; exists b; exact K].
  - destruct (match ty_read t text with RdOk v => Some v | RdFail x => x end) as [v|] eqn:LV; subst s2;
      cbn [set_mem mem vmem present pos_arg_vec cerr waiting_for_signed]; rewrite ?B2, ?B3, ?B4, ?B5, ?B6.
    + repeat split; auto.
      * intros a [NT|X]; [|discriminate]. unfold upd. destruct (Nat.eqb_spec a b); [contradiction|apply B1].
      * intros a v' -> [= ->]. unfold upd. rewrite Nat.eqb_refl. reflexivity.
    + repeat split; auto. intros a v' _ [=].
  - subst s2. rewrite ?B2, ?B3, ?B4, ?B5, ?B6. repeat split; auto. intros a v' [].
Qed.

(* every line has one of the five endings, and parse's answer tells which *)
Lemma parse_total s ts : exists is rest, reads s ts is rest /\ ending s rest.
Proof. apply (reads_total s (length ts)). lia. Qed.

Lemma parse_true_inv s ts s' : reach s -> waiting_for_signed s = false -> parse_list s ts = Ok (true, s') ->
  exists is rest, reads s ts is rest /\ after s s' is /\ cerr s' = cerr s /\
    (rest = [] /\ waiting_for_signed s' = false \/
     exists tok o, rest = [tok] /\ names s tok o /\ ~ is_flag o /\ waiting_for_signed s' = o_signed o).
Proof.
  intros R W P. destruct (parse_total s ts) as (is & rest & RD & E). exists is, rest. split; [exact RD|].
  destruct E as [|tok o N F|tok rest H|tok rest L NH N|tok o text rest N F G NA].
  - destruct (c33 s ts is R W RD) as (s2 & P2 & A & C & W2). rewrite P in P2. injection P2 as <-. auto.
  - destruct (last_missing s ts is tok o R W RD N F) as (s2 & P2 & A & C & W2). rewrite P in P2. injection P2 as <-.
    repeat split; auto; try apply A. right. exists tok, o. auto.
  - destruct (c38 s ts is tok rest R W RD H) as (s2 & h & _ & P2 & _). rewrite P in P2. discriminate.
  - destruct (c36 s ts is tok rest R W RD L NH N) as (s2 & h & _ & P2 & _). rewrite P in P2. discriminate.
  - destruct (c37 s ts is tok o text rest R W RD N F G NA) as (s1 & s2 & _ & P2 & _). rewrite P in P2. discriminate.
Qed.

Lemma parse_defined s ts : exists b s', parse_list s ts = Ok (b, s').
Proof.
  unfold parse_list. destruct (parse_loop s None ts) as [s1 [| |e]]; [eauto| |].
  - rewrite printHelp_ok. cbn. eauto.
  - destruct (ex_class e); eauto. rewrite printHelp_ok. cbn. eauto.
Qed.

(* exactly the lines understood to the end make parse return true *)
Lemma c33_iff s ts : reach s -> waiting_for_signed s = false ->
  ((exists s', parse_list s ts = Ok (true, s')) <->
   exists is rest, reads s ts is rest /\
     (rest = [] \/ exists tok o, rest = [tok] /\ names s tok o /\ ~ is_flag o)).
Proof.
  intros R W. split.
  - intros (s' & P). destruct (parse_true_inv s ts s' R W P) as (is & rest & RD & _ & _ & [[-> _]|(tok & o & -> & N & F & _)]);
      exists is; eexists; (split; [exact RD|]); [left; reflexivity|right; eauto].
  - intros (is & rest & RD & [->|(tok & o & -> & N & F)]).
    + destruct (c33 s ts is R W RD) as (s' & P & _). eauto.
    + destruct (last_missing s ts is tok o R W RD N F) as (s' & P & _). eauto.
Qed.

(* ---------- a fresh object never waits ---------- *)
Lemma wfs_waiting_stuck s ts : waiting_for_signed s = true ->
  exists s', parse_list s ts = Ok (true, s') /\ pos_arg_vec s' = pos_arg_vec s ++ ts /\
    mem s' = mem s /\ vmem s' = vmem s /\ present s' = present s /\ waiting_for_signed s' = true /\ frame s s' /\ cerr s' = cerr s.
Proof.
  intros W. unfold parse_list.
  assert (H : forall ts s, waiting_for_signed s = true ->
    exists s', parse_loop s None ts = (s', LTrue) /\ pos_arg_vec s' = pos_arg_vec s ++ ts /\
    mem s' = mem s /\ vmem s' = vmem s /\ present s' = present s /\ waiting_for_signed s' = true /\ frame s s' /\ cerr s' = cerr s).
  { clear. induction ts as [|t ts IH]; intros s W.
    - exists s. rewrite app_nil_r. repeat split; auto.
    - cbn [parse_loop]. assert (E : isSwitch s t = 0) by (unfold isSwitch; rewrite W; reflexivity).
      rewrite E. cbn [Nat.eqb]. destruct (IH (push_pos s t) W) as (s' & P & A & B & C & D & G & F & H).
      exists s'. cbn in *. rewrite <- app_assoc in A. repeat split; auto; destruct F; assumption. }
  destruct (H ts s W) as (s' & -> & P). exists s'. split; [reflexivity|exact P].
Qed.
