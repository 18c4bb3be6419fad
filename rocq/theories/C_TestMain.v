(* C_TestMain.v -- from lines of number options and flags to the parser *)
From Verif Require P_Messages.
From Verif Require Import Base M_Stream M_StreamIn M_Split M_Format M_Options M_OptionsExample M_TestMain.
From Verif Require Import S_Num S_Split S_Options S_OptionsExample S_TestMain L_Num L_Map L_Options L_OptionsI C_Options C_OptionsP P_Options C_OptionsExample P_OptionsExample.

Definition topt_of (o : opt) : topt :=
  mkT (o_long o) (o_ab o) (match o_kind o with KPresence _ => false | _ => true end) (o_doc o).
(* a number option or a flag *)
Definition simple (o : opt) : Prop :=
  o_err o = [] /\ ((exists a, o_kind o = KPresence a) \/ (o_signed o = true /\ exists a, o_kind o = KScalar ty_int a any_value)).
Definition addr (o : opt) : nat := match o_kind o with KPresence a | KScalar _ a _ | KVector _ a _ => a end.

Section T.
Variables (s : st) (opts : list opt).
Hypothesis simple_all : forall o, In o opts -> simple o.
Hypothesis names_iff : forall t o, names s t o <-> In o opts /\ called (o_long o) (o_ab o) t.
Hypothesis same_addr : forall o o', In o opts -> In o' opts -> addr o = addr o' <-> o = o'.
Hypothesis same_long : forall o o', In o opts -> In o' opts -> o_long o = o_long o' -> o = o'.
Notation tbl := (map topt_of opts).

Definition tcorr (i : titem) (it : item) : Prop :=
  match i, it with
  | TWord w, Pos w' => w = w'
  | TFlag l, Flag _ o => In o opts /\ l = o_long o /\ exists a, o_kind o = KPresence a
  | TNum l z, Given _ o _ v => In o opts /\ l = o_long o /\ v = VInt z /\ exists a, o_kind o = KScalar ty_int a any_value
  | _, _ => False
  end.
Lemma int_text_read text z : int_text text z /\ is_int z <-> ty_read ty_int text = RdOk (VInt z).
Proof.
  rewrite C45_int_partial. split.
  - intros [(neg & n & A & C) B]. exists neg, n. split; [exact A|]. split; [exact C|exact B].
  - intros (neg & n & A & C & B). split; [exists neg, n; auto|exact B].
Qed.
Lemma is_number o : In o opts -> t_number (topt_of o) = true -> o_signed o = true /\ exists a, o_kind o = KScalar ty_int a any_value.
Proof. intros I N. destruct (simple_all o I) as (_ & [(a & K)|H]); [unfold topt_of in N; cbn in N; rewrite K in N; discriminate|exact H]. Qed.
Lemma is_a_flag o : In o opts -> t_number (topt_of o) = false -> exists a, o_kind o = KPresence a.
Proof. intros I N. destruct (simple_all o I) as (_ & [H|(_ & a & K)]); [exact H|unfold topt_of in N; cbn in N; rewrite K in N; discriminate]. Qed.
Lemma tline_reads ts is rest : tline tbl ts is rest -> exists its, reads s ts its rest /\ Forall2 tcorr is its.
Proof.
  induction 1 as [ts|w ts is rest L H (its & R & C)|o t ts is rest I N K H (its & R & C)|o t v z ts is rest I N K V B H (its & R & C)].
  - exists []. split; constructor.
  - exists (Pos w :: its). split; [apply R_pos; assumption|constructor; [reflexivity|exact C]].
  - apply in_map_iff in I as (o' & <- & I). destruct (is_a_flag o' I N) as (a & KK). exists (Flag t o' :: its). split.
    + apply R_flag; [apply names_iff; auto|exists a; exact KK|exact R].
    + constructor; [|exact C]. split; [exact I|]. split; [reflexivity|eauto].
  - apply in_map_iff in I as (o' & <- & I). destruct (is_number o' I N) as (G & a & KK). exists (Given t o' v (VInt z) :: its). split.
    + apply R_given; [apply names_iff; auto| |intros _; right; exact G|exact R]. unfold accepts. rewrite KK. split; [apply int_text_read; auto|reflexivity].
    + constructor; [|exact C]. split; [exact I|]. split; [reflexivity|]. split; [reflexivity|eauto].
Qed.
Lemma reads_tline ts its rest : reads s ts its rest -> exists is, tline tbl ts is rest /\ Forall2 tcorr is its.
Proof.
  induction 1 as [ts|w ts its rest L H (is & R & C)|t o ts its rest K F H (is & R & C)
    |t o text v ts its rest K A G H (is & R & C)|t o t' ts its rest K NF NG L H (is & R & C)].
  - exists []. split; constructor.
  - exists (TWord w :: is). split; [apply T_word; assumption|constructor; [reflexivity|exact C]].
  - apply names_iff in K as [I K]. destruct F as (a & F). exists (TFlag (t_long (topt_of o)) :: is). split.
    + apply T_flag; [apply in_map; exact I|cbn; rewrite F; reflexivity|exact K|exact R].
    + constructor; [|exact C]. split; [exact I|]. split; [reflexivity|eauto].
  - apply names_iff in K as [I K]. destruct (simple_all o I) as (_ & [(a & F)|(S & a & F)]); unfold accepts in A; rewrite F in A; [destruct A|].
    destruct A as [A _]. destruct (x_ty_int _ _ A) as (z & ->). destruct (proj2 (int_text_read text z) A) as [V B].
    exists (TNum (t_long (topt_of o)) z :: is). split.
    + apply T_num; [apply in_map; exact I|cbn; rewrite F; reflexivity|exact K|exact V|exact B|exact R].
    + constructor; [|exact C]. split; [exact I|]. split; [reflexivity|]. split; [reflexivity|eauto].
  - apply names_iff in K as [I K]. destruct (simple_all o I) as (_ & [F|(S & F)]); [destruct (NF F)|]. destruct NG. right. exact S.
Qed.

Lemma str_eqb_long o o' : In o opts -> In o' opts -> str_eqb (o_long o') (o_long o) = Nat.eqb (addr o) (addr o').
Proof.
  intros I I'. destruct (str_eqb_spec (o_long o') (o_long o)) as [E|E]; symmetry.
  - apply Nat.eqb_eq, same_addr; auto.
  - apply Nat.eqb_neq. intros A. apply same_addr in A; auto. subst o'. destruct (E eq_refl).
Qed.
Lemma tstored is its o : Forall2 tcorr is its -> In o opts ->
  (t_number (topt_of o) = true -> flat_map (stored (addr o)) its = map VInt (numbers (o_long o) is)) /\
  (t_number (topt_of o) = false -> forall b, last (flat_map (stored (addr o)) its) (VBool b) = VBool (b || flag (o_long o) is)).
Proof.
  intros F I. induction F as [|i it is its C F (A & B)].
  - split; [reflexivity|]. intros _ b. cbn. rewrite orb_false_r. reflexivity.
  - unfold numbers, flag in *. cbn [flat_map existsb]. split.
    + intros N. rewrite A by exact N. rewrite map_app. f_equal. destruct (is_number o I N) as (_ & a & KK).
      destruct i as [w|l|l z], it as [w'|tok o'|tok o' text v|tok o']; cbn [tcorr] in C; try contradiction; [reflexivity| |].
      * destruct C as (I' & -> & b & K'). cbn [stored]. rewrite K'. destruct (Nat.eqb_spec (addr o) b) as [E|E]; [|reflexivity]. exfalso.
        assert (o = o') by (apply same_addr; auto; unfold addr at 2; rewrite K'; exact E). subst o'. congruence.
      * destruct C as (I' & -> & -> & b & K'). cbn [stored]. rewrite K', (str_eqb_long o o' I I').
        assert (E : addr o' = b) by (unfold addr; rewrite K'; reflexivity). rewrite E. destruct (Nat.eqb (addr o) b); reflexivity.
    + intros N b. rewrite last_app_d. destruct (is_a_flag o I N) as (a & KK).
      destruct i as [w|l|l z], it as [w'|tok o'|tok o' text v|tok o']; cbn [tcorr] in C; try contradiction.
      * cbn [stored last orb]. apply B, N.
      * destruct C as (I' & -> & c & K'). cbn [stored]. rewrite K', (str_eqb_long o o' I I').
        assert (E : addr o' = c) by (unfold addr; rewrite K'; reflexivity). rewrite E.
        destruct (Nat.eqb (addr o) c); cbn [last orb]; rewrite B by exact N; [rewrite orb_true_r|]; reflexivity.
      * destruct C as (I' & -> & -> & c & K'). cbn [stored]. rewrite K'. destruct (Nat.eqb_spec (addr o) c) as [E|E].
        { exfalso. assert (o = o') by (apply same_addr; auto; unfold addr at 2; rewrite K'; exact E). subst o'. congruence. }
        cbn [last orb]. apply B, N.
Qed.

Hypothesis settled_s : settled s.
Hypothesis quiet : waiting_for_signed s = false.
Hypothesis empty_err : cerr s = [].
Hypothesis help_s : printHelp s = Ok (lines (tusage tbl)).

Lemma t_understood ts is : understood tbl ts is ->
  exists s1, parse_list s ts = Ok (true, s1) /\ cerr s1 = [] /\
    (forall o z, In o opts -> t_number (topt_of o) = true -> mem s (addr o) = VInt z -> mem s1 (addr o) = VInt (number (o_long o) z is)) /\
    (forall o, In o opts -> t_number (topt_of o) = false -> mem s (addr o) = VBool false -> mem s1 (addr o) = VBool (flag (o_long o) is)).
Proof.
  intros U.
  assert (X : exists its s1, parse_list s ts = Ok (true, s1) /\ after s s1 its /\ cerr s1 = cerr s /\ Forall2 tcorr is its).
  { destruct U as [L|(o & tok & L & I & N & K)].
    - destruct (tline_reads _ _ _ L) as (its & R & C). destruct (c33 s ts its (settled_reach _ settled_s) quiet R) as (s1 & P & A & E & _). eauto 8.
    - destruct (tline_reads _ _ _ L) as (its & R & C). apply in_map_iff in I as (o' & <- & I). destruct (is_number o' I N) as (_ & a & KK).
      destruct (last_missing s ts its tok o' (settled_reach _ settled_s) quiet R) as (s1 & P & A & E & _);
        [apply names_iff; auto|intros (b & F); congruence|]. eauto 8. }
  destruct X as (its & s1 & P & A & E & C). exists s1. split; [exact P|]. split; [congruence|]. split.
  - intros o z I N M. destruct (tstored is its o C I) as [T _]. rewrite (af_mem _ _ _ A), M, (T N), last_map. reflexivity.
  - intros o I N M. destruct (tstored is its o C I) as [_ T]. rewrite (af_mem _ _ _ A), M, (T N). reflexivity.
Qed.
Lemma no_nul_app (a b : str) : ~ In "000"%char a -> ~ In "000"%char b -> ~ In "000"%char (a ++ b).
Proof. rewrite in_app_iff. tauto. Qed.
Lemma t_complaint ts why : (forall o, In o opts -> ~ In "000"%char (o_long o)) -> complaint tbl ts why ->
  exists s1, parse_list s ts = Ok (false, s1) /\ cerr s1 = lines why.
Proof.
  intros NL. destruct 1 as [is tok rest L H|is tok rest L LK NH N Z|is o tok text rest L I N K NI Z]; destruct (tline_reads _ _ _ L) as (its & R & C).
  - destruct (c38 s ts its tok rest (settled_reach _ settled_s) quiet R H) as (s' & help & PH & P & A & E & _).
    exists s'. split; [exact P|]. rewrite E, empty_err. rewrite help_s in PH. injection PH as <-. reflexivity.
  - destruct (c36 s ts its tok rest (settled_reach _ settled_s) quiet R LK NH) as (s' & help & PH & P & A & E & _).
    { intros o X. apply names_iff in X as [I K]. apply (N (topt_of o)); [apply in_map, I|exact K]. }
    exists s'. split; [exact P|]. rewrite E, empty_err. rewrite help_s in PH. injection PH as <-. rewrite c_str_all.
    + change (lines (?a :: tusage tbl)) with ((a ++ ["010"%char]) ++ lines (tusage tbl)). repeat rewrite <- app_assoc. reflexivity.
    + repeat apply no_nul_app; [|exact Z|]; intros H; vm_compute in H; repeat (destruct H as [H|H]; [discriminate|]); exact H.
  - apply in_map_iff in I as (o' & <- & I). destruct (is_number o' I N) as (G & a & KK).
    destruct (c37 s ts its tok o' text rest (settled_reach _ settled_s) quiet R) as (s1 & s' & A & P & _ & _ & _ & _ & _ & E & _);
      [apply names_iff; auto|intros (b & F); congruence|intros _; right; exact G| |].
    { intros v X. unfold accepts in X. rewrite KK in X. destruct X as [X _]. destruct (x_ty_int _ _ X) as (z & ->).
      apply NI. exists z. apply int_text_read, X. }
    exists s'. split; [exact P|]. rewrite E, empty_err. destruct (simple_all o' I) as (-> & _). rewrite app_nil_r, c_str_all.
    + unfold lines. cbn [flat_map t_long topt_of]. rewrite app_nil_r. reflexivity.
    + apply no_nul_app; [apply NL, I|]. repeat apply no_nul_app; [|exact Z|]; intros H; vm_compute in H; repeat (destruct H as [H|H]; [discriminate|]); exact H.
Qed.
(* every line is of one of the two kinds, if it has no NUL characters *)
Lemma t_every ts : Forall (fun t => ~ In "000"%char t) ts -> (exists is, understood tbl ts is) \/ exists why, complaint tbl ts why.
Proof.
  intros NZ. destruct (parse_total s ts) as (its & rest & R & E). destruct (reads_tline _ _ _ R) as (is & L & C).
  assert (NZR : Forall (fun t => ~ In "000"%char t) rest).
  { clear - NZ L. induction L as [| |? ? ? ? ? ? ? ? ? IHL|? ? ? ? ? ? ? ? ? ? ? ? ? IHL]; auto.
    - inversion NZ. auto.
    - inversion NZ. auto.
    - inversion NZ as [|? ? ? X]. inversion X. auto. }
  destruct E as [|tok o N F|tok r H|tok r LK NH N|tok o text r N F G NA].
  - left. exists is. left. exact L.
  - left. exists is. right. apply names_iff in N as [I K]. exists (topt_of o), tok. split; [exact L|]. split; [apply in_map, I|]. split; [|exact K].
    cbn. destruct (o_kind o) eqn:KO; try reflexivity. destruct F. eexists. exact KO.
  - right. eexists. eapply CP_help; eauto.
  - right. eexists. eapply CP_unknown; eauto.
    + intros o I K. apply in_map_iff in I as (o' & <- & I). apply (N o'), names_iff. auto.
    + inversion NZR; auto.
  - right. apply names_iff in N as [I K]. eexists. eapply (CP_rejected tbl ts is (topt_of o)); eauto; [apply in_map, I| | |].
    + cbn. destruct (o_kind o) eqn:KO; try reflexivity. destruct F. eexists. exact KO.
    + intros (z & V). apply int_text_read in V. destruct (simple_all o I) as (_ & [FF|(_ & a & KK)]); [destruct (F FF)|].
      apply (NA (VInt z)). unfold accepts. rewrite KK. split; [exact V|reflexivity].
    + inversion NZR as [|? ? ? X]. inversion X. auto.
Qed.
End T.

(* ---------- the options of the two programs ---------- *)
Lemma names_maps s opts ab : long_map s = map (fun o => (o_long o, o)) opts -> ab_map s = map (fun o => (o_ab o, o)) ab ->
  (forall o, In o ab <-> In o opts) ->
  (forall o, In o opts -> findOpt_long s (o_long o) = Some o /\ findOpt_ab s (o_ab o) = Some o /\
    o_long o <> [] /\ o_long o <> lit "help" /\ o_ab o <> "-"%char /\ o_ab o <> "h"%char) ->
  forall t o, names s t o <-> In o opts /\ called (o_long o) (o_ab o) t.
Proof.
  intros ML MA P OK t o. split.
  - destruct 1 as [n o Hn Hh F|c r o Hc Hh F].
    + unfold findOpt_long in F. rewrite ML in F. apply (find_some_in str_compare scmp_eq) in F.
      apply in_map_iff in F as (o' & E & I). injection E as E1 E2. subst. split; [exact I|left; reflexivity].
    + unfold findOpt_ab in F. rewrite MA in F. apply (find_some_in char_compare ccmp_eq) in F.
      apply in_map_iff in F as (o' & E & I). injection E as E1 E2. subst. split; [apply P, I|right; exists r; reflexivity].
  - intros [I K]. destruct (OK o I) as (FL & FA & A & B & C & D). destruct K as [->|(r & ->)]; [apply N_long; auto|apply N_short; auto].
Qed.
Ltac find_key := intros ? ? H; cbn [combine In] in H; repeat (destruct H as [H|H]; [injection H as <- <-; vm_compute; reflexivity|]); destruct H.
Lemma find3 {A} (a b c : A) : forall k v, In (k, v) (combine [lit "maddur"; lit "threads"; lit "trials"] [a; b; c]) ->
  smap_find str_compare k (combine [lit "maddur"; lit "threads"; lit "trials"] [a; b; c]) = Some v.
Proof. find_key. Qed.
Lemma find3' {A} (a b c : A) : forall k v, In (k, v) (combine ["m"; "r"; "t"]%char [a; b; c]) ->
  smap_find char_compare k (combine ["m"; "r"; "t"]%char [a; b; c]) = Some v.
Proof. find_key. Qed.
Lemma find4 {A} (a b c d : A) : forall k v, In (k, v) (combine [lit "msgs"; lit "noecho"; lit "th"; lit "trials"] [a; b; c; d]) ->
  smap_find str_compare k (combine [lit "msgs"; lit "noecho"; lit "th"; lit "trials"] [a; b; c; d]) = Some v.
Proof. find_key. Qed.
Lemma find4' {A} (a b c d : A) : forall k v, In (k, v) (combine ["m"; "n"; "r"; "t"]%char [a; b; c; d]) ->
  smap_find char_compare k (combine ["m"; "n"; "r"; "t"]%char [a; b; c; d]) = Some v.
Proof. find_key. Qed.

Definition b_trials := mkOpt 0 (lit "trials") "r" (lit "Number of passes through the barrier") [] true true (KScalar ty_int 0 any_value).
Definition b_threads := mkOpt 1 (lit "threads") "t" (lit "Number of threads in test.") [] true true (KScalar ty_int 1 any_value).
Definition b_maddur := mkOpt 2 (lit "maddur") "m" (lit "Max time in us for the random wait between barriers") [] true true (KScalar ty_int 2 any_value).
Definition bopts := [b_maddur; b_threads; b_trials].
Definition m_msgs := mkOpt 0 (lit "msgs") "m" (lit "Number of messages to send from each thread") [] true true (KScalar ty_int 0 any_value).
Definition m_th := mkOpt 1 (lit "th") "t" (lit "Number of threads in test.") [] true true (KScalar ty_int 1 any_value).
Definition m_trials := mkOpt 2 (lit "trials") "r" (lit "Number of trials to run.") [] true true (KScalar ty_int 2 any_value).
Definition m_noecho := mkOpt 3 (lit "noecho") "n" (lit "When present, a thread will not ""see"" its own outbound messages.") [] false true (KPresence 3).
Definition mopts := [m_msgs; m_noecho; m_th; m_trials].

Ltac each H := repeat (destruct H as [<-|H]); try (destruct H).
Lemma b_names m t o : names (bt_options m) t o <-> In o bopts /\ called (o_long o) (o_ab o) t.
Proof.
  apply (names_maps _ bopts [b_maddur; b_trials; b_threads]); [reflexivity|reflexivity|intros o'; unfold bopts; cbn [In]; tauto|].
  intros o' I.
  assert (FL : findOpt_long (bt_options m) (o_long o') = Some o').
  { apply (find3 b_maddur b_threads b_trials). exact (in_map (fun o => (o_long o, o)) bopts o' I). }
  assert (FA : findOpt_ab (bt_options m) (o_ab o') = Some o').
  { apply (find3' b_maddur b_trials b_threads). apply (in_map (fun o => (o_ab o, o)) [b_maddur; b_trials; b_threads] o'). unfold bopts in I. cbn [In] in *. tauto. }
  split; [exact FL|]. split; [exact FA|]. clear FL FA. unfold bopts in I. cbn [In] in I. each I; repeat split; discriminate.
Qed.
Lemma m_names m t o : names (mt_options m) t o <-> In o mopts /\ called (o_long o) (o_ab o) t.
Proof.
  apply (names_maps _ mopts [m_msgs; m_noecho; m_trials; m_th]); [reflexivity|reflexivity|intros o'; unfold mopts; cbn [In]; tauto|].
  intros o' I.
  assert (FL : findOpt_long (mt_options m) (o_long o') = Some o').
  { apply (find4 m_msgs m_noecho m_th m_trials). exact (in_map (fun o => (o_long o, o)) mopts o' I). }
  assert (FA : findOpt_ab (mt_options m) (o_ab o') = Some o').
  { apply (find4' m_msgs m_noecho m_trials m_th). apply (in_map (fun o => (o_ab o, o)) [m_msgs; m_noecho; m_trials; m_th] o'). unfold mopts in I. cbn [In] in *. tauto. }
  split; [exact FL|]. split; [exact FA|]. clear FL FA. unfold mopts in I. cbn [In] in I. each I; repeat split; discriminate.
Qed.
Lemma b_simple o : In o bopts -> simple o.
Proof. intros I. unfold bopts in I. cbn [In] in I. each I; (split; [reflexivity|right; split; [reflexivity|eexists; reflexivity]]). Qed.
Lemma m_simple o : In o mopts -> simple o.
Proof.
  intros I. unfold mopts in I. cbn [In] in I. each I; (split; [reflexivity|first [left; eexists; reflexivity|right; split; [reflexivity|eexists; reflexivity]]]).
Qed.
Lemma b_addr o o' : In o bopts -> In o' bopts -> addr o = addr o' <-> o = o'.
Proof.
  intros I I'. split; [|intros ->; reflexivity]. unfold bopts in I, I'. cbn [In] in I, I'. each I; each I'; intros E; try reflexivity; discriminate.
Qed.
Lemma m_addr o o' : In o mopts -> In o' mopts -> addr o = addr o' <-> o = o'.
Proof.
  intros I I'. split; [|intros ->; reflexivity]. unfold mopts in I, I'. cbn [In] in I, I'. each I; each I'; intros E; try reflexivity; discriminate.
Qed.
Lemma b_long o o' : In o bopts -> In o' bopts -> o_long o = o_long o' -> o = o'.
Proof. intros I I'. unfold bopts in I, I'. cbn [In] in I, I'. each I; each I'; intros E; try reflexivity; discriminate. Qed.
Lemma m_long o o' : In o mopts -> In o' mopts -> o_long o = o_long o' -> o = o'.
Proof. intros I I'. unfold mopts in I, I'. cbn [In] in I, I'. each I; each I'; intros E; try reflexivity; discriminate. Qed.
Lemma settled_def s t v ln ab d doc test err : settled s -> settled (add_def s t v ln ab d doc test err).
Proof. intros. apply (ST_reg s (mkReg ln ab (fun s => add_def s t v ln ab d doc test err))); [assumption|constructor]. Qed.
Lemma settled_P s v ln ab doc : settled s -> settled (addP s v ln ab doc).
Proof. intros. apply (ST_reg s (mkReg ln ab (fun s => addP s v ln ab doc))); [assumption|constructor]. Qed.
Lemma b_settled m : settled (bt_options m).
Proof. unfold bt_options. cbv zeta. apply settled_def, settled_def, settled_def, ST_new. Qed.
Lemma m_settled m : settled (mt_options m).
Proof. unfold mt_options. cbv zeta. apply settled_P, settled_def, settled_def, settled_def, ST_new. Qed.
Lemma b_help m : printHelp (bt_options m) = Ok (lines (tusage (map topt_of bopts))).
Proof. vm_compute. reflexivity. Qed.
Lemma m_help m : printHelp (mt_options m) = Ok (lines (tusage (map topt_of mopts))).
Proof. vm_compute. reflexivity. Qed.
Lemma b_table : map topt_of bopts = barrier_test. Proof. reflexivity. Qed.
Lemma m_table : map topt_of mopts = mailbox_test. Proof. reflexivity. Qed.
Lemma argv_list s argv : is_kvp s = false -> parse_argv s (Z.of_nat (length argv)) argv = parse_list s (tl argv).
Proof.
  intros K. destruct argv as [|prog ts].
  - rewrite C44_no_arguments by (cbn; lia). rewrite K. reflexivity.
  - pose proof (C44_argv s prog ts []) as E. rewrite app_nil_r, K in E. exact E.
Qed.
Ltac no_nul := intros H; vm_compute in H; repeat (destruct H as [H|H]; [discriminate|]); exact H.
Lemma b_nul o : In o bopts -> ~ In "000"%char (o_long o).
Proof. intros I. unfold bopts in I. cbn [In] in I. each I; no_nul. Qed.
Lemma m_nul o : In o mopts -> ~ In "000"%char (o_long o).
Proof. intros I. unfold mopts in I. cbn [In] in I. each I; no_nul. Qed.

Lemma bt_calls m argv is : understood barrier_test (tl argv) is ->
  bt_main m argv = Ok (Calls (number (lit "trials") 100 is, number (lit "threads") 10 is, number (lit "maddur") 50 is) []).
Proof.
  rewrite <- b_table. intros U.
  destruct (t_understood (bt_options m) bopts b_simple (b_names m) b_addr b_long (b_settled m) eq_refl eq_refl (tl argv) is U) as (s1 & P & E & N & _).
  unfold bt_main. rewrite argv_list by reflexivity. rewrite P. cbn [obind negb]. unfold int_at.
  assert (N0 : mem s1 0 = VInt (number (lit "trials") 100 is)) by (apply (N b_trials); [unfold bopts; cbn [In]; tauto|reflexivity|reflexivity]).
  assert (N1 : mem s1 1 = VInt (number (lit "threads") 10 is)) by (apply (N b_threads); [unfold bopts; cbn [In]; tauto|reflexivity|reflexivity]).
  assert (N2 : mem s1 2 = VInt (number (lit "maddur") 50 is)) by (apply (N b_maddur); [unfold bopts; cbn [In]; tauto|reflexivity|reflexivity]).
  rewrite N0, N1, N2, E. reflexivity.
Qed.
Lemma bt_quits m argv why : complaint barrier_test (tl argv) why -> bt_main m argv = Ok (Quits (lines why)).
Proof.
  rewrite <- b_table. intros U.
  destruct (t_complaint (bt_options m) bopts b_simple (b_names m) (b_settled m) eq_refl eq_refl (b_help m) (tl argv) why b_nul U) as (s1 & P & E).
  unfold bt_main. rewrite argv_list by reflexivity. rewrite P. cbn [obind negb]. rewrite E. reflexivity.
Qed.
Lemma bt_every ts : Forall (fun t => ~ In "000"%char t) ts -> (exists is, understood barrier_test ts is) \/ exists why, complaint barrier_test ts why.
Proof. rewrite <- b_table. apply (t_every (bt_options (fun _ => VInt 0)) bopts b_simple (b_names _)). Qed.

Lemma mt_conv tyname base_ty : exists t, mt_conversion tyname base_ty = Ok (true, t ++ [M_BarrierUse.nl]) /\ t = ex_what (M_MailBox.badConversion (lit "MessageMailbox") base_ty (tyname 1)).
Proof. eexists. split; reflexivity. Qed.
Lemma mt_calls tyname base_ty m argv is : understood mailbox_test (tl argv) is ->
  mt_main tyname base_ty m argv =
    Ok (Calls (mkMT (number (lit "msgs") 1 is) (number (lit "th") 2 is) (number (lit "trials") 1 is) (flag (lit "noecho") is))
      (lit "SoDa::MailBox[MessageMailbox] MailBoxBase::convert attempted to promote from " ++ base_ty ++ lit " to " ++ tyname 1 ++
       lit ". That isn't right." ++ [M_BarrierUse.nl; M_BarrierUse.nl] ++ lit "test 2" ++ [M_BarrierUse.nl])).
Proof.
  rewrite <- m_table. intros U.
  destruct (t_understood (mt_options m) mopts m_simple (m_names m) m_addr m_long (m_settled m) eq_refl eq_refl (tl argv) is U) as (s1 & P & E & N & F).
  unfold mt_main. rewrite argv_list by reflexivity. rewrite P. cbn [obind negb].
  destruct (mt_conv tyname base_ty) as (t & -> & ->). cbn [obind negb]. unfold int_at, bool_at.
  assert (N0 : mem s1 0 = VInt (number (lit "msgs") 1 is)) by (apply (N m_msgs); [unfold mopts; cbn [In]; tauto|reflexivity|reflexivity]).
  assert (N1 : mem s1 1 = VInt (number (lit "th") 2 is)) by (apply (N m_th); [unfold mopts; cbn [In]; tauto|reflexivity|reflexivity]).
  assert (N2 : mem s1 2 = VInt (number (lit "trials") 1 is)) by (apply (N m_trials); [unfold mopts; cbn [In]; tauto|reflexivity|reflexivity]).
  assert (N3 : mem s1 3 = VBool (flag (lit "noecho") is)) by (apply (F m_noecho); [unfold mopts; cbn [In]; tauto|reflexivity|reflexivity]).
  rewrite N0, N1, N2, N3, E.
  destruct P_Messages.C79_texts_partial as (_ & _ & _ & _ & B & _). rewrite (B _ _ _). do 2 f_equal. rewrite <- !app_assoc. reflexivity.
Qed.
Lemma mt_quits tyname base_ty m argv why : complaint mailbox_test (tl argv) why -> mt_main tyname base_ty m argv = Ok (Quits (lines why)).
Proof.
  rewrite <- m_table. intros U.
  destruct (t_complaint (mt_options m) mopts m_simple (m_names m) (m_settled m) eq_refl eq_refl (m_help m) (tl argv) why m_nul U) as (s1 & P & E).
  unfold mt_main. rewrite argv_list by reflexivity. rewrite P. cbn [obind negb]. rewrite E. reflexivity.
Qed.
Lemma mt_every ts : Forall (fun t => ~ In "000"%char t) ts -> (exists is, understood mailbox_test ts is) \/ exists why, complaint mailbox_test ts why.
Proof. rewrite <- m_table. apply (t_every (mt_options (fun _ => VInt 0)) mopts m_simple (m_names _)). Qed.

(* the numbers are of type int *)
Lemma last_in {A} (l : list A) d : last l d = d \/ In (last l d) l.
Proof. induction l as [|x [|y l] IH]; [left; reflexivity|right; left; reflexivity|]. destruct IH as [E|I]; [left; exact E|right; right; exact I]. Qed.
Lemma tline_int tbl ts is rest : tline tbl ts is rest -> forall l z, In (TNum l z) is -> is_int z.
Proof.
  induction 1; intros l z' I; [destruct I| | |]; (destruct I as [E|I]; [try discriminate|eauto]). injection E as <- <-. assumption.
Qed.
Lemma number_int tbl ts is long d : understood tbl ts is -> is_int d -> is_int (number long d is).
Proof.
  intros U D. assert (T : exists rest, tline tbl ts is rest) by (destruct U as [U|(o & tok & U & _)]; eauto). destruct T as (rest & T).
  unfold number. destruct (last_in (numbers long is) d) as [->|I]; [exact D|]. revert I. generalize (last (numbers long is) d). intros z I.
  unfold numbers in I. apply in_flat_map in I as (i & I & J). destruct i as [| |l z']; try contradiction. destruct (str_eqb l long); [|contradiction].
  destruct J as [->|[]]. eapply tline_int; eassumption.
Qed.
