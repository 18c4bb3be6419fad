(* C_Format.v -- corollaries of L_Format / L_Field in the form of the properties. *)
From Verif Require Import Base M_Stream M_Format S_Num S_Split S_Format S_Field L_Num L_Format L_Field.

Lemma c06_total : forall s, exists items, template s items /\ forall items', template s items' -> items' = items.
Proof.
  intros s. destruct (template_total s) as [it H]. exists it. split; [exact H|].
  intros it' H'. eapply template_functional; eauto.
Qed.
Lemma c06_shows : forall vals items, exists out, shows vals items out /\ forall out', shows vals items out' -> out' = out.
Proof.
  intros vals it. exists (items_text (arg_of vals) it). split; [apply shows_items_text|].
  intros o H. eapply shows_functional; eauto. apply shows_items_text.
Qed.

Lemma wr_small it : (forall n, In (IField n) it -> (n < 4294967296)%N) -> wr it = it.
Proof.
  induction it as [|[c|n] it IH]; intros H; [reflexivity| |]; cbn; fold (wr it); rewrite IH by (intros; apply H; right; auto).
  - reflexivity.
  - rewrite N.mod_small by (apply H; left; reflexivity). reflexivity.
Qed.

Lemma c12_exact : forall im s f vals items out,
  newFormat im s = Ok f -> template s items -> shows vals (map wrap_item items) out ->
  fmt_str (fold_left insertField vals f) false = Ok out.
Proof.
  intros im s f vals it out H T S. rewrite (str_after_adds _ _ _ _ _ H T). f_equal.
  eapply shows_functional; [apply shows_items_text|exact S].
Qed.
Lemma c06 : forall im s f vals items out,
  newFormat im s = Ok f -> template s items ->
  (forall n, In (IField n) items -> (n < 4294967296)%N) ->
  shows vals items out ->
  fmt_str (fold_left insertField vals f) false = Ok out.
Proof.
  intros im s f vals it out H T Hn S. eapply c12_exact; eauto. fold (wr it). rewrite wr_small; auto.
Qed.
Lemma c06_defined : forall s,
  (exists f, newFormat Glibc s = Ok f) /\
  (forallb (fun c => negb (high_byte c)) s = true -> exists f, newFormat Strict s = Ok f).
Proof. intros s. split; [apply newFormat_glibc|apply newFormat_ascii]. Qed.

Lemma c07 : forall im t, exists f, newFormat im (escape t) = Ok f /\
  forall vals check, fmt_str (fold_left insertField vals f) check = Ok t.
Proof.
  intros im t. unfold newFormat, initialScan. rewrite escape_scan. cbn [obind app scan_end sc_state sc_str sc_segs].
  eexists. split; [reflexivity|]. intros vals check.
  assert (E : f_segs (fold_left insertField vals (mkFmt (push_nonempty t []) (escape t) 0)) = push_nonempty t []).
  { generalize 0%N. induction vals as [|v vals IH]; intros n; [reflexivity|]. cbn [fold_left].
    unfold insertField at 2. cbn [f_segs f_cur f_orig].
    assert (map (fill_seg n v) (push_nonempty t []) = push_nonempty t []) as -> by (destruct t; reflexivity).
    apply IH. }
  unfold fmt_str. rewrite E. destruct t as [|c t]; cbn.
  - rewrite andb_false_r. reflexivity.
  - rewrite andb_false_r, app_nil_r. reflexivity.
Qed.

Lemma c08 : forall im s f, newFormat im s = Ok f ->
  exists pieces : list (str + N), forall vals,
    fmt_str (fold_left insertField vals f) false =
    Ok (concat (map (fun p => match p with
                              | inl t => t
                              | inr k => match nth_error vals (N.to_nat k) with
                                         | Some v => v
                                         | None => "%"%char :: put_dec k
                                         end
                              end) pieces)).
Proof.
  intros im s f H. destruct (template_total s) as [it T].
  exists (map (fun i => match i with IChar c => inl [c] | IField k => inr k end) (wr it)).
  intros vals. rewrite (str_after_adds _ _ _ vals _ H T). f_equal. unfold items_text. f_equal.
  rewrite map_map. apply map_ext. intros [c|k]; reflexivity.
Qed.

(* later adds do not disturb a filled template *)
Lemma c11_ignored : forall im s f items vals extra check,
  newFormat im s = Ok f -> template s items ->
  (forall n, In (IField n) items -> (N.to_nat n < length vals)) ->
  fmt_str (fold_left insertField (vals ++ extra) f) check = fmt_str (fold_left insertField vals f) check.
Proof.
  intros im s f it vals extra check H T Hn.
  pose proof (newFormat_inv _ _ _ H) as (Ho & Hc & Hs & Hi).
  rewrite !(insert_all _ f Hi Hc). unfold fmt_str. cbn [f_segs f_orig].
  assert (map (fill_all (vals ++ extra)) (f_segs f) = map (fill_all vals) (f_segs f)) as ->; [|reflexivity].
  apply map_ext_in. intros [v|k] Hin; [reflexivity|].
  rewrite (newFormat_fields _ _ _ _ k H T) in Hin. apply in_map_iff in Hin.
  destruct Hin as ([c|n] & E & Hin); [discriminate E|]. cbn in E. injection E as <-.
  cbn. rewrite nth_error_app1; [reflexivity|]. specialize (Hn _ Hin).
  pose proof (N.mod_le n 4294967296). lia.
Qed.

Lemma run_ops_spec im s f0 : newFormat im s = Ok f0 -> forall ops f,
  f_orig f = s -> exists g, run_ops im f ops = Ok g /\ f_orig g = s.
Proof.
  intros H. unfold newFormat in H. destruct (initialScan im s) as [sg| |] eqn:E; try discriminate H.
  induction ops as [|[t|] ops IH]; intros f Hf; cbn.
  - eauto.
  - apply IH. exact Hf.
  - unfold reset. rewrite Hf, E. cbn. apply IH. reflexivity.
Qed.
Lemma run_ops_app im ops1 : forall f ops2,
  run_ops im f (ops1 ++ ops2) = (do g <- run_ops im f ops1; run_ops im g ops2).
Proof.
  induction ops1 as [|o ops1 IH]; intros f ops2; [reflexivity|]. cbn.
  destruct (run_op im f o); cbn; auto.
Qed.
Lemma run_adds im vals : forall f, run_ops im f (map FAdd vals) = Ok (fold_left insertField vals f).
Proof. induction vals as [|v vals IH]; intros f; [reflexivity|]. cbn. apply IH. Qed.
Lemma c09 : forall im s f0 history vals, newFormat im s = Ok f0 ->
  run_ops im f0 (history ++ FReset :: map FAdd vals) = run_ops im f0 (map FAdd vals).
Proof.
  intros im s f0 h vals H.
  pose proof (newFormat_inv _ _ _ H) as (Ho & _).
  destruct (run_ops_spec _ _ _ H h f0 Ho) as (g & R & Hg).
  rewrite run_ops_app, R. cbn. unfold reset. rewrite Hg.
  unfold newFormat in H. destruct (initialScan im s) as [sg| |]; try discriminate H. cbn in *.
  apply Ok_inj in H. rewrite H. reflexivity.
Qed.

Lemma c10 : forall im s f items vals,
  newFormat im s = Ok f -> template s items ->
  (forall n, In (IField n) items -> (n < 4294967296)%N) ->
  let g := fold_left insertField vals f in
  ((exists n, In (IField n) items /\ (length vals <= N.to_nat n)) <->
     exists what, fmt_str g true = Throw (mkExn BadFormat what)) /\
  ((forall n, In (IField n) items -> (N.to_nat n < length vals)) <->
     exists out, fmt_str g true = Ok out) /\
  (forall out, fmt_str g true = Ok out -> fmt_str g false = Ok out) /\
  (exists out, fmt_str g false = Ok out).
Proof.
  intros im s f it vals H T Hn g.
  destruct (str_check _ _ _ vals _ H T) as [S1 S2]. fold g in S1, S2. rewrite (wr_small it Hn) in S1, S2.
  assert (F : exists out, fmt_str g false = Ok out).
  { unfold g. rewrite (str_after_adds _ _ _ vals _ H T). eauto. }
  assert (dec : (exists n, In (IField n) it /\ length vals <= N.to_nat n) \/
                (forall n, In (IField n) it -> N.to_nat n < length vals)).
  { clear. induction it as [|[c|n] it IH].
    - right. intros n [].
    - destruct IH as [(n & A & B)|B]; [left; exists n; cbn; auto|].
      right. intros n [E|Hin]; [discriminate E|auto].
    - destruct IH as [(m & A & B)|B]; [left; exists m; cbn; auto|].
      destruct (le_lt_dec (length vals) (N.to_nat n)) as [L|L].
      + left. exists n. cbn. auto.
      + right. intros m [E|Hin]; [injection E as <-; exact L|auto]. }
  assert (A1 : (exists n, In (IField n) it /\ length vals <= N.to_nat n) ->
     exists what, fmt_str g true = Throw (mkExn BadFormat what)).
  { intros (n & I & L). apply S1. exists n. split; [exact I|]. apply nth_error_None. exact L. }
  assert (A2 : (forall n, In (IField n) it -> N.to_nat n < length vals) -> fmt_str g true = fmt_str g false).
  { intros B. apply S2. intros k I. apply nth_error_Some. auto. }
  destruct F as [out0 F].
  split; [|split; [|split]].
  - split; [exact A1|]. intros [w W]. destruct dec as [D|D]; [exact D|].
    rewrite (A2 D), F in W. discriminate.
  - split; [intros D; rewrite (A2 D); eauto|]. intros [o O].
    destruct dec as [D|D]; [|exact D]. destruct (A1 D) as [w W]. congruence.
  - intros o O. destruct dec as [D|D]; [destruct (A1 D) as [w W]; congruence|].
    rewrite <- (A2 D). exact O.
  - eauto.
Qed.

Lemma insert_orig vals : forall f, f_orig (fold_left insertField vals f) = f_orig f.
Proof. induction vals as [|v vals IH]; intros f; [reflexivity|]. cbn [fold_left]. rewrite IH. reflexivity. Qed.
Lemma c10_text : forall im s f vals what, newFormat im s = Ok f ->
  let g := fold_left insertField vals f in
  fmt_str g true = Throw (mkExn BadFormat what) ->
  exists out, fmt_str g false = Ok out /\
    what = lit "Unfilled argument string [" ++ out ++ lit "] Format string was " ++ ["010"%char] ++
           lit """" ++ s ++ lit """" ++ ["010"%char].
Proof.
  intros im s f vals what H g. pose proof (insert_orig vals f) as O. fold g in O.
  apply newFormat_inv in H as (Ho & _). unfold fmt_str. rewrite O, Ho.
  destruct (assemble (f_segs g)) as [ret n]. cbn [andb]. destruct (negb (n =? 0)); [|discriminate].
  intros E. apply (f_equal (fun o => match o with Throw e => ex_what e | _ => [] end)) in E. cbn beta iota in E.
  exists ret. split; [reflexivity|]. symmetry in E. etransitivity; [exact E|]. unfold badFormat_what. cbn [ex_what].
  rewrite <- !app_assoc. reflexivity.
Qed.

Lemma c11_refuted : exists s f vals,
  newFormat Glibc s = Ok f /\ template s [IField 0] /\ length vals = 2 /\
  exists out, fmt_str (fold_left insertField vals f) true = Ok out.
Proof.
  exists (lit "%0"). eexists. exists [lit "a"; lit "b"]. split; [reflexivity|]. split.
  - apply (T_field (lit "0") 0%N [] []); [reflexivity|reflexivity|constructor].
  - split; [reflexivity|]. eexists. vm_compute. reflexivity.
Qed.

Lemma c12_refuted : exists s f v,
  newFormat Glibc s = Ok f /\
  template s [IField 0; IChar " "%char; IField 4294967296] /\
  fmt_str (insertField f v) true = Ok (v ++ lit " " ++ v) /\ v <> [].
Proof.
  exists (lit "%0 %4294967296"). eexists. exists (lit "a"). split; [vm_compute; reflexivity|]. split.
  - apply (T_field (lit "0") 0%N (lit " %4294967296")); [reflexivity|reflexivity|].
    apply T_char; [discriminate|].
    apply (T_field (lit "4294967296") 4294967296%N [] []); [vm_compute; reflexivity|reflexivity|constructor].
  - split; [vm_compute; reflexivity|discriminate].
Qed.

(* C13 .. C21 *)
Lemma c13 : forall f v w fill, (0 <= w < two31)%Z ->
  exists t s, addI f v w "000"%char fill = insertField f s /\
    int_numeral_of v t /\ right_justified (fill_char fill) w t s.
Proof.
  intros f v w fill Hw. destruct (addI_plain v w fill Hw) as (t & N & R).
  exists t, (addI_text v w nul fill). auto.
Qed.
Lemma c13_wide : forall f v w fill, (two31 <= w < two32)%Z ->
  exists t, addI f v w "000"%char fill = insertField f t /\ int_numeral_of v t.
Proof.
  intros f v w fill Hw. exists (put_int v). split; [|apply put_int_spec].
  unfold addI. change "000"%char with nul. rewrite addI_wide by exact Hw. reflexivity.
Qed.

Lemma addI_no_width : forall f v w sep fill, (two31 <= w < two32)%Z -> addI f v w sep fill = addI f v 0 sep fill.
Proof.
  intros f v w sep fill Hw. unfold addI, addI_text. change (0 =? 0)%Z with true. cbv iota zeta.
  destruct (Z.eqb_spec w 0); [reflexivity|]. pose proof (to_i32_high w Hw). rewrite pad_l_neg by lia. reflexivity.
Qed.
Lemma addU_no_width : forall f v fm w sep gc, (two31 <= w < two32)%Z -> addU f v fm w sep gc = addU f v fm 0 sep gc.
Proof.
  intros f v fm w sep gc Hw. unfold addU, addU_text. assert (E : addU_valstr v fm w = addU_valstr v fm 0); [|rewrite E; reflexivity].
  pose proof (to_i32_high w Hw). unfold addU_valstr, toHex, toOct. change (to_i32 0) with 0%Z. change (0 =? 0)%Z with true.
  assert (P : forall c s, pad_l c (to_i32 w) s = s) by (intros; apply pad_l_neg; lia).
  assert (P0 : forall c s, pad_l c 0 s = s) by (intros; apply pad_l_neg; lia).
  destruct (radix_of fm); rewrite ?P, ?P0; try reflexivity. destruct (w =? 0)%Z; reflexivity.
Qed.
Lemma c14_refuted : exists v sep s, (forall f, addI f v 0 sep "000"%char = insertField f s) /\
  s = lit "-,123".
Proof. exists (-123)%Z, ","%char, (lit "-,123"). split; [|reflexivity]. intros f. reflexivity. Qed.

Lemma c14_partial : forall f v w sep fill, (0 <= w < two31)%Z -> sep <> "000"%char ->
  exists t u body s,
    addI f v w sep fill = insertField f s /\
    right_justified (fill_char fill) w body s /\
    numeral_of false 10 (Z.to_N (Z.abs v)) t /\ grouped 3 sep t u /\
    body = (if (0 <=? v)%Z then u
            else if Nat.eqb (length t mod 3) 0 then "-"%char :: sep :: u else "-"%char :: u).
Proof.
  intros f v w sep fill Hw Hs.
  pose proof (addI_sep_body v sep) as B. pose proof (addI_sep v w sep fill Hs Hw) as R.
  cbv zeta in B. destruct (Z.leb_spec 0 v) as [P|P].
  - destruct B as (t & N & G). set (body := addI_group sep (rev (put_int v)) 0 []) in *.
    exists t, body, body. eexists. split; [reflexivity|]. split; [exact R|].
    rewrite Z.abs_eq by lia. auto.
  - destruct B as (t & u & N & G & E). exists t, u. do 2 eexists. split; [reflexivity|]. split; [exact R|].
    rewrite Z.abs_neq by lia. auto.
Qed.

Lemma c14_delete : forall n sep t u, grouped n sep t u -> ~ In sep t -> delete sep u = t.
Proof. exact grouped_delete. Qed.

Lemma radix_hex fm (up : bool) : (if up then fm = "X"%char \/ fm = "H"%char else fm = "x"%char \/ fm = "h"%char) ->
  radix_of fm = RHex up.
Proof. destruct up; intros [->| ->]; reflexivity. Qed.
Lemma radix_oct fm : (fm = "o"%char \/ fm = "O"%char) -> radix_of fm = ROct.
Proof. intros [->| ->]; reflexivity. Qed.
Lemma radix_dec fm : (~ In fm (lit "xXhHoO")) -> radix_of fm = RDec.
Proof.
  intros H. unfold radix_of.
  destruct (Ascii.eqb_spec fm "x"); [subst; exfalso; apply H; cbn; tauto|].
  destruct (Ascii.eqb_spec fm "h"); [subst; exfalso; apply H; cbn; tauto|].
  destruct (Ascii.eqb_spec fm "X"); [subst; exfalso; apply H; cbn; tauto|].
  destruct (Ascii.eqb_spec fm "H"); [subst; exfalso; apply H; cbn; tauto|].
  destruct (Ascii.eqb_spec fm "o"); [subst; exfalso; apply H; cbn; tauto|].
  destruct (Ascii.eqb_spec fm "O"); [subst; exfalso; apply H; cbn; tauto|].
  reflexivity.
Qed.

Lemma c15 : forall f v fm (up : bool) w gc, (0 <= w < two31)%Z ->
  (if up then fm = "X"%char \/ fm = "H"%char else fm = "x"%char \/ fm = "h"%char) ->
  exists t s, addU f v fm w "000"%char gc = insertField f (lit "0x" ++ s) /\
    numeral_of up 16 v t /\ right_justified "0"%char w t s /\ value up 16 s = Some v.
Proof.
  intros f v fm up w gc Hw R%radix_hex.
  destruct (hex_text v w fm up R Hw) as (t & s & A & B & C & D).
  exists t, s. unfold addU. change "000"%char with nul. rewrite (addU_nosep v fm w gc 0), D. auto.
Qed.
Lemma c16 : forall f v fm w gc, (0 <= w < two31)%Z -> fm = "o"%char \/ fm = "O"%char ->
  exists t s, addU f v fm w "000"%char gc = insertField f s /\
    ((v = 0%N /\ t = lit "0") \/ (v <> 0%N /\ exists u, t = "0"%char :: u /\ numeral_of false 8 v u)) /\
    right_justified "0"%char w t s /\ value false 8 s = Some v.
Proof.
  intros f v fm w gc Hw R%radix_oct.
  destruct (oct_text v w fm R Hw) as (t & s & A & B & C & D).
  exists t, s. unfold addU. change "000"%char with nul. rewrite (addU_nosep v fm w gc 0), D. auto.
Qed.
Lemma c17 : forall f v fm w gc, (0 <= w < two31)%Z -> ~ In fm (lit "xXhHoO") ->
  exists t s, addU f v fm w "000"%char gc = insertField f s /\
    numeral_of false 10 v t /\ right_justified " "%char w t s.
Proof.
  intros f v fm w gc Hw R%radix_dec.
  destruct (dec_text v w fm R Hw) as (t & A & B).
  exists t, (addU_text v fm w nul gc). auto.
Qed.

Lemma c18_refuted : exists v w sep s,
  (forall f, addU f v "d"%char w sep 3 = insertField f s) /\ s = lit "  ,  1,234".
Proof. exists 1234%N, 8%Z, ","%char, (lit "  ,  1,234"). split; [|reflexivity]. intros f. reflexivity. Qed.
Lemma c18_refuted0 : exists v sep s,
  (forall f, addU f v "d"%char 0 sep 0 = insertField f s) /\ s = lit "1234,".
Proof. exists 1234%N, ","%char, (lit "1234,"). split; [|reflexivity]. intros f. reflexivity. Qed.

Lemma c18_hex : forall f v fm (up : bool) w sep gc,
  (if up then fm = "X"%char \/ fm = "H"%char else fm = "x"%char \/ fm = "h"%char) ->
  sep <> "000"%char -> (1 <= gc)%Z -> (v < 18446744073709551616)%N -> (0 <= w <= 2147483645)%Z ->
  exists t u, addU f v fm w "000"%char gc = insertField f (lit "0x" ++ t) /\
    addU f v fm w sep gc = insertField f (lit "0x" ++ u) /\ grouped (Z.to_nat gc) sep t u.
Proof.
  intros f v fm up w sep gc R%radix_hex Hs Hg Hv Hw.
  destruct (addU_sep_hex v w fm up sep gc R Hs Hg Hv Hw) as (t & u & A & _ & B & C).
  exists t, u. unfold addU. change "000"%char with nul. rewrite A, C. auto.
Qed.
Lemma c18_oct : forall f v fm w sep gc,
  fm = "o"%char \/ fm = "O"%char ->
  sep <> "000"%char -> (1 <= gc)%Z -> (v < 18446744073709551616)%N -> (0 <= w <= 2147483645)%Z ->
  exists t u, addU f v fm w "000"%char gc = insertField f ("0"%char :: t) /\
    addU f v fm w sep gc = insertField f ("0"%char :: u) /\
    ((t = [] /\ u = []) \/ grouped (Z.to_nat gc) sep t u).
Proof.
  intros f v fm w sep gc R%radix_oct Hs Hg Hv Hw.
  destruct (addU_sep_oct v w fm sep gc R Hs Hg Hv Hw) as (t & u & A & B & C).
  exists t, u. unfold addU. change "000"%char with nul. rewrite A, C. auto.
Qed.
Lemma c18_dec : forall f v fm w sep gc,
  ~ In fm (lit "xXhHoO") ->
  sep <> "000"%char -> (1 <= gc)%Z -> (v < 18446744073709551616)%N -> (0 <= w <= 2147483645)%Z ->
  exists t u, addU f v fm w "000"%char gc = insertField f t /\
    addU f v fm w sep gc = insertField f u /\ grouped (Z.to_nat gc) sep t u /\
    (w = 0%Z -> numeral_of false 10 v t).
Proof.
  intros f v fm w sep gc R%radix_dec Hs Hg Hv Hw.
  pose proof (addU_sep_dec v w fm sep gc R Hs Hg Hv Hw) as G.
  do 2 eexists. split; [reflexivity|]. split; [reflexivity|]. split; [exact G|].
  intros ->. unfold addU_text, addU_valstr. cbn iota. rewrite R. apply put_dec_spec.
Qed.
Lemma c18_zero : forall f v fm w sep s,
  sep <> "000"%char -> (v < 18446744073709551616)%N -> (0 <= w <= 2147483645)%Z ->
  addU_text v fm w "000"%char 0 = s -> 1 < length s ->
  addU f v fm w sep 0 = insertField f (s ++ [sep]).
Proof.
  intros f v fm w sep s Hs Hv Hw <- L. unfold addU. rewrite addU_sep_zero; auto.
Qed.

Lemma c19 : forall f v w, (- two31 < w < two31)%Z -> (Z.of_nat (length v) < two31)%Z ->
  exists t, addS f v w = Ok (insertField f t) /\
    (if (w <? 0)%Z then left_justified " "%char (- w) v t else right_justified " "%char w v t).
Proof.
  intros f v w Hw Hl. destruct (addS_spec v w Hw Hl) as (t & E & J). exists t. unfold addS. rewrite E. auto.
Qed.
Lemma c19_min : forall f v, addS f v (- two31) = UB.
Proof. reflexivity. Qed.

Lemma c20 : forall f c b, addC f c = insertField f [c] /\
  addB f b = insertField f (if b then lit "T" else lit "F").
Proof. intros f c []; split; reflexivity. Qed.

Lemma c21_refuted : exists v, forall f, ext_addU f v "d"%char 0 "000"%char 1 = insertField f (lit "0") /\
   addU f v "d"%char 0 "000"%char 1 = insertField f (lit "4294967296").
Proof. exists 4294967296%N. intros f. split; reflexivity. Qed.
Lemma c21_partial : forall f i v c b s fm w wi sep gc,
  ext_addI f i w sep = addI f i w sep "000"%char /\
  ((v < 4294967296)%N -> ext_addU f v fm w sep gc = addU f v fm w sep gc) /\
  ext_addS f s wi = addS f s wi /\ ext_addC f c = addC f c /\ ext_addB f b = addB f b.
Proof.
  intros. repeat split. intros H. unfold ext_addU, u32. rewrite N.mod_small by exact H. reflexivity.
Qed.
