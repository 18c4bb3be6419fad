(* L_Format.v -- the template scanner against the template grammar. *)
From Verif Require Import Base M_Stream M_Format S_Num S_Format L_Num.

(* the segment list a list of (wrapped) items stands for, as text *)
Definition seg_text (arg : N -> option str) (g : seg) : str :=
  match g with
  | SLit v => v
  | SVal k => match arg k with Some t => t | None => "%"%char :: put_dec k end
  end.
Definition segs_text arg (l : list seg) : str := concat (map (seg_text arg) l).
Definition item_text (arg : N -> option str) (i : item) : str :=
  match i with
  | IChar c => [c]
  | IField k => match arg k with Some t => t | None => "%"%char :: put_dec k end
  end.
Definition items_text arg (l : list item) : str := concat (map (item_text arg) l).

Lemma segs_text_app arg a b : segs_text arg (a ++ b) = segs_text arg a ++ segs_text arg b.
Proof. unfold segs_text. rewrite map_app, concat_app. reflexivity. Qed.
Lemma segs_text_push arg s l : segs_text arg (push_nonempty s l) = segs_text arg l ++ s.
Proof.
  destruct s; cbn [push_nonempty]; [rewrite app_nil_r; reflexivity|]. rewrite segs_text_app. cbn.
  rewrite app_nil_r. reflexivity.
Qed.

(* ---- grammar: total and unambiguous ---- *)
Lemma template_total_len n : forall s, length s <= n -> exists it, template s it.
Proof.
  induction n as [|n IH]; intros s H.
  { destruct s; [|cbn in H; lia]. exists []. constructor. }
  destruct s as [|c s]; [exists []; constructor|]. cbn in H.
  destruct (ascii_dec c "%"%char) as [->|Hc].
  2:{ destruct (IH s) as [it Hit]; [lia|]. exists (IChar c :: it). constructor; auto. }
  destruct s as [|d s]; [eexists; apply T_last|]. cbn in H.
  destruct (digit_byte d) eqn:D.
  - (* take the digit run *)
    assert (R : forall u, exists ds r, u = ds ++ r /\ forallb digit_byte ds = true /\
                 starts_with_digit r = false).
    { induction u as [|x u IHu]; [exists [], []; auto|].
      destruct (digit_byte x) eqn:X.
      - destruct IHu as (ds & r & -> & H1 & H2). exists (x :: ds), r. cbn. rewrite X. auto.
      - exists [], (x :: u). cbn. auto. }
    destruct (R s) as (ds & r & -> & H1 & H2).
    destruct (digits_value (d :: ds) 0%N) as [v Hv]; [cbn; rewrite D; exact H1|].
    destruct (IH r) as [it Hit]; [rewrite app_length in H; lia|].
    exists (IField v :: it). apply (T_field (d :: ds)); auto.
  - destruct (ascii_dec d "%"%char) as [->|Hd].
    + destruct (IH s) as [it Hit]; [lia|]. eexists; apply T_escape; eauto.
    + destruct (IH s) as [it Hit]; [lia|]. eexists; apply T_lone; eauto.
Qed.
Lemma template_total s : exists it, template s it.
Proof. eapply template_total_len, le_n. Qed.

(* ---- scanner ---- *)
Definition wr (it : list item) := map wrap_item it.

Lemma fld_step acc c d v : digit_of false c = Some d -> value_from false 10 0 acc = Some v ->
  (d < 10)%N -> d = digit_val c ->
  value_from false 10 0 (acc ++ [c]) = Some (v * 10 + d)%N /\
  u32 (u32 v * 10 + digit_val c) = u32 (v * 10 + d).
Proof.
  intros D V Hd ->. split.
  - rewrite value_from_app, V. cbn. rewrite D. destruct (N.ltb_spec (digit_val c) 10); [reflexivity|lia].
  - unfold u32. rewrite N.add_mod, N.mul_mod, N.mod_mod, <- N.mul_mod, <- N.add_mod by lia. reflexivity.
Qed.

Lemma wr_cons i it : wr (i :: it) = wrap_item i :: wr it.
Proof. reflexivity. Qed.
Lemma items_text_cons arg i it : items_text arg (i :: it) = item_text arg i ++ items_text arg it.
Proof. reflexivity. Qed.

Lemma isdigit_ok im c d : c_isdigit im c = Ok d -> d = digit_byte c.
Proof. destruct im; cbn; [destruct (high_byte c)|]; intros [= <-]; reflexivity. Qed.

Lemma scan_spec im s : forall sc sc', scan_all im sc s = Ok sc' ->
  match sc_state sc with
  | NORM => exists it, template s it /\ forall arg,
      segs_text arg (scan_end sc') = segs_text arg (sc_segs sc) ++ sc_str sc ++ items_text arg (wr it)
  | SAW_PC => exists it, template ("%"%char :: s) it /\ forall arg,
      segs_text arg (scan_end sc') = segs_text arg (sc_segs sc) ++ sc_str sc ++ items_text arg (wr it)
  | ACC_FLDNUM => forall ds v, ds <> [] -> value_from false 10 0 ds = Some v -> sc_fld sc = u32 v ->
      sc_str sc = [] ->
      exists it, template ("%"%char :: ds ++ s) it /\ forall arg,
      segs_text arg (scan_end sc') = segs_text arg (sc_segs sc) ++ items_text arg (wr it)
  end.
Proof.
  induction s as [|c s IH]; intros sc sc' H.
  - cbn in H. apply Ok_inj in H. subst sc'. unfold scan_end.
    destruct (sc_state sc) eqn:St.
    + exists []. split; [constructor|]. intros arg. rewrite segs_text_push. cbn. rewrite app_nil_r. reflexivity.
    + exists [IChar "%"%char]. split; [apply T_last|]. intros arg. rewrite segs_text_push. reflexivity.
    + intros ds v Hds V F E. exists [IField v]. split.
      { apply T_field; [|reflexivity|constructor]. destruct ds; [congruence|exact V]. }
      intros arg. rewrite segs_text_app, F. reflexivity.
  - cbn in H. destruct (scan_step im sc c) as [sc1| |] eqn:Stp; try discriminate H. cbn in H.
    specialize (IH _ _ H). unfold scan_step in Stp.
    destruct (sc_state sc) eqn:St.
    + unfold is_pct in Stp. destruct (Ascii.eqb_spec c "%"%char) as [->|Hc];
        apply Ok_inj in Stp; subst sc1; cbn in IH; destruct IH as (it & T & E).
      * exists it. split; [exact T|exact E].
      * exists (IChar c :: it). split; [constructor; auto|]. intros arg. rewrite E.
        cbn. rewrite <- !app_assoc. reflexivity.
    + destruct (c_isdigit im c) as [d| |] eqn:D; try discriminate Stp. cbn [obind] in Stp.
      apply isdigit_ok in D. subst d. destruct (digit_byte c) eqn:D.
      * pose proof D as D2. apply digit_byte_digit_of in D2. destruct D2 as (d & D2 & Hd & Ed).
        assert (V : value_from false 10 0 [c] = Some (digit_val c)).
        { cbn. rewrite D2, <- Ed. destruct (N.ltb_spec d 10); [reflexivity|lia]. }
        assert (Fs : digit_val c = u32 (digit_val c)) by (unfold u32; rewrite N.mod_small; lia).
        destruct (sc_str sc) as [|x t] eqn:Es; apply Ok_inj in Stp; subst sc1; cbn [sc_state sc_fld sc_str sc_segs] in IH;
          destruct (IH [c] (digit_val c) ltac:(discriminate) V Fs eq_refl) as (it & T & E);
          exists it; (split; [exact T|]); intros arg; rewrite E.
        -- reflexivity.
        -- rewrite segs_text_app. cbn. rewrite app_nil_r, <- app_assoc. reflexivity.
      * unfold is_pct in Stp. destruct (Ascii.eqb_spec c "%"%char) as [->|Hc];
          apply Ok_inj in Stp; subst sc1; cbn [sc_state sc_fld sc_str sc_segs] in IH;
          destruct IH as (it & T & E).
        -- exists (IChar "%"%char :: it). split; [apply T_escape; auto|]. intros arg. rewrite E.
           rewrite <- !app_assoc. reflexivity.
        -- exists (IChar "%"%char :: IChar c :: it). split; [apply T_lone; auto|]. intros arg. rewrite E.
           rewrite <- !app_assoc. reflexivity.
    + intros ds v Hds V F Es.
      destruct (c_isdigit im c) as [d| |] eqn:D; try discriminate Stp. cbn [obind] in Stp.
      apply isdigit_ok in D. subst d. destruct (digit_byte c) eqn:D.
      * pose proof D as D2. apply digit_byte_digit_of in D2. destruct D2 as (d & D2 & Hd & Ed).
        destruct (fld_step ds c d v D2 V Hd Ed) as [V' F'].
        apply Ok_inj in Stp; subst sc1; cbn [sc_state sc_fld sc_str sc_segs] in IH.
        rewrite F, F' in IH.
        destruct (IH (ds ++ [c]) _ ltac:(destruct ds; discriminate) V' eq_refl Es) as (it & T & E).
        exists it. rewrite <- app_assoc in T. split; [exact T|exact E].
      * assert (T1 : forall it, template (c :: s) it -> template ("%"%char :: ds ++ c :: s) (IField v :: it)).
        { intros it T. apply T_field; auto. destruct ds; [congruence|exact V]. }
        unfold is_pct in Stp. destruct (Ascii.eqb_spec c "%"%char) as [->|Hc];
          apply Ok_inj in Stp; subst sc1; cbn [sc_state sc_fld sc_str sc_segs] in IH;
          destruct IH as (it & T & E).
        -- exists (IField v :: it). split; [apply T1, T|]. intros arg. rewrite E, segs_text_app, F.
           cbn. rewrite app_nil_r, <- app_assoc. reflexivity.
        -- exists (IField v :: IChar c :: it). split; [apply T1; constructor; auto|].
           intros arg. rewrite E, segs_text_app, F. cbn. rewrite app_nil_r, <- app_assoc. reflexivity.
Qed.

(* ---- unambiguity ---- *)
Lemma digits_prefix ds : forall s ds' s', forallb digit_byte ds = true -> forallb digit_byte ds' = true ->
  starts_with_digit s = false -> starts_with_digit s' = false -> ds ++ s = ds' ++ s' -> ds = ds' /\ s = s'.
Proof.
  induction ds as [|c ds IH]; intros s ds' s' H H' S S' E.
  - destruct ds' as [|c' ds']; [auto|]. cbn in E. subst s. cbn in *.
    apply andb_prop in H'. rewrite (proj1 H') in S. discriminate.
  - cbn in H. apply andb_prop in H. destruct H as [Hc H].
    destruct ds' as [|c' ds']; cbn in E.
    + subst s'. cbn in S'. congruence.
    + injection E as <- E. cbn in H'. apply andb_prop in H'.
      destruct (IH _ _ _ H (proj2 H') S S' E) as [-> ->]. auto.
Qed.

Lemma template_functional s it : template s it -> forall it', template s it' -> it = it'.
Proof.
  assert (P : digit_byte "%"%char = false) by reflexivity.
  induction 1 as [|c s it Hc H IH|s it H IH|c s it Hc Hd H IH| |ds n s it V S H IH]; intros it' H'.
  - inversion H'; reflexivity.
  - inversion H'; subst; try congruence. f_equal; auto.
  - inversion H' as [|? ? ? N|? ? N|? ? ? N| |ds ? ? ? V S N]; subst; try congruence.
    + f_equal; auto.
    + destruct ds as [|x ds]; [discriminate V|].
      assert (x = "%"%char) by (injection H0; auto). subst x. discriminate V.
  - inversion H' as [|? ? ? N|? ? N|? ? ? N| |ds ? ? ? V S N]; subst; try congruence.
    + do 2 f_equal; auto.
    + destruct ds as [|x ds]; [discriminate V|].
      assert (x = c) by (injection H0; auto). subst x.
      pose proof (value_digits (c :: ds) _ _ V) as D. cbn in D. rewrite Hd in D. discriminate.
  - inversion H' as [|? ? ? N|? ? N|? ? ? N| |ds ? ? ? V S N]; subst; try congruence.
    destruct ds; [discriminate V|discriminate].
  - destruct ds as [|x ds]; [discriminate V|].
    pose proof (value_digits (x :: ds) _ _ V) as D. cbn in D. apply andb_prop in D. destruct D as [Dx D].
    inversion H' as [|? ? ? N|? ? N|? ? ? N| |ds' ? s' ? V' S' N E]; subst; try congruence.
    destruct ds' as [|x' ds']; [discriminate V'|].
    pose proof (value_digits (x' :: ds') _ _ V') as D'.
    destruct (digits_prefix (x' :: ds') s' (x :: ds) s) as [E1 E2]; auto.
    { cbn. rewrite Dx, D. reflexivity. }
    rewrite E1 in V'. rewrite V in V'. injection V' as <-. subst s'. f_equal; auto.
Qed.

Lemma shows_functional vals it o : shows vals it o -> forall o', shows vals it o' -> o = o'.
Proof.
  induction 1 as [|c it o H IH|n v it o Hn H IH|n t it o Hn Ht H IH]; intros o' H'; inversion H'; subst.
  - reflexivity.
  - f_equal; auto.
  - rewrite Hn in *. match goal with h : Some _ = Some _ |- _ => injection h as <- end. f_equal; auto.
  - congruence.
  - congruence.
  - f_equal. f_equal; [|auto]. eapply numeral_of_unique; eauto. lia.
Qed.

Definition arg_of (vals : list str) (k : N) : option str := nth_error vals (N.to_nat k).

Lemma shows_items_text vals it : shows vals it (items_text (arg_of vals) it).
Proof.
  induction it as [|[c|k] it IH]; [constructor|constructor; exact IH|].
  rewrite items_text_cons. cbn [item_text]. unfold arg_of.
  destruct (nth_error vals (N.to_nat k)) as [t|] eqn:E.
  - apply Sh_filled; auto.
  - cbn. apply Sh_unfilled; auto. apply put_dec_spec.
Qed.

(* ---- adding values ---- *)
Definition fill_all (vals : list str) (g : seg) : seg :=
  match g with
  | SLit _ => g
  | SVal k => match nth_error vals (N.to_nat k) with Some t => SLit t | None => g end
  end.

Definition idx_ok (g : seg) := match g with SVal k => (k < 4294967296)%N | _ => True end.

Lemma insert_all vals : forall f, Forall idx_ok (f_segs f) -> f_cur f = 0%N ->
  fold_left insertField vals f =
  mkFmt (map (fill_all vals) (f_segs f)) (f_orig f) (u32 (N.of_nat (length vals))).
Proof.
  induction vals as [|v vals IH] using rev_ind; intros f Hi Hc.
  - cbn. destruct f as [sg o c]; cbn in *. subst c. f_equal.
    induction sg as [|[x|k] sg IHs]; inversion Hi; subst; cbn; auto; f_equal; auto.
    destruct (N.to_nat k); reflexivity.
  - rewrite fold_left_app, (IH f Hi Hc). cbn [fold_left]. unfold insertField. cbn [f_segs f_orig f_cur].
    f_equal.
    + rewrite map_map. apply map_ext_in. intros [x|k] Hin; [reflexivity|].
      rewrite Forall_forall in Hi. specialize (Hi _ Hin). cbn in Hi.
      unfold fill_all. destruct (nth_error vals (N.to_nat k)) as [t|] eqn:E.
      * cbn. rewrite nth_error_app1 by (apply nth_error_Some; congruence). rewrite E. reflexivity.
      * apply nth_error_None in E. cbn.
        destruct (N.eqb_spec k (u32 (N.of_nat (length vals)))) as [K|K].
        -- assert (N.to_nat k = length vals) as ->.
           { unfold u32 in K. pose proof (N.mod_le (N.of_nat (length vals)) 4294967296). lia. }
           rewrite nth_error_app2, Nat.sub_diag by lia. reflexivity.
        -- rewrite nth_error_app2 by lia.
           destruct (N.to_nat k - length vals) as [|j] eqn:J; [|destruct j; reflexivity].
           exfalso. apply K. unfold u32. rewrite N.mod_small; lia.
    + rewrite app_length. cbn. unfold u32. rewrite Nat.add_1_r, Nat2N.inj_succ, <- N.add_1_r.
      rewrite N.add_mod_idemp_l by lia. reflexivity.
Qed.

Lemma assemble_text l : fst (assemble l) = segs_text (fun _ => None) l.
Proof.
  induction l as [|[v|k] l IH]; [reflexivity| |]; cbn; destruct (assemble l) as [t n]; cbn in *; subst t; reflexivity.
Qed.
Lemma assemble_count l : snd (assemble l) = 0 <-> (forall k, ~ In (SVal k) l).
Proof.
  induction l as [|[v|k] l IH]; cbn; [firstorder| |]; destruct (assemble l) as [t n]; cbn in *.
  - rewrite IH. split; intros H k; specialize (H k); [intros [|]; [discriminate|auto]|tauto].
  - split; [discriminate|]. intros H. destruct (H k). auto.
Qed.
Lemma fill_all_text vals l : segs_text (fun _ => None) (map (fill_all vals) l) = segs_text (arg_of vals) l.
Proof.
  unfold segs_text. rewrite map_map. f_equal. apply map_ext. intros [v|k]; [reflexivity|].
  unfold fill_all, seg_text, arg_of. destruct (nth_error _ _); reflexivity.
Qed.

Lemma scan_idx_ok im s : forall sc sc', scan_all im sc s = Ok sc' ->
  Forall idx_ok (sc_segs sc) -> (sc_fld sc < 4294967296)%N ->
  Forall idx_ok (sc_segs sc') /\ (sc_fld sc' < 4294967296)%N.
Proof.
  induction s as [|c s IH]; intros sc sc' H Hi Hf.
  - cbn in H. apply Ok_inj in H. subst. auto.
  - cbn in H. destruct (scan_step im sc c) as [sc1| |] eqn:Stp; try discriminate H. cbn in H.
    apply (IH _ _ H); clear IH H; unfold scan_step in Stp; destruct (sc_state sc).
    + destruct (is_pct c); apply Ok_inj in Stp; subst; assumption.
    + destruct (c_isdigit im c) as [[]| |]; try discriminate Stp; cbn in Stp.
      * destruct (sc_str sc); apply Ok_inj in Stp; subst; cbn; auto.
        apply Forall_app. split; auto. repeat constructor.
      * apply Ok_inj in Stp; subst; assumption.
    + destruct (c_isdigit im c) as [[]| |]; try discriminate Stp; cbn in Stp.
      * apply Ok_inj in Stp; subst; assumption.
      * destruct (is_pct c); apply Ok_inj in Stp; subst; cbn; apply Forall_app; split; auto; repeat constructor; exact Hf.
    + destruct (is_pct c); apply Ok_inj in Stp; subst; assumption.
    + destruct (c_isdigit im c) as [[]| |] eqn:D; try discriminate Stp; cbn in Stp.
      * apply isdigit_ok in D. symmetry in D. apply digit_byte_digit_of in D. destruct D as (d & _ & D & E).
        destruct (sc_str sc); apply Ok_inj in Stp; subst; cbn; lia.
      * apply Ok_inj in Stp; subst; assumption.
    + destruct (c_isdigit im c) as [[]| |]; try discriminate Stp; cbn in Stp.
      * apply Ok_inj in Stp; subst; cbn. unfold u32. apply N.mod_lt. lia.
      * destruct (is_pct c); apply Ok_inj in Stp; subst; cbn; auto.
Qed.

Lemma initialScan_idx_ok im s l : initialScan im s = Ok l -> Forall idx_ok l.
Proof.
  unfold initialScan. destruct (scan_all im _ s) as [sc| |] eqn:E; try discriminate. cbn.
  intros H%Ok_inj. subst l.
  apply scan_idx_ok in E as [E1 E2]; [|constructor|cbn; lia].
  unfold scan_end, push_nonempty. destruct (sc_state sc).
  - destruct (sc_str sc); auto. apply Forall_app; split; auto; repeat constructor.
  - destruct (sc_str sc ++ _); auto. apply Forall_app; split; auto; repeat constructor.
  - apply Forall_app; split; auto.
Qed.

Lemma newFormat_inv im s f : newFormat im s = Ok f ->
  f_orig f = s /\ f_cur f = 0%N /\ initialScan im s = Ok (f_segs f) /\ Forall idx_ok (f_segs f).
Proof.
  unfold newFormat. destruct (initialScan im s) as [l| |] eqn:E; try discriminate. cbn.
  intros H%Ok_inj. subst f. cbn. repeat split; auto. eapply initialScan_idx_ok; eauto.
Qed.

Lemma initialScan_text im s l : initialScan im s = Ok l ->
  exists it, template s it /\ forall arg, segs_text arg l = items_text arg (wr it).
Proof.
  unfold initialScan. destruct (scan_all im _ s) as [sc| |] eqn:E; try discriminate. cbn.
  intros H%Ok_inj. subst l. apply scan_spec in E. exact E.
Qed.

(* the main lemma: str() after any list of adds *)
Lemma str_after_adds im s f vals it : newFormat im s = Ok f -> template s it ->
  fmt_str (fold_left insertField vals f) false = Ok (items_text (arg_of vals) (wr it)).
Proof.
  intros H T. apply newFormat_inv in H as (Ho & Hc & Hs & Hi).
  rewrite (insert_all vals f Hi Hc). unfold fmt_str. cbn [f_segs].
  pose proof (assemble_text (map (fill_all vals) (f_segs f))) as A.
  destruct (assemble _) as [t n]. cbn in A. cbn. f_equal. rewrite A, fill_all_text.
  apply initialScan_text in Hs as (it' & T' & E). rewrite E.
  rewrite (template_functional _ _ T _ T'). reflexivity.
Qed.

(* when are there unfilled fields? via a sentinel argument function *)
Definition has_field (it : list item) (k : N) := In (IField k) it.

(* which SVal occur in the scanned segments *)
Lemma scan_fields im s : forall sc sc', scan_all im sc s = Ok sc' ->
  match sc_state sc with
  | NORM => exists it, template s it /\ forall k,
      In (SVal k) (scan_end sc') <-> In (SVal k) (sc_segs sc) \/ In (IField k) (wr it)
  | SAW_PC => exists it, template ("%"%char :: s) it /\ forall k,
      In (SVal k) (scan_end sc') <-> In (SVal k) (sc_segs sc) \/ In (IField k) (wr it)
  | ACC_FLDNUM => forall ds v, ds <> [] -> value_from false 10 0 ds = Some v -> sc_fld sc = u32 v ->
      exists it, template ("%"%char :: ds ++ s) it /\ forall k,
      In (SVal k) (scan_end sc') <-> In (SVal k) (sc_segs sc) \/ In (IField k) (wr it)
  end.
Proof.
  assert (IP : forall k t l, In (SVal k) (push_nonempty t l) <-> In (SVal k) l).
  { intros k [|x t] l; cbn; [tauto|]. rewrite in_app_iff. cbn. intuition congruence. }
  induction s as [|c s IH]; intros sc sc' H.
  - cbn in H. apply Ok_inj in H. subst sc'. unfold scan_end.
    destruct (sc_state sc) eqn:St.
    + exists []. split; [constructor|]. intros k. rewrite IP. cbn. tauto.
    + exists [IChar "%"%char]. split; [apply T_last|]. intros k. rewrite IP. cbn. intuition congruence.
    + intros ds v Hds V F. exists [IField v]. split.
      { apply T_field; [|reflexivity|constructor]. destruct ds; [congruence|exact V]. }
      assert (EQ : forall k, SVal (sc_fld sc) = SVal k <-> IField (v mod 4294967296) = IField k).
      { intros k. rewrite F. unfold u32. split; intros [= <-]; reflexivity. }
      intros k. rewrite in_app_iff. cbn [In wr map wrap_item]. rewrite (EQ k). tauto.
  - cbn in H. destruct (scan_step im sc c) as [sc1| |] eqn:Stp; try discriminate H. cbn in H.
    specialize (IH _ _ H). unfold scan_step in Stp.
    destruct (sc_state sc) eqn:St.
    + unfold is_pct in Stp. destruct (Ascii.eqb_spec c "%"%char) as [->|Hc];
        apply Ok_inj in Stp; subst sc1; cbn in IH; destruct IH as (it & T & E).
      * exists it. split; [exact T|exact E].
      * exists (IChar c :: it). split; [constructor; auto|]. intros k. rewrite E.
        cbn. intuition congruence.
    + destruct (c_isdigit im c) as [d| |] eqn:D; try discriminate Stp. cbn [obind] in Stp.
      apply isdigit_ok in D. subst d. destruct (digit_byte c) eqn:D.
      * pose proof D as D2. apply digit_byte_digit_of in D2. destruct D2 as (d & D2 & Hd & Ed).
        assert (V : value_from false 10 0 [c] = Some (digit_val c)).
        { cbn. rewrite D2, <- Ed. destruct (N.ltb_spec d 10); [reflexivity|lia]. }
        assert (Fs : digit_val c = u32 (digit_val c)) by (unfold u32; rewrite N.mod_small; lia).
        destruct (sc_str sc) as [|x t] eqn:Es; apply Ok_inj in Stp; subst sc1; cbn [sc_state sc_fld sc_str sc_segs] in IH;
          destruct (IH [c] (digit_val c) ltac:(discriminate) V Fs) as (it & T & E);
          exists it; (split; [exact T|]); intros k; rewrite E.
        -- reflexivity.
        -- rewrite in_app_iff. cbn. intuition congruence.
      * unfold is_pct in Stp. destruct (Ascii.eqb_spec c "%"%char) as [->|Hc];
          apply Ok_inj in Stp; subst sc1; cbn [sc_state sc_fld sc_str sc_segs] in IH;
          destruct IH as (it & T & E).
        -- exists (IChar "%"%char :: it). split; [apply T_escape; auto|]. intros k. rewrite E.
           cbn. intuition congruence.
        -- exists (IChar "%"%char :: IChar c :: it). split; [apply T_lone; auto|]. intros k. rewrite E.
           cbn. intuition congruence.
    + intros ds v Hds V F.
      destruct (c_isdigit im c) as [d| |] eqn:D; try discriminate Stp. cbn [obind] in Stp.
      apply isdigit_ok in D. subst d. destruct (digit_byte c) eqn:D.
      * pose proof D as D2. apply digit_byte_digit_of in D2. destruct D2 as (d & D2 & Hd & Ed).
        destruct (fld_step ds c d v D2 V Hd Ed) as [V' F'].
        apply Ok_inj in Stp; subst sc1; cbn [sc_state sc_fld sc_str sc_segs] in IH.
        rewrite F, F' in IH.
        destruct (IH (ds ++ [c]) _ ltac:(destruct ds; discriminate) V' eq_refl) as (it & T & E).
        exists it. rewrite <- app_assoc in T. split; [exact T|exact E].
      * assert (T1 : forall it, template (c :: s) it -> template ("%"%char :: ds ++ c :: s) (IField v :: it)).
        { intros it T. apply T_field; auto. destruct ds; [congruence|exact V]. }
        assert (EQ : forall k, SVal (sc_fld sc) = SVal k <-> IField (v mod 4294967296) = IField k).
        { intros k. rewrite F. unfold u32. split; intros [= <-]; reflexivity. }
        unfold is_pct in Stp. destruct (Ascii.eqb_spec c "%"%char) as [->|Hc];
          apply Ok_inj in Stp; subst sc1; cbn [sc_state sc_fld sc_str sc_segs] in IH;
          destruct IH as (it & T & E).
        -- exists (IField v :: it). split; [apply T1, T|]. intros k. rewrite E, in_app_iff.
           cbn [In wr map wrap_item]. rewrite (EQ k). tauto.
        -- exists (IField v :: IChar c :: it). split; [apply T1; constructor; auto|].
           intros k. rewrite E, in_app_iff. cbn [In wr map wrap_item]. rewrite (EQ k). intuition congruence.
Qed.

Lemma newFormat_fields im s f it k : newFormat im s = Ok f -> template s it ->
  (In (SVal k) (f_segs f) <-> In (IField k) (wr it)).
Proof.
  intros H T. apply newFormat_inv in H as (_ & _ & Hs & _). unfold initialScan in Hs.
  destruct (scan_all im _ s) as [sc| |] eqn:E; try discriminate. cbn in Hs. apply Ok_inj in Hs.
  apply scan_fields in E. cbn in E. destruct E as (it' & T' & E).
  rewrite <- Hs, (template_functional _ _ T _ T'), E. tauto.
Qed.

Lemma str_check im s f vals it : newFormat im s = Ok f -> template s it ->
  let g := fold_left insertField vals f in
  ((exists k, In (IField k) (wr it) /\ nth_error vals (N.to_nat k) = None) ->
     exists what, fmt_str g true = Throw (mkExn BadFormat what)) /\
  ((forall k, In (IField k) (wr it) -> nth_error vals (N.to_nat k) <> None) ->
     fmt_str g true = fmt_str g false).
Proof.
  intros H T g. pose proof (newFormat_inv _ _ _ H) as (Ho & Hc & Hs & Hi).
  assert (G : f_segs g = map (fill_all vals) (f_segs f)).
  { unfold g. rewrite (insert_all vals f Hi Hc). reflexivity. }
  pose proof (assemble_count (f_segs g)) as A. unfold fmt_str.
  destruct (assemble (f_segs g)) as [t n]. cbn in A. cbn [andb].
  assert (U : (exists k, In (IField k) (wr it) /\ nth_error vals (N.to_nat k) = None) <->
              exists k, In (SVal k) (f_segs g)).
  { rewrite G. split.
    - intros (k & K1 & K2). exists k. rewrite <- (newFormat_fields _ _ _ _ _ H T) in K1.
      apply in_map_iff. exists (SVal k). split; [|exact K1]. cbn. rewrite K2. reflexivity.
    - intros (k & K). apply in_map_iff in K. destruct K as ([v|k'] & K1 & K2); [discriminate K1|].
      cbn in K1. destruct (nth_error vals (N.to_nat k')) eqn:E; [discriminate K1|].
      injection K1 as ->. exists k. rewrite <- (newFormat_fields _ _ _ _ _ H T). auto. }
  split.
  - intros E. apply U in E. destruct E as [k K].
    destruct n as [|n]; [exfalso; exact (proj1 A eq_refl k K)|]. cbn. eauto.
  - intros E. destruct n as [|n]; [reflexivity|]. exfalso.
    assert (Z : S n = 0); [|discriminate Z]. apply A. intros k K.
    assert (exists k, In (SVal k) (f_segs g)) as Q by eauto. apply U in Q.
    destruct Q as (j & J1 & J2). exact (E j J1 J2).
Qed.

(* ---- definedness ---- *)
Lemma scan_glibc_total s : forall sc, exists sc', scan_all Glibc sc s = Ok sc'.
Proof.
  induction s as [|c s IH]; intros sc; [eexists; reflexivity|]. cbn.
  assert (exists sc1, scan_step Glibc sc c = Ok sc1) as [sc1 ->].
  { unfold scan_step. cbn. destruct (sc_state sc).
    - destruct (is_pct c); eauto.
    - destruct (digit_byte c); [destruct (sc_str sc)|]; eauto.
    - destruct (digit_byte c); [|destruct (is_pct c)]; eauto. }
  apply IH.
Qed.
Lemma scan_strict_ascii s : forallb (fun c => negb (high_byte c)) s = true ->
  forall sc, scan_all Strict sc s = scan_all Glibc sc s.
Proof.
  induction s as [|c s IH]; intros H sc; [reflexivity|]. cbn in H. apply andb_prop in H as [Hc H]. cbn.
  assert (E : scan_step Strict sc c = scan_step Glibc sc c).
  { unfold scan_step, c_isdigit. destruct (high_byte c); [discriminate Hc|]. reflexivity. }
  rewrite E. destruct (scan_step Glibc sc c); cbn; auto.
Qed.
Lemma newFormat_glibc s : exists f, newFormat Glibc s = Ok f.
Proof.
  unfold newFormat, initialScan. destruct (scan_glibc_total s (mkScan NORM [] 0%N [])) as [sc ->].
  cbn. eauto.
Qed.
Lemma newFormat_ascii im s : forallb (fun c => negb (high_byte c)) s = true ->
  exists f, newFormat im s = Ok f.
Proof.
  intros H. destruct im; [|apply newFormat_glibc].
  destruct (newFormat_glibc s) as [f Hf]. exists f. rewrite <- Hf.
  unfold newFormat, initialScan. rewrite scan_strict_ascii by exact H. reflexivity.
Qed.

(* ---- escape ---- *)
Lemma escape_scan im t : forall st fld sg,
  scan_all im (mkScan NORM st fld sg) (escape t) = Ok (mkScan NORM (st ++ t) fld sg).
Proof.
  induction t as [|c t IH]; intros st fld sg; cbn; [rewrite app_nil_r; reflexivity|].
  destruct (Ascii.eqb_spec c "%"%char) as [->|Hc].
  - cbn. assert (D : c_isdigit im "%"%char = Ok false) by (destruct im; reflexivity).
    cbn [obind]. unfold scan_step. cbn. rewrite D. cbn. rewrite IH, <- app_assoc. reflexivity.
  - cbn. unfold scan_step. cbn. unfold is_pct. destruct (Ascii.eqb_spec c "%"%char); [contradiction|].
    cbn. rewrite IH, <- app_assoc. reflexivity.
Qed.
