(* L_FormatMem.v -- lemmas for C141. *)
From Verif Require Import Base M_Stream M_Float M_Format M_FormatF M_FormatMem S_Num S_Format L_Num L_Format.

(* ---- a segment list as a list of items ---- *)
Definition seg_items (g : seg) : list item :=
  match g with SLit v => map IChar v | SVal k => [IField k] end.
Definition segs_items (l : list seg) : list item := flat_map seg_items l.

Lemma segs_items_app a b : segs_items (a ++ b) = segs_items a ++ segs_items b.
Proof. apply flat_map_app. Qed.
Lemma segs_items_push s l : segs_items (push_nonempty s l) = segs_items l ++ map IChar s.
Proof.
  destruct s; cbn [push_nonempty]; [rewrite app_nil_r; reflexivity|]. rewrite segs_items_app. cbn.
  rewrite app_nil_r. reflexivity.
Qed.

Lemma scan_items im s : forall sc sc', scan_all im sc s = Ok sc' ->
  match sc_state sc with
  | NORM => exists it, template s it /\
      segs_items (scan_end sc') = segs_items (sc_segs sc) ++ map IChar (sc_str sc) ++ wr it
  | SAW_PC => exists it, template ("%"%char :: s) it /\
      segs_items (scan_end sc') = segs_items (sc_segs sc) ++ map IChar (sc_str sc) ++ wr it
  | ACC_FLDNUM => forall ds v, ds <> [] -> value_from false 10 0 ds = Some v -> sc_fld sc = u32 v ->
      sc_str sc = [] ->
      exists it, template ("%"%char :: ds ++ s) it /\
      segs_items (scan_end sc') = segs_items (sc_segs sc) ++ wr it
  end.
Proof.
  induction s as [|c s IH]; intros sc sc' H.
  - cbn in H. apply Ok_inj in H. subst sc'. unfold scan_end.
    destruct (sc_state sc) eqn:St.
    + exists []. split; [constructor|]. rewrite segs_items_push. cbn. rewrite app_nil_r. reflexivity.
    + exists [IChar "%"%char]. split; [apply T_last|]. rewrite segs_items_push, map_app. reflexivity.
    + intros ds v Hds V F E. exists [IField v]. split.
      { apply T_field; [|reflexivity|constructor]. destruct ds; [congruence|exact V]. }
      rewrite segs_items_app, F. reflexivity.
  - cbn in H. destruct (scan_step im sc c) as [sc1| |] eqn:Stp; try discriminate H. cbn in H.
    specialize (IH _ _ H). unfold scan_step in Stp.
    destruct (sc_state sc) eqn:St.
    + unfold is_pct in Stp. destruct (Ascii.eqb_spec c "%"%char) as [->|Hc];
        apply Ok_inj in Stp; subst sc1; cbn in IH; destruct IH as (it & T & E).
      * exists it. split; [exact T|exact E].
      * exists (IChar c :: it). split; [constructor; auto|]. rewrite E, map_app.
        cbn. rewrite <- !app_assoc. reflexivity.
    + destruct (c_isdigit im c) as [d| |] eqn:D; try discriminate Stp. cbn [obind] in Stp.
      apply isdigit_ok in D. subst d. destruct (digit_byte c) eqn:D.
      * pose proof D as D2. apply digit_byte_digit_of in D2. destruct D2 as (d & D2 & Hd & Ed).
        assert (V : value_from false 10 0 [c] = Some (digit_val c)).
        { cbn. rewrite D2, <- Ed. destruct (N.ltb_spec d 10); [reflexivity|lia]. }
        assert (Fs : digit_val c = u32 (digit_val c)) by (unfold u32; rewrite N.mod_small; lia).
        destruct (sc_str sc) as [|x t] eqn:Es; apply Ok_inj in Stp; subst sc1; cbn [sc_state sc_fld sc_str sc_segs] in IH;
          destruct (IH [c] (digit_val c) ltac:(discriminate) V Fs eq_refl) as (it & T & E);
          exists it; (split; [exact T|]); rewrite E.
        -- reflexivity.
        -- rewrite segs_items_app. cbn. rewrite app_nil_r, <- app_assoc. reflexivity.
      * unfold is_pct in Stp. destruct (Ascii.eqb_spec c "%"%char) as [->|Hc];
          apply Ok_inj in Stp; subst sc1; cbn [sc_state sc_fld sc_str sc_segs] in IH;
          destruct IH as (it & T & E).
        -- exists (IChar "%"%char :: it). split; [apply T_escape; auto|]. rewrite E, map_app.
           rewrite <- !app_assoc. reflexivity.
        -- exists (IChar "%"%char :: IChar c :: it). split; [apply T_lone; auto|]. rewrite E, !map_app.
           rewrite <- !app_assoc. reflexivity.
    + intros ds v Hds V F Es.
      destruct (c_isdigit im c) as [d| |] eqn:D; try discriminate Stp. cbn [obind] in Stp.
      apply isdigit_ok in D. subst d. destruct (digit_byte c) eqn:D.
      * pose proof D as D2. apply digit_byte_digit_of in D2. destruct D2 as (d & D2 & Hd & Ed).
        destruct (fld_step ds c d v D2 V Hd Ed) as [V' F'].
        apply Ok_inj in Stp; subst sc1; cbn [sc_state sc_fld sc_str sc_segs] in IH.
        rewrite F, F' in IH.
        destruct (IH (ds ++ [c]) _ ltac:(destruct ds; discriminate) V' eq_refl Es) as (it & T & E).
        exists it. rewrite <- app_assoc in T. split; [exact T|exact E].
      * assert (T1 : forall it, template (c :: s) it -> template ("%"%char :: ds ++ c :: s) (IField v :: it)).
        { intros it T. apply T_field; auto. destruct ds; [congruence|exact V]. }
        unfold is_pct in Stp. destruct (Ascii.eqb_spec c "%"%char) as [->|Hc];
          apply Ok_inj in Stp; subst sc1; cbn [sc_state sc_fld sc_str sc_segs] in IH;
          destruct IH as (it & T & E).
        -- exists (IField v :: it). split; [apply T1, T|]. rewrite E, segs_items_app, F.
           cbn. rewrite <- app_assoc. reflexivity.
        -- exists (IField v :: IChar c :: it). split; [apply T1; constructor; auto|].
           rewrite E, segs_items_app, F. cbn. rewrite <- app_assoc. reflexivity.
Qed.

Lemma initialScan_items im s l it : initialScan im s = Ok l -> template s it -> segs_items l = wr it.
Proof.
  unfold initialScan. destruct (scan_all im _ s) as [sc| |] eqn:E; try discriminate. cbn.
  intros H%Ok_inj T. subst l. apply scan_items in E. destruct E as (it' & T' & E).
  rewrite (template_functional _ _ T _ T'). exact E.
Qed.

Lemma items_text_app arg a b : items_text arg (a ++ b) = items_text arg a ++ items_text arg b.
Proof. unfold items_text. rewrite map_app, concat_app. reflexivity. Qed.
Lemma segs_items_text arg l : items_text arg (segs_items l) = segs_text arg l.
Proof.
  induction l as [|[v|k] l IH]; [reflexivity| |]; cbn [segs_items flat_map seg_items];
    fold (segs_items l); rewrite items_text_app, IH.
  - change (segs_text arg (SLit v :: l)) with (v ++ segs_text arg l). f_equal.
    induction v as [|c v IHv]; [reflexivity|]. cbn [map]. rewrite items_text_cons, IHv. reflexivity.
  - cbn. rewrite app_nil_r. reflexivity.
Qed.

(* ---- failing and repeating ---- *)
Lemma fill_twice cur t l : map (fill_seg cur t) (map (fill_seg cur t) l) = map (fill_seg cur t) l.
Proof.
  rewrite map_map. apply map_ext. intros [v|k]; [reflexivity|]. cbn.
  destruct (k =? cur)%N eqn:E; cbn; [reflexivity|]. rewrite E. reflexivity.
Qed.

Lemma failed_orig im fuel f k cut th g : memstep im fuel f k cut th g -> f_orig g = f_orig f.
Proof.
  intros H. inversion H; subst; try reflexivity.
  match goal with h : reset _ _ = Ok _ |- _ => unfold reset in h; destruct (initialScan im (f_orig f)); try discriminate; cbn in h; apply Ok_inj in h; subst end.
  reflexivity.
Qed.

Lemma failed_add im fuel f c g t : memstep im fuel f (MAdd c) false true g -> full_text fuel c = Some t ->
  insertField g t = insertField f t /\ f_cur g = f_cur f.
Proof.
  intros H T. inversion H as [|c0 cut|c0 cut t0 a b Ht E| |]; subst; [auto|].
  cbn in Ht. rewrite T in Ht. injection Ht as ->. split; [|reflexivity].
  unfold insertField. cbn [f_segs f_cur f_orig]. f_equal. rewrite E.
  rewrite !map_app, fill_twice. reflexivity.
Qed.

Lemma tried_add im fuel f k g : tried im fuel f k g -> forall c t, k = MAdd c -> full_text fuel c = Some t ->
  g = insertField f t.
Proof.
  induction 1 as [f k g H|f k g h H _ IH]; intros c t -> T.
  - inversion H as [c0 cut t0 Ht| | | |]; subst. cbn in Ht. rewrite T in Ht. injection Ht as ->. reflexivity.
  - rewrite (IH c t eq_refl T). apply (failed_add _ _ _ _ _ _ H T).
Qed.

Lemma tried_reset im fuel f k g : tried im fuel f k g -> k = MReset -> reset im f = Ok g.
Proof.
  induction 1 as [f k g H|f k g h H _ IH]; intros ->.
  - inversion H; subst. assumption.
  - specialize (IH eq_refl). unfold reset in *. rewrite (failed_orig _ _ _ _ _ _ _ H) in IH. exact IH.
Qed.

Lemma tried_adds im fuel cs : forall vals f g,
  tried_all im fuel f (map MAdd cs) g -> Forall2 (fun c t => full_text fuel c = Some t) cs vals ->
  g = fold_left insertField vals f.
Proof.
  induction cs as [|c cs IH]; intros vals f g H F; inversion F; subst; inversion H; subst; [reflexivity|].
  cbn. erewrite <- (tried_add im fuel f); eauto.
Qed.

Lemma hist_orig im fuel f g : memhist im fuel f g -> f_orig g = f_orig f.
Proof.
  induction 1 as [|f k cut th g h H _ IH]; [reflexivity|].
  rewrite IH. eapply failed_orig; eauto.
Qed.

Lemma reset_back im fuel s f0 f1 f2 : newFormat im s = Ok f0 -> memhist im fuel f0 f1 ->
  tried im fuel f1 MReset f2 -> f2 = f0.
Proof.
  intros N H R. apply tried_reset in R; [|reflexivity].
  unfold reset in R. rewrite (hist_orig _ _ _ _ H) in R.
  unfold newFormat in N. destruct (initialScan im s) as [l| |] eqn:E; try discriminate. cbn in N.
  apply Ok_inj in N. subst f0. cbn [f_orig] in R. rewrite E in R. cbn in R. apply Ok_inj in R. congruence.
Qed.

(* ---- what a failed add leaves ---- *)
Lemma fill_all_snoc vals t (o : str) a : Forall idx_ok a ->
  map (fill_seg (u32 (N.of_nat (length vals))) t) (map (fill_all vals) a) = map (fill_all (vals ++ [t])) a.
Proof.
  intros Hi. pose proof (insert_all vals (mkFmt a o 0%N) Hi eq_refl) as A.
  pose proof (insert_all (vals ++ [t]) (mkFmt a o 0%N) Hi eq_refl) as B.
  rewrite fold_left_app, A in B. cbn in B. unfold insertField in B. cbn in B.
  injection B as B _. exact B.
Qed.

Lemma failed_shape im fuel s f0 vals c t f it : newFormat im s = Ok f0 ->
  memstep im fuel (fold_left insertField vals f0) (MAdd c) false true f -> full_text fuel c = Some t ->
  template s it ->
  exists i1 i2, wr it = i1 ++ i2 /\
    fst (assemble (f_segs f)) = items_text (arg_of (vals ++ [t])) i1 ++ items_text (arg_of vals) i2.
Proof.
  intros N H T Ti. apply newFormat_inv in N as (Ho & Hc & Hs & Hi).
  rewrite (insert_all vals f0 Hi Hc) in H. rewrite <- (initialScan_items _ _ _ _ Hs Ti).
  inversion H as [|c0 cut|c0 cut t0 a b Ht E| |]; subst.
  - exists [], (segs_items (f_segs f0)). split; [reflexivity|]. cbn [f_segs].
    rewrite assemble_text, fill_all_text, segs_items_text. reflexivity.
  - cbn in Ht. rewrite T in Ht. injection Ht as <-. cbn [f_segs f_cur] in *.
    apply map_eq_app in E. destruct E as (a0 & b0 & E0 & Ea & Eb).
    rewrite E0 in Hi. apply Forall_app in Hi as [Ha Hb].
    exists (segs_items a0), (segs_items b0). split; [rewrite E0; apply segs_items_app|].
    rewrite <- Ea, (fill_all_snoc vals t [] a0 Ha), <- Eb.
    rewrite assemble_text, segs_text_app, !fill_all_text, !segs_items_text. reflexivity.
Qed.

(* ---- cut texts ---- *)
Definition unseparated (c : addcall) : Prop :=
  match c with
  | AI _ _ sep _ => sep = nul
  | AU _ _ _ sep _ => sep = nul
  | _ => True
  end.

Lemma cut_prefix fuel c p t : unseparated c -> full_text fuel c = Some p -> cut_text fuel c t ->
  exists r, p = t ++ r.
Proof.
  intros U F C. destruct C; cbn in U, F.
  - injection F as <-. assumption.
  - subst sep. discriminate.
  - subst sep. cbn in *. injection F as <-. unfold addU_text. cbn. assumption.
  - match goal with h : full_text _ _ = Some _ |- _ => cbn in h; rewrite h in F end. injection F as <-. assumption.
  - injection F as <-. assumption.
  - injection F as <-. assumption.
Qed.
