(* L_FormatExt.v -- lemmas for P_FormatExt. *)
From Verif Require Import Base M_Format S_Format C_Format M_FormatExt S_FormatExt.

Lemma orig_fold vals : forall f, f_orig (fold_left insertField vals f) = f_orig f.
Proof. induction vals as [|v r IH]; intros f; [reflexivity|]. cbn [fold_left]. rewrite IH. reflexivity. Qed.

Lemma orig_new im s f : newFormat im s = Ok f -> f_orig f = s.
Proof. unfold newFormat. destruct (initialScan im s); cbn; intros E; inversion E; reflexivity. Qed.

Lemma reset_back im s f vals : newFormat im s = Ok f -> reset im (fold_left insertField vals f) = Ok f.
Proof.
  intros H. unfold reset. rewrite orig_fold, (orig_new _ _ _ H). revert H. unfold newFormat.
  destruct (initialScan im s); cbn; intros E; inversion E; reflexivity.
Qed.

(* the object o at place i is the formatter p *)
Definition is_pic (im : ctype_impl) (i : nat) (o : obj) (p : pic) : Prop :=
  is_ext o = p_ext p /\
  (exists f, newFormat im (p_tpl p) = Ok f /\ o_fmt o = fold_left insertField (p_vals p) f) /\
  (p_own p = true -> forall f q, o = OExt f q -> q = i).

Definition matches im (m : mem) (l : list (option pic)) : Prop :=
  length m = length l /\
  forall i, match look m i, seen l i with
            | Some o, Some p => is_pic im i o p
            | None, None => True
            | _, _ => False
            end.

Lemma look_store m i o j : look (store m i o) j =
  if Nat.eqb j i then (if Nat.ltb i (length m) then o else None) else look m j.
Proof.
  revert i j. induction m as [|x m IH]; intros i j.
  - unfold look. cbn. destruct (Nat.eqb j i); destruct j; reflexivity.
  - destruct i as [|i], j as [|j]; cbn [store]; unfold look; cbn; try reflexivity.
    + destruct o; reflexivity.
    + specialize (IH i j). unfold look in IH. rewrite IH. reflexivity.
Qed.
Lemma seen_put l i o j : seen (put_at l i o) j =
  if Nat.eqb j i then (if Nat.ltb i (length l) then o else None) else seen l j.
Proof.
  revert i j. induction l as [|x m IH]; intros i j.
  - unfold seen. cbn. destruct (Nat.eqb j i); destruct j; reflexivity.
  - destruct i as [|i], j as [|j]; cbn [put_at]; unfold seen; cbn; try reflexivity.
    + destruct o; reflexivity.
    + specialize (IH i j). unfold seen in IH. rewrite IH. reflexivity.
Qed.
Lemma store_len m i o : length (store m i o) = length m.
Proof. revert i; induction m as [|x m IH]; intros [|i]; cbn; auto. Qed.
Lemma put_len {A} (l : list A) i o : length (put_at l i o) = length l.
Proof. revert i; induction l as [|x m IH]; intros [|i]; cbn; auto. Qed.
Lemma look_lt m i o : look m i = Some o -> i < length m.
Proof. unfold look. destruct (nth_error m i) eqn:E; [|discriminate]. intros _. apply nth_error_Some. congruence. Qed.
Lemma look_app m o j : look (m ++ [o]) j = if Nat.eqb j (length m) then o else look m j.
Proof.
  unfold look. destruct (Nat.eqb_spec j (length m)) as [->|N].
  - rewrite nth_error_app2, Nat.sub_diag by lia. cbn. destruct o; reflexivity.
  - destruct (Nat.lt_ge_cases j (length m)) as [L|L].
    + rewrite nth_error_app1 by lia. reflexivity.
    + rewrite (proj2 (nth_error_None m j)) by lia.
      rewrite (proj2 (nth_error_None (m ++ [o]) j)); [reflexivity|]. rewrite app_length; cbn; lia.
Qed.
Lemma seen_app (m : list (option pic)) o j : seen (m ++ [o]) j = if Nat.eqb j (length m) then o else seen m j.
Proof.
  unfold seen. destruct (Nat.eqb_spec j (length m)) as [->|N].
  - rewrite nth_error_app2, Nat.sub_diag by lia. cbn. destruct o; reflexivity.
  - destruct (Nat.lt_ge_cases j (length m)) as [L|L].
    + rewrite nth_error_app1 by lia. reflexivity.
    + rewrite (proj2 (nth_error_None m j)) by lia.
      rewrite (proj2 (nth_error_None (m ++ [o]) j)); [reflexivity|]. rewrite app_length; cbn; lia.
Qed.

Lemma matches_app im m l o p : matches im m l -> is_pic im (length m) o p -> matches im (m ++ [Some o]) (l ++ [Some p]).
Proof.
  intros [L M] P. split; [rewrite !app_length; cbn; lia|].
  intros j. rewrite look_app, seen_app, <- L. destruct (Nat.eqb_spec j (length m)) as [->|N]; [exact P|apply M].
Qed.
Lemma matches_put im m l i o p : matches im m l -> i < length m ->
  match o, p with Some o, Some p => is_pic im i o p | None, None => True | _, _ => False end ->
  matches im (store m i o) (put_at l i p).
Proof.
  intros [L M] Hi P. split; [rewrite store_len, put_len; exact L|].
  intros j. rewrite look_store, seen_put, <- L. destruct (Nat.eqb_spec j i) as [->|N]; [|apply M].
  destruct (Nat.ltb_spec i (length m)); [exact P|lia].
Qed.
Lemma matches_look im m l i p : matches im m l -> seen l i = Some p ->
  exists o, look m i = Some o /\ is_pic im i o p /\ i < length m.
Proof.
  intros [L M] S. specialize (M i). rewrite S in M. destruct (look m i) as [o|] eqn:E; [|destruct M].
  exists o. split; [reflexivity|]. split; [exact M|]. eapply look_lt; eauto.
Qed.

Lemma o_fmt_set o f : o_fmt (o_set o f) = f.
Proof. destruct o; reflexivity. Qed.
Lemma ext_set o f : is_ext (o_set o f) = is_ext o.
Proof. destruct o; reflexivity. Qed.
Lemma o_set_set o f g : o_set (o_set o f) g = o_set o g.
Proof. destruct o; reflexivity. Qed.
Lemma store_store m i a b : store (store m i a) i b = store m i b.
Proof. revert i; induction m as [|x m IH]; intros [|i]; cbn; f_equal; auto. Qed.
Lemma store_same m i o : look m i = Some o -> store m i (Some o) = m.
Proof.
  revert i; induction m as [|x m IH]; intros i; [destruct i; reflexivity|].
  destruct i as [|i]; unfold look; cbn.
  - destruct x; intros E; inversion E; reflexivity.
  - intros E. f_equal. apply IH. exact E.
Qed.
Lemma set_same o : o_set o (o_fmt o) = o.
Proof. destruct o; reflexivity. Qed.

(* a chain of calls all of which stay on the object *)
Lemma chain_stays im s f0 : newFormat im s = Ok f0 ->
  forall cs m i ext o vals, look m i = Some o ->
  o_fmt o = fold_left insertField vals f0 ->
  (ext = true -> forall f q, o = OExt f q -> q = i) ->
  do_chain im m i ext cs =
  Ok (store m i (Some (o_set o (fold_left insertField (fold_left add_value cs vals) f0)))).
Proof.
  intros H cs. induction cs as [|c r IH]; intros m i ext o vals L F Q.
  - cbn. rewrite <- F, set_same, store_same; auto.
  - assert (Li : i < length m) by (eapply look_lt; eauto).
    cbn [do_chain fold_left]. unfold do_call. rewrite L. destruct c as [t|].
    + set (o1 := o_set o (insertField (o_fmt o) t)).
      assert (L1 : look (store m i (Some o1)) i = Some o1)
        by (rewrite look_store, Nat.eqb_refl; destruct (Nat.ltb_spec i (length m)); [reflexivity|lia]).
      assert (F1 : o_fmt o1 = fold_left insertField (vals ++ [t]) f0)
        by (unfold o1; rewrite o_fmt_set, fold_left_app, <- F; reflexivity).
      assert (G : forall e, (e = true -> forall f q, o1 = OExt f q -> q = i) ->
        do_chain im (store m i (Some o1)) i e r =
        Ok (store m i (Some (o_set o (fold_left insertField (fold_left add_value r (vals ++ [t])) f0))))).
      { intros e Qe. rewrite (IH _ i e o1 (vals ++ [t]) L1 F1 Qe), store_store.
        unfold o1. rewrite o_set_set. reflexivity. }
      cbn [add_value].
      destruct ext; [|cbn [obind]; apply G; discriminate].
      destruct o as [f|f q]; [cbn [obind]; apply G; unfold o1; cbn; congruence|].
      assert (Eq : q = i) by (exact (Q eq_refl f q eq_refl)). rewrite Eq at 1. rewrite L1. cbn [obind]. rewrite Eq at 1. apply G.
      unfold o1; cbn. intros _ g q' E. assert (q' = q) by congruence. subst q'. exact (Q eq_refl f q eq_refl).
    + rewrite F, (reset_back im s f0 vals H). cbn [obind add_value].
      set (o1 := o_set o f0).
      assert (L1 : look (store m i (Some o1)) i = Some o1)
        by (rewrite look_store, Nat.eqb_refl; destruct (Nat.ltb_spec i (length m)); [reflexivity|lia]).
      rewrite (IH _ i false o1 [] L1); [|unfold o1; rewrite o_fmt_set; reflexivity|discriminate].
      rewrite store_store. unfold o1. rewrite o_set_set. reflexivity.
Qed.

Lemma chain_reset im s f0 : newFormat im s = Ok f0 ->
  forall cs m i ext o vals, look m i = Some o ->
  o_fmt o = fold_left insertField vals f0 ->
  starts_with_reset cs = true ->
  do_chain im m i ext cs =
  Ok (store m i (Some (o_set o (fold_left insertField (fold_left add_value cs vals) f0)))).
Proof.
  intros H cs m i ext o vals L F R. destruct cs as [|[t|] r]; try discriminate.
  transitivity (do_chain im m i false (KReset :: r)); [reflexivity|].
  eapply chain_stays; eauto. discriminate.
Qed.

Definition makes (im : ctype_impl) (s : stmt) : Prop :=
  match s with MakeExt t | MakePlain t => exists f, newFormat im t = Ok f | _ => True end.

Lemma step_ok im m l s l' : matches im m l -> makes im s -> careful_step l s = true ->
  value_step l s = Some l' -> exists m', step im m s = Ok m' /\ matches im m' l'.
Proof.
  intros M Mk C V. pose proof (proj1 M) as L.
  destruct s as [t|t|i|i|i j|i|i cs]; cbn [value_step] in V.
  - destruct Mk as [f Hf]. cbn. rewrite Hf. cbn. inversion V; subst l'; clear V. eexists. split; [reflexivity|].
    apply matches_app; [exact M|]. split; [reflexivity|]. split; [exists f; cbn; auto|]. intros _ g q E. congruence.
  - destruct Mk as [f Hf]. cbn. rewrite Hf. cbn. inversion V; subst l'; clear V. eexists. split; [reflexivity|].
    apply matches_app; [exact M|]. split; [reflexivity|]. split; [exists f; cbn; auto|]. intros _ g q E. congruence.
  - destruct (seen l i) as [p|] eqn:E; [|discriminate]. cbn in V. inversion V; subst l'; clear V.
    destruct (matches_look _ _ _ _ _ M E) as [o [Lo [[P1 [P2 P3]] _]]]. cbn. rewrite Lo. eexists. split; [reflexivity|].
    apply matches_app; [exact M|]. split; [exact P1|]. split; [exact P2|]. cbn.
    intros O f q Eo. subst o. cbn in P1. rewrite <- P1 in O. discriminate.
  - destruct (seen l i) as [p|] eqn:E; [|discriminate]. cbn in V. inversion V; subst l'; clear V.
    destruct (matches_look _ _ _ _ _ M E) as [o [Lo [[P1 [P2 P3]] _]]]. cbn. rewrite Lo. eexists. split; [reflexivity|].
    apply matches_app; [exact M|]. split; [reflexivity|]. split; [exact P2|]. cbn. intros _ f q Eo. discriminate.
  - destruct (seen l i) as [p|] eqn:E; [|discriminate]. destruct (seen l j) as [p'|] eqn:E'; [|discriminate].
    inversion V; subst l'; clear V.
    destruct (matches_look _ _ _ _ _ M E) as [o [Lo [[P1 [P2 P3]] Li]]].
    destruct (matches_look _ _ _ _ _ M E') as [o' [Lo' [[Q1 [Q2 Q3]] _]]].
    cbn [step]. rewrite Lo, Lo'.
    destruct (is_ext o && is_ext o') eqn:Ee.
    + apply andb_prop in Ee. destruct Ee as [Ea Eb].
      destruct o as [f|f q]; [discriminate|]. destruct o' as [g|g q']; [discriminate|].
      eexists. split; [reflexivity|]. apply matches_put; [exact M|exact Li|].
      split; [exact P1|]. split; [exact Q2|]. cbn [p_own]. cbn in P1, Q1. rewrite <- P1, <- Q1. cbn [andb].
      intros O h q'' Eq. inversion Eq; subst h q''. apply andb_prop in O. destruct O as [O1 O2].
      apply Nat.eqb_eq in O1. subst j. rewrite Lo' in Lo. inversion Lo; subst. apply (P3 O2 f q eq_refl).
    + exists (store m i (Some (o_set o (o_fmt o')))). split.
      { destruct o; destruct o'; try discriminate; reflexivity. }
      apply matches_put; [exact M|exact Li|]. split; [rewrite ext_set; exact P1|]. split.
      * destruct Q2 as [f0 [Hf0 F0]]. exists f0. rewrite o_fmt_set. auto.
      * cbn [p_own]. rewrite <- P1, <- Q1, Ee. intros O f q Eq. destruct o as [g|g q']; [discriminate|].
        cbn in Eq. inversion Eq; subst. apply (P3 O g q eq_refl).
  - destruct (seen l i) as [p|] eqn:E; [|discriminate]. cbn in V. inversion V; subst l'; clear V.
    destruct (matches_look _ _ _ _ _ M E) as [o [Lo [_ Li]]]. cbn. rewrite Lo. eexists. split; [reflexivity|].
    apply matches_put; auto.
  - cbn [careful_step] in C. destruct (seen l i) as [p|] eqn:E; [|discriminate]. cbn in V. inversion V; subst l'; clear V.
    destruct (matches_look _ _ _ _ _ M E) as [o [Lo [[P1 [[f0 [Hf0 F0]] P3]] Li]]]. cbn [step]. rewrite Lo.
    exists (store m i (Some (o_set o (fold_left insertField (fold_left add_value cs (p_vals p)) f0)))). split.
    + apply orb_prop in C. destruct C as [C|C].
      * apply orb_prop in C. destruct C as [C|C].
        -- eapply chain_stays; eauto.
        -- eapply chain_reset; eauto.
      * destruct cs; [|discriminate]. cbn. rewrite <- F0, set_same, store_same; auto.
    + apply matches_put; [exact M|exact Li|]. split; [rewrite ext_set; exact P1|]. split.
      * exists f0. rewrite o_fmt_set. auto.
      * cbn [p_own]. intros O f q Eq. destruct o as [g|g q']; [discriminate|].
        cbn in Eq. inversion Eq; subst. apply (P3 O g q eq_refl).
Qed.

Lemma run_ok im p : forall m l l', matches im m l -> (forall s, In s p -> makes im s) ->
  careful l p = true -> value_run l p = Some l' ->
  exists m', run im m p = Ok m' /\ matches im m' l'.
Proof.
  induction p as [|s r IH]; intros m l l' M Mk C V.
  - cbn in V. inversion V; subst. exists m. split; [reflexivity|exact M].
  - cbn [careful] in C. cbn [value_run] in V. apply andb_prop in C. destruct C as [C1 C2].
    destruct (value_step l s) as [l1|] eqn:E; [|discriminate].
    destruct (step_ok im m l s l1 M (Mk s (or_introl eq_refl)) C1 E) as [m1 [S1 M1]].
    cbn [run]. rewrite S1. cbn [obind]. apply (IH m1 l1 l' M1); auto. intros s' Hs. apply Mk. right; exact Hs.
Qed.

Lemma matches_nil im : matches im [] [].
Proof. split; [reflexivity|]. intros i. unfold look, seen. destruct i; exact I. Qed.

Lemma c111_values im prog l :
  (forall s, In s prog -> makes im s) -> careful [] prog = true -> value_run [] prog = Some l ->
  exists m, run im [] prog = Ok m /\
  forall i p, seen l i = Some p -> forall items out,
    template (p_tpl p) items -> (forall n, In (IField n) items -> (n < 4294967296)%N) ->
    shows (p_vals p) items out -> text_of m i false = Ok out.
Proof.
  intros Mk C V. destruct (run_ok im prog [] [] l (matches_nil im) Mk C V) as [m [R M]].
  exists m. split; [exact R|]. intros i p S items out T N Sh.
  destruct (matches_look _ _ _ _ _ M S) as [o [Lo [[_ [[f [Hf F]] _]] _]]].
  unfold text_of. rewrite Lo, F. eapply c06; eauto.
Qed.

(* chains of additions on a copied formatter: the first goes to the object, the others to the one pointed to *)
Lemma chain_adds im ts : forall m i f, look m i = Some (OExt f i) ->
  do_chain im m i true (map KAdd ts) = Ok (store m i (Some (OExt (fold_left insertField ts f) i))).
Proof.
  induction ts as [|t r IH]; intros m i f L.
  - cbn. rewrite store_same; auto.
  - assert (Li : i < length m) by (eapply look_lt; eauto).
    cbn [map do_chain]. unfold do_call. rewrite L. cbn [o_set o_fmt].
    assert (L1 : forall o, look (store m i (Some o)) i = Some o)
      by (intros o; rewrite look_store, Nat.eqb_refl; destruct (Nat.ltb_spec i (length m)); [reflexivity|lia]).
    rewrite L1. cbn [obind]. rewrite (IH _ i _ (L1 _)), store_store. reflexivity.
Qed.

Lemma c111_where im m i j f g t ts : i <> j ->
  look m i = Some (OExt f j) -> look m j = Some (OExt g j) ->
  step im m (Chain i (map KAdd (t :: ts))) =
  Ok (store (store m i (Some (OExt (insertField f t) j))) j (Some (OExt (fold_left insertField ts g) j))).
Proof.
  intros N Li Lj. cbn [step]. rewrite Li. cbn [is_ext map do_chain]. unfold do_call. rewrite Li. cbn [o_set o_fmt].
  assert (L1 : forall o, look (store m i o) j = Some (OExt g j))
    by (intros o; rewrite look_store; destruct (Nat.eqb_spec j i); [congruence|exact Lj]).
  rewrite L1. cbn [obind]. apply chain_adds. apply L1.
Qed.

Lemma c111_dangling im m i j f t ts : i <> j ->
  look m i = Some (OExt f j) -> look m j = None ->
  step im m (Chain i (map KAdd (t :: ts))) = UB.
Proof.
  intros N Li Lj. cbn [step]. rewrite Li. cbn [is_ext map do_chain]. unfold do_call. rewrite Li. cbn [o_set o_fmt].
  rewrite look_store. destruct (Nat.eqb_spec j i); [congruence|]. rewrite Lj. reflexivity.
Qed.
