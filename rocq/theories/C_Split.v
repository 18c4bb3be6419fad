(* C_Split.v -- corollaries in the form stated in P_Split. *)
From Verif Require Import Base M_Split S_Split L_Split.

Lemma blank_iff s : forallb is_space s = true <-> forall c, In c s -> c = " "%char.
Proof.
  rewrite forallb_forall. split; intros H c Hc.
  - apply Ascii.eqb_eq. exact (H c Hc).
  - apply Ascii.eqb_eq. exact (H c Hc).
Qed.

Lemma nonblank s : (exists c, In c s /\ c <> " "%char) -> forallb is_space s = false.
Proof.
  intros (c & Hc & Hn). destruct (forallb is_space s) eqn:E; [|reflexivity].
  rewrite blank_iff in E. elim Hn. auto.
Qed.

Lemma c01 s : (exists c, In c s /\ c <> " "%char) -> squashSpaces s = Ok (join (lit " ") (words s)).
Proof. intros H. rewrite squashSpaces_spec, (nonblank s H). reflexivity. Qed.

Lemma c02_refuted : exists s, squashSpaces s = UB.
Proof. exists []. reflexivity. Qed.

Lemma c02_domain s :
  (squashSpaces s = UB <-> forall c, In c s -> c = " "%char) /\ (forall e, squashSpaces s <> Throw e).
Proof.
  rewrite squashSpaces_spec, <- blank_iff. destruct (forallb is_space s).
  - split; [tauto|discriminate].
  - split; [split; discriminate|discriminate].
Qed.

Definition good_word (w : str) : Prop := w <> [] /\ forallb (fun c => negb (is_space c)) w = true.

Lemma join_hd w ws : good_word w -> exists c r, join (lit " ") (w :: ws) = c :: r /\ c <> " "%char.
Proof.
  intros [Hn Hw]. destruct w as [|c w]; [contradiction|]. cbn in Hw.
  apply andb_true_iff in Hw as [Hc _]. exists c.
  destruct ws; cbn; eexists; split; try reflexivity; intros ->; discriminate.
Qed.

Lemma words_app_word w r :
  good_word w -> words (w ++ " "%char :: r) = w :: words r.
Proof.
  intros [Hn Hw]. unfold words. rewrite fields_nodelim_app by (exact Hw || reflexivity).
  cbn [filter]. destruct w; [contradiction|]. reflexivity.
Qed.

Lemma words_word w : good_word w -> words w = [w].
Proof.
  intros [Hn Hw]. unfold words. rewrite fields_nodelim by exact Hw. destruct w; [contradiction|]. reflexivity.
Qed.

Lemma words_join l : Forall good_word l -> words (join (lit " ") l) = l.
Proof.
  induction l as [|w l IH]; intros H; [reflexivity|]. inversion H; subst.
  destruct l as [|v l].
  - cbn [join]. apply words_word. assumption.
  - rewrite join_cons_cons. change (lit " " ++ ?x) with (" "%char :: x).
    rewrite words_app_word by assumption. rewrite IH by assumption. reflexivity.
Qed.

Lemma join_nodouble l : Forall good_word l -> forall a b, join (lit " ") l <> a ++ " "%char :: " "%char :: b.
Proof.
  induction l as [|w l IH]; intros H a b; cbn [join].
  - destruct a; discriminate.
  - inversion H as [|? ? Hw Hl]; subst.
    assert (Hns : forall c, In c w -> c <> " "%char).
    { destruct Hw as [_ Hw]. rewrite forallb_forall in Hw. intros c Hc ->. specialize (Hw _ Hc). discriminate. }
    destruct l as [|v l].
    + intros ->. apply (Hns " "%char); [|reflexivity]. apply in_or_app. right; left; reflexivity.
    + change (lit " " ++ ?x) with (" "%char :: x).
      inversion Hl as [|? ? Hv _]; subst.
      destruct (join_hd v l Hv) as (c & r & E & Hc).
      assert (G : forall w a, (forall c, In c w -> c <> " "%char) ->
                w ++ " "%char :: join (lit " ") (v :: l) <> a ++ " "%char :: " "%char :: b).
      { clear - IH Hl E Hc. induction w as [|x w IHw]; intros a Hns Heq; cbn [app] in Heq.
        - destruct a as [|y a]; cbn [app] in Heq.
          + rewrite E in Heq. injection Heq as -> _. contradiction.
          + pose proof (f_equal (@tl ascii) Heq) as Hr. exact (IH Hl a b Hr).
        - destruct a as [|y a]; cbn [app] in Heq; injection Heq as Hy Hr.
          + subst x. apply (Hns " "%char); [left; reflexivity|reflexivity].
          + apply (IHw a); [|exact Hr]. intros d Hd. apply Hns. right; exact Hd. }
      apply G. exact Hns.
Qed.

Lemma join_last l : Forall good_word l -> hd_error (rev (join (lit " ") l)) <> Some " "%char.
Proof.
  induction l as [|w l IH]; intros H; [discriminate|]. inversion H as [|? ? Hw Hl]; subst.
  destruct l as [|v l].
  - cbn [join]. destruct Hw as [Hn Hw]. rewrite forallb_forall in Hw.
    destruct (rev w) as [|c r] eqn:E; [discriminate|]. cbn. intros [= ->].
    assert (Hi : In " "%char w) by (apply in_rev; rewrite E; left; reflexivity).
    specialize (Hw _ Hi). discriminate.
  - rewrite join_cons_cons, !rev_app_distr.
    inversion Hl as [|? ? Hv _]; subst. destruct (join_hd v l Hv) as (c & r & E & _).
    specialize (IH Hl). rewrite E in *. cbn [rev] in *.
    destruct (rev r); cbn [app] in *; exact IH.
Qed.

Lemma filter_join l :
  filter (fun c => negb (is_space c)) (join (lit " ") l) = filter (fun c => negb (is_space c)) (concat l).
Proof.
  induction l as [|w l IH]; [reflexivity|]. destruct l as [|v l].
  - cbn [join concat]. rewrite app_nil_r. reflexivity.
  - rewrite join_cons_cons. cbn [concat]. rewrite !filter_app. rewrite IH. cbn [concat]. rewrite filter_app. reflexivity.
Qed.

Lemma concat_words s :
  filter (fun c => negb (is_space c)) (concat (words s)) = filter (fun c => negb (is_space c)) s.
Proof.
  assert (H : forall s, concat (filter nonempty (fields is_space s)) = filter (fun c => negb (is_space c)) s).
  { clear. induction s as [|c s IH]; [reflexivity|]. cbn [fields filter].
    destruct (is_space c) eqn:Hc; cbn [negb]; [exact IH|].
    destruct (fields_cons_ex is_space s) as (f & fs & E). rewrite E in *.
    cbn [filter nonempty concat]. rewrite <- IH. destruct f; reflexivity. }
  unfold words. rewrite H. clear. induction s as [|c s IH]; [reflexivity|]. cbn.
  destruct (is_space c) eqn:Hc; cbn; [exact IH|]. rewrite Hc. cbn. rewrite IH. reflexivity.
Qed.

Lemma c01_shape s t :
  squashSpaces s = Ok t ->
  hd_error t <> Some " "%char /\ hd_error (rev t) <> Some " "%char /\
  (forall a b, t <> a ++ " "%char :: " "%char :: b) /\
  filter (fun c => negb (is_space c)) t = filter (fun c => negb (is_space c)) s /\
  squashSpaces t = Ok t.
Proof.
  rewrite squashSpaces_spec. destruct (forallb is_space s) eqn:Hb; [discriminate|]. intros H%Ok_inj; subst t.
  pose proof (words_nospace s) as Hw. fold good_word in Hw.
  pose proof (words_nonblank_nonnil s Hb) as Hn.
  destruct (words s) as [|w ws] eqn:E; [contradiction|].
  assert (Hw0 : good_word w) by (inversion Hw; assumption).
  destruct (join_hd w ws Hw0) as (c & r & Ej & Hc).
  split; [rewrite Ej; cbn; intros [= ->]; contradiction|].
  split; [apply join_last; exact Hw|].
  split; [apply join_nodouble; exact Hw|].
  split; [rewrite filter_join, <- E; apply concat_words|].
  rewrite squashSpaces_spec, words_join by exact Hw.
  rewrite Ej. cbn [forallb]. destruct (is_space c) eqn:Hs; [apply Ascii.eqb_eq in Hs; contradiction|].
  reflexivity.
Qed.

Lemma c03 s delims :
  (exists c, In c s /\ c <> " "%char) ->
  split s delims false = Ok (drop_last_empty (fields (In_delims delims) (join (lit " ") (words s)))).
Proof. intros H. rewrite split_spec, (nonblank s H). reflexivity. Qed.

Lemma In_delims_iff delims c : In_delims delims c = true <-> In c delims.
Proof.
  unfold In_delims. rewrite existsb_exists. split.
  - intros (x & Hx & E). apply Ascii.eqb_eq in E. subst. exact Hx.
  - intros H. exists c. split; [exact H|apply Ascii.eqb_refl].
Qed.

Lemma weave_fields_len p s :
  exists ds, forallb p ds = true /\ weave (drop_last_empty (fields p s)) ds = s /\
    length ds <= length (drop_last_empty (fields p s)) <= S (length ds).
Proof.
  induction s as [|c s IH]; cbn [fields].
  - exists []. cbn. auto.
  - destruct IH as (ds & Hds & Hw & Hlen). destruct (p c) eqn:Hc.
    + exists (c :: ds). cbn [forallb]. rewrite Hc, Hds. split; [reflexivity|].
      rewrite drop_last_empty_cons by apply fields_nonnil. cbn [weave app]. rewrite Hw.
      split; [reflexivity|]. cbn [length]. lia.
    + destruct (fields_cons_ex p s) as (f & fs & E). rewrite E in *.
      destruct fs as [|g fs].
      * cbn [drop_last_empty nonempty] in *. destruct f as [|x f]; cbn [nonempty] in Hw, Hlen.
        { cbn [weave length] in Hw, Hlen. destruct ds as [|d ds]; [|cbn in Hlen; lia].
          subst s. exists []. cbn. auto. }
        { exists ds. split; [exact Hds|]. cbn [length] in *. split; [|lia].
          destruct ds as [|d ds]; cbn [weave] in *; rewrite <- Hw; reflexivity. }
      * rewrite drop_last_empty_cons in * by discriminate. exists ds. split; [exact Hds|].
        cbn [length] in *. split; [|lia].
        destruct ds; cbn [weave] in *; rewrite <- Hw; reflexivity.
Qed.

Lemma c03_rejoin s delims toks sq :
  squashSpaces s = Ok sq ->
  split s delims false = Ok toks ->
  (forall t c, In t toks -> In c t -> ~ In c delims) /\
  (exists ds, (forall d, In d ds -> In d delims) /\ weave toks ds = sq /\
              length ds <= length toks <= S (length ds)).
Proof.
  rewrite squashSpaces_spec, split_spec. destruct (forallb is_space s); [discriminate|].
  intros [= <-] [= <-]. cbn [keep]. split.
  - intros t c Ht Hc Hd. apply drop_last_empty_incl in Ht.
    pose proof (fields_nodelims (In_delims delims) (join (lit " ") (words s))) as HF.
    rewrite Forall_forall in HF. specialize (HF _ Ht). rewrite forallb_forall in HF.
    specialize (HF _ Hc). apply In_delims_iff in Hd. rewrite Hd in HF. discriminate.
  - destruct (weave_fields_len (In_delims delims) (join (lit " ") (words s))) as (ds & Hds & Hw & Hl).
    exists ds. split; [|auto]. intros d Hd. rewrite forallb_forall in Hds. apply In_delims_iff. auto.
Qed.

Lemma c04 s delims toks :
  split s delims false = Ok toks ->
  split s delims true = Ok (filter (fun t => negb (Nat.eqb (length t) 0)) toks).
Proof.
  rewrite !split_spec. destruct (forallb is_space s); [discriminate|]. intros [= <-]. f_equal.
  cbn [keep]. apply filter_ext. intros []; reflexivity.
Qed.
