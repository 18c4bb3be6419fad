(* L_SplitJoin.v -- join followed by split. *)
From Verif Require Import Base M_Split S_Split L_Split C_Split S_SplitJoin.

Lemma fields_join p d l : l <> [] -> p d = true -> Forall (fun f => forallb (fun c => negb (p c)) f = true) l ->
  fields p (join [d] l) = l.
Proof.
  intros N D. induction l as [|x l IH]; [congruence|]. intros H. inversion H as [|? ? Hx Hl]; subst. destruct l as [|y l].
  - cbn [join]. apply fields_nodelim. exact Hx.
  - rewrite join_cons_cons. cbn [app]. rewrite fields_nodelim_app by assumption. rewrite IH by (congruence || assumption). reflexivity.
Qed.
Lemma join_fields p d s : (forall c, In c s -> p c = true -> c = d) -> join [d] (fields p s) = s.
Proof.
  induction s as [|c s IH]; [reflexivity|]. intros H. assert (Hs : forall x, In x s -> p x = true -> x = d) by (intros x I; apply H; right; exact I).
  specialize (IH Hs). destruct (fields_cons_ex p s) as (f & fs & E). cbn [fields]. rewrite E in *. destruct (p c) eqn:Pc.
  - rewrite (H c (or_introl eq_refl) Pc). rewrite join_cons_cons, IH. reflexivity.
  - rewrite join_cons_head, IH. reflexivity.
Qed.

Definition doubled (s : str) : Prop := exists a b, s = a ++ " "%char :: " "%char :: b.
Lemma doubled_cons c s : doubled s -> doubled (c :: s).
Proof. intros (a & b & ->). exists (c :: a), b. reflexivity. Qed.
(* a text without superfluous spaces is its words *)
Lemma space_fields s : ~ doubled s -> hd_error (rev s) <> Some " "%char ->
  Forall (fun f => nonempty f = true) (tl (fields is_space s)) /\
  (s <> [] -> hd_error s <> Some " "%char -> Forall (fun f => nonempty f = true) (fields is_space s)).
Proof.
  induction s as [|c s IH]; intros D L; [split; [constructor|congruence]|].
  assert (D' : ~ doubled s) by (intros X; exact (D (doubled_cons c s X))).
  assert (L' : hd_error (rev s) <> Some " "%char).
  { cbn [rev] in L. destruct (rev s); [discriminate|exact L]. }
  destruct (IH D' L') as (H1 & H2). destruct (fields_cons_ex is_space s) as (f & fs & E). cbn [fields]. rewrite E in *. cbn [tl] in H1.
  destruct (is_space c) eqn:Hc.
  - apply Ascii.eqb_eq in Hc. subst c. cbn [tl]. split; [|intros _ H; elim H; reflexivity].
    apply H2.
    + intros ->. apply L. reflexivity.
    + destruct s as [|x s]; [discriminate|]. cbn. intros [= ->]. apply D. exists [], s. reflexivity.
  - cbn [tl]. split; [exact H1|]. intros _ _. constructor; [reflexivity|exact H1].
Qed.
Lemma filter_all {A} (g : A -> bool) l : Forall (fun x => g x = true) l -> filter g l = l.
Proof. induction 1 as [|x l H _ IH]; [reflexivity|]. cbn. rewrite H, IH. reflexivity. Qed.
Lemma squash_tidy s : s <> [] -> hd_error s <> Some " "%char -> hd_error (rev s) <> Some " "%char -> ~ doubled s ->
  join (lit " ") (words s) = s /\ forallb is_space s = false.
Proof.
  intros N H L D. split.
  - unfold words. rewrite filter_all by (apply space_fields; assumption). change (lit " ") with [" "%char]. apply join_fields.
    intros c _ E. apply Ascii.eqb_eq in E. exact E.
  - destruct s as [|c s]; [congruence|]. cbn. destruct (is_space c) eqn:E; [|reflexivity]. apply Ascii.eqb_eq in E. subst. elim H. reflexivity.
Qed.

(* where the spaces of a joined line come from *)
Lemma join_doubled d l : d <> " "%char -> doubled (join [d] l) -> exists f, In f l /\ doubled f.
Proof.
  intros N. induction l as [|x l IH].
  - intros ([|? ?] & b & H); discriminate.
  - destruct l as [|y l]; [intros H; exists x; split; [left; reflexivity|exact H]|]. rewrite join_cons_cons. cbn [app].
    intros (a & b & H). apply app_eq_app in H. destruct H as (m & [(E1 & E2)|(E1 & E2)]).
    + destruct m as [|m1 [|m2 m]]; cbn [app] in E2; injection E2; intros; subst; try congruence.
      exists (a ++ " "%char :: " "%char :: m). split; [left; reflexivity|]. exists a, m. reflexivity.
    + destruct m as [|m1 m]; cbn [app] in E2; injection E2; intros; subst; try congruence.
      destruct IH as (f & I & F); [exists m, b; assumption|]. exists f. split; [right; exact I|exact F].
Qed.
Lemma join_has d l f : In f l -> exists a b, join [d] l = a ++ f ++ b.
Proof.
  induction l as [|x l IH]; [intros []|]. destruct l as [|y l].
  - intros [->|[]]. exists [], []. cbn. rewrite app_nil_r. reflexivity.
  - rewrite join_cons_cons. intros [->|I].
    + exists [], ([d] ++ join [d] (y :: l)). reflexivity.
    + destruct (IH I) as (a & b & E). exists (x ++ [d] ++ a), b. rewrite E, <- !app_assoc. reflexivity.
Qed.
Lemma join_first d f r : d <> " "%char -> hd_error (join [d] (f :: r)) = Some " "%char <-> hd_error f = Some " "%char.
Proof.
  intros N. destruct r as [|y r]; [reflexivity|]. rewrite join_cons_cons. destruct f as [|c f]; cbn; [|reflexivity].
  split; [intros [= E]; congruence|discriminate].
Qed.
Lemma join_snoc d r f : r <> [] -> join [d] (r ++ [f]) = join [d] r ++ d :: f.
Proof.
  induction r as [|x r IH]; [congruence|]. intros _. destruct r as [|y r]; [reflexivity|].
  change ((x :: y :: r) ++ [f]) with (x :: (y :: r) ++ [f]). cbn [app]. rewrite !join_cons_cons.
  change (y :: r ++ [f]) with ((y :: r) ++ [f]). rewrite IH by discriminate. rewrite <- !app_assoc. reflexivity.
Qed.
Lemma join_last_char d r f : d <> " "%char -> hd_error (rev (join [d] (r ++ [f]))) = Some " "%char <-> hd_error (rev f) = Some " "%char.
Proof.
  intros N. destruct r as [|x r]; [reflexivity|]. rewrite join_snoc by discriminate. rewrite rev_app_distr. cbn [rev]. rewrite <- app_assoc.
  destruct (rev f) as [|c g]; cbn; [|reflexivity]. split; [intros [= E]; congruence|discriminate].
Qed.
Lemma drop_last_snoc r f : drop_last_empty (r ++ [f]) = if nonempty f then r ++ [f] else r.
Proof.
  induction r as [|x r IH]; [reflexivity|]. cbn [app]. rewrite drop_last_empty_cons by (destruct r; discriminate). rewrite IH. destruct (nonempty f); reflexivity.
Qed.
Lemma snoc_ex {A} (l : list A) : l <> [] -> exists r f, l = r ++ [f].
Proof. intros H. destruct (exists_last H) as (r & f & E). eauto. Qed.
Lemma filter_len {A} (g : A -> bool) (x : A) l : g x = true -> length (filter g (l ++ [x])) = S (length (filter g l)).
Proof. intros H. rewrite filter_app, app_length. cbn. rewrite H. cbn. lia. Qed.

Lemma join_no (p : ascii -> bool) d c t : p c = true -> c <> d -> Forall (fun f => forallb (fun c => negb (p c)) f = true) t -> In c (join [d] t) -> False.
Proof.
  intros Pc E. induction t as [|x t IH]; [intros _ []|]. intros F. inversion F as [|? ? Fx Ft]; subst.
  assert (Nx : ~ In c x) by (intros X; rewrite forallb_forall in Fx; specialize (Fx c X); rewrite Pc in Fx; discriminate).
  destruct t as [|y t]; [exact Nx|]. rewrite join_cons_cons. rewrite !in_app_iff. intros [X|[[X|[]]|X]]; [exact (Nx X)|congruence|exact (IH Ft X)].
Qed.
Lemma split_join d delims l : l <> [] -> In d delims -> d <> " "%char -> ~ In " "%char delims ->
  (forall f c, In f l -> In c f -> ~ In c delims) ->
  (split (join [d] l) delims false = Ok l <-> tidy l).
Proof.
  intros N Id Nd Ns Hf. set (p := In_delims delims). assert (Pd : p d = true) by (apply In_delims_iff; exact Id).
  assert (Fo : Forall (fun f => forallb (fun c => negb (p c)) f = true) l).
  { apply Forall_forall. intros f I. apply forallb_forall. intros c J. apply negb_true_iff. destruct (p c) eqn:E; [|reflexivity].
    apply In_delims_iff in E. elim (Hf f c I J E). }
  assert (FJ := fields_join p d l N Pd Fo). set (s := join [d] l) in *. rewrite split_spec. split.
  - destruct (forallb is_space s) eqn:B; [discriminate|]. intros H%Ok_inj. cbn [keep] in H.
    assert (SQ : squashSpaces s = Ok (join (lit " ") (words s))) by (rewrite squashSpaces_spec, B; reflexivity).
    set (q := join (lit " ") (words s)) in *. destruct (c01_shape s q SQ) as (Q1 & Q2 & Q3 & Q4 & _).
    assert (Qd : forall c, In c q -> p c = true -> c = d).
    { intros c Ic Pc. destruct (Ascii.eqb_spec c d) as [E|E]; [exact E|]. exfalso.
      assert (Sp : is_space c = false) by (destruct (is_space c) eqn:X; [apply Ascii.eqb_eq in X; rewrite X in Pc; apply In_delims_iff in Pc; contradiction|reflexivity]).
      assert (Is : In c s). { apply (proj1 (filter_In (fun c => negb (is_space c)) c s)). rewrite <- Q4. apply filter_In. rewrite Sp. auto. }
      exact (join_no p d c l Pc E Fo Is). }
    assert (JQ : join [d] (fields p q) = q) by (apply join_fields; exact Qd).
    destruct (snoc_ex (fields p q) (fields_nonnil p q)) as (r & f & E). fold p in H.
    assert (H' : drop_last_empty (fields p q) = l).
    { exact H. }
    rewrite E, drop_last_snoc in H'. destruct (nonempty f) eqn:Nf.
    + rewrite E, H' in JQ. fold s in JQ. rewrite <- JQ in Q1, Q2, Q3. unfold tidy. split; [|split].
      * intros g a b I ->. destruct (join_has d l _ I) as (u & v & J). fold s in J. apply (Q3 (u ++ a) (b ++ v)). rewrite J, <- !app_assoc. reflexivity.
      * intros g t El X. apply Q1. unfold s. rewrite El. apply (join_first d g t Nd). exact X.
      * intros t g El. rewrite <- H' in El. apply app_inj_tail in El. destruct El as (<- & <-). split; [destruct f; discriminate|].
        intros X. apply Q2. unfold s. rewrite <- H'. apply (join_last_char d r f Nd). exact X.
    + destruct f; [|discriminate]. subst r. rewrite E in JQ. rewrite join_snoc in JQ by exact N. fold s in JQ. rewrite <- JQ in Q4.
      assert (Sd : negb (is_space d) = true) by (apply negb_true_iff; apply Ascii.eqb_neq; exact Nd).
      assert (X := filter_len (fun c => negb (is_space c)) d s Sd). rewrite Q4 in X. lia.
  - intros (T1 & T2 & T3). destruct (snoc_ex l N) as (r & f & E). destruct (T3 r f E) as (Nf & Lf).
    assert (S0 : s <> []).
    { unfold s. rewrite E. destruct r as [|x r]; [exact Nf|]. rewrite join_snoc by discriminate. destruct (join [d] (x :: r)); discriminate. }
    assert (S1 : hd_error s <> Some " "%char).
    { destruct l as [|x t] eqn:El; [congruence|]. intros X. apply (T2 x t eq_refl). apply (join_first d x t Nd). exact X. }
    assert (S2 : hd_error (rev s) <> Some " "%char) by (unfold s; rewrite E; intros X; apply Lf; apply (join_last_char d r f Nd); exact X).
    assert (S3 : ~ doubled s) by (intros X; destruct (join_doubled d l Nd X) as (g & I & a & b & G); exact (T1 g a b I G)).
    destruct (squash_tidy s S0 S1 S2 S3) as (J & B). rewrite B, J. fold p. rewrite FJ, E, drop_last_snoc. destruct f; [congruence|].
    reflexivity.
Qed.

(* ---- the space is a delimiter ---- *)
Lemma split_join_other d delims l : l <> [] -> In d delims -> d <> " "%char -> In " "%char delims ->
  (forall f c, In f l -> In c f -> ~ In c delims) ->
  (split (join [d] l) delims false = Ok l <-> forall r f, l = r ++ [f] -> f <> []).
Proof.
  intros N Id Nd Is Hf. set (p := In_delims delims). assert (Pd : p d = true) by (apply In_delims_iff; exact Id).
  assert (Fo : Forall (fun f => forallb (fun c => negb (p c)) f = true) l).
  { apply Forall_forall. intros f I. apply forallb_forall. intros c J. apply negb_true_iff. destruct (p c) eqn:E; [|reflexivity].
    apply In_delims_iff in E. elim (Hf f c I J E). }
  assert (FJ := fields_join p d l N Pd Fo). set (s := join [d] l) in *.
  assert (Sp : ~ In " "%char s).
  { intros X. apply (join_no p d " "%char l); [apply In_delims_iff; exact Is|congruence|exact Fo|exact X]. }
  rewrite split_spec. destruct (snoc_ex l N) as (r & f & E).
  assert (Tidy : s <> [] -> join (lit " ") (words s) = s /\ forallb is_space s = false).
  { intros S0. apply squash_tidy; [exact S0| | |].
    - intros X. apply Sp. destruct s as [|c t]; [discriminate|]. injection X as ->. left. reflexivity.
    - intros X. apply Sp. apply in_rev. destruct (rev s); [discriminate|]. injection X as ->. left. reflexivity.
    - intros (a & b & X). apply Sp. rewrite X. apply in_or_app. right. left. reflexivity. }
  split.
  - destruct (forallb is_space s) eqn:B; [discriminate|]. intros H%Ok_inj. cbn [keep] in H.
    assert (S0 : s <> []) by (intros X; rewrite X in B; discriminate).
    destruct (Tidy S0) as (J & _). rewrite J in H. fold p in H. rewrite FJ in H. intros r' f' E'.
    rewrite E', drop_last_snoc in H. destruct f' as [|c f']; [|discriminate]. cbn [nonempty] in H. intros _.
    apply (f_equal (@length str)) in H. rewrite app_length in H. cbn in H. lia.
  - intros L. specialize (L r f E). assert (S0 : s <> []).
    { unfold s. rewrite E. destruct r as [|x r]; [exact L|]. rewrite join_snoc by discriminate. destruct (join [d] (x :: r)); discriminate. }
    destruct (Tidy S0) as (J & B). rewrite B, J. fold p. rewrite FJ, E, drop_last_snoc. destruct f; [congruence|]. reflexivity.
Qed.

Lemma filter_fix {A} (g : A -> bool) l : filter g l = l -> Forall (fun x => g x = true) l.
Proof. intros H. apply Forall_forall. intros x I. rewrite <- H in I. apply filter_In in I. apply I. Qed.
Lemma drop_last_filter l : drop_last_empty (filter nonempty l) = filter nonempty l.
Proof.
  destruct (filter nonempty l) as [|x t] eqn:E; [reflexivity|]. rewrite <- E. destruct (snoc_ex (filter nonempty l)) as (r & f & S); [rewrite E; discriminate|].
  rewrite S, drop_last_snoc. assert (I : In f (filter nonempty l)) by (rewrite S; apply in_or_app; right; left; reflexivity).
  apply filter_In in I. destruct I as (_ & ->). reflexivity.
Qed.
Lemma split_join_space delims l : l <> [] -> In " "%char delims ->
  (forall f c, In f l -> In c f -> ~ In c delims) ->
  (split (join [" "%char] l) delims false = Ok l <-> forall f, In f l -> f <> []).
Proof.
  intros N Is Hf. set (p := In_delims delims). assert (Pd : p " "%char = true) by (apply In_delims_iff; exact Is).
  assert (Fo : Forall (fun f => forallb (fun c => negb (p c)) f = true) l).
  { apply Forall_forall. intros f I. apply forallb_forall. intros c J. apply negb_true_iff. destruct (p c) eqn:E; [|reflexivity].
    apply In_delims_iff in E. elim (Hf f c I J E). }
  assert (Fs : Forall (fun f => forallb (fun c => negb (is_space c)) f = true) l).
  { apply Forall_forall. intros f I. apply forallb_forall. intros c J. apply negb_true_iff. destruct (is_space c) eqn:E; [|reflexivity].
    apply Ascii.eqb_eq in E. subst c. elim (Hf f _ I J Is). }
  assert (FJ := fields_join is_space " "%char l N eq_refl Fs). rewrite split_spec. unfold words. rewrite FJ.
  assert (Ne : filter nonempty l <> [] -> fields p (join (lit " ") (filter nonempty l)) = filter nonempty l).
  { intros X. apply fields_join; [exact X|exact Pd|]. apply Forall_forall. intros f I. apply filter_In in I. rewrite Forall_forall in Fo. apply Fo, I. }
  fold p. split.
  - destruct (forallb is_space (join [" "%char] l)) eqn:B; [discriminate|]. intros H%Ok_inj. cbn [keep] in H.
    assert (X : filter nonempty l <> []).
    { intros X. rewrite X in H. cbn in H. congruence. }
    rewrite (Ne X), drop_last_filter in H. apply filter_fix in H. rewrite Forall_forall in H. intros f I ->. specialize (H [] I). discriminate.
  - intros A. assert (Fl : filter nonempty l = l).
    { apply filter_all. apply Forall_forall. intros f I. specialize (A f I). destruct f; [congruence|reflexivity]. }
    assert (B : forallb is_space (join [" "%char] l) = false).
    { destruct l as [|x t]; [congruence|]. specialize (A x (or_introl eq_refl)). destruct x as [|c x]; [congruence|].
      assert (Sc : is_space c = false). { inversion Fs as [|? ? Fx _]; subst. cbn in Fx. destruct (is_space c); [discriminate|reflexivity]. }
      destruct t; cbn; rewrite Sc; reflexivity. }
    rewrite B. rewrite (Ne ltac:(rewrite Fl; exact N)), drop_last_filter, Fl. reflexivity.
Qed.
