(* P_TreeObj.v -- C126: several property trees and copies of them *)
From Coq Require Import Lia.
From Verif Require Import Base M_PropertyTree S_PropertyTree M_TreeObj S_TreeObj L_PropertyTree C_PropertyTree.

Lemma after_snoc nk l r : forall h, after_reads nk h (l ++ [r]) = fst (readFile nk (after_reads nk h l) r).
Proof. induction l as [|x l IH]; intros h; [reflexivity|]. cbn. apply IH. Qed.
Lemma put_same {A} (l : list A) : forall i x, i < length l -> nth_error (put_nth l i x) i = Some x.
Proof. induction l; intros [|i] x L; cbn in *; try lia; [reflexivity|apply IHl; lia]. Qed.
Lemma put_other {A} (l : list A) : forall i j x, i <> j -> nth_error (put_nth l i x) j = nth_error l j.
Proof. induction l; intros [|i] [|j] x N; cbn; try congruence; auto. Qed.
Lemma put_len {A} (l : list A) : forall i x, length (put_nth l i x) = length l.
Proof. induction l; intros [|i] x; cbn; auto. Qed.

Definition agree nk (w : tworld) (f : fam) : Prop := t_heaps w = map (tree nk) (f_read f) /\ t_objs w = f_objs f.
Definition in_range (f : fam) : Prop := forall i k, family f i = Some k -> k < length (f_read f).

Lemma map_add nk l : forall k h r, nth_error (map (tree nk) l) k = Some h -> put_nth (map (tree nk) l) k (fst (readFile nk h r)) = map (tree nk) (add_to l k r).
Proof.
  induction l as [|x l IH]; intros [|k] h r E; try discriminate; cbn in *.
  - injection E as <-. f_equal. unfold tree. symmetry. apply after_snoc.
  - f_equal. apply IH, E.
Qed.
Lemma root_family nk w f i : agree nk w f -> root_of w i = family f i.
Proof. intros [_ E]. unfold root_of, family. rewrite E. reflexivity. Qed.
Lemma agree_step nk w f o w' e : agree nk w f -> tdo nk w o = Some (w', e) -> agree nk w' (fdo f o (match e with None => true | Some _ => false end)).
Proof.
  intros A D. pose proof (fun i => root_family nk w f i A) as RF. destruct A as [A1 A2]. destruct o as [|r|i|i j|i r|i]; cbn [tdo] in D.
  - injection D as <- <-. split; cbn; [rewrite A1, map_app; reflexivity|]. rewrite A1, A2, map_length. reflexivity.
  - destruct (readFile nk new_tree r) as [h e'] eqn:E. injection D as <- <-. split; cbn.
    + rewrite A1, map_app. cbn [map]. change (tree nk [r]) with (fst (readFile nk new_tree r)). rewrite E. reflexivity.
    + rewrite A1, A2, map_length. destruct e'; reflexivity.
  - rewrite RF in D. destruct (family f i) eqn:F; [|discriminate]. injection D as <- <-. split; cbn; [exact A1|rewrite A2, F; reflexivity].
  - rewrite !RF in D. destruct (family f i); [|discriminate]. destruct (family f j) eqn:F; [|discriminate]. injection D as <- <-. split; cbn; [exact A1|rewrite A2, F; reflexivity].
  - rewrite RF in D. cbn. destruct (family f i) as [k|] eqn:F; [|discriminate]. destruct (nth_error (t_heaps w) k) as [h|] eqn:H; [|discriminate].
    destruct (readFile nk h r) as [h' e'] eqn:E. injection D as <- <-. split; cbn; [|exact A2]. rewrite A1 in *.
    replace h' with (fst (readFile nk h r)) by (rewrite E; reflexivity). apply map_add, H.
  - rewrite RF in D. destruct (family f i); [|discriminate]. injection D as <- <-. split; cbn; [exact A1|rewrite A2; reflexivity].
Qed.
Lemma agree_run nk p : forall w f w' es, agree nk w f -> trun nk w p = Some (w', es) -> agree nk w' (frun f p es).
Proof.
  induction p as [|o p IH]; intros w f w' es A R; cbn in R; [injection R as <- <-; exact A|].
  destruct (tdo nk w o) as [[w1 e]|] eqn:D; [|discriminate]. destruct (trun nk w1 p) as [[w2 es2]|] eqn:R2; [|discriminate]. injection R as <- <-.
  cbn. eapply IH; [|exact R2]. eapply agree_step; eauto.
Qed.
Lemma agree_none nk : agree nk t_none no_objects. Proof. split; reflexivity. Qed.

(* through each object one sees the tree made of the files read into its family, in order *)
Theorem C126_what_a_tree_holds : forall nk p w es i, trun nk t_none p = Some (w, es) ->
  tree_of w i = option_map (tree nk) (files (frun no_objects p es) i).
Proof.
  intros nk p w es i R. pose proof (agree_run _ _ _ _ _ _ (agree_none nk) R) as A. unfold tree_of, files. rewrite (root_family _ _ _ i A). destruct A as [A _].
  destruct (family (frun no_objects p es) i) as [k|]; [|reflexivity]. rewrite A, nth_error_map. reflexivity.
Qed.
Print Assumptions C126_what_a_tree_holds.

(* ---- separate trees ---- *)
Definition single (f : fam) : Prop := forall i j k, family f i = Some k -> family f j = Some k -> i = j.
Lemma family_app l l' o i : family (mkF l' (l ++ [o])) i = if Nat.eqb i (length l) then o else family (mkF l' l) i.
Proof.
  unfold family. cbn. destruct (Nat.eqb_spec i (length l)) as [->|N]; [rewrite nth_error_app2, Nat.sub_diag by lia; cbn; destruct o; reflexivity|].
  destruct (le_lt_dec (length l) i) as [L|L]; [|rewrite nth_error_app1 by exact L; reflexivity].
  assert (E1 : nth_error (l ++ [o]) i = None) by (apply nth_error_None; rewrite app_length; cbn; lia).
  assert (E2 : nth_error l i = None) by (apply nth_error_None; lia). rewrite E1, E2. reflexivity.
Qed.
Lemma family_len l l' i k : family (mkF l' l) i = Some k -> i < length l.
Proof. unfold family. cbn. destruct (nth_error l i) eqn:E; [intros _; apply nth_error_Some; congruence|discriminate]. Qed.
Lemma family_put l l' i o j : i < length l -> family (mkF l' (put_nth l i o)) j = if Nat.eqb j i then o else family (mkF l' l) j.
Proof.
  intros L. unfold family. cbn. destruct (Nat.eqb_spec j i) as [->|N]; [rewrite put_same by exact L; destruct o; reflexivity|]. rewrite put_other by auto. reflexivity.
Qed.
Lemma add_len l : forall k r, length (add_to l k r) = length l.
Proof. induction l; intros [|k] r; cbn; auto. Qed.
Lemma range_step nk w f o w' e : agree nk w f -> in_range f -> tdo nk w o = Some (w', e) -> in_range (fdo f o (match e with None => true | Some _ => false end)).
Proof.
  intros A R D i k F. pose proof (fun i => root_family nk w f i A) as RF. destruct f as [rd ob]. unfold in_range in R. cbn [f_read] in R.
  destruct o as [|r|i0|i0 j0|i0 r|i0]; cbn [fdo f_read f_objs] in *.
  - rewrite family_app in F. rewrite app_length. cbn. destruct (Nat.eqb_spec i (length ob)); [injection F as <-; lia|]. specialize (R i k F). lia.
  - rewrite app_length. cbn. destruct e; [specialize (R i k F); lia|]. rewrite family_app in F.
    destruct (Nat.eqb_spec i (length ob)); [injection F as <-; lia|]. specialize (R i k F). lia.
  - rewrite family_app in F. destruct (Nat.eqb_spec i (length ob)); eauto.
  - cbn in D. rewrite !RF in D. destruct (family (mkF rd ob) i0) eqn:E; [|discriminate]. apply family_len in E. rewrite family_put in F by exact E.
    destruct (Nat.eqb_spec i i0); eauto.
  - destruct (family (mkF rd ob) i0); cbn [f_read]; [rewrite add_len|]; exact (R i k F).
  - cbn in D. rewrite !RF in D. destruct (family (mkF rd ob) i0) eqn:E; [|discriminate]. apply family_len in E. rewrite family_put in F by exact E.
    destruct (Nat.eqb_spec i i0); [discriminate|eauto].
Qed.
Lemma single_step nk w f o w' e : agree nk w f -> in_range f -> single f -> plain o -> tdo nk w o = Some (w', e) -> single (fdo f o (match e with None => true | Some _ => false end)).
Proof.
  intros A R S P D i j k F G. pose proof (fun i => root_family nk w f i A) as RF. destruct f as [rd ob]. unfold in_range in R. cbn [f_read] in R.
  destruct o as [|r|i0|i0 j0|i0 r|i0]; cbn [fdo f_read f_objs] in *; try contradiction.
  - rewrite family_app in F, G. destruct (Nat.eqb_spec i (length ob)), (Nat.eqb_spec j (length ob)); subst; auto.
    + injection F as <-. specialize (R _ _ G). lia.
    + injection G as <-. specialize (R _ _ F). lia.
    + exact (S i j k F G).
  - destruct e; [exact (S i j k F G)|]. rewrite family_app in F, G. destruct (Nat.eqb_spec i (length ob)), (Nat.eqb_spec j (length ob)); subst; auto.
    + injection F as <-. specialize (R _ _ G). lia.
    + injection G as <-. specialize (R _ _ F). lia.
    + exact (S i j k F G).
  - destruct (family (mkF rd ob) i0); exact (S i j k F G).
  - cbn in D. rewrite !RF in D. destruct (family (mkF rd ob) i0) eqn:E; [|discriminate]. apply family_len in E. rewrite family_put in F, G by exact E.
    destruct (Nat.eqb_spec i i0); [discriminate|]. destruct (Nat.eqb_spec j i0); [discriminate|]. exact (S i j k F G).
Qed.
Lemma single_run nk p : forall w f w' es, agree nk w f -> in_range f -> single f -> Forall plain p -> trun nk w p = Some (w', es) -> single (frun f p es).
Proof.
  induction p as [|o p IH]; intros w f w' es A R S P E; cbn in E; [injection E as <- <-; exact S|].
  destruct (tdo nk w o) as [[w1 e]|] eqn:D; [|discriminate]. destruct (trun nk w1 p) as [[w2 es2]|] eqn:R2; [|discriminate]. injection E as <- <-.
  inversion P; subst. cbn. eapply IH; [eapply agree_step; eauto|eapply range_step; eauto|eapply single_step; eauto|assumption|exact R2].
Qed.
Lemma read_other nk w i j r w' e : root_of w i <> root_of w j -> tdo nk w (TRead i r) = Some (w', e) -> tree_of w' j = tree_of w j.
Proof.
  intros N D. cbn in D. destruct (root_of w i) as [k|] eqn:F; [|discriminate]. destruct (nth_error (t_heaps w) k) as [h|]; [|discriminate].
  destruct (readFile nk h r) as [h' e']. injection D as <- <-. unfold tree_of, root_of in *. cbn. destruct (nth_error (t_objs w) j) as [[k'|]|]; auto.
  apply put_other. congruence.
Qed.
(* trees that are not copies of one another have nothing in common: in a program
   without copies, reading into one (or destroying it) leaves all others alone *)
Theorem C126_separate_trees_partial : forall nk p w es i j o w' e, Forall plain p -> trun nk t_none p = Some (w, es) ->
  i <> j -> (exists r, o = TRead i r) \/ o = TEnd i -> tdo nk w o = Some (w', e) -> tree_of w' j = tree_of w j.
Proof.
  intros nk p w es i j o w' e P R N [(r&->)| ->] D.
  - pose proof (agree_run _ _ _ _ _ _ (agree_none nk) R) as A.
    assert (E0 : forall i, family no_objects i = None) by (intros [|]; reflexivity).
    assert (S : single (frun no_objects p es)).
    { eapply single_run; [apply agree_none| | |exact P|exact R]; [intros x k F|intros x y k F]; rewrite E0 in F; discriminate. }
    eapply read_other; [|exact D]. intros Q. cbn in D. rewrite !(root_family _ _ _ _ A) in *. destruct (family (frun no_objects p es) i) as [k|] eqn:F; [|discriminate].
    apply N. exact (S i j k F (eq_sym Q)).
  - cbn in D. destruct (root_of w i); [|discriminate]. injection D as <- <-. unfold tree_of, root_of. cbn. rewrite put_other by exact N. reflexivity.
Qed.
Print Assumptions C126_separate_trees_partial.
(* false for copies: a file read into the copy is in the original *)
Definition one_entry : load_result := Loaded (YMap [(YScalar (lit "a"), YScalar (lit "7"))]).
Theorem C126_copy_refuted : forall nk, exists w es w' h h',
  trun nk t_none [TNew; TCopy 0] = Some (w, es) /\ tdo nk w (TRead 1 one_entry) = Some (w', None) /\ tree_of w 0 = Some h /\ tree_of w' 0 = Some h' /\ ~ (exists m, follows h root [lit "a"] m) /\ exists m, follows h' root [lit "a"] m /\ terminal_with h' m (lit "7").
Proof.
  intros nk. do 5 eexists. split; [reflexivity|]. split; [reflexivity|]. split; [reflexivity|]. split; [reflexivity|]. split.
  - intros (m&F). inversion F as [|n x k m' ks q E J]; subst. cbn in E. injection E as <-. destruct J.
  - exists 1. split; [|eexists; split; [reflexivity|split; reflexivity]]. econstructor; [reflexivity|left; reflexivity|]. constructor. cbn. lia.
Qed.
Print Assumptions C126_copy_refuted.
(* exactly: a copy shows the same tree as its original from then on, until one of the two is assigned to *)
Definition keeps (i j : nat) (o : top) : Prop := match o with TAssign k _ => k <> i /\ k <> j | TEnd k => k <> i /\ k <> j | _ => True end.
Theorem C126_copy_is_same_partial : forall nk w i w1 e, root_of w i <> None -> tdo nk w (TCopy i) = Some (w1, e) ->
  let c := length (t_objs w) in
  forall p w2 es, Forall (keeps i c) p -> trun nk w1 p = Some (w2, es) -> tree_of w2 c = tree_of w2 i /\ root_of w2 c <> None.
Proof.
  intros nk w i w1 e Ri D c. cbn in D. destruct (root_of w i) as [k|] eqn:E; [|congruence]. injection D as <- _.
  assert (L : i < length (t_objs w)).
  { unfold root_of in E. destruct (nth_error (t_objs w) i) eqn:X; [|discriminate]. apply nth_error_Some. congruence. }
  assert (S0 : root_of (mkT (t_heaps w) (t_objs w ++ [Some k])) c = Some k /\ root_of (mkT (t_heaps w) (t_objs w ++ [Some k])) i = Some k).
  { unfold root_of in *. cbn. unfold c. rewrite nth_error_app2, Nat.sub_diag, nth_error_app1 by lia. auto. }
  set (w0 := mkT (t_heaps w) (t_objs w ++ [Some k])) in *. clearbody w0. intros p. revert w0 S0. clear E L Ri. generalize dependent c. clear w. intros c.
  induction p as [|o p IH]; intros w [Sc Si] w2 es K R; cbn in R.
  - injection R as <- <-. split; [unfold tree_of; rewrite Sc, Si; reflexivity|congruence].
  - destruct (tdo nk w o) as [[w1 e1]|] eqn:D; [|discriminate]. destruct (trun nk w1 p) as [[w3 es3]|] eqn:R2; [|discriminate]. injection R as <- <-.
    inversion K as [|? ? K1 K2]; subst. eapply IH; [|exact K2|exact R2]. clear IH R2 K K2.
    assert (AP : forall l x (v : nat), match nth_error l x with Some (Some r) => Some r | _ => None end = Some v -> forall y,
      match nth_error (l ++ [y]) x with Some (Some r) => Some r | _ => None end = Some v).
    { intros l x v X y. destruct (nth_error l x) eqn:Y; [|discriminate]. rewrite nth_error_app1, Y by (apply nth_error_Some; congruence). exact X. }
    destruct o as [|r|i0|i0 j0|i0 r|i0]; cbn in D, K1; unfold root_of in *.
    + injection D as <- <-. cbn. split; apply AP; assumption.
    + destruct (readFile nk new_tree r) as [h [ex|]]; injection D as <- <-; cbn; [auto|]. split; apply AP; assumption.
    + destruct (nth_error (t_objs w) i0) as [[k0|]|]; try discriminate. injection D as <- <-. cbn. split; apply AP; assumption.
    + destruct (nth_error (t_objs w) i0) as [[k0|]|]; try discriminate. destruct (nth_error (t_objs w) j0) as [[k1|]|]; try discriminate. injection D as <- <-. cbn.
      rewrite !put_other by tauto. auto.
    + destruct (nth_error (t_objs w) i0) as [[k0|]|]; try discriminate. destruct (nth_error (t_heaps w) k0); [|discriminate]. destruct (readFile nk h r). injection D as <- <-. auto.
    + destruct (nth_error (t_objs w) i0) as [[k0|]|]; try discriminate. injection D as <- <-. cbn. rewrite !put_other by tauto. auto.
Qed.
Print Assumptions C126_copy_is_same_partial.
Lemma add_ext l : forall k r i x, nth_error l i = Some x -> exists y, nth_error (add_to l k r) i = Some (x ++ y).
Proof.
  induction l as [|a l IH]; intros [|k] r [|i] x E; cbn in *; try discriminate.
  - injection E as <-. eauto.
  - exists []. rewrite app_nil_r. exact E.
  - injection E as <-. exists []. rewrite app_nil_r. reflexivity.
  - eauto.
Qed.
Lemma frun_ext p : forall f es i x, nth_error (f_read f) i = Some x -> exists y, nth_error (f_read (frun f p es)) i = Some (x ++ y).
Proof.
  assert (Z : forall (l : list (list load_result)) i x, nth_error l i = Some x -> exists y, nth_error l i = Some (x ++ y)) by (intros l i x E; exists []; rewrite app_nil_r; exact E).
  induction p as [|o p IH]; intros f es i x E; [exact (Z _ _ _ E)|]. destruct es as [|e es]; [exact (Z _ _ _ E)|]. cbn [frun].
  set (ok := match e with None => true | Some _ => false end).
  assert (S : exists y, nth_error (f_read (fdo f o ok)) i = Some (x ++ y)).
  { assert (L : i < length (f_read f)) by (apply nth_error_Some; congruence).
    destruct o as [|r|i0|i0 j0|i0 r|i0]; cbn; try exact (Z _ _ _ E); try (rewrite nth_error_app1 by exact L; exact (Z _ _ _ E)).
    destruct (family f i0); cbn; [apply add_ext, E|exact (Z _ _ _ E)]. }
  destruct S as (y&S). destruct (IH _ es _ _ S) as (y'&Q). exists (y ++ y'). rewrite app_assoc. exact Q.
Qed.
(* a node, once there, stays where it is, whatever happens to the objects *)
Theorem C126_nodes_outlive_objects : forall nk p w es p2 w2 es2 r h n x, trun nk t_none p = Some (w, es) -> trun nk w p2 = Some (w2, es2) ->
  nth_error (t_heaps w) r = Some h -> nth_error h n = Some x ->
  exists h2 y, nth_error (t_heaps w2) r = Some h2 /\ nth_error h2 n = Some y /\
    n_parent y = n_parent x /\ n_val y = n_val x /\ n_term y = n_term x /\ (n <> root -> y = x).
Proof.
  intros nk p w es p2 w2 es2 r h n x R1 R2 H N. pose proof (agree_run _ _ _ _ _ _ (agree_none nk) R1) as A. pose proof (agree_run _ _ _ _ _ _ A R2) as A2.
  destruct A as [A _], A2 as [A2 _]. rewrite A, nth_error_map in H. destruct (nth_error (f_read (frun no_objects p es)) r) as [l|] eqn:E; [|discriminate]. injection H as <-.
  destruct (frun_ext p2 _ es2 _ _ E) as (l2&E2). destruct (c88 nk l l2 n x N) as (y&Y&Q). exists (tree nk (l ++ l2)), y. rewrite A2, nth_error_map, E2. auto.
Qed.
Print Assumptions C126_nodes_outlive_objects.
(* two trees and a copy; the original is destroyed; the copy goes on *)
Example C126_nonvacuous : exists w es h0, trun None t_none [TNew; TOpen one_entry; TCopy 0; TRead 0 one_entry; TEnd 0; TOpen (LoadBadFile (lit "x"))] = Some (w, es) /\
  tree_of w 0 = None /\ tree_of w 2 = Some h0 /\ tree_of w 1 = Some h0 /\ h0 = tree None [one_entry] /\ follows h0 root [lit "a"] 1 /\
  length (t_heaps w) = 3 /\ length (t_objs w) = 3 /\ root_of w 2 <> root_of w 1.
Proof.
  do 3 eexists. split; [reflexivity|]. split; [reflexivity|]. split; [reflexivity|]. split; [reflexivity|]. split; [reflexivity|].
  split; [econstructor; [reflexivity|left; reflexivity|]; constructor; cbn; lia|]. split; [reflexivity|]. split; [reflexivity|]. discriminate.
Qed.
