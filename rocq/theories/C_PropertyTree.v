(* C_PropertyTree.v -- corollaries of L_PropertyTree and L_PropertyTreeP in the
   form of the properties. *)
From Verif Require Import Base L_Map M_Split S_Split L_Split C_Split M_StreamIn M_PropertyTree S_PropertyTree L_PropertyTree L_PropertyTreeP.

Lemma root_node h : wf h -> exists x, nth_error h root = Some x /\ n_parent x = None /\
  n_val x = lit "root" /\ n_term x = false.
Proof.
  intros W. destruct (nth_error h root) as [x|] eqn:Hx.
  - exists x. split; [reflexivity|]. pose proof (wf_parent _ _ _ (proj2 W _ _ Hx)) as P.
    destruct (n_parent x); [unfold root in P; lia|tauto].
  - apply nth_error_None in Hx. destruct W as [W _]. unfold root in Hx. lia.
Qed.

Lemma child_iff h n x k : wf h -> nth_error h n = Some x ->
  ((exists m, follows h n [k] m) <-> exists m, sfind k (n_dict x) = Some m).
Proof.
  intros W Hx. split; intros [m F].
  - apply follows_cons_inv in F. destruct F as (y & m' & Hy & Hin & _). rewrite Hx in Hy. injection Hy as <-.
    exists m'. apply (dict_in_find h n); assumption.
  - apply (dict_in_find h n) in F; [|assumption..]. exists m. econstructor; eauto. constructor.
    destruct (wf_dict _ _ _ (proj2 W _ _ Hx) _ _ F) as (_ & y & Hy & _). eapply nth_len; eauto.
Qed.

Lemma get_exact {A} nk l (read : str -> rd A) tyname p te :
  (exists c, In c p /\ c <> " "%char) ->
  ((forall k, In k (path_keys p) -> exists m, follows (tree nk l) root [k] m) ->
   tree_get read tyname (tree nk l) p te = read_root read tyname te) /\
  ((exists k, In k (path_keys p) /\ forall m, ~ follows (tree nk l) root [k] m) ->
   tree_get read tyname (tree nk l) p te = (None, Throw (propertyNotFound p))).
Proof.
  intros Hp. destruct (reads_new nk l) as [W _]. fold (tree nk l) in W. set (h := tree nk l) in *. clearbody h.
  destruct (root_node h W) as (x & Hx & _ & V & T).
  unfold tree_get, getProp. rewrite (split_path p Hp). cbn [obind].
  rewrite (getPropRecursive_spec h root x p te Hx).
  set (b := forallb _ _). assert (B : b = true <-> forall k, In k (path_keys p) -> exists m, follows h root [k] m).
  { unfold b. rewrite forallb_forall. split; intros H k Hk; specialize (H k Hk).
    - apply (child_iff h root x); [assumption..|]. destruct (sfind k (n_dict x)); [eauto|discriminate].
    - apply (child_iff h root x) in H; [|assumption..]. destruct H as [m ->]. reflexivity. }
  split.
  - intros H. apply B in H. rewrite H. unfold node_get. rewrite Hx, V. unfold read_root.
    destruct (read (lit "root")) as [v|o]; [reflexivity|]. destruct te; [|reflexivity].
    rewrite (path_root h W). reflexivity.
  - intros (k & Hk & N). destruct b; [|destruct te; reflexivity].
    destruct B as [B _]. destruct (B eq_refl k Hk) as [m Hm]. destruct (N m Hm).
Qed.

Lemma get_blank {A} nk l (read : str -> rd A) tyname p te :
  (forall c, In c p -> c = " "%char) -> tree_get read tyname (tree nk l) p te = (None, UB).
Proof. intros H. unfold tree_get, getProp. rewrite (split_blank p H). reflexivity. Qed.

Definition demo_doc : ynode :=
  YMap [(YScalar (lit "a"), YMap [(YScalar (lit "b"), YScalar (lit "7"))]); (YScalar (lit "c"), YScalar (lit "5"))].

Lemma c72_refuted : exists d h, (forall nk, readFile nk new_tree (Loaded d) = (h, None)) /\
  (forall nk, at_path nk d [lit "a"; lit "b"] = Some (YScalar (lit "7"))) /\
  (forall nk, at_path nk d [lit "c"] = Some (YScalar (lit "5"))) /\
  (forall ty te, tree_get read_i32 ty h (lit "a:b") te = (None, Throw (propertyNotFound (lit "a:b")))) /\
  (forall ty te, tree_get read_string ty h (lit "c") te = (Some (lit "root"), Ok true)).
Proof.
  exists demo_doc. eexists. split; [intros; reflexivity|]. split; [intros; reflexivity|]. split; [intros; reflexivity|].
  split; intros ty []; reflexivity.
Qed.

Lemma c73_refuted : exists p, forall ty,
  tree_get read_string ty new_tree p false = (None, Throw (propertyNotFound p)).
Proof. exists (lit "a"). intros. reflexivity. Qed.

Lemma c73_partial {A} nk l (read : str -> rd A) tyname p :
  (exists c, In c p /\ c <> " "%char) ->
  ((exists e, snd (tree_get read tyname (tree nk l) p false) = Throw e) <->
   exists k, In k (path_keys p) /\ forall m, ~ follows (tree nk l) root [k] m).
Proof.
  intros Hp. destruct (get_exact nk l read tyname p false Hp) as [A1 A2].
  assert (D : (forall k, In k (path_keys p) -> exists m, follows (tree nk l) root [k] m) \/
              exists k, In k (path_keys p) /\ forall m, ~ follows (tree nk l) root [k] m).
  { clear A1 A2. destruct (reads_new nk l) as [W _]. fold (tree nk l) in W. destruct (root_node _ W) as (x & Hx & _).
    induction (path_keys p) as [|k ks IH]; [left; intros ? []|].
    destruct (sfind k (n_dict x)) as [m|] eqn:E.
    - destruct IH as [IH|(k' & Hk & N)].
      + left. intros k' [<-|Hk]; [|auto]. apply (child_iff _ root x); eauto.
      + right. exists k'. split; [right; exact Hk|exact N].
    - right. exists k. split; [left; reflexivity|]. intros m F.
      assert (exists m, follows (tree nk l) root [k] m) as G by eauto.
      apply (child_iff _ root x) in G; [|assumption..]. destruct G as [m' G]. congruence. }
  split.
  - intros [e E]. destruct D as [D|D]; [|exact D]. rewrite (A1 D) in E. unfold read_root in E.
    destruct (read (lit "root")); discriminate E.
  - intros H. rewrite (A2 H). cbn. eauto.
Qed.

Lemma c73_node {A} h n (read : str -> rd A) tyname p e :
  snd (node_get read tyname h n false) <> Throw e /\ getProp h n p false <> Throw e.
Proof.
  split.
  - unfold node_get. destruct (nth_error h n) as [x|]; [|discriminate]. destruct (read (n_val x)); discriminate.
  - unfold getProp. destruct (split p (lit ":") false) as [ks|e'|] eqn:E; cbn [obind]; [|intros _|discriminate].
    + induction ks as [|k ks IH] in |- *; cbn; [discriminate|]. destruct (nth_error h n) as [x|]; [|discriminate].
      destruct (sfind k (n_dict x)); [exact IH|discriminate].
    + unfold split in E. destruct (c02_domain p) as [_ T]. destruct (squashSpaces p) as [w|e2|]; [|destruct (T e2 eq_refl)|discriminate E].
      cbn [obind] in E. match type of E with match ?x with _ => _ end = _ => destruct x end; discriminate E.
Qed.

Lemma read_new nk d h : readFile nk new_tree (Loaded d) = (h, None) ->
  h = tree nk [Loaded d] /\ snd (contribution nk d) = true.
Proof.
  intros E. split; [cbn [tree after_reads]; unfold tree; cbn [after_reads]; rewrite E; reflexivity|].
  cbn [readFile] in E.
  destruct (fill_loads nk d root new_tree [] wf_new_tree (holds_new_tree nk)) as (_ & _ & O & _).
  rewrite E in O. apply O. reflexivity.
Qed.

Lemma loaded_one nk d : loaded nk [Loaded d] = pieces nk d.
Proof. unfold loaded. cbn. apply app_nil_r. Qed.

Lemma c74_history nk l ks :
  (forall s, lookup nk (loaded nk l) ks = Some (FText s) <->
             exists m, follows (tree nk l) root ks m /\ terminal_with (tree nk l) m s) /\
  ((exists ps, lookup nk (loaded nk l) ks = Some (FNode ps)) <->
   exists m, follows (tree nk l) root ks m /\ branch (tree nk l) m).
Proof.
  destruct (reads_new nk l) as [W H]. split.
  - intros s. apply look_text; assumption.
  - apply look_node; assumption.
Qed.

Lemma c74 nk d h : maps_scalars d -> readFile nk new_tree (Loaded d) = (h, None) ->
  forall ks s, ks <> [] ->
  (at_path nk d ks = Some (YScalar s) <-> exists m, follows h root ks m /\ terminal_with h m s).
Proof.
  intros Hms E ks s Hk. destruct (read_new _ _ _ E) as [-> Hok].
  destruct (c74_history nk [Loaded d] ks) as [H _]. rewrite <- H, loaded_one.
  inversion Hms as [t|es He]; subst d.
  - destruct ks as [|k ks]; [congruence|]. cbn. split; discriminate.
  - symmetry. apply ms_lookup; assumption.
Qed.

Lemma read_result nk l d : let r := readFile nk (tree nk l) (Loaded d) in
  (snd r = None <-> readable nk d) /\
  (forall e, snd r = Some e -> e = yamlInvalidNode \/ e = yamlBadConversion).
Proof.
  destruct (reads_new nk l) as [W H]. fold (tree nk l) in W, H.
  destruct (fill_loads nk d root _ _ W H) as (_ & _ & O & _ & _ & _ & E). cbn [readFile].
  split; [|exact E]. rewrite readable_iff. symmetry. exact O.
Qed.

Lemma c75_list nk l ks ps m : lookup nk (loaded nk l) ks = Some (FNode ps) -> follows (tree nk l) root ks m ->
  exists ids, getList (tree nk l) m = Ok ids /\ Forall2 (terminal_with (tree nk l)) ids (items ps).
Proof.
  intros E F. destruct (reads_new nk l) as [W H]. fold (tree nk l) in W, H.
  pose proof (look_holds nk _ _ _ _ _ _ W H E F) as Hm. inversion Hm as [n x ps' Hx T L Ll N G K Sc Mp]; subst n ps'.
  exists (n_list x). unfold getList. rewrite Hx. auto.
Qed.

Lemma then_items {A} (f : A -> list piece * bool) (g : A -> list str) l :
  (forall a, In a l -> items (fst (f a)) = g a) -> snd (then_ f l) = true ->
  items (fst (then_ f l)) = flat_map g l.
Proof.
  induction l as [|a l IH]; intros H O; [reflexivity|]. cbn [then_] in *. fold (then_ f) in *.
  specialize (IH ltac:(intros; apply H; right; assumption)).
  pose proof (H a (or_introl eq_refl)) as Ha. destruct (f a) as [p ok]. destruct ok; [|discriminate O].
  destruct (then_ f l) as [b ok2]. cbn [fst snd flat_map] in *. rewrite items_app, Ha, IH by assumption. reflexivity.
Qed.

Lemma c75_root nk es h : (forall k v, In (k, v) es -> scalar_seq v) ->
  readFile nk new_tree (Loaded (YMap es)) = (h, None) ->
  exists ids, getList h root = Ok ids /\
    Forall2 (terminal_with h) ids (flat_map (fun e => seq_texts (snd e)) es).
Proof.
  intros Hs E. destruct (read_new _ _ _ E) as [-> Hok].
  destruct (c75_list nk [Loaded (YMap es)] [] (pieces nk (YMap es)) root) as (ids & Ei & F).
  - rewrite loaded_one. reflexivity.
  - constructor. destruct (reads_new nk [Loaded (YMap es)]) as [[L _] _]. exact L.
  - exists ids. split; [exact Ei|].
    assert (Q : items (pieces nk (YMap es)) = flat_map (fun e => seq_texts (snd e)) es); [|rewrite <- Q; exact F].
    unfold pieces. cbn [contribution] in *. apply then_items; [|exact Hok].
    intros [k v] Hin. specialize (Hs _ _ Hin). cbn [snd]. destruct v as [|s|l|es'].
    + reflexivity.
    + destruct (as_string nk k); reflexivity.
    + cbn [seq_texts]. assert (O : snd (then_ (contribution nk) l) = true).
      { apply then_true. intros d Hd. destruct (Hs l eq_refl d Hd) as [s ->]. reflexivity. }
      apply then_items; [|exact O]. intros d Hd. destruct (Hs l eq_refl d Hd) as [s ->]. reflexivity.
    + destruct (as_string nk k); reflexivity.
Qed.

Lemma c75_refuted : exists d h, (forall nk, readFile nk new_tree (Loaded d) = (h, None)) /\
  (forall nk, at_path nk d [lit "a"] = Some (YSeq [YScalar (lit "x"); YScalar (lit "y")])) /\
  (forall m, ~ follows h root [lit "a"] m).
Proof.
  exists (YMap [(YScalar (lit "a"), YSeq [YScalar (lit "x"); YScalar (lit "y")])]). eexists.
  split; [intros; reflexivity|]. split; [intros; reflexivity|].
  intros m F. apply follows_cons_inv in F. destruct F as (x & q & Hx & Hin & _). cbn in Hx. injection Hx as <-. destruct Hin.
Qed.

Lemma tree_wf nk l : wf (tree nk l).
Proof. apply reads_new. Qed.

Lemma c76_keys nk l n : n < length (tree nk l) -> exists ks, getKeys (tree nk l) n = Ok ks /\ ascending ks /\ NoDup ks /\
  forall k, In k ks <-> exists m, follows (tree nk l) n [k] m.
Proof.
  intros L. destruct (getKeys_ok _ n (tree_wf nk l) L) as (ks & A & B & C).
  exists ks. repeat split; auto using ascending_nodup; apply C.
Qed.
Lemma c76_doc nk l ks ps m : lookup nk (loaded nk l) ks = Some (FNode ps) -> follows (tree nk l) root ks m ->
  exists keys, getKeys (tree nk l) m = Ok keys /\ ascending keys /\ NoDup keys /\
    forall k, In k keys <-> exists v, In (PKey k v) ps.
Proof.
  intros E F. destruct (reads_new nk l) as [W H]. fold (tree nk l) in W, H.
  destruct (c76_keys nk l m (follows_len _ _ _ _ F)) as (keys & A & B & C & D).
  exists keys. repeat (split; [assumption|]). intros k. rewrite D.
  pose proof (look_holds nk _ _ _ _ _ _ W H E F) as Hm. inversion Hm as [n x ps' Hx T L Ll N G K Sc Mp]; subst n ps'.
  rewrite (child_iff _ _ x k W Hx).
  assert (Q : (exists v, In (PKey k v) ps) <-> last_value k ps <> None).
  { clear. induction ps as [|[t v|s] ps IH]; cbn.
    - split; [intros [v []]|congruence].
    - destruct (last_value k ps) as [w|] eqn:E.
      + split; [discriminate|]. intros _. destruct IH as [_ IH]. destruct IH as [u Hu]; [discriminate|]. eauto.
      + destruct (str_eqb_spec t k) as [->|Ne].
        * split; [discriminate|]. eauto.
        * split; [|congruence]. intros [u [E2|Hu]]; [congruence|]. apply IH. eauto.
    - rewrite <- IH. split; intros [v Hv]; exists v; [destruct Hv as [E|Hv]; [discriminate|exact Hv]|auto]. }
  rewrite Q. specialize (N k). destruct (last_value k ps); destruct (sfind k (n_dict x)); split; try congruence; eauto.
  - intros _. destruct N as [_ N]. specialize (N eq_refl). congruence.
  - destruct N as [N _]. specialize (N eq_refl). congruence.
  - intros [m' Hm']. discriminate Hm'.
Qed.

Lemma c77_partial nk l ks m : follows (tree nk l) root ks m ->
  getPathName (tree nk l) m = Ok (repeat ":"%char (length ks)) /\ branch (tree nk l) m \/
  exists s, terminal_with (tree nk l) m s /\ getPathName (tree nk l) m = Ok (repeat ":"%char (length ks) ++ s).
Proof.
  intros F. pose proof (tree_wf nk l) as W. destruct (root_node _ W) as (x & Hx & _ & _ & T).
  destruct (path_follows _ W _ _ _ F [] (path_root _ W)) as (y & Hy & E); [exists x; auto|].
  destruct (n_term y) eqn:Ty.
  - right. exists (n_val y). split; [exists y; auto|exact E].
  - left. rewrite app_nil_r in E. split; [exact E|exists y; auto].
Qed.
Lemma c77_refuted : exists d h m, (forall nk, readFile nk new_tree (Loaded d) = (h, None)) /\
  follows h root [lit "a"] m /\ getPathName h m = Ok (lit ":") /\ branch h m /\
  exists m2, follows h root [lit "c"] m2 /\ getPathName h m2 = Ok (lit ":5").
Proof.
  exists demo_doc. eexists. exists 1. split; [intros; reflexivity|]. split.
  - econstructor; [reflexivity|left; reflexivity|]. constructor. cbn. lia.
  - split; [reflexivity|]. split; [eexists; split; reflexivity|].
    exists 3. split; [|reflexivity]. econstructor; [reflexivity|right; left; reflexivity|]. constructor. cbn. lia.
Qed.

Lemma follows_snoc_inv h ks k : forall n m, follows h n (ks ++ [k]) m -> exists q, follows h n ks q /\ follows h q [k] m.
Proof.
  induction ks as [|k0 ks IH]; intros n m F; cbn in F.
  - exists n. split; [|exact F]. constructor. apply follows_cons_inv in F. destruct F as (x & _ & Hx & _). eapply nth_len; eauto.
  - apply follows_cons_inv in F. destruct F as (x & q & Hx & Hin & F). destruct (IH _ _ F) as (r & F1 & F2).
    exists r. split; [|exact F2]. econstructor; eauto.
Qed.

Lemma c78 nk l : exists t, dump (tree nk l) = Ok t /\
  (forall ks k m, follows (tree nk l) root (ks ++ [k]) m ->
     (forall s, terminal_with (tree nk l) m s -> contains t (spaces (length ks) ++ k ++ lit ":  " ++ s ++ nl)) /\
     (branch (tree nk l) m -> contains t (spaces (length ks) ++ k ++ lit ":  " ++ nl))) /\
  (forall ks n ids i s, follows (tree nk l) root ks n -> getList (tree nk l) n = Ok ids -> In i ids ->
     terminal_with (tree nk l) i s -> contains t (spaces (length ks) ++ s ++ nl)).
Proof.
  pose proof (tree_wf nk l) as W. set (h := tree nk l) in *. clearbody h.
  destruct (root_node _ W) as (x & Hx & _ & _ & T).
  assert (Br : branch h root) by (exists x; auto).
  destruct (dump_ok h W (length h) root [] (nth_len _ _ _ Hx) ltac:(lia)) as (t & Et & _).
  exists t. split; [exact Et|]. split.
  - intros ks k m F. destruct (follows_snoc_inv _ _ _ _ _ F) as (q & F1 & F2).
    apply follows_cons_inv in F2. destruct F2 as (y & m' & Hy & Hin & F2). apply follows_nil_inv in F2. destruct F2 as [<- Lm].
    assert (Bq : branch h q).
    { destruct (n_term y) eqn:Ty; [|exists y; auto]. destruct (wf_term _ _ _ (proj2 W _ _ Hy) Ty) as [_ E]. rewrite E in Hin. destruct Hin. }
    destruct (dump_follows h W _ _ _ F1 Br 0 t (length h) Et (le_n _) Bq) as (u & Eu & Cu). cbn [Nat.add] in Eu.
    destruct (dump_ok h W (length h) q (spaces (length ks)) (nth_len _ _ _ Hy) ltac:(lia)) as (u' & Eu' & Sl).
    rewrite Eu in Eu'. injection Eu' as <-. destruct (Sl y Hy) as [_ Sl'].
    destruct Bq as (y' & Hy' & Ty). rewrite Hy in Hy'. injection Hy' as <-.
    destruct (Sl' Ty) as [_ Sd]. destruct (Sd k m' Hin) as (z & Hz & C). split.
    + intros s (z' & Hz' & Tz & V). rewrite Hz in Hz'. injection Hz' as <-. rewrite Tz in C. subst s.
      eapply contains_trans; eauto.
    + intros (z' & Hz' & Tz). rewrite Hz in Hz'. injection Hz' as <-. rewrite Tz in C. destruct C as (w & _ & C).
      eapply contains_trans; [exact Cu|]. eapply contains_trans; [exact C|]. exists [], w.
      cbn [app]. rewrite <- !app_assoc. reflexivity.
  - intros ks n ids i s F El Hi (z & Hz & Tz & V). unfold getList in El.
    destruct (nth_error h n) as [y|] eqn:Hy; [|discriminate El]. injection El as <-.
    assert (Bq : branch h n).
    { destruct (n_term y) eqn:Ty; [|exists y; auto]. destruct (wf_term _ _ _ (proj2 W _ _ Hy) Ty) as [E _]. rewrite E in Hi. destruct Hi. }
    destruct (dump_follows h W _ _ _ F Br 0 t (length h) Et (le_n _) Bq) as (u & Eu & Cu). cbn [Nat.add] in Eu.
    destruct (dump_ok h W (length h) n (spaces (length ks)) (nth_len _ _ _ Hy) ltac:(lia)) as (u' & Eu' & Sl).
    rewrite Eu in Eu'. injection Eu' as <-. destruct (Sl y Hy) as [_ Sl'].
    destruct Bq as (y' & Hy' & Ty). rewrite Hy in Hy'. injection Hy' as <-.
    destruct (Sl' Ty) as [Ll _]. destruct (Ll i Hi) as (z' & Hz' & C). rewrite Hz in Hz'. injection Hz' as <-. subst s.
    eapply contains_trans; eauto.
Qed.

(* several files *)
Lemma loaded_maps nk : forall ds h ps, wf h -> holds nk h root ps ->
  (forall es, In es ds -> readable nk (YMap es)) ->
  loaded nk (map (fun es => Loaded (YMap es)) ds) = pieces nk (YMap (concat ds)) /\ readable nk (YMap (concat ds)).
Proof.
  intros ds h ps _ _. induction ds as [|es ds IH]; intros R.
  - split; [reflexivity|]. constructor. intros k v [].
  - destruct IH as [IH1 IH2]; [intros; apply R; right; assumption|].
    assert (Re := R es (or_introl eq_refl)). split.
    + cbn [map loaded flat_map]. unfold loaded in IH1. rewrite IH1.
      apply readable_iff in Re. unfold pieces in *. cbn [contribution concat] in *.
      set (f := fun e : ynode * ynode => _) in *. clear - Re.
      induction es as [|e es IHe]; [reflexivity|]. cbn [then_ app] in *. fold (then_ f) in *.
      destruct (f e) as [a ok]. destruct ok; [|discriminate Re].
      destruct (then_ f es) as [b ok2]. cbn [fst snd] in *. specialize (IHe Re).
      destruct (then_ f (es ++ concat ds)) as [c ok3]. cbn [fst] in *. rewrite <- app_assoc, IHe. reflexivity.
    + inversion Re as [| | |es0 He]; subst es0. inversion IH2 as [| | |es0 Hc]; subst es0.
      constructor. intros k v Hin. cbn [concat] in Hin. apply in_app_or in Hin. destruct Hin; auto.
Qed.

Lemma c84 nk ds : (forall es, In es ds -> maps_scalars (YMap es) /\ readable nk (YMap es)) ->
  forall ks s, ks <> [] ->
  (at_path nk (YMap (concat ds)) ks = Some (YScalar s) <->
   exists m, follows (tree nk (map (fun es => Loaded (YMap es)) ds)) root ks m /\
             terminal_with (tree nk (map (fun es => Loaded (YMap es)) ds)) m s).
Proof.
  intros H ks s Hk. destruct (c74_history nk (map (fun es => Loaded (YMap es)) ds) ks) as [Q _]. rewrite <- Q.
  destruct (loaded_maps nk ds new_tree [] wf_new_tree (holds_new_tree nk)) as [E R]; [intros; apply H; assumption|].
  rewrite E. symmetry. apply ms_lookup; [|apply readable_iff; exact R|exact Hk].
  constructor. intros k v Hin. apply in_concat in Hin. destruct Hin as (es & He & Hin).
  destruct (H es He) as [M _]. inversion M; subst. eauto.
Qed.

(* nodes keep their fields *)
Lemma c88 nk l l2 n x : nth_error (tree nk l) n = Some x ->
  exists y, nth_error (tree nk (l ++ l2)) n = Some y /\
    n_parent y = n_parent x /\ n_val y = n_val x /\ n_term y = n_term x /\
    (n <> root -> y = x).
Proof.
  unfold tree. assert (G : forall l h ps, wf h -> holds nk h root ps -> forall n x, nth_error h n = Some x ->
    exists y, nth_error (after_reads nk h l) n = Some y /\ n_parent y = n_parent x /\ n_val y = n_val x /\ n_term y = n_term x /\ (n <> root -> y = x)).
  { clear. induction l as [|r l IH]; intros h ps W H n x Hx; [exists x; auto|]. cbn [after_reads].
    destruct r as [d|w|e]; cbn [readFile fst]; [|eauto..].
    destruct (fill_loads nk d root h ps W H) as (W1 & H1 & _ & _ & F & X & _). cbn beta in *.
    destruct (Nat.eq_dec n root) as [->|Ne].
    - destruct (X x Hx) as (y & Hy & A & B & C). destruct (IH _ _ W1 H1 _ _ Hy) as (z & Hz & D & E & G & _).
      exists z. repeat split; congruence.
    - assert (Hy : nth_error (fst (fillRecurse nk d h root)) n = Some x) by (rewrite F; [exact Hx|eapply nth_len; eauto|exact Ne]).
      destruct (IH _ _ W1 H1 _ _ Hy) as (z & Hz & D & E & G & K). exists z. auto. }
  assert (A : forall l h, after_reads nk h (l ++ l2) = after_reads nk (after_reads nk h l) l2).
  { clear. induction l as [|r l IH]; intros h; [reflexivity|]. cbn. apply IH. }
  intros Hx. rewrite A. destruct (reads_new nk l) as [W H]. eapply G; eauto.
Qed.
Lemma path_name_more h h' : (forall m x, nth_error h m = Some x -> exists y, nth_error h' m = Some y /\ n_parent y = n_parent x /\ n_val y = n_val x) ->
  forall f n t, path_name f h n = Ok t -> forall f', f <= f' -> path_name f' h' n = Ok t.
Proof.
  intros S. induction f as [|f IH]; intros n t E f' L; [discriminate E|]. destruct f' as [|f']; [lia|]. cbn [path_name] in *.
  destruct (nth_error h n) as [x|] eqn:Hx; [|discriminate E]. destruct (S n x Hx) as (y & Hy & P & V). rewrite Hy, P, V.
  destruct (n_parent x) as [p|]; [|exact E].
  destruct (path_name f h p) as [u| |] eqn:U; try discriminate E. rewrite (IH p u U f') by lia. exact E.
Qed.
Lemma c88_answers nk l l2 n : n < length (tree nk l) ->
  getPathName (tree nk (l ++ l2)) n = getPathName (tree nk l) n /\
  (forall A (read : str -> rd A) ty te, node_get read ty (tree nk (l ++ l2)) n te = node_get read ty (tree nk l) n te) /\
  (n <> root ->
   getKeys (tree nk (l ++ l2)) n = getKeys (tree nk l) n /\
   getList (tree nk (l ++ l2)) n = getList (tree nk l) n /\
   forall p te, getProp (tree nk (l ++ l2)) n p te = getProp (tree nk l) n p te).
Proof.
  intros L. set (h := tree nk l) in *. set (h' := tree nk (l ++ l2)) in *.
  assert (S : forall m x, nth_error h m = Some x -> exists y, nth_error h' m = Some y /\ n_parent y = n_parent x /\ n_val y = n_val x /\ n_term y = n_term x /\ (m <> root -> y = x)) by (intros m x; apply c88).
  assert (LL : length h <= length h').
  { destruct h as [|a h0] eqn:Eh; [cbn; lia|]. rewrite <- Eh in *. clearbody h h'.
    destruct (nth_error h (length h - 1)) as [x|] eqn:Hx.
    - destruct (S _ _ Hx) as (y & Hy & _). apply nth_len in Hy. lia.
    - apply nth_error_None in Hx. subst h. cbn in Hx. lia. }
  assert (G : getPathName h' n = getPathName h n).
  { destruct (reads_new nk l) as [W _]. fold (tree nk l) in W. change (tree nk l) with h in W.
    destruct (path_fuel h W (length h) n L L) as (t & Et & _). unfold getPathName. rewrite Et.
    eapply path_name_more; [|exact Et|exact LL]. intros m x Hx. destruct (S m x Hx) as (y & Hy & P & V & _). eauto. }
  split; [exact G|].
  destruct (nth_error h n) as [x|] eqn:Hx; [|apply nth_error_None in Hx; lia]. destruct (S n x Hx) as (y & Hy & P & V & T & Q).
  split.
  - intros A read ty te. unfold node_get. rewrite Hx, Hy, V, G. reflexivity.
  - intros Nr. rewrite (Q Nr) in Hy. unfold getKeys, getList, getProp. rewrite Hx, Hy. split; [reflexivity|]. split; [reflexivity|].
    intros p te. destruct (split p (lit ":") false) as [ks| |]; try reflexivity. cbn.
    induction ks as [|k ks IH]; cbn; [reflexivity|]. rewrite Hx, Hy. destruct (smap_find str_compare k (n_dict x)); [exact IH|reflexivity].
Qed.

Lemma c85 nk l m s te ty : terminal_with (tree nk l) m s ->
  node_get read_string ty (tree nk l) m te =
  match skip_ws s with
  | [] => (None, if te then do p <- getPathName (tree nk l) m; Throw (badPropertyType p ty s) else Ok false)
  | t => (Some (take_word t), Ok true)
  end.
Proof.
  intros (x & Hx & T & V). unfold node_get. rewrite Hx, V. unfold read_string. destruct (skip_ws s); reflexivity.
Qed.

Lemma c85_refuted : exists d h m, (forall nk, readFile nk new_tree (Loaded d) = (h, None)) /\
  terminal_with h m (lit "hello world") /\
  forall ty te, node_get read_string ty h m te = (Some (lit "hello"), Ok true).
Proof.
  exists (YMap [(YScalar (lit "a"), YScalar (lit "hello world"))]). eexists. exists 1. split; [intros; reflexivity|].
  split; [eexists; split; [reflexivity|split; reflexivity]|]. intros. reflexivity.
Qed.

Lemma c86_refuted : exists d h m, (forall nk, readFile nk new_tree (Loaded d) = (h, Some yamlInvalidNode)) /\
  follows h root [lit "a"] m /\ ~ follows new_tree root [lit "a"] m.
Proof.
  exists (YMap [(YScalar (lit "a"), YScalar (lit "1")); (YScalar (lit "b"), YSeq [YSeq [YScalar (lit "x")]])]).
  eexists. exists 1. split; [intros; reflexivity|]. split.
  - econstructor; [reflexivity|left; reflexivity|]. constructor. cbn. lia.
  - intros F. apply follows_cons_inv in F. destruct F as (x & q & Hx & Hin & _). cbn in Hx. injection Hx as <-. destruct Hin.
Qed.

Lemma c83_refuted : exists d1 d2, (forall nk, snd (readFile nk new_tree (Loaded d1)) = Some yamlInvalidNode) /\
  (forall nk, snd (readFile nk new_tree (Loaded d2)) = Some yamlBadConversion).
Proof.
  exists (YSeq [YScalar (lit "x")]), (YMap [(YSeq [YScalar (lit "a")], YScalar (lit "b"))]).
  split; intros; reflexivity.
Qed.

Lemma skip_lead lead t : (forall c, In c lead -> space_byte c = true) -> skip_ws (lead ++ t) = skip_ws t.
Proof.
  induction lead as [|c lead IH]; intros H; [reflexivity|]. cbn. rewrite (H c (or_introl eq_refl)).
  apply IH. intros; apply H; right; assumption.
Qed.
Lemma take_word_app w rest : (forall c, In c w -> space_byte c = false) ->
  (match rest with [] => True | c :: _ => space_byte c = true end) -> take_word (w ++ rest) = w.
Proof.
  intros H R. induction w as [|c w IH]; cbn.
  - destruct rest as [|c r]; [reflexivity|]. cbn. rewrite R. reflexivity.
  - rewrite (H c (or_introl eq_refl)), IH by (intros; apply H; right; assumption). reflexivity.
Qed.
Lemma c85_word nk l m lead w rest ty te :
  (forall c, In c lead -> space_byte c = true) ->
  w <> [] -> (forall c, In c w -> space_byte c = false) ->
  (match rest with [] => True | c :: _ => space_byte c = true end) ->
  terminal_with (tree nk l) m (lead ++ w ++ rest) ->
  node_get read_string ty (tree nk l) m te = (Some w, Ok true).
Proof.
  intros Hl Hw Hs Hr T. rewrite (c85 _ _ _ _ _ _ T), (skip_lead lead _ Hl).
  destruct w as [|c w]; [congruence|]. cbn [app skip_ws]. rewrite (Hs c (or_introl eq_refl)).
  change (c :: w ++ rest) with ((c :: w) ++ rest). rewrite take_word_app by assumption. reflexivity.
Qed.
Lemma c85_blank nk l m s ty te :
  (forall c, In c s -> space_byte c = true) -> terminal_with (tree nk l) m s ->
  fst (node_get read_string ty (tree nk l) m te) = None /\
  snd (node_get read_string ty (tree nk l) m te) <> Ok true.
Proof.
  intros H T. rewrite (c85 _ _ _ _ _ _ T). rewrite <- (app_nil_r s), (skip_lead s [] H). cbn.
  split; [reflexivity|]. destruct te; [|discriminate]. destruct (getPathName (tree nk l) m); discriminate.
Qed.
