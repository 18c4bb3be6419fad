(* L_Dump.v -- dump prints exactly what has been loaded. *)
From Coq Require Import Permutation.
From Verif Require Import Base L_Map M_PropertyTree S_PropertyTree S_Dump L_PropertyTree L_PropertyTreeP C_PropertyTree.

Scheme shown_mind := Induction for shown Sort Prop
with shown_keys_mind := Induction for shown_keys Sort Prop.
Combined Scheme shown_both from shown_mind, shown_keys_mind.

Lemma lookup_cons nk ps k ks : lookup nk ps (k :: ks) =
  match lookup nk ps [k] with
  | Some (FText s) => match ks with [] => Some (FText s) | _ => None end
  | Some (FNode q) => lookup nk q ks
  | None => None
  end.
Proof. cbn [lookup]. destruct (last_value k ps) as [[|s|l|es]|]; try reflexivity. Qed.

Lemma asc_head a l b : ascending (a :: l) -> In b l -> str_compare a b = Lt.
Proof.
  revert a. induction l as [|c l IH]; intros a H Hb; [destruct Hb|]. inversion H; subst.
  destruct Hb as [<-|Hb]; [assumption|]. eapply scmp_trans; eauto.
Qed.
Lemma asc_tail a l : ascending (a :: l) -> ascending l.
Proof. intros H. inversion H; subst; [constructor|assumption]. Qed.
Lemma asc_unique l : ascending l -> forall m, ascending m -> (forall k, In k l <-> In k m) -> l = m.
Proof.
  assert (Irr : forall a, str_compare a a <> Lt).
  { intros a E. assert (F := proj2 (scmp_eq a a) eq_refl). congruence. }
  induction l as [|a l IH]; intros Hl [|b m] Hm E.
  - reflexivity.
  - destruct (proj2 (E b) (or_introl eq_refl)).
  - destruct (proj1 (E a) (or_introl eq_refl)).
  - assert (a = b).
    { destruct (proj1 (E a) (or_introl eq_refl)) as [X|X]; [congruence|].
      destruct (proj2 (E b) (or_introl eq_refl)) as [Y|Y]; [congruence|].
      destruct (Irr a). apply scmp_trans with b; [apply (asc_head a l b Hl Y)|apply (asc_head b m a Hm X)]. }
    subst b. f_equal. apply IH; eauto using asc_tail. intros k. split; intros Hk.
    + destruct (proj1 (E k) (or_intror Hk)) as [<-|X]; [|exact X]. destruct (Irr a). exact (asc_head a l a Hl Hk).
    + destruct (proj2 (E k) (or_intror Hk)) as [<-|X]; [|exact X]. destruct (Irr a). exact (asc_head a m a Hm Hk).
Qed.

Lemma same_sub nk a b k p q : same_content nk a b -> lookup nk a [k] = Some (FNode p) -> lookup nk b [k] = Some (FNode q) -> same_content nk p q.
Proof. intros S A B ks. specialize (S (k :: ks)). rewrite (lookup_cons nk a), (lookup_cons nk b), A, B in S. exact S. Qed.

Lemma shown_same nk :
  (forall ind a t, shown nk ind a t -> forall b u, same_content nk a b -> shown nk ind b u -> t = u) /\
  (forall ind a keys e, shown_keys nk ind a keys e -> forall b f, same_content nk a b -> shown_keys nk ind b keys f -> e = f).
Proof.
  apply shown_both.
  - intros ind a keys e Ak Ik _ IH b u S H. inversion H as [ind' b' keys' e' Ak' Ik' Hk']; subst.
    assert (E : keys = keys').
    { apply asc_unique; [assumption|assumption|]. intros k. rewrite Ik, Ik'. specialize (S [k]).
      destruct (lookup nk a [k]) as [[?|?]|], (lookup nk b [k]) as [[?|?]|]; try destruct S; split; intros (f & X); try discriminate X; eauto. }
    subst keys'. assert (I0 := S []). cbn [lookup] in I0. rewrite I0. f_equal. f_equal. eapply IH; eassumption.
  - intros ind a b f S H. inversion H. reflexivity.
  - intros ind a k keys s e A _ IH b f S H. assert (Sk := S [k]). rewrite A in Sk.
    inversion H as [|ind' b' k' keys' s' e' B' H'|ind' b' k' keys' q t' e' B' T' H']; subst; rewrite B' in Sk; [|destruct Sk].
    subst s'. f_equal. eapply IH; eassumption.
  - intros ind a k keys p t e A _ IHt _ IH b f S H. assert (Sk := S [k]). rewrite A in Sk.
    inversion H as [|ind' b' k' keys' s' e' B' H'|ind' b' k' keys' q t' e' B' T' H']; subst; rewrite B' in Sk; [destruct Sk|].
    f_equal; [|eapply IH; eassumption]. do 4 f_equal. eapply IHt; [|exact T']. eapply same_sub; eassumption.
Qed.
Lemma same_refl nk a : same_content nk a a.
Proof. intros ks. destruct (lookup nk a ks) as [[?|?]|]; auto. Qed.

(* ---- dump ---- *)
Lemma concat_out_all {A} (f : A -> outcome str) l r : Forall2 (fun x t => f x = Ok t) l r -> concat_out f l = Ok (concat r).
Proof. induction 1 as [|x t l r E _ IH]; [reflexivity|]. cbn. rewrite E, IH. reflexivity. Qed.

Lemma node_shown nk h : wf h -> forall f n ps ind, holds nk h n ps -> length h <= n + f ->
  exists t, dump_node f h n ind = Ok t /\ shown nk ind ps t.
Proof.
  intros W. induction f as [|f IH]; intros n ps ind H Hf.
  { destruct (holds_inv _ _ _ _ H) as (x & Hx & _). apply nth_len in Hx. lia. }
  inversion H as [n' x ps' Hx T L Ll N G K Sc Mp]; subst n' ps'.
  pose proof (proj2 W _ _ Hx) as Wn. cbn [dump_node]. rewrite Hx, T.
  set (fl := fun v : nat => _). set (fd := fun v : str * nat => _).
  assert (El : match n_list x with [] => Ok [] | _ => do t <- concat_out fl (n_list x); Ok (lit "<<<PROPLIST>>>" ++ nl ++ t) end = Ok (list_block ind (items ps))).
  { assert (C : concat_out fl (n_list x) = Ok (concat (map (fun s => ind ++ s ++ nl) (items ps)))).
    { apply concat_out_all. clear - L. induction L as [|m s l r (y & Hy & Ty & Vy) _ IHl]; [constructor|]. cbn [map]. constructor; [|exact IHl].
      unfold fl. rewrite Hy, Ty, Vy. reflexivity. }
    rewrite C. inversion L; reflexivity. }
  rewrite El. cbn [obind].
  assert (Ed : exists entries, concat_out fd (n_dict x) = Ok (concat entries) /\ (n_dict x = [] <-> entries = []) /\ shown_keys nk ind ps (map fst (n_dict x)) entries).
  { assert (Hd : forall k m, In (k, m) (n_dict x) -> sfind k (n_dict x) = Some m) by (intros k m Hin; apply (dict_in_find h n x k m W Hx); exact Hin).
    assert (Gen : forall d, (forall k m, In (k, m) d -> In (k, m) (n_dict x)) ->
      exists entries, concat_out fd d = Ok (concat entries) /\ (d = [] <-> entries = []) /\ shown_keys nk ind ps (map fst d) entries).
    2:{ apply Gen. auto. }
    induction d as [|[k m] d IHd]; intros Hs; [exists []; split; [reflexivity|split; [tauto|constructor]]|].
    destruct IHd as (entries & E & _ & S); [intros; apply Hs; right; assumption|].
    assert (Hin := Hs k m (or_introl eq_refl)). assert (F := Hd k m Hin).
    destruct (last_value k ps) as [v|] eqn:V; [|apply N in V; congruence].
    cbn [concat_out map fst]. destruct (K k v V) as [(s & ->)|(es & ->)].
    - destruct (Sc k s m V F) as (y & Hy & Ty & Vy).
      exists ((ind ++ k ++ lit ":  " ++ s ++ nl) :: entries). split; [|split; [split; discriminate|]].
      + unfold fd at 1. cbn [fst snd]. rewrite Hy, Ty, Vy. cbn [obind]. rewrite E. reflexivity.
      + apply SK_text; [cbn [lookup]; rewrite V; reflexivity|exact S].
    - assert (Hm := Mp k es m V F). assert (Lt := G k m F).
      destruct (IH m (pieces nk (YMap es)) (ind ++ lit "  ") Hm ltac:(lia)) as (t & Et & St).
      destruct (holds_inv _ _ _ _ Hm) as (y & Hy & Ty).
      exists ((ind ++ k ++ lit ":  " ++ nl ++ t) :: entries). split; [|split; [split; discriminate|]].
      + unfold fd at 1. cbn [fst snd]. rewrite Hy, Ty, Et. cbn [obind]. rewrite E. reflexivity.
      + eapply SK_node; [cbn [lookup]; rewrite V; reflexivity|exact St|exact S]. }
  destruct Ed as (entries & Ed & Em & Es).
  exists (list_block ind (items ps) ++ dict_block entries). split.
  { assert (X : match n_dict x with [] => Ok [] | _ => do t <- concat_out fd (n_dict x); Ok (lit "<<<DICTIONARY>>>" ++ nl ++ t) end = Ok (dict_block entries)).
    { rewrite Ed. destruct (n_dict x) as [|a d]; [rewrite (proj1 Em eq_refl); reflexivity|].
      destruct entries; [discriminate (proj2 Em eq_refl)|]. reflexivity. }
    rewrite X. reflexivity. }
  econstructor; [| |exact Es].
  - apply sorted_ascending. apply (wf_sorted _ _ _ Wn).
  - intros k. split.
    + intros Hk. apply in_map_iff in Hk. destruct Hk as ([k' m] & <- & Hin). cbn [fst].
      apply (dict_in_find h n x k' m W Hx) in Hin. destruct (last_value k' ps) as [v|] eqn:V; [|apply N in V; congruence].
      cbn [lookup]. rewrite V. destruct (K k' v V) as [(s & ->)|(es & ->)]; eauto.
    + intros (fo & E). cbn [lookup] in E. destruct (last_value k ps) as [v|] eqn:V; [|discriminate E].
      destruct (sfind k (n_dict x)) as [m|] eqn:F.
      * apply in_map_iff. exists (k, m). split; [reflexivity|]. apply (dict_in_find h n x k m W Hx). exact F.
      * apply N in F. congruence.
Qed.

Lemma c110 nk l : exists t, dump (tree nk l) = Ok t /\ shown nk [] (loaded nk l) t.
Proof.
  destruct (reads_new nk l) as (W & H). fold (tree nk l) in W, H. unfold dump. apply (node_shown nk (tree nk l) W _ root); [exact H|lia].
Qed.
Lemma c110_unique nk ind ps t u : shown nk ind ps t -> shown nk ind ps u -> t = u.
Proof. intros A B. eapply (proj1 (shown_same nk)); [exact A|apply same_refl|exact B]. Qed.
Lemma c110_same nk l1 l2 : same_content nk (loaded nk l1) (loaded nk l2) -> dump (tree nk l1) = dump (tree nk l2).
Proof.
  intros S. destruct (c110 nk l1) as (t & E & A). destruct (c110 nk l2) as (u & F & B). rewrite E, F. f_equal.
  eapply (proj1 (shown_same nk)); eassumption.
Qed.

(* ---- the order of the entries of a document ---- *)
Lemma ms_items nk es : (forall k v, In (k, v) es -> maps_scalars v) -> snd (contribution nk (YMap es)) = true -> items (pieces nk (YMap es)) = [].
Proof.
  intros H R. unfold pieces. cbn [contribution] in *. rewrite (then_items _ (fun _ => [])).
  - clear. induction es as [|a es IH]; [reflexivity|exact IH].
  - intros [k v] Hin. specialize (H k v Hin). destruct v as [|s|l|es']; [inversion H| |inversion H|]; destruct (as_string nk k); reflexivity.
  - exact R.
Qed.
Lemma last_entry_perm nk es1 es2 k : Permutation es1 es2 -> NoDup (map (fun e : ynode * ynode => as_string nk (fst e)) es1) ->
  last_entry nk k es1 = last_entry nk k es2.
Proof.
  assert (One : forall es key v, NoDup (map (fun e : ynode * ynode => as_string nk (fst e)) es) -> In (key, v) es -> as_string nk key = Some k -> last_entry nk k es = Some v).
  { induction es as [|[key0 v0] es IH]; intros key v N Hin E; [destruct Hin|]. inversion N as [|? ? Nin N']; subst. cbn [last_entry].
    destruct Hin as [X|Hin].
    - injection X as -> ->. destruct (last_entry nk k es) as [w|] eqn:L.
      + exfalso. apply Nin. cbn [fst]. rewrite E. assert (Z : exists key', In (key', w) es /\ as_string nk key' = Some k).
        { clear - L. induction es as [|[k1 v1] es IH]; [discriminate|]. cbn in L. destruct (last_entry nk k es) as [u|].
          - destruct (IH L) as (q & A & B). exists q. split; [right; exact A|exact B].
          - destruct (as_string nk k1) as [t|] eqn:A; [|discriminate]. destruct (str_eqb_spec t k); [|discriminate]. injection L as ->. subst t.
            exists k1. split; [left; reflexivity|exact A]. }
        destruct Z as (key' & A & B). apply in_map_iff. exists (key', w). split; [exact B|exact A].
      + rewrite E. destruct (str_eqb_spec k k); [reflexivity|congruence].
    - rewrite (IH key v N' Hin E). reflexivity. }
  assert (None_ : forall es, (forall key v, In (key, v) es -> as_string nk key <> Some k) -> last_entry nk k es = None).
  { induction es as [|[key0 v0] es IH]; intros H; [reflexivity|]. cbn. rewrite IH by (intros; eapply H; right; eassumption).
    assert (A := H key0 v0 (or_introl eq_refl)). destruct (as_string nk key0) as [t|]; [|reflexivity]. destruct (str_eqb_spec t k); [congruence|reflexivity]. }
  intros P N. assert (N2 : NoDup (map (fun e : ynode * ynode => as_string nk (fst e)) es2)) by (eapply Permutation_NoDup; [apply Permutation_map; exact P|exact N]).
  destruct (last_entry nk k es1) as [v|] eqn:L.
  - assert (Z : exists key', In (key', v) es1 /\ as_string nk key' = Some k).
    { clear - L. induction es1 as [|[k1 v1] es IH]; [discriminate|]. cbn in L. destruct (last_entry nk k es) as [u|].
      - destruct (IH L) as (q & A & B). exists q. split; [right; exact A|exact B].
      - destruct (as_string nk k1) as [t|] eqn:A; [|discriminate]. destruct (str_eqb_spec t k); [|discriminate]. injection L as ->. subst t.
        exists k1. split; [left; reflexivity|exact A]. }
    destruct Z as (key & A & B). symmetry. apply (One es2 key v N2); [eapply Permutation_in; eassumption|exact B].
  - symmetry. apply None_. intros key v Hin E. rewrite (One es1 key v N) in L; [discriminate|eapply Permutation_in; [apply Permutation_sym; eassumption|exact Hin]|exact E].
Qed.
Lemma c110_order nk es1 es2 : Permutation es1 es2 -> maps_scalars (YMap es1) -> readable nk (YMap es1) ->
  NoDup (map (fun e : ynode * ynode => as_string nk (fst e)) es1) ->
  dump (tree nk [Loaded (YMap es1)]) = dump (tree nk [Loaded (YMap es2)]).
Proof.
  intros P M R N. apply c110_same. rewrite !loaded_one.
  assert (M1 : forall k v, In (k, v) es1 -> maps_scalars v) by (inversion M; assumption).
  assert (M2 : forall k v, In (k, v) es2 -> maps_scalars v) by (intros k v Hin; apply (M1 k v); eapply Permutation_in; [apply Permutation_sym; exact P|exact Hin]).
  assert (R2 : readable nk (YMap es2)).
  { inversion R as [| | |es RE]; subst. constructor. intros k v Hin. apply RE. eapply Permutation_in; [apply Permutation_sym; exact P|exact Hin]. }
  apply readable_iff in R, R2. destruct (ms_last nk es1 M1 R) as (L1 & _). destruct (ms_last nk es2 M2 R2) as (L2 & _).
  intros [|k ks]; cbn [lookup].
  - rewrite !ms_items by assumption. reflexivity.
  - rewrite L1, L2, (last_entry_perm nk es1 es2 k P N). destruct (last_entry nk k es2) as [[|s|l|es]|]; auto.
    + destruct ks; auto.
    + destruct (lookup nk (pieces nk (YMap es)) ks) as [[?|?]|]; auto.
Qed.
