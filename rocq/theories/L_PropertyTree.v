(* L_PropertyTree.v -- loading YAML documents into a tree: the invariant of the
   heap of nodes, and what a node holds. *)
From Verif Require Import Base L_Map M_PropertyTree S_PropertyTree.

Notation sins := (smap_insert str_compare).
Notation sfind := (smap_find str_compare).

(* ---- induction on documents ---- *)
Section YInd.
  Variable P : ynode -> Prop.
  Hypothesis Hnull : P YNull.
  Hypothesis Hscalar : forall s, P (YScalar s).
  Hypothesis Hseq : forall l, (forall d, In d l -> P d) -> P (YSeq l).
  Hypothesis Hmap : forall es, (forall k v, In (k, v) es -> P v /\ forall l, v = YSeq l -> forall d, In d l -> P d) -> P (YMap es).
  Fixpoint ynode_ind2 (d : ynode) : P d.
  Proof.
    destruct d as [|s|l|es].
    - exact Hnull.
    - apply Hscalar.
    - apply Hseq. revert l. fix IHl 1. intros [|d l] x Hin; [destruct Hin|].
      destruct Hin as [<-|Hin]; [apply ynode_ind2|exact (IHl l x Hin)].
    - apply Hmap. revert es. fix IHl 1. intros [|[k0 v0] es] k v Hin; [destruct Hin|].
      destruct Hin as [E|Hin]; [|exact (IHl es k v Hin)].
      assert (E2 : v0 = v) by congruence. subst v. split; [apply ynode_ind2|].
      destruct v0 as [| |l|]; try discriminate.
      intros l' [= <-]. clear E. revert l. fix IHm 1. intros [|d l] x Hin; [destruct Hin|].
      destruct Hin as [<-|Hin]; [apply ynode_ind2|exact (IHm l x Hin)].
  Qed.
End YInd.

(* ---- heaps ---- *)
Lemma update_length h : forall n f, length (update h n f) = length h.
Proof. induction h as [|x h IH]; intros [|n] f; cbn; auto. Qed.
Lemma nth_update h : forall n f i,
  nth_error (update h n f) i = if Nat.eqb i n then option_map f (nth_error h i) else nth_error h i.
Proof.
  induction h as [|x h IH]; intros [|n] f [|i]; cbn; auto.
  destruct (Nat.eqb i n); reflexivity.
Qed.
Lemma nth_new (h : heap) x i : i < length h -> nth_error (h ++ [x]) i = nth_error h i.
Proof. intros. apply nth_error_app1. assumption. Qed.
Lemma nth_new_last (h : heap) x : nth_error (h ++ [x]) (length h) = Some x.
Proof. rewrite nth_error_app2 by lia. rewrite Nat.sub_diag. reflexivity. Qed.
Lemma nth_len (h : heap) n x : nth_error h n = Some x -> n < length h.
Proof. intros H. apply nth_error_Some. congruence. Qed.

Definition sort := ksorted str_compare (V := nat).

Record wf_node (h : heap) (n : nat) (x : pnode) : Prop := {
  wf_sorted : sort (n_dict x);
  wf_term : n_term x = true -> n_list x = [] /\ n_dict x = [];
  wf_list : forall m, In m (n_list x) ->
    n < m /\ exists y, nth_error h m = Some y /\ n_parent y = Some n /\ n_term y = true;
  wf_dict : forall k m, In (k, m) (n_dict x) ->
    n < m /\ exists y, nth_error h m = Some y /\ n_parent y = Some n;
  wf_parent : match n_parent x with
              | None => n = 0 /\ n_val x = lit "root" /\ n_term x = false
              | Some p => p < n /\ (n_term x = false -> n_val x = [])
              end
}.
Definition wf (h : heap) : Prop := 0 < length h /\ forall n x, nth_error h n = Some x -> wf_node h n x.

(* replacing one node by a node with the same fixed fields, and appending *)
Definition same_fixed (x y : pnode) : Prop :=
  n_parent x = n_parent y /\ n_val x = n_val y /\ n_term x = n_term y.

Lemma wf_node_mono h h' n x : wf_node h n x ->
  (forall i y, nth_error h i = Some y -> exists z, nth_error h' i = Some z /\ same_fixed y z) ->
  wf_node h' n x.
Proof.
  intros [A B C D E] M. constructor; auto.
  - intros m Hm. destruct (C m Hm) as (L & y & Y1 & Y2 & Y3). split; [exact L|].
    destruct (M _ _ Y1) as (z & Z & F1 & F2 & F3). exists z. split; [exact Z|]. split; congruence.
  - intros k m Hm. destruct (D k m Hm) as (L & y & Y1 & Y2). split; [exact L|].
    destruct (M _ _ Y1) as (z & Z & F1 & F2 & F3). exists z. split; [exact Z|]. congruence.
Qed.

Lemma same_fixed_refl x : same_fixed x x.
Proof. repeat split. Qed.
Lemma same_fixed_trans x y z : same_fixed x y -> same_fixed y z -> same_fixed x z.
Proof. intros (A & B & C) (D & E & F). repeat split; congruence. Qed.

Lemma wf_new h p val term : wf h -> p < length h -> (term = false -> val = []) ->
  wf (fst (new_node h (Some p) val term)).
Proof.
  intros [W0 W] Hp Hv. cbn [new_node fst]. split; [rewrite app_length; cbn; lia|]. intros n x Hx.
  destruct (Nat.lt_ge_cases n (length h)) as [L|L].
  - rewrite nth_new in Hx by exact L. apply wf_node_mono with h; [auto|].
    intros i y Hy. exists y. split; [|apply same_fixed_refl]. rewrite nth_new; [exact Hy|]. eapply nth_len; eauto.
  - assert (n = length h). { apply nth_len in Hx. rewrite app_length in Hx. cbn in Hx. lia. }
    subst n. rewrite nth_new_last in Hx. injection Hx as <-. constructor; cbn.
    + constructor.
    + auto.
    + intros m [].
    + intros k m [].
    + split; assumption.
Qed.

Lemma update_fixed h n f : (forall x, same_fixed x (f x)) ->
  forall i y, nth_error h i = Some y -> exists z, nth_error (update h n f) i = Some z /\ same_fixed y z.
Proof.
  intros Hf i y Hy. rewrite nth_update, Hy. destruct (Nat.eqb i n); cbn; eauto using same_fixed_refl.
Qed.

Lemma wf_push h p m x y : wf h -> nth_error h p = Some x -> n_term x = false ->
  nth_error h m = Some y -> n_parent y = Some p -> n_term y = true -> p < m ->
  wf (push_list h p m).
Proof.
  intros [W0 W] Hx Tx Hy Py Ty Hlt. unfold push_list. split; [rewrite update_length; exact W0|].
  intros n z Hz. rewrite nth_update in Hz. set (f := fun _ => _) in *.
  assert (M : forall i y, nth_error h i = Some y -> exists z, nth_error (update h p f) i = Some z /\ same_fixed y z).
  { apply update_fixed. intros. repeat split. }
  destruct (Nat.eqb_spec n p) as [->|Ne].
  - rewrite Hx in Hz. injection Hz as <-. destruct (wf_node_mono _ (update h p f) _ _ (W _ _ Hx) M) as [A B C D E].
    constructor; cbn; auto.
    + intros T. congruence.
    + intros q Hq. apply in_app_or in Hq. destruct Hq as [Hq|[<-|[]]]; [auto|]. split; [exact Hlt|].
      destruct (M _ _ Hy) as (z & Z & F1 & F2 & F3). exists z. split; [exact Z|]. split; congruence.
  - eapply wf_node_mono; [apply W; exact Hz|exact M].
Qed.

Lemma wf_set h p k m x y : wf h -> nth_error h p = Some x -> n_term x = false ->
  nth_error h m = Some y -> n_parent y = Some p -> p < m ->
  wf (set_dict h p k m).
Proof.
  intros [W0 W] Hx Tx Hy Py Hlt. unfold set_dict. split; [rewrite update_length; exact W0|].
  intros n z Hz. rewrite nth_update in Hz. set (f := fun _ => _) in *.
  assert (M : forall i y, nth_error h i = Some y -> exists z, nth_error (update h p f) i = Some z /\ same_fixed y z).
  { apply update_fixed. intros. repeat split. }
  destruct (Nat.eqb_spec n p) as [->|Ne].
  - rewrite Hx in Hz. injection Hz as <-. destruct (wf_node_mono _ (update h p f) _ _ (W _ _ Hx) M) as [A B C D E].
    constructor; cbn; auto.
    + apply ksorted_insert; [exact scmp_eq|exact scmp_opp|exact scmp_trans|exact A].
    + intros T. congruence.
    + intros k2 q Hq. apply in_insert in Hq. destruct Hq as [E2|Hq]; [|eauto].
      injection E2 as -> ->. split; [exact Hlt|].
      destruct (M _ _ Hy) as (z & Z & F1 & F2 & F3). exists z. split; [exact Z|]. congruence.
  - eapply wf_node_mono; [apply W; exact Hz|exact M].
Qed.

(* ---- what a node holds ---- *)
Lemma last_value_app k a : forall t v,
  last_value k (a ++ [PKey t v]) = if str_eqb t k then Some v else last_value k a.
Proof.
  induction a as [|[t' v'|s] a IH]; intros t v; cbn.
  - destruct (str_eqb t k); reflexivity.
  - rewrite IH. destruct (str_eqb t k); [reflexivity|]. reflexivity.
  - apply IH.
Qed.
Lemma last_value_item k a s : last_value k (a ++ [PItem s]) = last_value k a.
Proof. induction a as [|[t v|u] a IH]; cbn; auto. rewrite IH. reflexivity. Qed.
Lemma items_app a b : items (a ++ b) = items a ++ items b.
Proof. unfold items. apply flat_map_app. Qed.

Section Holds.
Variable nk : option str.

Inductive holds (h : heap) : nat -> list piece -> Prop :=
| H_node n x ps :
    nth_error h n = Some x -> n_term x = false ->
    Forall2 (terminal_with h) (n_list x) (items ps) ->
    Forall (lt n) (n_list x) ->
    (forall k, last_value k ps = None <-> sfind k (n_dict x) = None) ->
    (forall k m, sfind k (n_dict x) = Some m -> n < m) ->
    (forall k v, last_value k ps = Some v -> (exists s, v = YScalar s) \/ (exists es, v = YMap es)) ->
    (forall k s m, last_value k ps = Some (YScalar s) -> sfind k (n_dict x) = Some m -> terminal_with h m s) ->
    (forall k es m, last_value k ps = Some (YMap es) -> sfind k (n_dict x) = Some m ->
                    holds h m (pieces nk (YMap es))) ->
    holds h n ps.

Lemma terminal_len h n s : terminal_with h n s -> n < length h.
Proof. intros (x & H & _). eapply nth_len; eauto. Qed.
Lemma terminal_frame h h' n s : terminal_with h n s ->
  nth_error h' n = nth_error h n -> terminal_with h' n s.
Proof. intros (x & H & T) E. exists x. rewrite E. auto. Qed.

Lemma Forall2_frame h h' l s : Forall2 (terminal_with h) l s ->
  (forall i, In i l -> nth_error h' i = nth_error h i) -> Forall2 (terminal_with h') l s.
Proof.
  induction 1 as [|n t l s T _ IH]; intros E; [constructor|]. constructor.
  - eapply terminal_frame; eauto. apply E. left. reflexivity.
  - apply IH. intros. apply E. right. assumption.
Qed.

Lemma Forall2_terminal_len h l s i : Forall2 (terminal_with h) l s -> In i l -> i < length h.
Proof.
  induction 1 as [|n t l s T _ IH]; intros Hi; [destruct Hi|].
  destruct Hi as [<-|Hi]; [eapply terminal_len; eauto|auto].
Qed.

Lemma holds_frame h n ps : holds h n ps -> forall h',
  (forall i, n <= i < length h -> nth_error h' i = nth_error h i) -> holds h' n ps.
Proof.
  induction 1 as [n x ps Hx T L Ll N G K Sc Mp IH]. intros h' E.
  assert (Ln := nth_len _ _ _ Hx).
  apply H_node with x; auto.
  - rewrite E by lia. exact Hx.
  - eapply Forall2_frame; [exact L|]. intros i Hi. apply E.
    rewrite Forall_forall in Ll. specialize (Ll _ Hi). pose proof (Forall2_terminal_len _ _ _ _ L Hi). lia.
  - intros k s m Hk Hm. specialize (Sc _ _ _ Hk Hm). eapply terminal_frame; [exact Sc|].
    apply E. pose proof (terminal_len _ _ _ Sc). specialize (G _ _ Hm). lia.
  - intros k es m Hk Hm. eapply IH; eauto. intros i Hi. apply E. specialize (G _ _ Hm). lia.
Qed.

Lemma holds_inv h n ps : holds h n ps -> exists x, nth_error h n = Some x /\ n_term x = false.
Proof. intros H. inversion H; subst. eauto. Qed.

(* adding a list item *)
Lemma holds_push h p s ps : holds h p ps ->
  holds (push_list (h ++ [mkNode (Some p) s true [] []]) p (length h)) p (ps ++ [PItem s]).
Proof.
  intros H. inversion H as [n x ps' Hx T L Ll N G K Sc Mp]; subst n ps'.
  assert (Lp := nth_len _ _ _ Hx).
  set (h' := push_list _ _ _).
  assert (F : forall i, i < length h -> i <> p -> nth_error h' i = nth_error h i).
  { intros i Hi Hn. unfold h', push_list. rewrite nth_update.
    destruct (Nat.eqb_spec i p) as [E|E]; [contradiction|]. apply nth_new. exact Hi. }
  assert (Hp : nth_error h' p = Some (mkNode (n_parent x) (n_val x) (n_term x) (n_list x ++ [length h]) (n_dict x))).
  { unfold h', push_list. rewrite nth_update, Nat.eqb_refl, nth_new, Hx by exact Lp. reflexivity. }
  assert (Hn : nth_error h' (length h) = Some (mkNode (Some p) s true [] [])).
  { unfold h', push_list. rewrite nth_update. destruct (Nat.eqb_spec (length h) p); [lia|]. apply nth_new_last. }
  eapply H_node; [exact Hp|..]; cbn [n_term n_list n_dict].
  - exact T.
  - rewrite items_app. apply Forall2_app.
    + eapply Forall2_frame; [exact L|]. intros i Hi. rewrite Forall_forall in Ll.
      specialize (Ll _ Hi). apply F; [|lia]. eapply Forall2_terminal_len; eauto.
    + cbn. constructor; [|constructor]. exists (mkNode (Some p) s true [] []). auto.
  - apply Forall_app. split; [exact Ll|]. constructor; [lia|constructor].
  - intros k. rewrite last_value_item. apply N.
  - exact G.
  - intros k v. rewrite last_value_item. apply K.
  - intros k t m. rewrite last_value_item. intros Hk Hm. specialize (Sc _ _ _ Hk Hm).
    eapply terminal_frame; [exact Sc|]. specialize (G _ _ Hm). apply F; [eapply terminal_len; eauto|lia].
  - intros k es m. rewrite last_value_item. intros Hk Hm. specialize (G _ _ Hm).
    eapply holds_frame; [eapply Mp; eauto|]. intros i Hi. apply F; lia.
Qed.

(* setting a dictionary entry to a fresh node *)
Lemma holds_set h h' p x key m v ps : holds h p ps -> nth_error h p = Some x ->
  (forall i, i < length h -> i <> p -> nth_error h' i = nth_error h i) ->
  nth_error h' p = Some (mkNode (n_parent x) (n_val x) (n_term x) (n_list x) (sins key m (n_dict x))) ->
  p < m ->
  match v with
  | YScalar s => terminal_with h' m s
  | YMap es => holds h' m (pieces nk (YMap es))
  | _ => False
  end ->
  holds h' p (ps ++ [PKey key v]).
Proof.
  intros H Hx0 F Hp Hlt Hv. inversion H as [n x' ps' Hx T L Ll N G K Sc Mp]; subst n ps'.
  rewrite Hx0 in Hx. injection Hx as <-. assert (Lp := nth_len _ _ _ Hx0).
  eapply H_node; [exact Hp|..]; cbn [n_term n_list n_dict].
  - exact T.
  - rewrite items_app. cbn. rewrite app_nil_r. eapply Forall2_frame; [exact L|]. intros i Hi. rewrite Forall_forall in Ll.
    specialize (Ll _ Hi). apply F; [|lia]. eapply Forall2_terminal_len; eauto.
  - exact Ll.
  - intros k. rewrite last_value_app. destruct (str_eqb_spec key k) as [->|Ne].
    + rewrite (find_insert_same _ scmp_eq). split; discriminate.
    + rewrite (find_insert_other _ scmp_eq) by congruence. apply N.
  - intros k q. destruct (str_eqb_spec key k) as [->|Ne].
    + rewrite (find_insert_same _ scmp_eq). congruence.
    + rewrite (find_insert_other _ scmp_eq) by congruence. apply G.
  - intros k w. rewrite last_value_app. destruct (str_eqb_spec key k) as [->|Ne].
    + intros [= <-]. destruct v; try contradiction; eauto.
    + apply K.
  - intros k s q. rewrite last_value_app. destruct (str_eqb_spec key k) as [->|Ne].
    + rewrite (find_insert_same _ scmp_eq). intros [= ->] [= <-]. exact Hv.
    + rewrite (find_insert_other _ scmp_eq) by congruence. intros Hk Hm. specialize (Sc _ _ _ Hk Hm).
      eapply terminal_frame; [exact Sc|]. specialize (G _ _ Hm). apply F; [eapply terminal_len; eauto|lia].
  - intros k es q. rewrite last_value_app. destruct (str_eqb_spec key k) as [->|Ne].
    + rewrite (find_insert_same _ scmp_eq). intros [= ->] [= <-]. exact Hv.
    + rewrite (find_insert_other _ scmp_eq) by congruence. intros Hk Hm. specialize (G _ _ Hm).
      eapply holds_frame; [eapply Mp; eauto|]. intros i Hi. apply F; lia.
Qed.

(* ---- loading ---- *)
(* after loading something with contribution c into prop *)
Definition post (h : heap) (prop : nat) (ps : list piece) (c : list piece * bool) (r : heap * option exn) : Prop :=
  wf (fst r) /\ holds (fst r) prop (ps ++ fst c) /\
  (snd c = true <-> snd r = None) /\
  length h <= length (fst r) /\
  (forall i, i < length h -> i <> prop -> nth_error (fst r) i = nth_error h i) /\
  (forall x, nth_error h prop = Some x -> exists y, nth_error (fst r) prop = Some y /\ same_fixed x y) /\
  (forall e, snd r = Some e -> e = yamlInvalidNode \/ e = yamlBadConversion).

Definition loads (f : heap -> heap * option exn) (prop : nat) (c : list piece * bool) : Prop :=
  forall h ps, wf h -> holds h prop ps -> post h prop ps c (f h).

Lemma loads_nothing prop : loads (fun h => (h, None)) prop ([], true).
Proof.
  intros h ps W H. unfold post. cbn [fst snd]. rewrite app_nil_r.
  repeat (split; [solve [auto|tauto]|]).
  split; [intros x Hx; exists x; auto using same_fixed_refl|discriminate].
Qed.

Lemma loads_each {A} (f : A -> heap -> heap * option exn) (g : A -> list piece * bool) prop l :
  (forall a, In a l -> loads (f a) prop (g a)) -> loads (each f l) prop (then_ g l).
Proof.
  induction l as [|a l IH]; intros Hl; [apply loads_nothing|].
  intros h ps W H. assert (Ha := Hl a (or_introl eq_refl) h ps W H).
  cbn [each then_]. destruct (g a) as [pa oka] eqn:Eg. destruct (f a h) as [h1 e1] eqn:Ef.
  destruct Ha as (W1 & H1 & O1 & L1 & F1 & X1 & E1). cbn [fst snd] in *.
  destruct e1 as [e1|].
  - destruct oka; [destruct O1 as [O1 _]; specialize (O1 eq_refl); discriminate|].
    unfold post. cbn [fst snd]. split; [exact W1|]. split; [exact H1|]. split; [split; discriminate|]. auto.
  - assert (oka = true) as -> by (apply O1; reflexivity).
    assert (Hl' : forall a, In a l -> loads (f a) prop (g a)) by (intros; apply Hl; right; assumption).
    assert (P := IH Hl' h1 _ W1 H1). fold (each f) in *. fold (then_ g) in *.
    destruct (then_ g l) as [b ok2]. destruct (each f l h1) as [h2 e2].
    destruct P as (W2 & H2 & O2 & L2 & F2 & X2 & E2). unfold post. cbn [fst snd] in *.
    split; [exact W2|]. split; [rewrite <- app_assoc in H2; exact H2|]. split; [exact O2|]. split; [lia|].
    split; [intros i Hi Hn; rewrite F2 by lia; auto|]. split; [|exact E2].
    intros x Hx. destruct (X1 x Hx) as (y & Y & S1). destruct (X2 y Y) as (z & Z & S2).
    exists z. eauto using same_fixed_trans.
Qed.

Lemma wf_set_new h p x key val term : wf h -> nth_error h p = Some x -> n_term x = false ->
  (term = false -> val = []) ->
  wf (set_dict (h ++ [mkNode (Some p) val term [] []]) p key (length h)).
Proof.
  intros W Hx T V. assert (Lp := nth_len _ _ _ Hx).
  pose proof (wf_new h p val term W Lp V) as Wn. cbn in Wn.
  eapply wf_set; [exact Wn|rewrite nth_new by exact Lp; exact Hx|exact T|apply nth_new_last|reflexivity|exact Lp].
Qed.

Lemma holds_fresh h p val : holds (h ++ [mkNode p val false [] []]) (length h) [].
Proof.
  eapply H_node; [apply nth_new_last|..]; cbn; try tauto; try discriminate.
  - constructor.
  - constructor.
Qed.

Lemma fill_loads d : forall prop, loads (fun h => fillRecurse nk d h prop) prop (contribution nk d).
Proof.
  induction d as [|s|l IH|es IH] using ynode_ind2; intros prop.
  - apply loads_nothing.
  - intros h ps W H. destruct (holds_inv _ _ _ H) as (x & Hx & T). assert (Lp := nth_len _ _ _ Hx).
    unfold post. cbn [fillRecurse new_node contribution fst snd].
    assert (Wn := wf_new h prop s true W Lp ltac:(discriminate)). cbn in Wn.
    split; [eapply wf_push; [exact Wn|rewrite nth_new by exact Lp; exact Hx|exact T|apply nth_new_last|reflexivity|reflexivity|exact Lp]|].
    split; [apply holds_push, H|]. split; [tauto|]. unfold push_list. rewrite update_length, app_length.
    split; [lia|]. split; [|split; [|discriminate]].
    + intros i Hi Hn. rewrite nth_update. destruct (Nat.eqb_spec i prop); [contradiction|]. apply nth_new, Hi.
    + intros y Hy. rewrite nth_update, Nat.eqb_refl, nth_new, Hy by exact Lp. eexists. split; [reflexivity|]. repeat split.
  - destruct l as [|d l]; [apply loads_nothing|].
    intros h ps W H. unfold post. cbn [fillRecurse contribution fst snd]. rewrite app_nil_r.
    split; [exact W|]. split; [exact H|]. split; [split; discriminate|]. split; [lia|]. split; [auto|].
    split; [intros x Hx; exists x; auto using same_fixed_refl|intros e [= <-]; auto].
  - cbn [fillRecurse contribution]. apply (loads_each _ _ prop es). intros [k v] Hin.
    destruct (IH k v Hin) as [IHv IHl].
    destruct v as [|s|l|es'].
    + apply loads_nothing.
    + intros h ps W H. destruct (holds_inv _ _ _ H) as (x & Hx & T). assert (Lp := nth_len _ _ _ Hx).
      cbn [new_node]. destruct (as_string nk k) as [key|].
      * unfold post. cbn [fst snd]. split; [eapply wf_set_new; eauto; discriminate|].
        assert (F : forall i, i < length h -> i <> prop ->
          nth_error (set_dict (h ++ [mkNode (Some prop) s true [] []]) prop key (length h)) i = nth_error h i).
        { intros i Hi Hn. unfold set_dict. rewrite nth_update. destruct (Nat.eqb_spec i prop); [contradiction|]. apply nth_new, Hi. }
        assert (X : nth_error (set_dict (h ++ [mkNode (Some prop) s true [] []]) prop key (length h)) prop
                    = Some (mkNode (n_parent x) (n_val x) (n_term x) (n_list x) (sins key (length h) (n_dict x)))).
        { unfold set_dict. rewrite nth_update, Nat.eqb_refl, nth_new, Hx by exact Lp. reflexivity. }
        split.
        { eapply holds_set; [exact H|exact Hx|exact F|exact X|exact Lp|]. cbn iota.
          exists (mkNode (Some prop) s true [] []). unfold set_dict. rewrite nth_update.
          destruct (Nat.eqb_spec (length h) prop); [lia|]. rewrite nth_new_last. auto. }
        split; [tauto|]. unfold set_dict at 1. rewrite update_length, app_length. split; [lia|].
        split; [exact F|]. split; [|discriminate]. intros y Hy. rewrite Hx in Hy. injection Hy as <-.
        eexists. split; [exact X|]. repeat split.
      * unfold post. cbn [fst snd]. rewrite app_nil_r. split; [apply (wf_new h prop s true); auto; discriminate|].
        split; [eapply holds_frame; [exact H|]; intros i Hi; apply nth_new; lia|].
        split; [split; discriminate|]. rewrite app_length. split; [lia|].
        split; [intros; apply nth_new; assumption|].
        split; [intros y Hy; exists y; rewrite nth_new by exact Lp; auto using same_fixed_refl|intros e [= <-]; auto].
    + apply loads_each. intros d Hd. apply (IHl l eq_refl d Hd).
    + intros h ps W H. destruct (holds_inv _ _ _ H) as (x & Hx & T). assert (Lp := nth_len _ _ _ Hx).
      cbn [new_node]. destruct (as_string nk k) as [key|].
      * set (nn := mkNode (Some prop) [] false [] []). set (h1 := set_dict (h ++ [nn]) prop key (length h)).
        assert (W1 : wf h1) by (eapply wf_set_new; eauto).
        assert (X : nth_error h1 prop = Some (mkNode (n_parent x) (n_val x) (n_term x) (n_list x) (sins key (length h) (n_dict x)))).
        { unfold h1, set_dict. rewrite nth_update, Nat.eqb_refl, nth_new, Hx by exact Lp. reflexivity. }
        assert (L1 : length h1 = S (length h)).
        { unfold h1, set_dict. rewrite update_length, app_length. cbn. lia. }
        assert (F : forall i, i < length h -> i <> prop -> nth_error h1 i = nth_error h i).
        { intros i Hi Hn. unfold h1, set_dict. rewrite nth_update. destruct (Nat.eqb_spec i prop); [contradiction|]. apply nth_new, Hi. }
        assert (Hc : holds h1 (length h) []).
        { eapply holds_frame; [apply (holds_fresh h (Some prop) [])|]. intros i Hi. unfold h1, set_dict.
          rewrite nth_update. destruct (Nat.eqb_spec i prop); [lia|]. reflexivity. }
        assert (P := IHv (length h) h1 [] W1 Hc). cbn beta in P.
        destruct (fillRecurse nk (YMap es') h1 (length h)) as [h2 e2].
        destruct P as (W2 & H2 & O2 & L2 & F2 & X2 & E2). unfold post. cbn [fst snd app] in *.
        assert (F' : forall i, i < length h -> i <> prop -> nth_error h2 i = nth_error h i).
        { intros i Hi Hn. rewrite F2 by lia. apply F; assumption. }
        assert (X' : nth_error h2 prop = nth_error h1 prop) by (apply F2; lia).
        split; [exact W2|]. split.
        { eapply holds_set; [exact H|exact Hx|exact F'|rewrite X'; exact X|exact Lp|exact H2]. }
        split; [exact O2|]. split; [lia|]. split; [exact F'|]. split; [|exact E2].
        intros y Hy. rewrite Hx in Hy. injection Hy as <-. eexists. split; [rewrite X'; exact X|]. repeat split.
      * unfold post. cbn [fst snd]. rewrite app_nil_r. split; [apply (wf_new h prop [] false); auto|].
        split; [eapply holds_frame; [exact H|]; intros i Hi; apply nth_new; lia|].
        split; [split; discriminate|]. rewrite app_length. split; [lia|].
        split; [intros; apply nth_new; assumption|].
        split; [intros y Hy; exists y; rewrite nth_new by exact Lp; auto using same_fixed_refl|intros e [= <-]; auto].
Qed.

(* ---- histories of readFile ---- *)
Lemma wf_new_tree : wf new_tree.
Proof.
  split; [cbn; lia|]. intros [|[|n]] x [= <-]; constructor; cbn; auto; try discriminate; try tauto. constructor.
Qed.
Lemma holds_new_tree : holds new_tree root [].
Proof.
  eapply H_node; [reflexivity|..]; cbn; try tauto; try discriminate; constructor.
Qed.

Lemma reads_ok l : forall h ps, wf h -> holds h root ps ->
  wf (after_reads nk h l) /\ holds (after_reads nk h l) root (ps ++ loaded nk l).
Proof.
  induction l as [|r l IH]; intros h ps W H; cbn [after_reads].
  - cbn. rewrite app_nil_r. auto.
  - destruct r as [d|w|e]; cbn [readFile fst]; cbn [loaded flat_map app]; [|auto..].
    destruct (fill_loads d root h ps W H) as (W1 & H1 & _).
    rewrite app_assoc. apply IH; assumption.
Qed.
Lemma reads_new l : let h := after_reads nk new_tree l in wf h /\ holds h root (loaded nk l).
Proof. apply (reads_ok l new_tree []); [apply wf_new_tree|apply holds_new_tree]. Qed.
End Holds.
