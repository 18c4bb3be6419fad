(* L_PropertyTreeP.v -- paths, path names, keys and dump of loaded trees. *)
From Coq Require Import Sorted.
From Verif Require Import Base L_Map M_Split S_Split L_Split C_Split M_StreamIn M_PropertyTree S_PropertyTree L_PropertyTree.

Lemma dict_in_find h n x k m : wf h -> nth_error h n = Some x ->
  (In (k, m) (n_dict x) <-> sfind k (n_dict x) = Some m).
Proof.
  intros [_ W] Hx. split.
  - apply (in_find _ scmp_eq). apply (ksorted_nodup _ scmp_eq). apply (wf_sorted _ _ _ (W _ _ Hx)).
  - apply (find_some_in _ scmp_eq).
Qed.

Lemma follows_cons_inv h n k ks q : follows h n (k :: ks) q ->
  exists x m, nth_error h n = Some x /\ In (k, m) (n_dict x) /\ follows h m ks q.
Proof. intros H. inversion H; subst; eauto. Qed.
Lemma follows_nil_inv h n q : follows h n [] q -> n = q /\ n < length h.
Proof. intros H. inversion H; subst; auto. Qed.
Lemma follows_len h n ks q : follows h n ks q -> q < length h.
Proof. induction 1; auto. Qed.
Lemma follows_app h n a b m q : follows h n a m -> follows h m b q -> follows h n (a ++ b) q.
Proof. induction 1; intros H2; [exact H2|]. econstructor; eauto. Qed.

Lemma terminal_no_child h n s k ks q : wf h -> terminal_with h n s -> ~ follows h n (k :: ks) q.
Proof.
  intros [_ W] (x & Hx & T & _) F. apply follows_cons_inv in F. destruct F as (y & m & Hy & Hin & _).
  rewrite Hx in Hy. injection Hy as <-. destruct (wf_term _ _ _ (W _ _ Hx) T) as [_ E]. rewrite E in Hin. destruct Hin.
Qed.
Lemma terminal_not_branch h n s : terminal_with h n s -> ~ branch h n.
Proof. intros (x & Hx & T & _) (y & Hy & T2). congruence. Qed.

Section Look.
Variable nk : option str.

Lemma holds_follow h : wf h -> forall ks n ps, holds nk h n ps ->
  match lookup nk ps ks with
  | Some (FText s) => exists m, follows h n ks m /\ terminal_with h m s
  | Some (FNode l) => exists m, follows h n ks m /\ holds nk h m l
  | None => forall m, ~ follows h n ks m
  end.
Proof.
  intros W. induction ks as [|k ks IH]; intros n ps H.
  - cbn. exists n. split; [|exact H]. constructor. destruct (holds_inv _ _ _ _ H) as (x & Hx & _). eapply nth_len; eauto.
  - cbn [lookup]. inversion H as [n' x ps' Hx T L Ll N G K Sc Mp]; subst n' ps'.
    destruct (last_value k ps) as [v|] eqn:E.
    + destruct (sfind k (n_dict x)) as [m|] eqn:Ef; [|apply N in Ef; congruence].
      assert (Hin : In (k, m) (n_dict x)) by (apply (dict_in_find h n); assumption).
      destruct (K _ _ E) as [(s & ->)|(es & ->)].
      * specialize (Sc _ _ _ E Ef). destruct ks as [|k2 ks].
        -- exists m. split; [|exact Sc]. econstructor; eauto. constructor. eapply terminal_len; eauto.
        -- intros q F. apply follows_cons_inv in F. destruct F as (y & m' & Hy & Hin' & F).
           rewrite Hx in Hy. injection Hy as <-. apply (dict_in_find h n) in Hin'; [|assumption..].
           rewrite Ef in Hin'. injection Hin' as <-. eapply terminal_no_child; eauto.
      * specialize (Mp _ _ _ E Ef). specialize (IH m _ Mp).
        destruct (lookup nk (pieces nk (YMap es)) ks) as [[s|l]|].
        -- destruct IH as (q & F & Q). exists q. split; [|exact Q]. econstructor; eauto.
        -- destruct IH as (q & F & Q). exists q. split; [|exact Q]. econstructor; eauto.
        -- intros q F. apply follows_cons_inv in F. destruct F as (y & m' & Hy & Hin' & F).
           rewrite Hx in Hy. injection Hy as <-. apply (dict_in_find h n) in Hin'; [|assumption..].
           rewrite Ef in Hin'. injection Hin' as <-. eapply IH; eauto.
    + intros q F. apply follows_cons_inv in F. destruct F as (y & m' & Hy & Hin' & F).
      rewrite Hx in Hy. injection Hy as <-. apply (dict_in_find h n) in Hin'; [|assumption..].
      apply N in E. congruence.
Qed.

Lemma follows_fun h : wf h -> forall n ks m, follows h n ks m -> forall m', follows h n ks m' -> m = m'.
Proof.
  intros W n ks m F. induction F as [n L|n x k m ks q Hx Hin F IH]; intros m' F'.
  - apply follows_nil_inv in F'. tauto.
  - apply follows_cons_inv in F'. destruct F' as (y & m2 & Hy & Hin' & F'). rewrite Hx in Hy. injection Hy as <-.
    apply (dict_in_find h n) in Hin'; [|assumption..]. apply (dict_in_find h n) in Hin; [|assumption..].
    assert (m = m2) by congruence. subst. auto.
Qed.

Lemma holds_branch h n ps : holds nk h n ps -> branch h n.
Proof. intros H. destruct (holds_inv _ _ _ _ H) as (x & Hx & T). exists x. auto. Qed.

Lemma look_text h n ps ks s : wf h -> holds nk h n ps ->
  (lookup nk ps ks = Some (FText s) <-> exists m, follows h n ks m /\ terminal_with h m s).
Proof.
  intros W H. pose proof (holds_follow h W ks n ps H) as L.
  destruct (lookup nk ps ks) as [[t|l]|].
  - destruct L as (m & F & T). split.
    + intros [= <-]. eauto.
    + intros (m' & F' & T'). assert (m = m') by (eapply follows_fun; eauto). subst m'.
      destruct T as (x & Hx & _ & V), T' as (y & Hy & _ & V'). congruence.
  - destruct L as (m & F & Hm). split; [discriminate|]. intros (m' & F' & T').
    assert (m = m') by (eapply follows_fun; eauto). subst m'.
    destruct (terminal_not_branch _ _ _ T' (holds_branch _ _ _ Hm)).
  - split; [discriminate|]. intros (m' & F' & _). destruct (L _ F').
Qed.
Lemma look_node h n ps ks : wf h -> holds nk h n ps ->
  ((exists l, lookup nk ps ks = Some (FNode l)) <-> exists m, follows h n ks m /\ branch h m).
Proof.
  intros W H. pose proof (holds_follow h W ks n ps H) as L.
  destruct (lookup nk ps ks) as [[t|l]|].
  - destruct L as (m & F & T). split; [intros [l E]; discriminate|].
    intros (m' & F' & B). assert (m = m') by (eapply follows_fun; eauto). subst m'.
    destruct (terminal_not_branch _ _ _ T B).
  - destruct L as (m & F & Hm). split; eauto using holds_branch.
  - split; [intros [l E]; discriminate|]. intros (m' & F' & _). destruct (L _ F').
Qed.
Lemma look_holds h n ps ks l m : wf h -> holds nk h n ps ->
  lookup nk ps ks = Some (FNode l) -> follows h n ks m -> holds nk h m l.
Proof.
  intros W H E F. pose proof (holds_follow h W ks n ps H) as L. rewrite E in L.
  destruct L as (m' & F' & Hm). assert (m = m') by (eapply follows_fun; eauto). subst. exact Hm.
Qed.

(* ---- documents of mappings and scalars ---- *)
Lemma last_value_cat k a b : last_value k (a ++ b) = match last_value k b with Some v => Some v | None => last_value k a end.
Proof.
  induction a as [|[t v|s] a IH]; cbn.
  - destruct (last_value k b); reflexivity.
  - rewrite IH. destruct (last_value k b); reflexivity.
  - exact IH.
Qed.

Lemma ms_last es : (forall k v, In (k, v) es -> maps_scalars v) ->
  snd (contribution nk (YMap es)) = true ->
  (forall k, last_value k (pieces nk (YMap es)) = last_entry nk k es) /\
  (forall k v, In (k, v) es -> forall es', v = YMap es' -> snd (contribution nk v) = true).
Proof.
  unfold pieces. cbn [contribution]. set (f := fun e : ynode * ynode => _).
  induction es as [|[k v] es IH]; intros Hms Hok; [split; [reflexivity|intros ? ? []]|].
  cbn [then_] in *. fold (then_ f) in *.
  assert (Hms' : forall k v, In (k, v) es -> maps_scalars v) by (intros; eapply Hms; right; eauto).
  assert (Hv := Hms k v (or_introl eq_refl)).
  destruct (f (k, v)) as [a ok] eqn:Ef. destruct ok; [|discriminate Hok].
  destruct (then_ f es) as [b ok2]. cbn [fst snd] in *. specialize (IH Hms' Hok). destruct IH as [IH1 IH2].
  cbn [last_entry]. inversion Hv as [s E|es' He E]; subst v; cbn in Ef; fold f in Ef.
  - destruct (as_string nk k) as [t|]; [|discriminate Ef]. injection Ef as <-. split.
    + intros k0. rewrite last_value_cat, IH1. destruct (last_entry nk k0 es); reflexivity.
    + intros k0 v0 [E|Hin]; [intros es' ->; discriminate|eauto].
  - destruct (as_string nk k) as [t|]; [|discriminate Ef].
    injection Ef as <- Eo. split.
    + intros k0. rewrite last_value_cat, IH1. destruct (last_entry nk k0 es); reflexivity.
    + intros k0 v0 [E|Hin]; [|eauto]. intros es2 ->. injection E as <- <-. exact Eo.
Qed.

Lemma last_entry_in k es v : last_entry nk k es = Some v -> exists key, In (key, v) es.
Proof.
  induction es as [|[key w] es IH]; cbn; [discriminate|].
  destruct (last_entry nk k es) as [u|].
  - intros [= ->]. destruct (IH eq_refl) as [key' Hin]. eauto.
  - destruct (as_string nk key) as [s|]; [|discriminate]. destruct (str_eqb s k); [|discriminate].
    intros [= ->]. eauto.
Qed.

Lemma ms_lookup : forall ks es s, maps_scalars (YMap es) ->
  snd (contribution nk (YMap es)) = true -> ks <> [] ->
  (lookup nk (pieces nk (YMap es)) ks = Some (FText s) <-> at_path nk (YMap es) ks = Some (YScalar s)).
Proof.
  induction ks as [|k ks IH]; intros es s Hms Hok Hk; [congruence|].
  inversion Hms as [|es0 Hes]; subst es0.
  destruct (ms_last es Hes Hok) as [H1 H2]. cbn [lookup at_path]. rewrite H1.
  destruct (last_entry nk k es) as [v|] eqn:E; [|split; discriminate].
  destruct (last_entry_in _ _ _ E) as [key Hin]. specialize (Hes _ _ Hin).
  inversion Hes as [t|es' He]; subst v.
  - destruct ks; cbn; [|split; discriminate]. split; congruence.
  - destruct ks as [|k2 ks]; [cbn; split; discriminate|].
    apply IH; [exact Hes|eapply H2; eauto|discriminate].
Qed.
Lemma ms_lookup_node : forall ks es, maps_scalars (YMap es) ->
  snd (contribution nk (YMap es)) = true ->
  ((exists l, lookup nk (pieces nk (YMap es)) ks = Some (FNode l)) <->
   exists es', at_path nk (YMap es) ks = Some (YMap es')).
Proof.
  induction ks as [|k ks IH]; intros es Hms Hok; [cbn; split; eauto|].
  inversion Hms as [|es0 Hes]; subst es0.
  destruct (ms_last es Hes Hok) as [H1 H2]. cbn [lookup at_path]. rewrite H1.
  destruct (last_entry nk k es) as [v|] eqn:E; [|split; intros [? ?]; discriminate].
  destruct (last_entry_in _ _ _ E) as [key Hin]. specialize (Hes _ _ Hin).
  inversion Hes as [t|es' He]; subst v.
  - destruct ks; cbn; split; intros [? ?]; discriminate.
  - apply IH; [exact Hes|eapply H2; eauto].
Qed.

(* ---- which documents are read to the end ---- *)
Lemma then_true {A} (f : A -> list piece * bool) l :
  snd (then_ f l) = true <-> forall a, In a l -> snd (f a) = true.
Proof.
  induction l as [|a l IH]; cbn [then_]; fold (then_ f); [split; [intros _ ? []|reflexivity]|].
  destruct (f a) as [p ok] eqn:E. destruct ok.
  - destruct (then_ f l) as [b ok2]. cbn [snd] in *. rewrite IH. split.
    + intros H x [<-|Hx]; [rewrite E; reflexivity|auto].
    + intros H x Hx. apply H. right. exact Hx.
  - cbn. split; [discriminate|]. intros H. specialize (H a (or_introl eq_refl)). rewrite E in H. discriminate.
Qed.
Lemma readable_iff d : readable nk d <-> snd (contribution nk d) = true.
Proof.
  induction d as [|s|l IH|es IH] using ynode_ind2.
  - split; [reflexivity|constructor].
  - split; [reflexivity|constructor].
  - destruct l as [|d l]; [split; [reflexivity|constructor]|]. split; [|discriminate].
    intros H. inversion H.
  - cbn [contribution]. rewrite then_true. split.
    + intros H. inversion H as [| | |es' He]; subst es'. intros [k v] Hin.
      destruct (IH k v Hin) as [IHv IHl]. specialize (He _ _ Hin).
      inversion He as [k'|k' t s E|k' t es' E R|k' l R]; subst k' v; cbn.
      * reflexivity.
      * rewrite E. reflexivity.
      * rewrite E. apply IHv. exact R.
      * apply then_true. intros d Hd. apply (IHl l eq_refl d Hd). apply R, Hd.
    + intros H. constructor. intros k v Hin. destruct (IH k v Hin) as [IHv IHl]. specialize (H _ Hin). cbn beta iota in H.
      destruct v as [|s|l|es'].
      * constructor.
      * destruct (as_string nk k) as [t|] eqn:E; [|discriminate H]. econstructor; eauto.
      * constructor. intros d Hd. apply (IHl l eq_refl d Hd). rewrite then_true in H. apply H, Hd.
      * destruct (as_string nk k) as [t|] eqn:E; [|discriminate H]. econstructor; eauto. apply IHv. exact H.
Qed.
End Look.

(* ---- getKeys ---- *)
Lemma keys_fold (l : list (str * nat)) : forall acc,
  fold_left (fun keys a => keys ++ [fst a]) l acc = acc ++ map fst l.
Proof.
  induction l as [|a l IH]; intros acc; cbn; [rewrite app_nil_r; reflexivity|].
  rewrite IH, <- app_assoc. reflexivity.
Qed.
Lemma sorted_ascending l : StronglySorted (klt str_compare) l -> ascending l.
Proof.
  induction 1 as [|a l H IH F]; [constructor|]. destruct l as [|b l]; [constructor|].
  constructor; [|exact IH]. inversion F; subst. assumption.
Qed.
Lemma ascending_nodup l : ascending l -> NoDup l.
Proof.
  assert (G : forall a l, ascending (a :: l) -> forall b, In b l -> str_compare a b = Lt).
  { intros a l0. revert a. induction l0 as [|c l0 IH]; intros a H b Hb; [destruct Hb|].
    inversion H; subst. destruct Hb as [<-|Hb]; [assumption|]. eapply scmp_trans; eauto. }
  induction l as [|a l IH]; intros H; [constructor|]. constructor.
  - intros Hin. specialize (G _ _ H _ Hin). rewrite (proj2 (scmp_eq a a) eq_refl) in G. discriminate.
  - apply IH. inversion H; subst; [constructor|assumption].
Qed.
Lemma getKeys_ok h n : wf h -> n < length h -> exists ks, getKeys h n = Ok ks /\ ascending ks /\
  forall k, In k ks <-> exists m, follows h n [k] m.
Proof.
  intros W L. unfold getKeys. destruct (nth_error h n) as [x|] eqn:Hx; [|apply nth_error_None in Hx; lia].
  exists (map fst (n_dict x)). rewrite keys_fold. split; [reflexivity|].
  pose proof (proj2 W _ _ Hx) as Wn. split; [apply sorted_ascending, (wf_sorted _ _ _ Wn)|].
  intros k. split.
  - intros Hin. apply in_map_iff in Hin. destruct Hin as ([k' m] & <- & Hin). exists m.
    econstructor; eauto. constructor. destruct (wf_dict _ _ _ Wn _ _ Hin) as (_ & y & Hy & _). eapply nth_len; eauto.
  - intros [m F]. apply follows_cons_inv in F. destruct F as (y & m' & Hy & Hin & _).
    rewrite Hx in Hy. injection Hy as <-. apply in_map_iff. exists (k, m'). auto.
Qed.

(* ---- getPathName ---- *)
Lemma path_fuel h : wf h -> forall f n, n < f -> n < length h -> exists t, path_name f h n = Ok t /\
  forall f', n < f' -> path_name f' h n = Ok t.
Proof.
  intros W. induction f as [|f IH]; intros n Hf Hl; [lia|].
  destruct (nth_error h n) as [x|] eqn:Hx; [|apply nth_error_None in Hx; lia].
  pose proof (wf_parent _ _ _ (proj2 W _ _ Hx)) as P. cbn [path_name]. rewrite Hx.
  destruct (n_parent x) as [p|] eqn:Ep.
  - destruct P as [P _]. destruct (IH p) as (t & Et & Eu); [lia|lia|]. exists (t ++ lit ":" ++ n_val x).
    rewrite Et. split; [reflexivity|]. intros [|f'] Hf'; [lia|]. cbn [path_name]. rewrite Hx, Ep, Eu by lia. reflexivity.
  - exists []. split; [reflexivity|]. intros [|f'] Hf'; [lia|]. cbn [path_name]. rewrite Hx, Ep. reflexivity.
Qed.
Lemma path_root h : wf h -> getPathName h root = Ok [].
Proof.
  intros W. unfold getPathName. destruct (nth_error h root) as [x|] eqn:Hx.
  - pose proof (wf_parent _ _ _ (proj2 W _ _ Hx)) as P. destruct (length h) as [|f] eqn:El.
    + destruct W as [W _]. lia.
    + cbn [path_name]. rewrite Hx. destruct (n_parent x); [|reflexivity]. unfold root in P. lia.
  - apply nth_error_None in Hx. destruct W as [W _]. unfold root in Hx. lia.
Qed.
Lemma path_child h n m y : wf h -> n < m -> nth_error h m = Some y -> n_parent y = Some n ->
  exists t, getPathName h n = Ok t /\ getPathName h m = Ok (t ++ lit ":" ++ n_val y).
Proof.
  intros W L Hy P. unfold getPathName. assert (Lm := nth_len _ _ _ Hy).
  destruct (path_fuel h W (length h) n) as (t & Et & Eu); [lia|lia|]. exists t. split; [exact Et|].
  destruct (length h) as [|f]; [lia|]. cbn [path_name]. rewrite Hy, P, Eu by lia. reflexivity.
Qed.

(* from a branch node, each key adds one ':', and a terminal its value *)
Lemma path_follows h : wf h -> forall n ks m, follows h n ks m -> forall t, getPathName h n = Ok t ->
  branch h n ->
  exists y, nth_error h m = Some y /\
    getPathName h m = Ok (t ++ repeat ":"%char (length ks) ++ (if n_term y then n_val y else [])).
Proof.
  intros W n ks m F. induction F as [n L|n x k m ks q Hx Hin F IH]; intros t Ht (z & Hz & Tz).
  - exists z. split; [exact Hz|]. rewrite Tz. cbn. rewrite !app_nil_r. exact Ht.
  - destruct (wf_dict _ _ _ (proj2 W _ _ Hx) _ _ Hin) as (L & y & Hy & Py).
    destruct (path_child h n m y W L Hy Py) as (t' & Et' & Em). rewrite Ht in Et'. injection Et' as <-.
    destruct (n_term y) eqn:Ty.
    + destruct ks as [|k2 ks].
      * apply follows_nil_inv in F. destruct F as [<- _]. exists y. split; [exact Hy|]. rewrite Ty. exact Em.
      * exfalso. eapply terminal_no_child; eauto. exists y. eauto.
    + pose proof (wf_parent _ _ _ (proj2 W _ _ Hy)) as P. rewrite Py in P. destruct P as [_ P].
      rewrite (P Ty) in Em. rewrite app_nil_r in Em.
      destruct (IH _ Em) as (u & Hu & Eu); [exists y; auto|]. exists u. split; [exact Hu|].
      rewrite Eu. cbn [length repeat]. rewrite <- !app_assoc. reflexivity.
Qed.

(* ---- getProp and get ---- *)
Lemma getPropRecursive_spec h n x orig te : nth_error h n = Some x -> forall ks,
  getPropRecursive h n ks orig te =
  if forallb (fun k => match sfind k (n_dict x) with Some _ => true | None => false end) ks
  then Ok (Some n)
  else if te then Throw (propertyNotFound orig) else Ok None.
Proof.
  intros Hx. induction ks as [|k ks IH]; cbn; [reflexivity|]. rewrite Hx.
  destruct (sfind k (n_dict x)); cbn; [exact IH|reflexivity].
Qed.

(* ---- path names ---- *)
Lemma split_path p : (exists c, In c p /\ c <> " "%char) ->
  split p (lit ":") false = Ok (path_keys p).
Proof. apply c03. Qed.
Lemma split_blank p : (forall c, In c p -> c = " "%char) -> split p (lit ":") false = UB.
Proof.
  intros H. unfold split. apply c02_domain in H. rewrite H. reflexivity.
Qed.

Lemma plain_join_word ks : ks <> [] -> (forall k, In k ks -> plain_key k) -> good_word (join (lit ":") ks).
Proof.
  assert (P : forall k, plain_key k -> good_word k).
  { intros k (A & _ & B). split; [exact A|]. apply forallb_forall. intros c Hc. unfold is_space.
    destruct (Ascii.eqb_spec c " "%char); [subst; contradiction|reflexivity]. }
  induction ks as [|k ks IH]; intros Hne Hp; [congruence|]. assert (Hk := P _ (Hp k (or_introl eq_refl))).
  destruct ks as [|k2 ks]; [exact Hk|]. rewrite join_cons_cons.
  destruct (IH ltac:(discriminate)) as [A B]; [intros; apply Hp; right; assumption|].
  destruct Hk as [C D]. split; [destruct k; [congruence|discriminate]|].
  rewrite forallb_app, D. cbn. exact B.
Qed.
Lemma plain_path ks : ks <> [] -> (forall k, In k ks -> plain_key k) -> path_keys (join (lit ":") ks) = ks.
Proof.
  intros Hne Hp. unfold path_keys. rewrite words_word by (apply plain_join_word; assumption). cbn [join].
  assert (P : forall k, plain_key k -> forallb (fun c => negb (In_delims (lit ":") c)) k = true).
  { intros k (_ & A & _). apply forallb_forall. intros c Hc. cbn. rewrite orb_false_r.
    destruct (Ascii.eqb_spec c ":"%char); [subst; contradiction|reflexivity]. }
  induction ks as [|k ks IH]; [congruence|]. assert (Hk := Hp k (or_introl eq_refl)).
  destruct ks as [|k2 ks].
  - cbn [join]. rewrite fields_nodelim by (apply P, Hk). destruct Hk as [Hk _]. destruct k; [congruence|reflexivity].
  - rewrite join_cons_cons. change (lit ":" ++ ?x) with (":"%char :: x).
    rewrite fields_nodelim_app by (apply P, Hk || reflexivity).
    rewrite drop_last_empty_cons by apply fields_nonnil.
    rewrite IH; [reflexivity|discriminate|intros; apply Hp; right; assumption].
Qed.
Lemma plain_nonblank ks : ks <> [] -> (forall k, In k ks -> plain_key k) ->
  exists c, In c (join (lit ":") ks) /\ c <> " "%char.
Proof.
  intros A B. destruct (plain_join_word ks A B) as [C D]. destruct (join (lit ":") ks) as [|c r]; [congruence|].
  exists c. split; [left; reflexivity|]. intros ->. discriminate D.
Qed.

(* ---- dump ---- *)
Lemma contains_refl t : contains t t.
Proof. exists [], []. rewrite app_nil_r. reflexivity. Qed.
Lemma contains_trans t u v : contains t u -> contains u v -> contains t v.
Proof.
  intros (a & b & ->) (c & d & ->). exists (a ++ c), (d ++ b). rewrite <- !app_assoc. reflexivity.
Qed.
Lemma contains_l a t u : contains t u -> contains (a ++ t) u.
Proof. intros (c & d & ->). exists (a ++ c), d. rewrite <- app_assoc. reflexivity. Qed.
Lemma contains_r b t u : contains t u -> contains (t ++ b) u.
Proof. intros (c & d & ->). exists c, (d ++ b). rewrite <- !app_assoc. reflexivity. Qed.

Lemma concat_out_ok {A} (f : A -> outcome str) l : (forall x, In x l -> exists t, f x = Ok t) ->
  exists t, concat_out f l = Ok t /\ forall x u, In x l -> f x = Ok u -> contains t u.
Proof.
  induction l as [|x l IH]; intros H; [exists []; split; [reflexivity|intros ? ? []]|].
  destruct (H x (or_introl eq_refl)) as [a Ea]. destruct IH as (b & Eb & Cb); [intros; apply H; right; assumption|].
  exists (a ++ b). cbn. rewrite Ea. cbn. rewrite Eb. split; [reflexivity|].
  intros y u [<-|Hy] Hu.
  - rewrite Ea in Hu. injection Hu as <-. apply contains_r, contains_refl.
  - apply contains_l. eauto.
Qed.

Definition shows_line (h : heap) (t indent : str) (n : nat) : Prop :=
  forall x, nth_error h n = Some x ->
  (n_term x = true -> t = indent ++ n_val x ++ nl) /\
  (n_term x = false ->
   (forall m, In m (n_list x) -> exists y, nth_error h m = Some y /\ contains t (indent ++ n_val y ++ nl)) /\
   (forall k m, In (k, m) (n_dict x) -> exists y, nth_error h m = Some y /\
      if n_term y then contains t (indent ++ k ++ lit ":  " ++ n_val y ++ nl)
      else exists u, (exists f, dump_node f h m (indent ++ lit "  ") = Ok u) /\
                     contains t (indent ++ k ++ lit ":  " ++ nl ++ u))).

Lemma dump_ok h : wf h -> forall f n indent, n < length h -> length h <= n + f ->
  exists t, dump_node f h n indent = Ok t /\ shows_line h t indent n.
Proof.
  intros W. induction f as [|f IH]; intros n indent Hn Hf; [lia|].
  destruct (nth_error h n) as [x|] eqn:Hx; [|apply nth_error_None in Hx; lia].
  pose proof (proj2 W _ _ Hx) as Wn. cbn [dump_node]. rewrite Hx.
  destruct (n_term x) eqn:Tx.
  { eexists. split; [reflexivity|]. intros y Hy. rewrite Hx in Hy. injection Hy as <-.
    split; [reflexivity|]. intros T. congruence. }
  set (fl := fun v : nat => _).
  assert (Hl : forall m, In m (n_list x) -> exists y, nth_error h m = Some y /\ fl m = Ok (indent ++ n_val y ++ nl)).
  { intros m Hm. destruct (wf_list _ _ _ Wn m Hm) as (_ & y & Hy & _ & Ty). exists y. unfold fl. rewrite Hy, Ty. auto. }
  set (fd := fun v : str * nat => _).
  assert (Hd : forall k m, In (k, m) (n_dict x) -> exists y, nth_error h m = Some y /\
     if n_term y then fd (k, m) = Ok (indent ++ k ++ lit ":  " ++ n_val y ++ nl)
     else exists u, dump_node f h m (indent ++ lit "  ") = Ok u /\ fd (k, m) = Ok (indent ++ k ++ lit ":  " ++ nl ++ u)).
  { intros k m Hm. destruct (wf_dict _ _ _ Wn k m Hm) as (L & y & Hy & _). exists y. split; [exact Hy|].
    unfold fd. cbn [fst snd]. rewrite Hy. destruct (n_term y); [reflexivity|].
    destruct (IH m (indent ++ lit "  ")) as (u & Eu & _); [eapply nth_len; eauto|lia|].
    exists u. rewrite Eu. auto. }
  assert (La : exists a, match n_list x with [] => Ok [] | _ =>
             do t <- concat_out fl (n_list x); Ok (lit "<<<PROPLIST>>>" ++ nl ++ t) end = Ok a /\
           forall m, In m (n_list x) -> exists y, nth_error h m = Some y /\ contains a (indent ++ n_val y ++ nl)).
  { destruct (concat_out_ok fl (n_list x)) as (t & Et & Ct).
    - intros m Hm. destruct (Hl m Hm) as (y & _ & E). eauto.
    - rewrite Et. destruct (n_list x) as [|m0 l0] eqn:El; [exists []; split; [reflexivity|intros ? []]|].
      eexists. split; [reflexivity|]. rewrite <- El in *. intros m Hm. destruct (Hl m Hm) as (y & Hy & E).
      exists y. split; [exact Hy|]. do 2 apply contains_l. eauto. }
  assert (Lb : exists b, match n_dict x with [] => Ok [] | _ =>
             do t <- concat_out fd (n_dict x); Ok (lit "<<<DICTIONARY>>>" ++ nl ++ t) end = Ok b /\
           forall k m u, In (k, m) (n_dict x) -> fd (k, m) = Ok u -> contains b u).
  { destruct (concat_out_ok fd (n_dict x)) as (t & Et & Ct).
    - intros [k m] Hm. destruct (Hd k m Hm) as (y & _ & E). destruct (n_term y); [eauto|]. destruct E as (u & _ & E). eauto.
    - rewrite Et. destruct (n_dict x) as [|m0 l0] eqn:El; [exists []; split; [reflexivity|intros ? ? ? []]|].
      eexists. split; [reflexivity|]. rewrite <- El in *. intros k m u Hm E. do 2 apply contains_l. eauto. }
  destruct La as (a & Ea & Ca). destruct Lb as (b & Eb & Cb).
  exists (a ++ b). split.
  { rewrite Ea. cbn [obind]. rewrite Eb. reflexivity. }
  intros y Hy. rewrite Hx in Hy. injection Hy as <-. split; [congruence|]. intros _. split.
  - intros m Hm. destruct (Ca m Hm) as (y & Hy & C). exists y. split; [exact Hy|]. apply contains_r, C.
  - intros k m Hm. destruct (Hd k m Hm) as (y & Hy & E). exists y. split; [exact Hy|].
    destruct (n_term y).
    + apply contains_l. eauto.
    + destruct E as (u & Eu & E). exists u. split; [eauto|]. apply contains_l. eauto.
Qed.

(* fuel does not matter once it suffices *)
Lemma concat_out_ext {A} (f g : A -> outcome str) l : (forall x, In x l -> forall t, f x = Ok t -> g x = Ok t) ->
  forall t, concat_out f l = Ok t -> concat_out g l = Ok t.
Proof.
  induction l as [|x l IH]; intros H t E; [exact E|]. cbn in *.
  destruct (f x) as [a| |] eqn:Ef; try discriminate E. rewrite (H x (or_introl eq_refl) _ Ef). cbn in *.
  destruct (concat_out f l) as [b| |] eqn:Eb; try discriminate E.
  rewrite (IH ltac:(intros; apply H; [right|]; assumption) b eq_refl). exact E.
Qed.
Lemma dump_mono h : forall f f' n indent t, dump_node f h n indent = Ok t -> f <= f' -> dump_node f' h n indent = Ok t.
Proof.
  induction f as [|f IH]; intros f' n indent t E L; [discriminate E|].
  destruct f' as [|f']; [lia|]. cbn [dump_node] in *.
  destruct (nth_error h n) as [x|]; [|exact E]. destruct (n_term x); [exact E|].
  set (fl := fun v : nat => _) in E. set (fd := fun v : str * nat => _) in E.
  match goal with |- context [concat_out ?g (n_list x)] => set (gl := g) end.
  match goal with |- context [concat_out ?g (n_dict x)] => set (gd := g) end.
  assert (A : forall t, concat_out fl (n_list x) = Ok t -> concat_out gl (n_list x) = Ok t).
  { apply concat_out_ext. intros m _ u. unfold fl, gl. destruct (nth_error h m) as [y|]; [|discriminate].
    destruct (n_term y); [auto|]. intros Eu. eapply IH; [exact Eu|lia]. }
  assert (B : forall t, concat_out fd (n_dict x) = Ok t -> concat_out gd (n_dict x) = Ok t).
  { apply concat_out_ext. intros m _ u. unfold fd, gd. destruct (nth_error h (snd m)) as [y|]; [|discriminate].
    destruct (n_term y); [auto|]. destruct (dump_node f h (snd m) (indent ++ lit "  ")) as [w| |] eqn:Ew; try discriminate.
    rewrite (IH _ _ _ _ Ew (le_S_n _ _ L)). auto. }
  clearbody fl fd gl gd.
  assert (C : forall a, match n_list x with [] => Ok [] | _ :: _ =>
             do t <- concat_out fl (n_list x); Ok (lit "<<<PROPLIST>>>" ++ nl ++ t) end = Ok a ->
             match n_list x with [] => Ok [] | _ :: _ =>
             do t <- concat_out gl (n_list x); Ok (lit "<<<PROPLIST>>>" ++ nl ++ t) end = Ok a).
  { destruct (n_list x) as [|m0 l0]; [auto|]. intros a. destruct (concat_out fl (m0 :: l0)) as [u| |]; try discriminate.
    rewrite (A _ eq_refl). auto. }
  assert (D : forall a, match n_dict x with [] => Ok [] | _ :: _ =>
             do t <- concat_out fd (n_dict x); Ok (lit "<<<DICTIONARY>>>" ++ nl ++ t) end = Ok a ->
             match n_dict x with [] => Ok [] | _ :: _ =>
             do t <- concat_out gd (n_dict x); Ok (lit "<<<DICTIONARY>>>" ++ nl ++ t) end = Ok a).
  { destruct (n_dict x) as [|m0 l0]; [auto|]. intros a. destruct (concat_out fd (m0 :: l0)) as [u| |]; try discriminate.
    rewrite (B _ eq_refl). auto. }
  match type of E with obind ?m _ = _ => destruct m as [a| |] eqn:Ea; try discriminate E end.
  rewrite (C _ eq_refl). cbn [obind] in *.
  match type of E with obind ?m _ = _ => destruct m as [b| |] eqn:Eb; try discriminate E end.
  rewrite (D _ eq_refl). exact E.
Qed.

Lemma spaces_snoc d : spaces d ++ lit "  " = spaces (S d).
Proof. induction d as [|d IH]; [reflexivity|]. cbn [spaces] in *. rewrite <- app_assoc, IH. reflexivity. Qed.

Lemma dump_follows h : wf h -> forall n ks m, follows h n ks m -> branch h n -> forall d t f,
  dump_node f h n (spaces d) = Ok t -> length h <= f ->
  branch h m -> exists u, dump_node f h m (spaces (d + length ks)) = Ok u /\ contains t u.
Proof.
  intros W n ks m F. induction F as [n L|n x k m ks q Hx Hin F IH]; intros Bn d t f E Lf Bq.
  - cbn. rewrite Nat.add_0_r. exists t. split; [exact E|apply contains_refl].
  - assert (Ln := nth_len _ _ _ Hx).
    destruct (dump_ok h W f n (spaces d) Ln ltac:(lia)) as (t' & E' & Sl). rewrite E in E'. injection E' as <-.
    destruct Bn as (x' & Hx' & Tx). rewrite Hx in Hx'. injection Hx' as <-.
    destruct (Sl x Hx) as [_ Sl']. destruct (Sl' Tx) as [_ Sd]. destruct (Sd k m Hin) as (y & Hy & C).
    destruct (n_term y) eqn:Ty.
    + destruct ks as [|k2 ks].
      * apply follows_nil_inv in F. destruct F as [<- _]. destruct Bq as (z & Hz & Tz). congruence.
      * exfalso. eapply terminal_no_child; eauto. exists y. eauto.
    + destruct C as (u & (f' & Eu) & C). rewrite spaces_snoc in Eu.
      assert (Eu' : dump_node f h m (spaces (S d)) = Ok u).
      { assert (Lm := nth_len _ _ _ Hy).
        destruct (dump_ok h W f m (spaces (S d)) Lm ltac:(lia)) as (u' & Eu' & _). rewrite Eu'.
        rewrite <- (dump_mono h f' (f' + f) m (spaces (S d)) u Eu ltac:(lia)).
        symmetry. apply dump_mono with f; [exact Eu'|lia]. }
      destruct (IH ltac:(exists y; auto) (S d) u f Eu' Lf Bq) as (w & Ew & Cw).
      exists w. cbn [length]. rewrite Nat.add_succ_r. split; [exact Ew|].
      eapply contains_trans; [exact C|]. do 4 apply contains_l. exact Cw.
Qed.
