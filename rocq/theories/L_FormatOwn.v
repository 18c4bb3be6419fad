(* L_FormatOwn.v -- chains with calls of own methods. *)
From Verif Require Import Base M_Format M_FormatExt S_FormatExt L_FormatExt M_FormatOwn S_FormatOwn.

Lemma backwards_acc (v : str) : forall a : str, fold_left (fun rv c => c :: rv) v a = rev v ++ a.
Proof. induction v as [|c v IH]; intros a; [reflexivity|]. cbn [fold_left rev]. rewrite IH, <- app_assoc. reflexivity. Qed.
Lemma backwards_rev v : backwards v = rev v.
Proof. unfold backwards. rewrite backwards_acc. apply app_nil_r. Qed.

(* a call on an object whose pointer leads to the object j *)
Lemma call_at im m i j f t : look m i = Some (OExt f j) -> (exists o, look m j = Some o) ->
  do_call im m i true (KAdd t) = Ok (store m i (Some (OExt (insertField f t) j)), j, true).
Proof.
  intros L (o & Lj). unfold do_call. rewrite L. cbn [o_set o_fmt]. rewrite look_store.
  assert (Hi := look_lt _ _ _ L). destruct (Nat.eqb_spec j i) as [->|_].
  - destruct (Nat.ltb_spec i (length m)); [reflexivity|lia].
  - rewrite Lj. reflexivity.
Qed.
Lemma own_stays im cs : forall m i f, look m i = Some (OExt f i) ->
  own_chain im m i cs = Ok (store m i (Some (OExt (fold_left insertField (map own_text cs) f) i)), i).
Proof.
  induction cs as [|c cs IH]; intros m i f L; [cbn; rewrite store_same by exact L; reflexivity|].
  assert (Hi := look_lt _ _ _ L).
  assert (E : do_own im m i c = Ok (store m i (Some (OExt (insertField f (own_text c)) i)), i)).
  { destruct c as [t|v]; cbn [do_own own_text addS_text Z.ltb Z.compare obind]; rewrite ?backwards_rev;
      rewrite (call_at im m i i f _ L (ex_intro _ _ L)); reflexivity. }
  cbn [own_chain]. rewrite E. cbn [obind].
  rewrite (IH _ i (insertField f (own_text c))).
  - rewrite store_store. reflexivity.
  - rewrite look_store, Nat.eqb_refl. destruct (Nat.ltb_spec i (length m)); [reflexivity|lia].
Qed.
(* own methods stay on a copy *)
Lemma own_only im vs : forall m i j f r, look m i = Some (OExt f j) -> (exists o, look m j = Some o) ->
  own_chain im m i (map OSBW vs ++ r) = own_chain im (store m i (Some (OExt (fold_left insertField (map (@rev ascii) vs) f) j))) i r.
Proof.
  induction vs as [|v vs IH]; intros m i j f r L Lj; [cbn; rewrite store_same by exact L; reflexivity|].
  assert (Hi := look_lt _ _ _ L). cbn [map app own_chain do_own addS_text Z.ltb Z.compare obind]. rewrite backwards_rev, (call_at im m i j f _ L Lj). cbn [obind].
  rewrite (IH _ i j (insertField f (rev v))).
  - rewrite store_store. reflexivity.
  - rewrite look_store, Nat.eqb_refl. destruct (Nat.ltb_spec i (length m)); [reflexivity|lia].
  - destruct (Nat.eq_dec j i) as [->|N].
    + eexists. rewrite look_store, Nat.eqb_refl. destruct (Nat.ltb_spec i (length m)); [reflexivity|lia].
    + destruct Lj as (o & Lj). exists o. rewrite look_store. destruct (Nat.eqb_spec j i); [contradiction|exact Lj].
Qed.
Lemma own_mixed im m i j f g vs t cs : i <> j -> look m i = Some (OExt f j) -> look m j = Some (OExt g j) ->
  own_chain im m i (map OSBW vs ++ OLib t :: cs) =
  Ok (store (store m i (Some (OExt (fold_left insertField (map (@rev ascii) vs ++ [t]) f) j))) j
            (Some (OExt (fold_left insertField (map own_text cs) g) j)), j).
Proof.
  intros N L Lj. assert (Hi := look_lt _ _ _ L). rewrite (own_only im vs m i j f _ L (ex_intro _ _ Lj)).
  set (F := fold_left insertField (map (@rev ascii) vs) f). set (m1 := store m i (Some (OExt F j))).
  assert (L1 : look m1 i = Some (OExt F j)) by (unfold m1; rewrite look_store, Nat.eqb_refl; destruct (Nat.ltb_spec i (length m)); [reflexivity|lia]).
  assert (Lj1 : look m1 j = Some (OExt g j)) by (unfold m1; rewrite look_store; destruct (Nat.eqb_spec j i); [congruence|exact Lj]).
  cbn [own_chain do_own]. rewrite (call_at im m1 i j F t L1 (ex_intro _ _ Lj1)). cbn [obind].
  rewrite (own_stays im cs _ j g).
  - unfold m1. rewrite store_store, fold_left_app. reflexivity.
  - rewrite look_store. destruct (Nat.eqb_spec j i); [congruence|exact Lj1].
Qed.
Lemma own_dangling im m i j f c cs : i <> j -> look m i = Some (OExt f j) -> look m j = None -> own_chain im m i (c :: cs) = UB.
Proof.
  intros N L Lj. assert (E : forall t, do_call im m i true (KAdd t) = UB).
  { intros t. unfold do_call. rewrite L. cbn [o_set o_fmt]. rewrite look_store. destruct (Nat.eqb_spec j i); [congruence|]. rewrite Lj. reflexivity. }
  destruct c as [t|v]; cbn [own_chain do_own addS_text Z.ltb Z.compare obind]; rewrite E; reflexivity.
Qed.
