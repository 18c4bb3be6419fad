(* P_FormatOwn.v -- a class that extends Format with a method of its own, as
   examples/FormatExample.cxx does: chains of library calls and own calls. *)
From Verif Require Import Base M_Format S_Num S_Format C_Format M_FormatExt S_FormatExt L_FormatExt M_FormatOwn S_FormatOwn L_FormatOwn.

(* On a new MyFormat, whatever else the program has made (memory m), library
   calls and own calls can be chained in any order: the values go into its
   fields in the order of the calls, those of addSBW backwards, the reference at
   the end of the chain is to that object, and no other object changes. *)
Theorem C146_own_methods : forall im m s cs,
  im = Glibc \/ forallb (fun c => negb (high_byte c)) s = true ->
  exists m0 m1, step im m (MakeExt s) = Ok m0 /\ own_chain im m0 (length m) cs = Ok (m1, length m) /\
  (forall k, k <> length m -> look m1 k = look m k) /\
  forall items out, template s items -> (forall n, In (IField n) items -> (n < 4294967296)%N) ->
    shows (map own_text cs) items out -> text_of m1 (length m) false = Ok out.
Proof.
  intros im m s cs A.
  assert (D : exists f, newFormat im s = Ok f).
  { destruct A as [->|A]; [apply c06_defined|]. destruct im; [apply (proj2 (c06_defined s) A)|apply c06_defined]. }
  destruct D as (f & E). set (i := length m). exists (m ++ [Some (OExt f i)]). eexists.
  assert (L : look (m ++ [Some (OExt f i)]) i = Some (OExt f i)) by (rewrite look_app; unfold i; rewrite Nat.eqb_refl; reflexivity).
  split; [cbn [step]; rewrite E; reflexivity|]. split; [apply (own_stays im cs _ _ _ L)|]. split.
  - intros k N. rewrite look_store, look_app. fold i. destruct (Nat.eqb_spec k i); [contradiction|reflexivity].
  - intros items out T S1 S2. unfold text_of. rewrite look_store, Nat.eqb_refl. assert (Hi := look_lt _ _ _ L).
    destruct (Nat.ltb_spec i (length (m ++ [Some (OExt f i)]))); [|lia]. cbn [o_fmt]. exact (c06 im s f _ items out E T S1 S2).
Qed.
Print Assumptions C146_own_methods.

(* On a copy i of the object j a chain of own calls stays on the copy ... *)
Theorem C146_own_calls_stay : forall im m i j f o vs, i <> j ->
  look m i = Some (OExt f j) -> look m j = Some o ->
  exists m', own_chain im m i (map OSBW vs) = Ok (m', i) /\
    (forall check, text_of m' i check = fmt_str (fold_left insertField (map (@rev ascii) vs) f) check) /\
    (forall k, k <> i -> look m' k = look m k).
Proof.
  intros im m i j f o vs N L Lj. eexists. split; [|split].
  - rewrite <- (app_nil_r (map OSBW vs)). rewrite (own_only im vs m i j f [] L (ex_intro _ _ Lj)). reflexivity.
  - intros check. unfold text_of. rewrite look_store, Nat.eqb_refl. assert (Hi := look_lt _ _ _ L).
    destruct (Nat.ltb_spec i (length m)); [reflexivity|lia].
  - intros k Nk. rewrite look_store. destruct (Nat.eqb_spec k i); [contradiction|reflexivity].
Qed.
Print Assumptions C146_own_calls_stay.
(* ... and the first library call takes the rest of the chain to the original,
   which is then what the chain refers to. *)
Theorem C146_library_call_leaves : forall im m i j f g vs t cs, i <> j ->
  look m i = Some (OExt f j) -> look m j = Some (OExt g j) ->
  exists m', own_chain im m i (map OSBW vs ++ OLib t :: cs) = Ok (m', j) /\
    (forall check, text_of m' i check = fmt_str (fold_left insertField (map (@rev ascii) vs ++ [t]) f) check) /\
    (forall check, text_of m' j check = fmt_str (fold_left insertField (map own_text cs) g) check) /\
    (forall k, k <> i -> k <> j -> look m' k = look m k).
Proof.
  intros im m i j f g vs t cs N L Lj. eexists. split; [apply (own_mixed im m i j f g vs t cs N L Lj)|].
  assert (Hi := look_lt _ _ _ L). assert (Hj := look_lt _ _ _ Lj). unfold text_of. split; [|split].
  - intros check. rewrite !look_store, !store_len, !Nat.eqb_refl.
    destruct (Nat.eqb_spec i j); [congruence|]. destruct (Nat.ltb_spec i (length m)); [reflexivity|lia].
  - intros check. rewrite !look_store, !store_len, !Nat.eqb_refl.
    destruct (Nat.ltb_spec j (length m)); [reflexivity|lia].
  - intros k Ki Kj. rewrite !look_store. destruct (Nat.eqb_spec k j); [congruence|].
    destruct (Nat.eqb_spec k i); [congruence|reflexivity].
Qed.
Print Assumptions C146_library_call_leaves.
(* When the original has ended every call on the copy is undefined, own ones too. *)
Theorem C146_outlives : forall im m i j f c cs, i <> j ->
  look m i = Some (OExt f j) -> look m j = None -> own_chain im m i (c :: cs) = UB.
Proof. intros im m i j f c cs. apply own_dangling. Qed.
Print Assumptions C146_outlives.

(* FormatExample.cxx 45-48 and 50-52; a copy *)
Example C146_nonvacuous : exists m1 m2,
  own_chain Strict (match step Strict [] (MakeExt (lit "String forward %0 string backward %1 string forward again %2")) with Ok m => m | _ => [] end)
    0 [OLib (lit "TestString"); OSBW (lit "TestString"); OLib (lit "TestString")] = Ok (m1, 0) /\
  text_of m1 0 false = Ok (lit "String forward TestString string backward gnirtStseT string forward again TestString") /\
  own_chain Strict (match step Strict m1 (MakeExt (lit "this is an int %0  this is a backward string %1")) with Ok m => m | _ => [] end)
    1 [OLib (addI_text 9 0 nul nul); OSBW (lit "foo")] = Ok (m2, 1) /\
  text_of m2 1 false = Ok (lit "this is an int 9  this is a backward string oof").
Proof.
  eexists. eexists. split; [vm_compute; reflexivity|]. split; [vm_compute; reflexivity|].
  split; [vm_compute; reflexivity|]. vm_compute. reflexivity.
Qed.
Example C146_copy_nonvacuous : exists m f g, run Strict [] [MakeExt (lit "%0 %1 %2"); CopyOf 0] = Ok m /\
  look m 1 = Some (OExt f 0) /\ look m 0 = Some (OExt g 0) /\
  (exists m', own_chain Strict m 1 [OSBW (lit "ab"); OLib (lit "cd"); OSBW (lit "ef")] = Ok (m', 0) /\
     text_of m' 1 false = Ok (lit "ba cd %2") /\ text_of m' 0 false = Ok (lit "fe %1 %2")) /\
  (exists m', run Strict [] [MakeExt (lit "%0"); CopyOf 0; End 0] = Ok m' /\ exists h, look m' 1 = Some (OExt h 0) /\ look m' 0 = None).
Proof.
  do 3 eexists. split; [vm_compute; reflexivity|]. split; [reflexivity|]. split; [reflexivity|]. split.
  - eexists. split; [vm_compute; reflexivity|]. split; vm_compute; reflexivity.
  - eexists. split; [vm_compute; reflexivity|]. eexists. split; reflexivity.
Qed.
