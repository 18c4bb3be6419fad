(* C_Messages.v -- the texts of the exceptions. *)
From Verif Require Import Base M_Stream M_Format M_MailBox M_Barrier M_PropertyTree S_Num S_PropertyTree S_Messages L_Num L_Field.

Lemma no_nul_app a b : no_nul (a ++ b) <-> no_nul a /\ no_nul b.
Proof. unfold no_nul. rewrite in_app_iff. tauto. Qed.
Lemma c_string_id t : no_nul t -> c_string t = t.
Proof.
  induction t as [|c t IH]; intros H; [reflexivity|]. cbn.
  destruct (Ascii.eqb_spec c "000"%char) as [->|_]; [destruct H; left; reflexivity|].
  rewrite IH; [reflexivity|]. intros Hin. apply H. right. exact Hin.
Qed.
Lemma no_nul_lit s : forallb (fun c => negb (Ascii.eqb c "000"%char)) s = true -> no_nul s.
Proof. intros H Hin. rewrite forallb_forall in H. specialize (H _ Hin). discriminate H. Qed.

(* the full texts *)
Lemma timeout_text name count : ex_what (timeout_exn name count) =
  lit "Barrier " ++ name ++ lit " timed out after " ++ put_dec (Z.to_N (to_u64 count)) ++
  lit " ms. Current state is dangerous" ++ nl.
Proof.
  unfold timeout_exn, ex_what.
  assert (E : addU_text (Z.to_N (to_u64 count)) "d"%char 0 nul 4 = put_dec (Z.to_N (to_u64 count))) by reflexivity.
  unfold addU. rewrite E. generalize (put_dec (Z.to_N (to_u64 count))). intros d. reflexivity.
Qed.
Lemma corrupt_text name : ex_what (corrupt_exn name) = lit "Barrier " ++ name ++ lit " is corrupted." ++ nl.
Proof. reflexivity. Qed.
Lemma missing_text name op id : ex_what (missingSubscriber name op id) =
  lit "SoDa::MailBox[" ++ name ++ lit "] ::" ++ op ++ lit " Subscriber ID " ++ put_int id ++ lit " not found.".
Proof. reflexivity. Qed.
Lemma mismatch_text should_be was : ex_what (subscriptionMismatch should_be was) =
  lit "SoDa::MailBox[" ++ should_be ++ lit "] caller specified the wrong mailbox".
Proof. reflexivity. Qed.
Lemma conversion_text name from_t to_t : ex_what (badConversion name from_t to_t) =
  lit "SoDa::MailBox[" ++ name ++ lit "] MailBoxBase::convert attempted to promote from " ++ from_t ++
  lit " to " ++ to_t ++ lit ". That isn't right." ++ nl.
Proof. reflexivity. Qed.
Lemma notfound_text p : ex_what (propertyNotFound p) =
  lit "PropertyTree::PropNode::PropertyNotFound """ ++ p ++ lit """".
Proof. reflexivity. Qed.
Lemma file_text p : ex_what (fileNotFound p) = lit "PropertyTree::PropNode::FileNotFound """ ++ p ++ lit """".
Proof. reflexivity. Qed.
Lemma badtype_text path ty val : ex_what (badPropertyType path ty val) =
  lit "PropertyTree::PropNode::BadPropertyType at node name """ ++ path ++ lit """ with value string """ ++ val ++
  lit """ which cannot be converted to type ""2""".
Proof. reflexivity. Qed.

Lemma nul_digits t : forallb digit_byte t = true -> no_nul t.
Proof. intros H Hin. rewrite forallb_forall in H. specialize (H _ Hin). discriminate H. Qed.
Lemma no_nul_dec n : no_nul (put_dec n).
Proof. eapply nul_digits, L_Field.numeral_digits, put_dec_spec. Qed.
Lemma no_nul_int z : no_nul (put_int z).
Proof.
  unfold put_int. destruct (z <? 0)%Z; [|apply no_nul_dec]. intros [E|H]; [discriminate E|]. exact (no_nul_dec _ H).
Qed.

Ltac nn := repeat rewrite no_nul_app; repeat split;
  first [assumption | apply no_nul_dec | apply no_nul_int | apply no_nul_lit; reflexivity].
Lemma contains_mid a u b : contains (a ++ u ++ b) u.
Proof. exists a, b. reflexivity. Qed.

Lemma c79_timeout name count : no_nul name ->
  contains (what (timeout_exn name count)) name /\
  ((0 <= count < two63)%Z ->
   exists t, int_numeral_of count t /\
     contains (what (timeout_exn name count)) (lit " timed out after " ++ t ++ lit " ms.")).
Proof.
  intros H. unfold what. rewrite timeout_text, c_string_id by nn. split; [apply contains_mid|].
  intros Hc. exists (put_dec (Z.to_N count)). split.
  - left. split; [lia|]. apply put_dec_spec.
  - unfold to_u64. rewrite Z.mod_small by (unfold two63, two64 in *; lia).
    exists (lit "Barrier " ++ name), (lit " Current state is dangerous" ++ nl). rewrite <- !app_assoc. reflexivity.
Qed.
Lemma c79_corrupt name : no_nul name -> contains (what (corrupt_exn name)) name.
Proof. intros H. unfold what. rewrite corrupt_text, c_string_id by nn. apply contains_mid. Qed.
Lemma c79_missing name op id : no_nul name -> no_nul op ->
  contains (what (missingSubscriber name op id)) name /\
  contains (what (missingSubscriber name op id)) op /\
  exists t, int_numeral_of id t /\ contains (what (missingSubscriber name op id)) t.
Proof.
  intros H1 H2. unfold what. rewrite missing_text, c_string_id by nn. split; [apply contains_mid|]. split.
  - exists (lit "SoDa::MailBox[" ++ name ++ lit "] ::"). eexists. rewrite <- !app_assoc. reflexivity.
  - exists (put_int id). split; [apply put_int_spec|].
    exists (lit "SoDa::MailBox[" ++ name ++ lit "] ::" ++ op ++ lit " Subscriber ID "). eexists.
    rewrite <- !app_assoc. reflexivity.
Qed.
Lemma c79_mismatch should_be was : no_nul should_be -> contains (what (subscriptionMismatch should_be was)) should_be.
Proof. intros H. unfold what. rewrite mismatch_text, c_string_id by nn. apply contains_mid. Qed.
Lemma c79_conversion name f t : no_nul name -> no_nul f -> no_nul t ->
  contains (what (badConversion name f t)) name /\ contains (what (badConversion name f t)) f /\
  contains (what (badConversion name f t)) t.
Proof.
  intros H1 H2 H3. unfold what. rewrite conversion_text, c_string_id by nn. split; [apply contains_mid|]. split.
  - exists (lit "SoDa::MailBox[" ++ name ++ lit "] MailBoxBase::convert attempted to promote from "). eexists.
    rewrite <- !app_assoc. reflexivity.
  - exists (lit "SoDa::MailBox[" ++ name ++ lit "] MailBoxBase::convert attempted to promote from " ++ f ++ lit " to "). eexists.
    rewrite <- !app_assoc. reflexivity.
Qed.
Lemma c79_paths p : no_nul p ->
  contains (what (propertyNotFound p)) p /\ contains (what (fileNotFound p)) p.
Proof.
  intros H. unfold what. rewrite notfound_text, file_text, !c_string_id by nn. split; apply contains_mid.
Qed.
Lemma c79_badtype path ty val : no_nul path -> no_nul val ->
  contains (what (badPropertyType path ty val)) path /\ contains (what (badPropertyType path ty val)) val.
Proof.
  intros H1 H2. unfold what. rewrite badtype_text, c_string_id by nn. split; [apply contains_mid|].
  exists (lit "PropertyTree::PropNode::BadPropertyType at node name """ ++ path ++ lit """ with value string """). eexists.
  rewrite <- !app_assoc. reflexivity.
Qed.

Lemma not_contains t u : length t < length u -> ~ contains t u.
Proof. intros H (a & b & ->). rewrite !app_length in H. lia. Qed.

Lemma c79_texts :
  (forall name count, (0 <= count < two63)%Z -> exists t, int_numeral_of count t /\
     ex_what (timeout_exn name count) =
     lit "Barrier " ++ name ++ lit " timed out after " ++ t ++ lit " ms. Current state is dangerous" ++ ["010"%char]) /\
  (forall name, ex_what (corrupt_exn name) = lit "Barrier " ++ name ++ lit " is corrupted." ++ ["010"%char]) /\
  (forall name op id, exists t, int_numeral_of id t /\
     ex_what (missingSubscriber name op id) =
     lit "SoDa::MailBox[" ++ name ++ lit "] ::" ++ op ++ lit " Subscriber ID " ++ t ++ lit " not found.") /\
  (forall name was, ex_what (subscriptionMismatch name was) =
     lit "SoDa::MailBox[" ++ name ++ lit "] caller specified the wrong mailbox") /\
  (forall name f t, ex_what (badConversion name f t) =
     lit "SoDa::MailBox[" ++ name ++ lit "] MailBoxBase::convert attempted to promote from " ++ f ++
     lit " to " ++ t ++ lit ". That isn't right." ++ ["010"%char]) /\
  (forall p, ex_what (propertyNotFound p) = lit "PropertyTree::PropNode::PropertyNotFound """ ++ p ++ lit """") /\
  (forall p, ex_what (fileNotFound p) = lit "PropertyTree::PropNode::FileNotFound """ ++ p ++ lit """") /\
  (forall path ty val, ex_what (badPropertyType path ty val) =
     lit "PropertyTree::PropNode::BadPropertyType at node name """ ++ path ++ lit """ with value string """ ++ val ++
     lit """ which cannot be converted to type ""2""").
Proof.
  split; [|split; [exact corrupt_text|split; [|split; [exact mismatch_text|split; [exact conversion_text|
    split; [exact notfound_text|split; [exact file_text|exact badtype_text]]]]]]].
  - intros name count Hc. exists (put_dec (Z.to_N count)). split; [left; split; [lia|apply put_dec_spec]|].
    rewrite timeout_text. unfold to_u64. rewrite Z.mod_small by (unfold two63, two64 in *; lia). reflexivity.
  - intros name op id. exists (put_int id). split; [apply put_int_spec|apply missing_text].
Qed.
