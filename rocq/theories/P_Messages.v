(* P_Messages.v -- C79: the exceptions' texts. *)
From Verif Require Import Base M_Stream M_Format M_MailBox M_Barrier M_PropertyTree S_Num S_PropertyTree S_Messages C_Messages.

(* C79 is false for three data: SubscriptionMismatch's template has no field
   for the other mailbox, BadPropertyType's has "2" for "%2", and a NUL byte
   cuts every message. *)
Theorem C79_mismatch_refuted : exists should_be was, no_nul should_be /\ no_nul was /\
  ~ contains (what (subscriptionMismatch should_be was)) was.
Proof.
  exists [], (repeat "x"%char 60). split; [intros []|]. split; [apply no_nul_lit; reflexivity|].
  apply not_contains. vm_compute. lia.
Qed.
Print Assumptions C79_mismatch_refuted.

Theorem C79_badtype_refuted : exists path ty val, no_nul path /\ no_nul ty /\ no_nul val /\
  ~ contains (what (badPropertyType path ty val)) ty.
Proof.
  exists [], (repeat "x"%char 160), []. split; [intros []|]. split; [apply no_nul_lit; reflexivity|]. split; [intros []|].
  apply not_contains. vm_compute. lia.
Qed.
Print Assumptions C79_badtype_refuted.

Theorem C79_nul_refuted : exists name, ~ contains (what (corrupt_exn name)) name.
Proof. exists (["000"%char] ++ repeat "x"%char 20). apply not_contains. vm_compute. lia. Qed.
Print Assumptions C79_nul_refuted.

(* neither text depends on the lost datum *)
Theorem C79_lost_data_partial : forall s was was' path ty ty' val,
  what (subscriptionMismatch s was) = what (subscriptionMismatch s was') /\
  what (badPropertyType path ty val) = what (badPropertyType path ty' val).
Proof. intros. unfold what. rewrite !mismatch_text, !badtype_text. split; reflexivity. Qed.
Print Assumptions C79_lost_data_partial.

(* everything else is there *)
Theorem C79_timeout_partial : forall name count, no_nul name ->
  contains (what (timeout_exn name count)) name /\
  ((0 <= count < two63)%Z ->
   exists t, int_numeral_of count t /\
     contains (what (timeout_exn name count)) (lit " timed out after " ++ t ++ lit " ms.")).
Proof. exact c79_timeout. Qed.
Print Assumptions C79_timeout_partial.

Theorem C79_corrupt_partial : forall name, no_nul name -> contains (what (corrupt_exn name)) name.
Proof. exact c79_corrupt. Qed.
Print Assumptions C79_corrupt_partial.

Theorem C79_missing_subscriber_partial : forall name op id, no_nul name -> no_nul op ->
  contains (what (missingSubscriber name op id)) name /\
  contains (what (missingSubscriber name op id)) op /\
  exists t, int_numeral_of id t /\ contains (what (missingSubscriber name op id)) t.
Proof. exact c79_missing. Qed.
Print Assumptions C79_missing_subscriber_partial.

Theorem C79_mismatch_partial : forall should_be was, no_nul should_be ->
  contains (what (subscriptionMismatch should_be was)) should_be.
Proof. exact c79_mismatch. Qed.
Print Assumptions C79_mismatch_partial.

Theorem C79_bad_conversion_partial : forall name f t, no_nul name -> no_nul f -> no_nul t ->
  contains (what (badConversion name f t)) name /\ contains (what (badConversion name f t)) f /\
  contains (what (badConversion name f t)) t.
Proof. exact c79_conversion. Qed.
Print Assumptions C79_bad_conversion_partial.

Theorem C79_not_found_partial : forall p, no_nul p ->
  contains (what (propertyNotFound p)) p /\ contains (what (fileNotFound p)) p.
Proof. exact c79_paths. Qed.
Print Assumptions C79_not_found_partial.

Theorem C79_badtype_partial : forall path ty val, no_nul path -> no_nul val ->
  contains (what (badPropertyType path ty val)) path /\ contains (what (badPropertyType path ty val)) val.
Proof. exact c79_badtype. Qed.
Print Assumptions C79_badtype_partial.

(* the messages in full; the last names no type, whatever the type is *)
Theorem C79_texts_partial :
  (forall name count, (0 <= count < two63)%Z -> exists t, int_numeral_of count t /\
     ex_what (timeout_exn name count) =
     lit "Barrier " ++ name ++ lit " timed out after " ++ t ++ lit " ms. Current state is dangerous" ++ ["010"%char]) /\
  (forall name, ex_what (corrupt_exn name) = lit "Barrier " ++ name ++ lit " is corrupted." ++ ["010"%char]) /\
  (forall name op id, exists t, int_numeral_of id t /\
     ex_what (missingSubscriber name op id) =
     lit "SoDa::MailBox[" ++ name ++ lit "] ::" ++ op ++ lit " Subscriber ID " ++ t ++ lit " not found.") /\
  (forall name was, ex_what (subscriptionMismatch name was) =
     lit "SoDa::MailBox[" ++ name ++ lit "] caller specified the wrong mailbox") /\
  (forall name f t, ex_what (badConversion name f t) =
     lit "SoDa::MailBox[" ++ name ++ lit "] MailBoxBase::convert attempted to promote from " ++ f ++
     lit " to " ++ t ++ lit ". That isn't right." ++ ["010"%char]) /\
  (forall p, ex_what (propertyNotFound p) = lit "PropertyTree::PropNode::PropertyNotFound """ ++ p ++ lit """") /\
  (forall p, ex_what (fileNotFound p) = lit "PropertyTree::PropNode::FileNotFound """ ++ p ++ lit """") /\
  (forall path ty val, ex_what (badPropertyType path ty val) =
     lit "PropertyTree::PropNode::BadPropertyType at node name """ ++ path ++ lit """ with value string """ ++ val ++
     lit """ which cannot be converted to type ""2""").
Proof. exact c79_texts. Qed.
Print Assumptions C79_texts_partial.

(* data that look like placeholders are kept *)
Example C79_nonvacuous : no_nul (lit "%1 %0") /\
  what (timeout_exn (lit "%1 %0") 20) =
  lit "Barrier %1 %0 timed out after 20 ms. Current state is dangerous" ++ ["010"%char].
Proof. split; [apply no_nul_lit; reflexivity|reflexivity]. Qed.
