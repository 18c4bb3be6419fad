(* P_Format.v -- property theorems for SoDa::Format templates and the integer,
   string, character and boolean fields. *)
From Verif Require Import Base M_Stream M_Format S_Num S_Split S_Format S_Field C_Format.

(* Every text is a template in exactly one way, and shows exactly one text. *)
Theorem C06_template_unambiguous : forall s,
  exists items, template s items /\ forall items', template s items' -> items' = items.
Proof. exact c06_total. Qed.
Print Assumptions C06_template_unambiguous.
Theorem C06_shows_unambiguous : forall vals items,
  exists out, shows vals items out /\ forall out', shows vals items out' -> out' = out.
Proof. exact c06_shows. Qed.
Print Assumptions C06_shows_unambiguous.

(* C06: construct, add any number of texts, read back. *)
Theorem C06_str_is_template_instance : forall im s f vals items out,
  newFormat im s = Ok f -> template s items ->
  (forall n, In (IField n) items -> (n < 4294967296)%N) ->
  shows vals items out ->
  fmt_str (fold_left insertField vals f) false = Ok out.
Proof. exact c06. Qed.
Print Assumptions C06_str_is_template_instance.

Theorem C06_construction_defined : forall s,
  (exists f, newFormat Glibc s = Ok f) /\
  (forallb (fun c => negb (high_byte c)) s = true -> exists f, newFormat Strict s = Ok f).
Proof. exact c06_defined. Qed.
Print Assumptions C06_construction_defined.

Example C06_nonvacuous : exists f items,
  newFormat Strict (lit "a%1%%b%0%x%1%") = Ok f /\ template (lit "a%1%%b%0%x%1%") items /\
  shows [lit "X"; lit "Y"] items (lit "aY%bX%xY%") /\
  fmt_str (fold_left insertField [lit "X"; lit "Y"] f) false = Ok (lit "aY%bX%xY%") /\
  fmt_str (fold_left insertField [lit "X"] f) false = Ok (lit "a%1%bX%x%1%").
Proof.
  eexists. exists [IChar "a"; IField 1; IChar "%"; IChar "b"; IField 0; IChar "%"; IChar "x"; IField 1; IChar "%"]%char.
  split; [vm_compute; reflexivity|]. split.
  - apply T_char; [discriminate|].
    apply (T_field (lit "1") 1%N (lit "%%b%0%x%1%")); [reflexivity|reflexivity|].
    apply T_escape. apply T_char; [discriminate|].
    apply (T_field (lit "0") 0%N (lit "%x%1%")); [reflexivity|reflexivity|].
    apply T_lone; [discriminate|reflexivity|].
    apply (T_field (lit "1") 1%N (lit "%")); [reflexivity|reflexivity|]. apply T_last.
  - split; [|split; vm_compute; reflexivity].
    apply Sh_char. apply (Sh_filled _ 1%N (lit "Y")); [reflexivity|]. do 2 apply Sh_char.
    apply (Sh_filled _ 0%N (lit "X")); [reflexivity|]. do 2 apply Sh_char.
    apply (Sh_filled _ 1%N (lit "Y")); [reflexivity|]. apply Sh_char. apply Sh_nil.
Qed.

(* C07 *)
Theorem C07_escape_protects : forall im t, exists f, newFormat im (escape t) = Ok f /\
  forall vals check, fmt_str (fold_left insertField vals f) check = Ok t.
Proof. exact c07. Qed.
Print Assumptions C07_escape_protects.
Example C07_nonvacuous : escape (lit "50% of %0") = lit "50%% of %%0".
Proof. reflexivity. Qed.

(* C08: the result is a fixed arrangement of the added texts, whatever they
   contain. *)
Theorem C08_values_verbatim : forall im s f, newFormat im s = Ok f ->
  exists pieces : list (str + N), forall vals,
    fmt_str (fold_left insertField vals f) false =
    Ok (concat (map (fun p => match p with
                              | inl t => t
                              | inr k => match nth_error vals (N.to_nat k) with
                                         | Some v => v
                                         | None => "%"%char :: put_dec k
                                         end
                              end) pieces)).
Proof. exact c08. Qed.
Print Assumptions C08_values_verbatim.
Example C08_nonvacuous : exists f, newFormat Strict (lit "%0-%1") = Ok f /\
  fmt_str (fold_left insertField [lit "%1"; lit "%0"] f) true = Ok (lit "%1-%0").
Proof. eexists. split; vm_compute; reflexivity. Qed.

(* C09 *)
Theorem C09_reset_fresh : forall im s f0 history vals, newFormat im s = Ok f0 ->
  run_ops im f0 (history ++ FReset :: map FAdd vals) = run_ops im f0 (map FAdd vals).
Proof. exact c09. Qed.
Print Assumptions C09_reset_fresh.
Example C09_nonvacuous : exists f0, newFormat Strict (lit "%0") = Ok f0 /\
  (do g <- run_ops Strict f0 [FAdd (lit "a"); FAdd (lit "b"); FReset; FAdd (lit "c")]; fmt_str g true) = Ok (lit "c").
Proof. eexists. split; vm_compute; reflexivity. Qed.

(* C10 *)
Theorem C10_str_check : forall im s f items vals,
  newFormat im s = Ok f -> template s items ->
  (forall n, In (IField n) items -> (n < 4294967296)%N) ->
  let g := fold_left insertField vals f in
  ((exists n, In (IField n) items /\ (length vals <= N.to_nat n)) <->
     exists what, fmt_str g true = Throw (mkExn BadFormat what)) /\
  ((forall n, In (IField n) items -> (N.to_nat n < length vals)) <->
     exists out, fmt_str g true = Ok out) /\
  (forall out, fmt_str g true = Ok out -> fmt_str g false = Ok out) /\
  (exists out, fmt_str g false = Ok out).
Proof. exact c10. Qed.
Print Assumptions C10_str_check.
(* what the exception says: the text so far and the template *)
Theorem C10_message : forall im s f vals what, newFormat im s = Ok f ->
  let g := fold_left insertField vals f in
  fmt_str g true = Throw (mkExn BadFormat what) ->
  exists out, fmt_str g false = Ok out /\
    what = lit "Unfilled argument string [" ++ out ++ lit "] Format string was " ++ ["010"%char] ++
           lit """" ++ s ++ lit """" ++ ["010"%char].
Proof. exact c10_text. Qed.
Print Assumptions C10_message.
Example C10_nonvacuous : exists f what, newFormat Strict (lit "%0 %2") = Ok f /\
  fmt_str (fold_left insertField [lit "a"; lit "b"] f) true = Throw (mkExn BadFormat what) /\
  fmt_str (fold_left insertField [lit "a"; lit "b"; lit "c"] f) true = Ok (lit "a c").
Proof. do 2 eexists. split; [vm_compute; reflexivity|]. split; vm_compute; reflexivity. Qed.

(* C11 is false: extra values are accepted and have no effect. *)
Theorem C11_extra_values_refuted : exists s f vals,
  newFormat Glibc s = Ok f /\ template s [IField 0] /\ length vals = 2 /\
  exists out, fmt_str (fold_left insertField vals f) true = Ok out.
Proof. exact c11_refuted. Qed.
Print Assumptions C11_extra_values_refuted.
Theorem C11_extra_values_ignored_partial : forall im s f items vals extra check,
  newFormat im s = Ok f -> template s items ->
  (forall n, In (IField n) items -> (N.to_nat n < length vals)) ->
  fmt_str (fold_left insertField (vals ++ extra) f) check = fmt_str (fold_left insertField vals f) check.
Proof. exact c11_ignored. Qed.
Print Assumptions C11_extra_values_ignored_partial.
Example C11_nonvacuous : exists f items, newFormat Strict (lit "%1<%0") = Ok f /\ template (lit "%1<%0") items /\
  (forall n, In (IField n) items -> (N.to_nat n < length [lit "a"; lit "b"])) /\
  fmt_str (fold_left insertField ([lit "a"; lit "b"] ++ [lit "c"; lit "%0"]) f) true = Ok (lit "b<a").
Proof.
  eexists. exists [IField 1; IChar "<"%char; IField 0]. split; [vm_compute; reflexivity|]. split.
  - apply (T_field (lit "1") 1%N (lit "<%0")); [reflexivity|reflexivity|]. apply T_char; [discriminate|].
    apply (T_field (lit "0") 0%N [] []); [reflexivity|reflexivity|constructor].
  - split; [|vm_compute; reflexivity]. intros n [[= <-]|[J|[[= <-]|[]]]]; [cbn; lia|discriminate J|cbn; lia].
Qed.

(* C12 is false: field numbers are taken modulo 2^32.  Exactly that much. *)
Theorem C12_distinct_fields_refuted : exists s f v,
  newFormat Glibc s = Ok f /\
  template s [IField 0; IChar " "%char; IField 4294967296] /\
  fmt_str (insertField f v) true = Ok (v ++ lit " " ++ v) /\ v <> [].
Proof. exact c12_refuted. Qed.
Print Assumptions C12_distinct_fields_refuted.
Theorem C12_fields_mod_2_32_partial : forall im s f vals items out,
  newFormat im s = Ok f -> template s items -> shows vals (map wrap_item items) out ->
  fmt_str (fold_left insertField vals f) false = Ok out.
Proof. exact c12_exact. Qed.
Print Assumptions C12_fields_mod_2_32_partial.
Example C12_nonvacuous : exists f items, newFormat Glibc (lit "%1,%4294967297") = Ok f /\ template (lit "%1,%4294967297") items /\
  shows [lit "a"; lit "b"] (map wrap_item items) (lit "b,b") /\ fmt_str (fold_left insertField [lit "a"; lit "b"] f) false = Ok (lit "b,b").
Proof.
  eexists. exists [IField 1; IChar ","%char; IField 4294967297]. split; [vm_compute; reflexivity|]. split; [|split; [|vm_compute; reflexivity]].
  - apply (T_field (lit "1") 1%N (lit ",%4294967297")); [reflexivity|reflexivity|]. apply T_char; [discriminate|].
    apply (T_field (lit "4294967297") 4294967297%N [] []); [vm_compute; reflexivity|reflexivity|constructor].
  - cbn [map wrap_item]. apply (Sh_filled _ 1%N (lit "b") _ (lit ",b")); [reflexivity|]. apply Sh_char.
    apply (Sh_filled _ _ (lit "b") [] []); [vm_compute; reflexivity|constructor].
Qed.

(* C13 *)
Theorem C13_addI_decimal : forall f v w fill, (0 <= w < two31)%Z ->
  exists t s, addI f v w "000"%char fill = insertField f s /\
    int_numeral_of v t /\ right_justified (fill_char fill) w t s.
Proof. exact c13. Qed.
Print Assumptions C13_addI_decimal.
(* widths of 2^31 and more become negative ints: no padding *)
Theorem C13_addI_huge_width : forall f v w fill, (two31 <= w < two32)%Z ->
  exists t, addI f v w "000"%char fill = insertField f t /\ int_numeral_of v t.
Proof. exact c13_wide. Qed.
Print Assumptions C13_addI_huge_width.
Example C13_nonvacuous : addI_text (-42) 6 "000"%char "0"%char = lit "000-42" /\
  int_numeral_of (-42) (lit "-42") /\ right_justified "0"%char 6 (lit "-42") (lit "000-42").
Proof.
  split; [reflexivity|]. split.
  - right. split; [lia|]. exists (lit "42"). split; [reflexivity|]. split; [reflexivity|right; discriminate].
  - exists 3. split; reflexivity.
Qed.

(* C14 is false for negative numbers whose digit count is a multiple of three *)
Theorem C14_addI_separator_refuted : exists v sep s,
  (forall f, addI f v 0 sep "000"%char = insertField f s) /\ s = lit "-,123".
Proof. exact c14_refuted. Qed.
Print Assumptions C14_addI_separator_refuted.
Theorem C14_addI_separator_partial : forall f v w sep fill, (0 <= w < two31)%Z -> sep <> "000"%char ->
  exists t u body s,
    addI f v w sep fill = insertField f s /\
    right_justified (fill_char fill) w body s /\
    numeral_of false 10 (Z.to_N (Z.abs v)) t /\ grouped 3 sep t u /\
    body = (if (0 <=? v)%Z then u
            else if Nat.eqb (length t mod 3) 0 then "-"%char :: sep :: u else "-"%char :: u).
Proof. exact c14_partial. Qed.
Print Assumptions C14_addI_separator_partial.
Theorem C14_delete_separator_partial : forall n sep t u,
  grouped n sep t u -> ~ In sep t -> delete sep u = t.
Proof. exact c14_delete. Qed.
Print Assumptions C14_delete_separator_partial.
(* and with a width of 2^31 or more: as with none *)
Theorem C14_addI_huge_width_partial : forall f v w sep fill, (two31 <= w < two32)%Z ->
  addI f v w sep fill = addI f v 0 sep fill.
Proof. exact addI_no_width. Qed.
Print Assumptions C14_addI_huge_width_partial.
Example C14_nonvacuous :
  addI_text 1234567 12 ","%char "000"%char = lit "   1,234,567" /\
  grouped 3 ","%char (lit "1234567") (lit "1,234,567").
Proof.
  split; [vm_compute; reflexivity|]. exists (lit "1"), [lit "234"; lit "567"].
  repeat split; cbn; try lia. intros h [<-|[<-|[]]]; reflexivity.
Qed.

(* C15 *)
Theorem C15_addU_hex : forall f v fm (up : bool) w gc, (0 <= w < two31)%Z ->
  (if up then fm = "X"%char \/ fm = "H"%char else fm = "x"%char \/ fm = "h"%char) ->
  exists t s, addU f v fm w "000"%char gc = insertField f (lit "0x" ++ s) /\
    numeral_of up 16 v t /\ right_justified "0"%char w t s /\ value up 16 s = Some v.
Proof. exact c15. Qed.
Print Assumptions C15_addU_hex.
Example C15_nonvacuous : addU_text 48879 "X"%char 6 "000"%char 1 = lit "0x00BEEF" /\
  numeral_of true 16 48879 (lit "BEEF").
Proof. split; [vm_compute; reflexivity|]. split; [vm_compute; reflexivity|right; discriminate]. Qed.

(* C16 *)
Theorem C16_addU_oct : forall f v fm w gc, (0 <= w < two31)%Z -> fm = "o"%char \/ fm = "O"%char ->
  exists t s, addU f v fm w "000"%char gc = insertField f s /\
    ((v = 0%N /\ t = lit "0") \/ (v <> 0%N /\ exists u, t = "0"%char :: u /\ numeral_of false 8 v u)) /\
    right_justified "0"%char w t s /\ value false 8 s = Some v.
Proof. exact c16. Qed.
Print Assumptions C16_addU_oct.
Example C16_nonvacuous : addU_text 511 "o"%char 6 "000"%char 1 = lit "000777" /\
  addU_text 511 "o"%char 0 "000"%char 1 = lit "0777" /\ addU_text 0 "o"%char 0 "000"%char 1 = lit "0".
Proof. vm_compute. repeat split. Qed.

(* C17 *)
Theorem C17_addU_dec : forall f v fm w gc, (0 <= w < two31)%Z -> ~ In fm (lit "xXhHoO") ->
  exists t s, addU f v fm w "000"%char gc = insertField f s /\
    numeral_of false 10 v t /\ right_justified " "%char w t s.
Proof. exact c17. Qed.
Print Assumptions C17_addU_dec.
(* in every format, with or without separator: a width of 2^31 or more counts as none *)
Theorem C17_addU_huge_width : forall f v fm w sep gc, (two31 <= w < two32)%Z ->
  addU f v fm w sep gc = addU f v fm 0 sep gc.
Proof. exact addU_no_width. Qed.
Print Assumptions C17_addU_huge_width.
Example C17_nonvacuous : addU_text 18446744073709551615 "d"%char 22 "000"%char 1 = lit "  18446744073709551615" /\
  ~ In "d"%char (lit "xXhHoO").
Proof. split; [vm_compute; reflexivity|]. intros H. cbn in H. repeat (destruct H as [H|H]; [discriminate H|]). exact H. Qed.

(* C18 is false: in decimal the padding is grouped too, and group_count 0
   leaves a trailing separator. *)
Theorem C18_addU_padding_refuted : exists v w sep s,
  (forall f, addU f v "d"%char w sep 3 = insertField f s) /\ s = lit "  ,  1,234".
Proof. exact c18_refuted. Qed.
Print Assumptions C18_addU_padding_refuted.
Theorem C18_addU_group0_refuted : exists v sep s,
  (forall f, addU f v "d"%char 0 sep 0 = insertField f s) /\ s = lit "1234,".
Proof. exact c18_refuted0. Qed.
Print Assumptions C18_addU_group0_refuted.
(* hex: the digits (with their zero padding) are grouped, the 0x is not *)
Theorem C18_addU_hex_partial : forall f v fm (up : bool) w sep gc,
  (if up then fm = "X"%char \/ fm = "H"%char else fm = "x"%char \/ fm = "h"%char) ->
  sep <> "000"%char -> (1 <= gc)%Z -> (v < 18446744073709551616)%N -> (0 <= w <= 2147483645)%Z ->
  exists t u, addU f v fm w "000"%char gc = insertField f (lit "0x" ++ t) /\
    addU f v fm w sep gc = insertField f (lit "0x" ++ u) /\ grouped (Z.to_nat gc) sep t u.
Proof. exact c18_hex. Qed.
Print Assumptions C18_addU_hex_partial.
(* oct: everything after the leading 0 is grouped *)
Theorem C18_addU_oct_partial : forall f v fm w sep gc,
  fm = "o"%char \/ fm = "O"%char ->
  sep <> "000"%char -> (1 <= gc)%Z -> (v < 18446744073709551616)%N -> (0 <= w <= 2147483645)%Z ->
  exists t u, addU f v fm w "000"%char gc = insertField f ("0"%char :: t) /\
    addU f v fm w sep gc = insertField f ("0"%char :: u) /\
    ((t = [] /\ u = []) \/ grouped (Z.to_nat gc) sep t u).
Proof. exact c18_oct. Qed.
Print Assumptions C18_addU_oct_partial.
(* decimal: the whole field is grouped; with no width that is just the numeral *)
Theorem C18_addU_dec_partial : forall f v fm w sep gc,
  ~ In fm (lit "xXhHoO") ->
  sep <> "000"%char -> (1 <= gc)%Z -> (v < 18446744073709551616)%N -> (0 <= w <= 2147483645)%Z ->
  exists t u, addU f v fm w "000"%char gc = insertField f t /\
    addU f v fm w sep gc = insertField f u /\ grouped (Z.to_nat gc) sep t u /\
    (w = 0%Z -> numeral_of false 10 v t).
Proof. exact c18_dec. Qed.
Print Assumptions C18_addU_dec_partial.
Theorem C18_addU_group0_partial : forall f v fm w sep s,
  sep <> "000"%char -> (v < 18446744073709551616)%N -> (0 <= w <= 2147483645)%Z ->
  addU_text v fm w "000"%char 0 = s -> 1 < length s ->
  addU f v fm w sep 0 = insertField f (s ++ [sep]).
Proof. exact c18_zero. Qed.
Print Assumptions C18_addU_group0_partial.
Example C18_nonvacuous :
  addU_text 3735928559 "x"%char 8 "_"%char 4 = lit "0xdead_beef" /\
  addU_text 511 "o"%char 7 "_"%char 3 = lit "0000_777" /\
  addU_text 1234567 "d"%char 0 ","%char 3 = lit "1,234,567".
Proof. vm_compute. repeat split. Qed.

(* C19 *)
Theorem C19_addS_justify : forall f v w, (- two31 < w < two31)%Z -> (Z.of_nat (length v) < two31)%Z ->
  exists t, addS f v w = Ok (insertField f t) /\
    (if (w <? 0)%Z then left_justified " "%char (- w) v t else right_justified " "%char w v t).
Proof. exact c19. Qed.
Print Assumptions C19_addS_justify.
(* the one remaining width, INT_MIN, is undefined behaviour *)
Theorem C19_addS_int_min : forall f v, addS f v (- two31) = UB.
Proof. exact c19_min. Qed.
Print Assumptions C19_addS_int_min.
Example C19_nonvacuous : addS_text (lit "ab") 4 = Ok (lit "  ab") /\ addS_text (lit "ab") (-4) = Ok (lit "ab  ")
  /\ addS_text (lit "abcde") 4 = Ok (lit "abcde").
Proof. vm_compute. repeat split. Qed.

(* C20 *)
Theorem C20_addC_addB : forall f c b, addC f c = insertField f [c] /\
  addB f b = insertField f (if b then lit "T" else lit "F").
Proof. exact c20. Qed.
Print Assumptions C20_addC_addB.
Example C20_nonvacuous : exists f, newFormat Strict (lit "<%0|%1>") = Ok f /\
  fmt_str (addB (addC f "%"%char) true) true = Ok (lit "<%|T>").
Proof. eexists. split; vm_compute; reflexivity. Qed.

(* C21 is false: Format_ext::addU truncates to 32 bits. *)
Theorem C21_ext_addU_refuted : exists v, forall f,
  ext_addU f v "d"%char 0 "000"%char 1 = insertField f (lit "0") /\
  addU f v "d"%char 0 "000"%char 1 = insertField f (lit "4294967296").
Proof. exact c21_refuted. Qed.
Print Assumptions C21_ext_addU_refuted.
Theorem C21_ext_same_partial : forall f i v c b s fm w wi sep gc,
  ext_addI f i w sep = addI f i w sep "000"%char /\
  ((v < 4294967296)%N -> ext_addU f v fm w sep gc = addU f v fm w sep gc) /\
  ext_addS f s wi = addS f s wi /\ ext_addC f c = addC f c /\ ext_addB f b = addB f b.
Proof. exact c21_partial. Qed.
Print Assumptions C21_ext_same_partial.
Example C21_nonvacuous : exists f, newFormat Strict (lit "%0") = Ok f /\ (4294967295 < 4294967296)%N /\
  fmt_str (ext_addU f 4294967295 "x"%char 0 ":"%char 2) true = Ok (lit "0xff:ff:ff:ff").
Proof. eexists. split; [vm_compute; reflexivity|]. split; vm_compute; reflexivity. Qed.
