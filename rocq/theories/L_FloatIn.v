(* L_FloatIn.v -- reading floating-point numerals: the text. *)
From Coq Require Import Reals.
From Verif Require Import Base S_Num S_Options M_StreamIn M_Float M_StreamFloat S_FormatF S_FloatIn.
From Flocq Require Import Core.Core IEEE754.BinarySingleNaN.

(* ---- characters ---- *)
Lemma digit_not c : digit_byte c = true -> is_sign c = false /\ Ascii.eqb c "." = false /\ Ascii.eqb c "e" = false /\ Ascii.eqb c "E" = false.
Proof.
  intros H. unfold is_sign.
  destruct (Ascii.eqb_spec c "+"); [subst; discriminate|]. destruct (Ascii.eqb_spec c "-"); [subst; discriminate|].
  destruct (Ascii.eqb_spec c "."); [subst; discriminate|]. destruct (Ascii.eqb_spec c "e"); [subst; discriminate|].
  destruct (Ascii.eqb_spec c "E"); [subst; discriminate|]. auto.
Qed.
Definition stops (r : str) : Prop := match r with c :: _ => digit_byte c = false | [] => True end.
Lemma span_app d r : forallb digit_byte d = true -> stops r -> span_digits (d ++ r) = (d, r).
Proof.
  revert r. induction d as [|c d IH]; intros r H Hr.
  - destruct r as [|c r]; [reflexivity|]. cbn [app span_digits]. cbn in Hr. rewrite Hr. reflexivity.
  - cbn in H. apply andb_prop in H as [H1 H2]. cbn [app span_digits]. rewrite H1, (IH r H2 Hr). reflexivity.
Qed.
Lemma span_ex s : exists d r, s = d ++ r /\ forallb digit_byte d = true /\ stops r.
Proof.
  induction s as [|c s (d & r & -> & H & Hr)].
  - exists [], []. repeat split.
  - destruct (digit_byte c) eqn:E.
    + exists (c :: d), r. cbn. rewrite E. auto.
    + exists [], (c :: d ++ r). cbn. auto.
Qed.
Lemma digits_N_acc s : forallb digit_byte s = true ->
  forall a, value_from false 10 a s = Some (fold_left (fun a c => 10 * a + digit_val c)%N s a).
Proof.
  induction s as [|c s IH]; intros H a; [reflexivity|]. cbn in H. apply andb_prop in H as [H1 H2].
  cbn [value_from fold_left]. unfold digit_of, digit_byte in *. rewrite H1.
  assert (L : (N_of_ascii c - 48 <? 10)%N = true) by (apply andb_prop in H1 as [A B]; apply N.leb_le in A, B; apply N.ltb_lt; lia).
  rewrite L, (IH H2). unfold digit_val. f_equal. f_equal. lia.
Qed.
Lemma digits_N_value s : forallb digit_byte s = true -> value_from false 10 0 s = Some (digits_N s).
Proof. intros H. apply digits_N_acc. exact H. Qed.

(* ---- leading zeros ---- *)
Lemma skip_zeros_digits d : forallb digit_byte d = true -> forall r f, stops r ->
  exists d', skip_zeros (d ++ r) f = (d' ++ r, f || negb (Nat.eqb (length d) (length d'))) /\ forallb digit_byte d' = true /\
    (length d' <= length d)%nat /\ digits_N d' = digits_N d.
Proof.
  induction d as [|c d IH]; intros H r f Hr.
  - exists []. cbn [app length Nat.eqb negb]. rewrite orb_false_r. split; [|auto].
    destruct r as [|c r]; [reflexivity|]. cbn [skip_zeros]. destruct (Ascii.eqb_spec c "0"); [subst; discriminate Hr|reflexivity].
  - cbn in H. apply andb_prop in H as [H1 H2]. cbn [app skip_zeros].
    destruct (Ascii.eqb_spec c "0") as [->|N].
    + destruct (IH H2 r true Hr) as (d' & E & D & L & V). exists d'. rewrite E. cbn [length].
      assert (Q : Nat.eqb (S (length d)) (length d') = false) by (apply Nat.eqb_neq; lia). rewrite Q. rewrite orb_true_r.
      cbn [orb]. split; [reflexivity|]. split; [exact D|]. split; [lia|]. rewrite V. reflexivity.
    + exists (c :: d). rewrite Nat.eqb_refl. cbn [negb]. rewrite orb_false_r. cbn [forallb]. rewrite H1. auto.
Qed.

(* ---- the collected characters ---- *)
Lemma chars_digits d : forallb digit_byte d = true -> forall r xt m dec sci,
  float_chars (d ++ r) xt m dec sci = float_chars r (xt ++ d) (m || negb (Nat.eqb (length d) 0)) dec sci.
Proof.
  induction d as [|c d IH]; intros H r xt m dec sci.
  - cbn [app length Nat.eqb negb]. rewrite orb_false_r, app_nil_r. reflexivity.
  - cbn in H. apply andb_prop in H as [H1 H2]. cbn [app float_chars]. rewrite H1, (IH H2). rewrite <- app_assoc. cbn [app length Nat.eqb negb orb].
    rewrite orb_true_r. reflexivity.
Qed.

(* the exponent as written and as collected, and what may follow *)
Definition no_exp (pt E Eo rest : str) : Prop :=
  E = [] /\ Eo = [] /\ stops rest /\
  match rest with c :: _ => c <> "e"%char /\ c <> "E"%char /\ (pt = [] -> c <> "."%char) | [] => True end.
Definition with_exp (E Eo rest : str) (eneg : bool) (ed : str) : Prop :=
  exists e sg, E = e :: sg ++ ed /\ (e = "e"%char \/ e = "E"%char) /\ sign_of eneg sg /\ forallb digit_byte ed = true /\
    Eo = lit "e" ++ sg ++ ed /\ stops rest /\
    (sg = [] -> ed = [] -> match rest with c :: _ => is_sign c = false | [] => True end).

Lemma sign_chars neg sg : sign_of neg sg -> sg = [] /\ neg = false \/ exists c, sg = [c] /\ is_sign c = true /\ neg = Ascii.eqb c "-".
Proof. destruct neg; [intros ->; right; exists "-"%char; auto|intros [->| ->]; [left; auto|right; exists "+"%char; auto]]. Qed.
Lemma eqb_no c d : c <> d -> Ascii.eqb c d = false.
Proof. intros. apply Ascii.eqb_neq. assumption. Qed.

Lemma chars_exp E Eo rest eneg ed xt dec : with_exp E Eo rest eneg ed -> float_chars (E ++ rest) xt true dec false = xt ++ Eo.
Proof.
  intros (e & sg & -> & He & Hs & Hd & -> & Hr & Hn).
  assert (D : digit_byte e = false /\ Ascii.eqb e "." = false /\ (Ascii.eqb e "e" || Ascii.eqb e "E") = true) by (destruct He as [->| ->]; auto).
  destruct D as (D1 & D2 & D3). cbn [app float_chars]. rewrite D1, D2, D3. cbn [andb negb].
  assert (T : forall x, float_chars (ed ++ rest) x true dec true = x ++ ed).
  { intros x. rewrite chars_digits by exact Hd. destruct rest as [|c r]; [reflexivity|]. cbn [float_chars]. cbn in Hr. rewrite Hr.
    cbn [negb]. rewrite !andb_false_r. reflexivity. }
  destruct (sign_chars _ _ Hs) as [(-> & _)|(c & -> & Hc & _)].
  - cbn [app]. destruct (ed ++ rest) as [|c2 r2] eqn:Q.
    + apply app_eq_nil in Q as [-> ->]. reflexivity.
    + assert (C : is_sign c2 = false).
      { destruct ed as [|d ed']; cbn in Q.
        - subst rest. apply (Hn eq_refl eq_refl).
        - injection Q as -> _. cbn in Hd. apply andb_prop in Hd as [Hd _]. apply digit_not in Hd. apply Hd. }
      rewrite C. first [rewrite T|rewrite <- Q, T]. rewrite <- app_assoc. reflexivity.
  - cbn [app]. rewrite Hc, T. rewrite <- !app_assoc. reflexivity.
Qed.
Lemma chars_noexp pt E Eo rest xt m : (pt = lit "." \/ pt = []) -> no_exp pt E Eo rest ->
  float_chars (E ++ rest) xt m (negb (Nat.eqb (length pt) 0)) false = xt ++ Eo.
Proof.
  intros Hp (-> & -> & Hr & Hn). cbn [app]. rewrite app_nil_r. destruct rest as [|c r]; [reflexivity|]. cbn [float_chars].
  cbn in Hr. rewrite Hr. destruct Hn as (N1 & N2 & N3). rewrite (eqb_no _ _ N1), (eqb_no _ _ N2).
  destruct Hp as [->| ->]; [change (length (lit ".")) with 1%nat|]; cbn [length Nat.eqb negb]; rewrite ?andb_false_r; [reflexivity|].
  rewrite (eqb_no _ _ (N3 eq_refl)). reflexivity.
Qed.

Lemma collect_ok neg sg ip pt fp E Eo rest : sign_of neg sg -> forallb digit_byte ip = true -> forallb digit_byte fp = true ->
  ip ++ fp <> [] -> (pt = lit "." \/ pt = [] /\ fp = []) -> (no_exp pt E Eo rest \/ exists eneg ed, with_exp E Eo rest eneg ed) ->
  exists ip1, forallb digit_byte ip1 = true /\ ip1 ++ fp <> [] /\ digits_N (ip1 ++ fp) = digits_N (ip ++ fp) /\
    collect_float (sg ++ ip ++ pt ++ fp ++ E ++ rest) = sg ++ ip1 ++ pt ++ fp ++ Eo.
Proof.
  intros Hs Hi Hf Hne Hpt He.
  assert (St0 : stops (E ++ rest)).
  { destruct He as [(-> & _ & H & _)|(eneg & ed & e & sg' & -> & [->| ->] & _)]; [exact H|reflexivity|reflexivity]. }
  assert (St : stops (pt ++ fp ++ E ++ rest)) by (destruct Hpt as [->|[-> ->]]; [reflexivity|exact St0]).
  destruct (skip_zeros_digits ip Hi _ false St) as (d' & SZ & Dd & Ld & Vd).
  set (z := negb (Nat.eqb (length ip) (length d'))) in *. cbn [orb] in SZ.
  exists ((if z then lit "0" else []) ++ d').
  assert (V1 : digits_N ((if z then lit "0" else []) ++ d') = digits_N d') by (destruct z; reflexivity).
  split; [rewrite forallb_app; destruct z; cbn; auto|]. split.
  { intros Q. apply Hne. apply app_eq_nil in Q as [Q ->]. apply app_eq_nil in Q as [Q ->]. unfold z in Q.
    destruct (Nat.eqb_spec (length ip) (length (@nil ascii))) as [L|L]; [|discriminate]. destruct ip; [reflexivity|discriminate]. }
  split.
  { rewrite Vd in V1. unfold digits_N in *. rewrite (fold_left_app _ _ fp), (fold_left_app _ ip fp). rewrite V1. reflexivity. }
  assert (C1 : collect_float (sg ++ ip ++ pt ++ fp ++ E ++ rest) =
               float_chars (d' ++ pt ++ fp ++ E ++ rest) (sg ++ (if z then lit "0" else [])) z false false).
  { unfold collect_float. destruct (sign_chars _ _ Hs) as [(-> & _)|(c & -> & Hc & _)].
    - cbn [app]. assert (Q : exists c r, ip ++ pt ++ fp ++ E ++ rest = c :: r /\ is_sign c = false).
      { destruct ip as [|c ip]; cbn [app].
        - destruct Hpt as [->|[-> ->]]; [|contradiction Hne; reflexivity]. eexists _, _. split; [reflexivity|reflexivity].
        - eexists _, _. split; [reflexivity|]. cbn in Hi. apply andb_prop in Hi as [Hi _]. apply digit_not in Hi. apply Hi. }
      destruct Q as (c & r & Q & Qc). rewrite Q, Qc, <- Q, SZ. reflexivity.
    - cbn [app]. rewrite Hc, SZ. reflexivity. }
  rewrite C1, chars_digits by exact Dd.
  set (m := z || negb (Nat.eqb (length d') 0)).
  assert (Hm : (if Nat.eqb (length ip) 0 then false else true) = m).
  { unfold m, z. destruct ip as [|c ip]; cbn [length Nat.eqb].
    - cbn in Ld. replace (length d') with 0%nat by lia. reflexivity.
    - destruct (length d') as [|k]; [reflexivity|]. cbn [Nat.eqb]. rewrite orb_true_r. reflexivity. }
  assert (Fin : forall xt mm, mm = true -> float_chars (E ++ rest) xt mm (negb (Nat.eqb (length pt) 0)) false = xt ++ Eo).
  { intros xt mm ->. destruct He as [H|(eneg & ed & H)]; [apply chars_noexp; [tauto|exact H]|eapply chars_exp; exact H]. }
  destruct Hpt as [->|[-> ->]].
  - change (lit "." ++ fp ++ E ++ rest) with ("."%char :: fp ++ E ++ rest). cbn [float_chars].
    change (digit_byte ".") with false. change (Ascii.eqb "." ".") with true. cbn [andb negb].
    rewrite chars_digits by exact Hf. change true with (negb (Nat.eqb (length (lit ".")) 0)) at 1. rewrite Fin.
    + rewrite <- !app_assoc. reflexivity.
    + rewrite <- Hm. destruct ip; [|reflexivity]. cbn in *. destruct fp; [contradiction|reflexivity].
  - cbn [app] in *. change false with (negb (Nat.eqb (length (@nil ascii)) 0)) at 1. rewrite Fin.
    + rewrite <- !app_assoc. reflexivity.
    + rewrite <- Hm. rewrite app_nil_r in Hne. destruct ip; [contradiction|reflexivity].
Qed.

(* ---- strtod ---- *)
Lemma strtod_ok neg sg ip pt fp Eo eneg ed : sign_of neg sg -> forallb digit_byte ip = true -> forallb digit_byte fp = true ->
  ip ++ fp <> [] -> (pt = lit "." \/ pt = [] /\ fp = []) ->
  (Eo = [] /\ ed = [] \/ exists sg', Eo = lit "e" ++ sg' ++ ed /\ sign_of eneg sg' /\ forallb digit_byte ed = true) ->
  strtod_parse (sg ++ ip ++ pt ++ fp ++ Eo) =
    Some (neg, digits_N (ip ++ fp),
          (- Z.of_nat (length fp) + (match ed with [] => 0 | _ => signed_value eneg (digits_N ed) end))%Z,
          match ed with [] => Eo | _ => [] end).
Proof.
  intros Hs Hi Hf Hne Hpt He.
  assert (St0 : stops Eo) by (destruct He as [(-> & _)|(sg' & -> & _)]; [exact I|reflexivity]).
  assert (St : stops (pt ++ fp ++ Eo)) by (destruct Hpt as [->|[-> ->]]; [reflexivity|exact St0]).
  unfold strtod_parse.
  assert (Q : match sg ++ ip ++ pt ++ fp ++ Eo with
              | c :: r => if is_sign c then (Ascii.eqb c "-", r) else (false, sg ++ ip ++ pt ++ fp ++ Eo)
              | [] => (false, [])
              end = (neg, ip ++ pt ++ fp ++ Eo)).
  { destruct (sign_chars _ _ Hs) as [(-> & ->)|(c & -> & Hc & ->)].
    - cbn [app]. assert (Q : exists c r, ip ++ pt ++ fp ++ Eo = c :: r /\ is_sign c = false).
      { destruct ip as [|c ip]; cbn [app].
        - destruct Hpt as [->|[-> ->]]; [|contradiction Hne; reflexivity]. eexists _, _. split; [reflexivity|reflexivity].
        - eexists _, _. split; [reflexivity|]. cbn in Hi. apply andb_prop in Hi as [Hi _]. apply digit_not in Hi. apply Hi. }
      destruct Q as (c & r & Q & Qc). rewrite Q, Qc. reflexivity.
    - cbn [app]. rewrite Hc. reflexivity. }
  rewrite Q. rewrite span_app by assumption.
  assert (Q2 : match pt ++ fp ++ Eo with
               | c :: r => if Ascii.eqb c "." then span_digits r else ([], pt ++ fp ++ Eo)
               | [] => ([], [])
               end = (fp, Eo)).
  { destruct Hpt as [->|[-> ->]].
    - change (lit "." ++ fp ++ Eo) with ("."%char :: fp ++ Eo). cbv iota. change (Ascii.eqb "." ".") with true. cbv iota. apply span_app; assumption.
    - cbn [app]. destruct He as [(-> & _)|(sg' & -> & _)]; reflexivity. }
  rewrite Q2. destruct (Nat.eqb_spec (length (ip ++ fp)) 0) as [L|L]; [destruct (ip ++ fp); [contradiction|discriminate]|].
  destruct He as [(-> & ->)|(sg' & -> & Hs' & Hd)].
  - cbn [span_digits]. rewrite Z.add_0_r. reflexivity.
  - change (lit "e" ++ sg' ++ ed) with ("e"%char :: sg' ++ ed).
    destruct (sign_chars _ _ Hs') as [(-> & ->)|(c & -> & Hc & ->)].
    + cbn [app]. destruct ed as [|d ed].
      * cbn [span_digits]. rewrite Z.add_0_r. reflexivity.
      * change (Ascii.eqb "e" "e") with true. cbv iota. assert (Hd' := Hd). cbn in Hd'. apply andb_prop in Hd' as [Hd' _]. apply digit_not in Hd' as (Hd' & _).
        rewrite Hd'. assert (SP := span_app (d :: ed) [] Hd I). rewrite app_nil_r in SP. rewrite SP. reflexivity.
    + cbn [app]. change (Ascii.eqb "e" "e") with true. cbv iota. rewrite Hc.
      assert (SP := span_app ed [] Hd I). rewrite app_nil_r in SP. rewrite SP.
      destruct ed as [|d ed]; [rewrite Z.add_0_r; reflexivity|reflexivity].
Qed.

(* ---- the two together ---- *)
Definition follows (pt xp rest : str) : Prop :=
  match rest with
  | [] => True
  | c :: _ => digit_byte c = false /\ (xp = [] -> c <> "e"%char /\ c <> "E"%char) /\ (pt = [] -> xp = [] -> c <> "."%char)
  end.
Lemma value_digits_N ed n : forallb digit_byte ed = true -> value false 10 ed = Some n -> ed <> [] /\ digits_N ed = n.
Proof.
  intros H V. destruct ed as [|c ed]; [discriminate|]. split; [discriminate|]. unfold value in V. rewrite digits_N_value in V by exact H. congruence.
Qed.
Lemma parse_complete neg t ip pt fp xp ex rest : float_numeral t neg ip pt fp xp ex -> follows pt xp rest ->
  strtod_parse (collect_float (t ++ rest)) = Some (neg, digits_N (ip ++ fp), (ex - Z.of_nat (length fp))%Z, []).
Proof.
  intros (sg & -> & Hs & Hi & Hf & Hne & Hpt & Hx) Hr. rewrite <- !app_assoc.
  assert (St : stops rest) by (destruct rest; [exact I|apply Hr]).
  destruct Hx as [(-> & ->)|(e & sg' & ed & eneg & n & -> & He & Hs' & Hv & Hd & ->)].
  - destruct (collect_ok neg sg ip pt fp [] [] rest Hs Hi Hf Hne Hpt) as (ip1 & D1 & N1 & V1 & ->).
    { left. split; [reflexivity|]. split; [reflexivity|]. split; [exact St|]. destruct rest as [|c r]; [exact I|]. destruct Hr as (H1 & H2 & H3).
      split; [apply H2; reflexivity|]. split; [apply H2; reflexivity|]. auto. }
    rewrite (strtod_ok neg sg ip1 pt fp [] false [] Hs D1 Hf N1 Hpt) by auto. rewrite V1. do 3 f_equal. lia.
  - destruct (value_digits_N _ _ Hd Hv) as (Ne & Vn).
    destruct (collect_ok neg sg ip pt fp (e :: sg' ++ ed) (lit "e" ++ sg' ++ ed) rest Hs Hi Hf Hne Hpt) as (ip1 & D1 & N1 & V1 & ->).
    { right. exists eneg, ed, e, sg'. repeat (split; [auto; fail|]). intros _ Q. contradiction. }
    rewrite (strtod_ok neg sg ip1 pt fp (lit "e" ++ sg' ++ ed) eneg ed Hs D1 Hf N1 Hpt) by (right; exists sg'; auto).
    rewrite V1. destruct ed as [|d ed]; [contradiction|]. rewrite Vn. do 3 f_equal. lia.
Qed.

Lemma sign_split s : exists sg neg r, s = sg ++ r /\ sign_of neg sg /\ (sg = [] -> match r with c :: _ => is_sign c = false | [] => True end).
Proof.
  destruct s as [|c s]; [exists [], false, []; split; [reflexivity|]; split; [left; reflexivity|auto]|].
  destruct (is_sign c) eqn:E.
  - unfold is_sign in E. apply orb_prop in E as [E|E]; apply Ascii.eqb_eq in E; subst c.
    + exists (lit "+"), false, s. split; [reflexivity|]. split; [right; reflexivity|discriminate].
    + exists (lit "-"), true, s. split; [reflexivity|]. split; [reflexivity|discriminate].
  - exists [], false, (c :: s). split; [reflexivity|]. split; [left; reflexivity|auto].
Qed.
Lemma no_digits neg sg pt rest : sign_of neg sg -> (pt = lit "." \/ pt = []) -> stops rest ->
  (sg = [] -> pt = [] -> match rest with c :: _ => is_sign c = false | [] => True end) ->
  (pt = [] -> match rest with c :: _ => c <> "."%char | [] => True end) ->
  strtod_parse (collect_float (sg ++ pt ++ rest)) = None.
Proof.
  intros Hs Hp St Hn Hd.
  assert (Z : forall f, skip_zeros (pt ++ rest) f = (pt ++ rest, f)).
  { intros f. destruct Hp as [->| ->]; [reflexivity|]. cbn [app]. destruct rest as [|c r]; [reflexivity|]. cbn [skip_zeros].
    destruct (Ascii.eqb_spec c "0"); [subst; discriminate St|reflexivity]. }
  assert (C : forall xt, float_chars (pt ++ rest) xt false false false = xt ++ pt).
  { intros xt. assert (R : forall x dec, (dec = true \/ pt = []) -> float_chars rest x false dec false = x).
    { intros x dec Hdec. destruct rest as [|c r]; [reflexivity|]. cbn [float_chars]. cbn in St. rewrite St. rewrite andb_false_r.
      destruct Hdec as [->|Hdec]; [rewrite andb_false_r; reflexivity|]. rewrite (eqb_no _ _ (Hd Hdec)). reflexivity. }
    destruct Hp as [->| ->].
    - change (lit "." ++ rest) with ("."%char :: rest). cbn [float_chars]. change (digit_byte ".") with false. change (Ascii.eqb "." ".") with true.
      cbn [andb negb]. apply R. auto.
    - cbn [app]. rewrite R by auto. rewrite app_nil_r. reflexivity. }
  assert (Q : collect_float (sg ++ pt ++ rest) = sg ++ pt).
  { unfold collect_float. destruct (sign_chars _ _ Hs) as [(-> & _)|(c & -> & Hc & _)].
    - cbn [app]. assert (Q : match pt ++ rest with c :: r => if is_sign c then ([c], r) else ([], pt ++ rest) | [] => ([], []) end = ([], pt ++ rest)).
      { destruct Hp as [->| ->]; [reflexivity|]. cbn [app]. specialize (Hn eq_refl eq_refl). destruct rest as [|c r]; [reflexivity|]. rewrite Hn. reflexivity. }
      rewrite Q, Z. cbn [app]. rewrite C. reflexivity.
    - cbn [app]. rewrite Hc, Z. cbn [app]. rewrite C. reflexivity. }
  rewrite Q. destruct (sign_chars _ _ Hs) as [(-> & _)|(c & -> & Hc & _)].
  - destruct Hp as [->| ->]; reflexivity.
  - unfold is_sign in Hc. apply orb_prop in Hc as [Hc|Hc]; apply Ascii.eqb_eq in Hc; subst c; destruct Hp as [->| ->]; reflexivity.
Qed.
Lemma parse_sound s neg n k : strtod_parse (collect_float s) = Some (neg, n, k, []) ->
  exists t ip pt fp xp ex rest, s = t ++ rest /\ float_numeral t neg ip pt fp xp ex /\ follows pt xp rest /\
    n = digits_N (ip ++ fp) /\ k = (ex - Z.of_nat (length fp))%Z.
Proof.
  intros H. destruct (sign_split s) as (sg & neg' & s1 & -> & Hs & Hs1).
  destruct (span_ex s1) as (ip & s2 & -> & Hi & St2).
  assert (P : exists pt fp s3, s2 = pt ++ fp ++ s3 /\ (pt = lit "." \/ pt = [] /\ fp = []) /\ forallb digit_byte fp = true /\ stops s3 /\
                (pt = [] -> match s3 with c :: _ => c <> "."%char | [] => True end)).
  { destruct s2 as [|c s2]; [exists [], [], []; repeat split; auto|].
    destruct (Ascii.eqb_spec c ".") as [->|N].
    - destruct (span_ex s2) as (fp & s3 & -> & Hf & St3). exists (lit "."), fp, s3. repeat (split; [auto; fail|]). discriminate.
    - exists [], [], (c :: s2). repeat (split; [auto; fail|]). auto. }
  destruct P as (pt & fp & s3 & -> & Hpt & Hf & St3 & Hdot).
  destruct (ip ++ fp) as [|a l] eqn:Dg.
  { apply app_eq_nil in Dg as [-> ->]. cbn [app] in *. rewrite (no_digits neg' sg pt s3 Hs) in H; [discriminate|tauto|exact St3| |exact Hdot].
    intros Q1 Q2. subst pt. apply (Hs1 Q1). }
  assert (Ne : ip ++ fp <> []) by (rewrite Dg; discriminate). clear Dg a l.
  destruct s3 as [|c s3].
  { destruct (collect_ok neg' sg ip pt fp [] [] [] Hs Hi Hf Ne Hpt) as (ip1 & D1 & N1 & V1 & Q); [left; repeat split|].
    cbn [app] in Q. cbn [app] in H. rewrite Q in H. rewrite (strtod_ok neg' sg ip1 pt fp [] false [] Hs D1 Hf N1 Hpt) in H by auto.
    injection H as -> <- <-. exists (sg ++ ip ++ pt ++ fp ++ []), ip, pt, fp, [], 0%Z, []. split; [rewrite !app_nil_r; reflexivity|]. split.
    { exists sg. repeat (split; [auto; fail|]). left. auto. }
    split; [exact I|]. split; [exact V1|reflexivity || lia]. }
  destruct (Ascii.eqb c "e" || Ascii.eqb c "E") eqn:Ec.
  - assert (He : c = "e"%char \/ c = "E"%char) by (apply orb_prop in Ec as [Ec|Ec]; apply Ascii.eqb_eq in Ec; auto).
    destruct (sign_split s3) as (sg' & eneg & s4 & -> & Hs' & Hs4). destruct (span_ex s4) as (ed & rest & -> & Hd & Sr).
    assert (W : with_exp (c :: sg' ++ ed) (lit "e" ++ sg' ++ ed) rest eneg ed).
    { exists c, sg'. repeat (split; [auto; fail|]). intros Q1 Q2. subst ed. apply (Hs4 Q1). }
    destruct (collect_ok neg' sg ip pt fp (c :: sg' ++ ed) (lit "e" ++ sg' ++ ed) rest Hs Hi Hf Ne Hpt) as (ip1 & D1 & N1 & V1 & Q); [right; eauto|].
    assert (A : sg ++ ip ++ pt ++ fp ++ (c :: sg' ++ ed) ++ rest = sg ++ ip ++ pt ++ fp ++ c :: sg' ++ ed ++ rest) by (cbn [app]; rewrite <- app_assoc; reflexivity).
    rewrite <- A, Q in H. rewrite (strtod_ok neg' sg ip1 pt fp (lit "e" ++ sg' ++ ed) eneg ed Hs D1 Hf N1 Hpt) in H by (right; exists sg'; auto).
    destruct ed as [|d ed]; [discriminate|]. injection H as -> <- <-.
    exists (sg ++ ip ++ pt ++ fp ++ c :: sg' ++ d :: ed), ip, pt, fp, (c :: sg' ++ d :: ed), (signed_value eneg (digits_N (d :: ed))), rest.
    split; [rewrite <- A, <- !app_assoc; reflexivity|]. split.
    { exists sg. repeat (split; [auto; fail|]). right. exists c, sg', (d :: ed), eneg, (digits_N (d :: ed)). repeat (split; [auto; fail|]).
      split; [|auto]. unfold value. apply digits_N_value. exact Hd. }
    split; [|split; [exact V1|lia]]. destruct rest as [|c' r']; [exact I|]. split; [exact Sr|]. split; [discriminate|discriminate].
  - apply orb_false_elim in Ec as [E1 E2]. apply Ascii.eqb_neq in E1, E2.
    destruct (collect_ok neg' sg ip pt fp [] [] (c :: s3) Hs Hi Hf Ne Hpt) as (ip1 & D1 & N1 & V1 & Q).
    { left. repeat (split; [auto; fail|]). auto. }
    cbn [app] in Q. rewrite Q in H. rewrite (strtod_ok neg' sg ip1 pt fp [] false [] Hs D1 Hf N1 Hpt) in H by auto.
    injection H as -> <- <-. exists (sg ++ ip ++ pt ++ fp ++ []), ip, pt, fp, [], 0%Z, (c :: s3). split; [rewrite app_nil_r, <- !app_assoc; reflexivity|]. split.
    { exists sg. repeat (split; [auto; fail|]). left. auto. }
    split; [|split; [exact V1|reflexivity || lia]]. split; [exact St3|]. split; [auto|]. intros Qp _. apply (Hdot Qp).
Qed.
