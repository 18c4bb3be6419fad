(* L_Split.v -- proofs about M_Split against S_Split. *)
From Verif Require Import Base M_Split S_Split.

Arguments is_sp : simpl never.

(* ---------- find ---------- *)
Lemma find_at_spec p s i :
  match find_at p s i with
  | None => forallb (fun c => negb (p c)) s = true
  | Some j => exists a c b, s = a ++ c :: b /\ j = i + length a /\ p c = true /\
                       forallb (fun c => negb (p c)) a = true
  end.
Proof.
  revert i; induction s as [|c r IH]; intros i; cbn [find_at].
  - reflexivity.
  - destruct (p c) eqn:Hc.
    + exists [], c, r. cbn. rewrite Hc. repeat split; lia.
    + specialize (IH (S i)). destruct (find_at p r (S i)) as [j|].
      * destruct IH as (a & d & b & -> & -> & Hd & Ha).
        exists (c :: a), d, b. cbn. rewrite Hc, Ha. repeat split; auto; lia.
      * cbn. rewrite Hc. exact IH.
Qed.

Lemma find_from_spec p pre rest :
  match find_from p (pre ++ rest) (length pre) with
  | None => forallb (fun c => negb (p c)) rest = true
  | Some j => exists a c b, rest = a ++ c :: b /\ j = length pre + length a /\ p c = true /\
                       forallb (fun c => negb (p c)) a = true
  end.
Proof.
  unfold find_from. rewrite skipn_app, skipn_all, Nat.sub_diag. cbn [skipn app].
  exact (find_at_spec p rest (length pre)).
Qed.

(* ---------- squeeze: what the third loop computes ---------- *)
Fixpoint squeeze (s : str) : str :=
  match s with
  | [] => []
  | c :: r =>
    match r with
    | d :: _ => if is_sp c && is_sp d then squeeze r else c :: squeeze r
    | [] => [c]
    end
  end.

Lemma squeeze_cons2 c d r :
  squeeze (c :: d :: r) = if is_sp c && is_sp d then squeeze (d :: r) else c :: squeeze (d :: r).
Proof. reflexivity. Qed.

Lemma squeeze_nosp_app a s :
  forallb (fun c => negb (is_sp c)) a = true -> squeeze (a ++ s) = a ++ squeeze s.
Proof.
  induction a as [|c a IH]; cbn [forallb app]; intros H; [reflexivity|].
  apply andb_true_iff in H as [Hc Ha]. apply negb_true_iff in Hc.
  specialize (IH Ha).
  destruct (a ++ s) as [|d r] eqn:E.
  - apply app_eq_nil in E as [-> ->]. reflexivity.
  - rewrite squeeze_cons2, Hc. cbn [andb]. rewrite IH. reflexivity.
Qed.

Lemma squash_loop_ok fuel : forall pre rest,
  length rest < fuel ->
  squash_loop fuel (pre ++ rest) (length pre) = Some (pre ++ squeeze rest).
Proof.
  induction fuel as [|f IH]; intros pre rest Hf; [lia|].
  cbn [squash_loop].
  pose proof (find_from_spec is_sp pre rest) as Hfind.
  destruct (find_from is_sp (pre ++ rest) (length pre)) as [p|].
  2:{ f_equal. f_equal. rewrite <- (app_nil_r rest) at 2.
      rewrite (squeeze_nosp_app rest []) by exact Hfind. symmetry; apply app_nil_r. }
  destruct Hfind as (a & c & b & -> & -> & Hc & Ha).
  assert (Hcs : c = " "%char) by (apply Ascii.eqb_eq; exact Hc).
  rewrite !app_length in *; cbn [length] in *.
  assert (Hnth : nth (S (length pre + length a)) (pre ++ a ++ c :: b) "000"%char = nth 0 b "000"%char).
  { rewrite app_nth2 by lia. replace (S (length pre + length a) - length pre) with (S (length a)) by lia.
    rewrite app_nth2 by lia. replace (S (length a) - length a) with 1 by lia. reflexivity. }
  rewrite Hnth.
  rewrite (squeeze_nosp_app a (c :: b) Ha).
  destruct b as [|d b'].
  - (* space is last: never in trimmed strings, but handled *)
    cbn [length nth].
    replace (length pre + length a <? length pre + (length a + 1) - 1) with false by lia.
    cbn [andb].
    replace (pre ++ a ++ [c]) with ((pre ++ a ++ [c]) ++ []) by apply app_nil_r.
    replace (S (length pre + length a)) with (length (pre ++ a ++ [c])) by (rewrite !app_length; cbn; lia).
    rewrite IH by (cbn; lia). cbn [squeeze]. rewrite !app_nil_r. reflexivity.
  - cbn [length nth] in *.
    replace (length pre + length a <? length pre + (length a + S (S (length b'))) - 1) with true by lia.
    cbn [andb]. rewrite squeeze_cons2, Hc. cbn [andb].
    destruct (is_sp d) eqn:Hd.
    + assert (He : erase1 (pre ++ a ++ c :: d :: b') (length pre + length a) = (pre ++ a) ++ d :: b').
      { unfold erase1. rewrite <- (app_length pre a), app_assoc.
        rewrite firstn_app, firstn_all, Nat.sub_diag. cbn [firstn]. rewrite app_nil_r.
        f_equal. rewrite skipn_app, skipn_all2 by lia. cbn [app].
        replace (S (length (pre ++ a)) - length (pre ++ a)) with 1 by lia. reflexivity. }
      rewrite He. replace (length pre + length a) with (length (pre ++ a)) by apply app_length.
      rewrite IH by (cbn; lia). rewrite <- app_assoc. reflexivity.
    + replace (pre ++ a ++ c :: d :: b') with ((pre ++ a ++ [c]) ++ d :: b')
        by (rewrite <- !app_assoc; reflexivity).
      replace (S (length pre + length a)) with (length (pre ++ a ++ [c])) by (rewrite !app_length; cbn; lia).
      rewrite IH by (cbn [length]; lia). rewrite <- !app_assoc. reflexivity.
Qed.

(* ---------- trimming ---------- *)
Definition all_sp (s : str) : bool := forallb is_sp s.

Lemma trim_front_spec s :
  match trim_front s with
  | Ok r => exists p, s = p ++ r /\ all_sp p = true /\
            exists c r', r = c :: r' /\ is_sp c = false
  | UB => all_sp s = true
  | Throw _ => False
  end.
Proof.
  induction s as [|c r IH]; cbn [trim_front]; [reflexivity|].
  destruct (is_sp c) eqn:Hc.
  - destruct (trim_front r) as [t|e|].
    + destruct IH as (p & -> & Hp & Ht). exists (c :: p). cbn. rewrite Hc. auto.
    + exact IH.
    + unfold all_sp in *. cbn. rewrite Hc. exact IH.
  - exists []. split; [reflexivity|]. split; [reflexivity|]. eauto.
Qed.

Lemma trim_back_rev_front s : trim_back_rev s = trim_front s.
Proof. induction s as [|c r IH]; cbn; [reflexivity|]. rewrite IH. reflexivity. Qed.

Lemma all_sp_rev s : all_sp (rev s) = all_sp s.
Proof.
  unfold all_sp. destruct (forallb is_sp s) eqn:H.
  - rewrite forallb_forall in *. intros x Hx. apply H. apply in_rev. exact Hx.
  - destruct (forallb is_sp (rev s)) eqn:H2; [|reflexivity].
    rewrite <- H. symmetry. rewrite forallb_forall in *. intros x Hx. apply H2. apply in_rev in Hx. exact Hx.
Qed.

Lemma trim_back_spec s :
  match trim_back s with
  | Ok r => exists p, s = r ++ p /\ all_sp p = true /\
            exists c r', r = r' ++ [c] /\ is_sp c = false
  | UB => all_sp s = true
  | Throw _ => False
  end.
Proof.
  unfold trim_back. rewrite trim_back_rev_front.
  pose proof (trim_front_spec (rev s)) as H.
  destruct (trim_front (rev s)) as [r|e|]; cbn [obind].
  - destruct H as (p & Hs & Hp & c & r' & -> & Hc).
    exists (rev p). rewrite all_sp_rev. split; [|split; [exact Hp|]].
    + rewrite <- rev_app_distr, <- Hs, rev_involutive. reflexivity.
    + exists c, (rev r'). auto.
  - exact H.
  - rewrite all_sp_rev in H. exact H.
Qed.

(* ---------- words ---------- *)
Lemma fields_nonnil p s : fields p s <> [].
Proof. destruct s as [|c r]; cbn; [discriminate|]. destruct (p c); [discriminate|]. destruct (fields p r); discriminate. Qed.

Lemma fields_cons_ex p s : exists f fs, fields p s = f :: fs.
Proof. destruct (fields p s) eqn:E; [apply fields_nonnil in E; contradiction|eauto]. Qed.

Lemma words_sp_cons c s : is_sp c = true -> words (c :: s) = words s.
Proof. intros H. unfold words. cbn [fields]. change is_space with is_sp. rewrite H. reflexivity. Qed.

Lemma words_sp_app p s : all_sp p = true -> words (p ++ s) = words s.
Proof.
  unfold all_sp. induction p as [|c p IH]; cbn [forallb app]; intros H; [reflexivity|].
  apply andb_true_iff in H as [Hc Hp]. rewrite words_sp_cons by exact Hc. auto.
Qed.

Lemma words_all_sp s : all_sp s = true -> words s = [].
Proof. intros H. rewrite <- (app_nil_r s), words_sp_app by exact H. reflexivity. Qed.

Lemma fields_app_sp_tail s p :
  all_sp p = true -> filter nonempty (fields is_sp (s ++ p)) = filter nonempty (fields is_sp s).
Proof.
  intros Hp. induction s as [|c s IH]; cbn [app].
  - exact (words_all_sp p Hp).
  - cbn [fields]. destruct (is_sp c); [exact IH|].
    destruct (fields_cons_ex is_sp s) as (f & fs & E).
    destruct (fields_cons_ex is_sp (s ++ p)) as (f' & fs' & E').
    rewrite E, E' in *.
    assert (Hf : f = f' /\ filter nonempty fs = filter nonempty fs').
    { revert f fs f' fs' E E' IH. clear c.
      induction s as [|c s IHs]; intros f fs f' fs' E E' IH; cbn [app] in *.
      - cbn in E. injection E as <- <-.
        destruct p as [|d p']; cbn in E'.
        + injection E' as <- <-. auto.
        + unfold all_sp in Hp; cbn in Hp. apply andb_true_iff in Hp as [Hd Hp'].
          rewrite Hd in E'. injection E' as <- <-. split; [reflexivity|].
          pose proof (words_all_sp p' Hp') as W. unfold words in W. change is_space with is_sp in W.
          rewrite W. reflexivity.
      - cbn [fields] in E, E'. destruct (is_sp c).
        + injection E as <- <-. injection E' as <- <-. split; [reflexivity|].
          cbn [filter nonempty] in IH. symmetry. exact IH.
        + destruct (fields_cons_ex is_sp s) as (g & gs & G).
          destruct (fields_cons_ex is_sp (s ++ p)) as (g' & gs' & G').
          rewrite G in E. rewrite G' in E'. injection E as <- <-. injection E' as <- <-.
          cbn [filter nonempty] in IH. injection IH as Hg Hgs.
          split; [congruence|symmetry; exact Hgs]. }
    destruct Hf as [-> Hf]. cbn [filter nonempty]. rewrite Hf. reflexivity.
Qed.

Lemma words_app_tail s p : all_sp p = true -> words (s ++ p) = words s.
Proof. exact (fields_app_sp_tail s p). Qed.

(* first word of a string starting with a non-space *)
Lemma words_nosp_cons c s :
  is_sp c = false ->
  words (c :: s) = match s with
                   | [] => [[c]]
                   | d :: _ => if is_sp d then [c] :: words s
                               else match words s with w :: ws => (c :: w) :: ws | [] => [[c]] end
                   end.
Proof.
  intros Hc. unfold words. cbn [fields]. change is_space with is_sp. rewrite Hc.
  destruct s as [|d s]; [reflexivity|].
  destruct (fields_cons_ex is_sp (d :: s)) as (f & fs & E). rewrite E.
  cbn [fields] in E. destruct (is_sp d).
  - injection E as <- <-. reflexivity.
  - destruct (fields_cons_ex is_sp s) as (g & gs & G). rewrite G in E. injection E as <- <-. reflexivity.
Qed.

Lemma join_cons_cons sep x y r : join sep (x :: y :: r) = x ++ sep ++ join sep (y :: r).
Proof. reflexivity. Qed.

Lemma join_cons_head sep c x r : join sep ((c :: x) :: r) = c :: join sep (x :: r).
Proof. destruct r; reflexivity. Qed.

(* a non-blank string without trailing space: squeeze joins its words,
   with one leading space if it begins with a space *)
Lemma words_nonblank_nonnil s : all_sp s = false -> words s <> [].
Proof.
  induction s as [|c s IH]; [discriminate|]. unfold all_sp; cbn [forallb].
  destruct (is_sp c) eqn:Hc; cbn [andb]; intros H.
  - rewrite words_sp_cons by exact Hc. auto.
  - rewrite words_nosp_cons by exact Hc. destruct s; [discriminate|].
    destruct (is_sp a); [discriminate|]. destruct (words (a :: s)); discriminate.
Qed.

Lemma squeeze_words s c :
  is_sp c = false ->
  squeeze (s ++ [c]) =
  match s ++ [c] with
  | d :: _ => if is_sp d then " "%char :: join (lit " ") (words (s ++ [c]))
              else join (lit " ") (words (s ++ [c]))
  | [] => []
  end.
Proof.
  intros Hc. induction s as [|d s IH]; cbn [app].
  - cbn [squeeze]. rewrite Hc. rewrite words_nosp_cons by exact Hc. reflexivity.
  - assert (Hne : exists e r, s ++ [c] = e :: r) by (destruct s; cbn; eauto).
    assert (Hnb : all_sp (s ++ [c]) = false).
    { unfold all_sp. rewrite forallb_app. cbn.  rewrite Hc. rewrite andb_false_r. reflexivity. }
    pose proof (words_nonblank_nonnil _ Hnb) as Hw.
    destruct Hne as (e & r & E). rewrite E in *. rewrite squeeze_cons2.
    destruct (is_sp d) eqn:Hd; cbn [andb].
    + rewrite words_sp_cons by exact Hd.
      destruct (is_sp e) eqn:He; rewrite IH.
      * rewrite words_sp_cons by exact He. reflexivity.
      * apply Ascii.eqb_eq in Hd. subst d. reflexivity.
    + rewrite words_nosp_cons by exact Hd. rewrite IH.
      destruct (is_sp e) eqn:He.
      * destruct (words (e :: r)) as [|w ws]; [contradiction|].
        rewrite join_cons_cons. reflexivity.
      * destruct (words (e :: r)) as [|w ws]; [contradiction|].
        rewrite join_cons_head. reflexivity.
Qed.

Theorem squashSpaces_spec s :
  squashSpaces s = if forallb is_space s then UB else Ok (join (lit " ") (words s)).
Proof.
  unfold squashSpaces. change (forallb is_space s) with (all_sp s).
  pose proof (trim_front_spec s) as Hf.
  destruct (trim_front s) as [r1|e|]; cbn [obind]; [|contradiction|rewrite Hf; reflexivity].
  destruct Hf as (p & -> & Hp & c & r' & -> & Hc).
  pose proof (trim_back_spec (c :: r')) as Hb.
  assert (Hnb : all_sp (p ++ c :: r') = false).
  { unfold all_sp. rewrite forallb_app. cbn. change (Ascii.eqb c " "%char) with (is_sp c).
    rewrite Hc. cbn. apply andb_false_r. }
  rewrite Hnb.
  destruct (trim_back (c :: r')) as [r2|e|]; cbn [obind]; [|contradiction|].
  2:{ unfold all_sp in Hb; cbn in Hb.  rewrite Hc in Hb. discriminate. }
  destruct Hb as (q & Hr & Hq & d & r3 & -> & Hd).
  pose proof (squash_loop_ok (S (length (r3 ++ [d]))) [] (r3 ++ [d])) as Hl.
  cbn [length app] in Hl. rewrite Hl by lia. f_equal.
  rewrite squeeze_words by exact Hd.
  rewrite (words_sp_app p) by exact Hp. rewrite Hr, (words_app_tail (r3 ++ [d]) q) by exact Hq.
  destruct r3 as [|e r3]; cbn [app] in *.
  - rewrite Hd. reflexivity.
  - injection Hr as <- _. rewrite Hc. reflexivity.
Qed.

(* ---------- split ---------- *)
Lemma fields_nodelim_app p a c b :
  forallb (fun c => negb (p c)) a = true -> p c = true ->
  fields p (a ++ c :: b) = a :: fields p b.
Proof.
  induction a as [|x a IH]; cbn [forallb app fields]; intros Ha Hc.
  - rewrite Hc. reflexivity.
  - apply andb_true_iff in Ha as [Hx Ha]. apply negb_true_iff in Hx. rewrite Hx, IH by assumption. reflexivity.
Qed.

Lemma fields_nodelim p a : forallb (fun c => negb (p c)) a = true -> fields p a = [a].
Proof.
  induction a as [|x a IH]; cbn [forallb fields]; intros Ha; [reflexivity|].
  apply andb_true_iff in Ha as [Hx Ha]. apply negb_true_iff in Hx. rewrite Hx, IH by assumption. reflexivity.
Qed.

Definition keep (no_empty : bool) (l : list str) : list str :=
  if no_empty then filter nonempty l else l.

Lemma keep_cons b x l : keep b (x :: l) = (if b && (length x =? 0) then [] else [x]) ++ keep b l.
Proof. destruct b, x; reflexivity. Qed.

Lemma drop_last_empty_cons x l : l <> [] -> drop_last_empty (x :: l) = x :: drop_last_empty l.
Proof. destruct l; [contradiction|reflexivity]. Qed.

Lemma split_loop_ok fuel : forall delims ne pre rest ret,
  length rest < fuel ->
  split_loop fuel (pre ++ rest) delims ne ret (length pre) =
  Some (ret ++ keep ne (drop_last_empty (fields (In_delims delims) rest))).
Proof.
  induction fuel as [|f IH]; intros delims ne pre rest ret Hf; [lia|].
  cbn [split_loop]. change (fun c => mem_char c delims) with (In_delims delims).
  pose proof (find_from_spec (In_delims delims) pre rest) as Hfind.
  destruct (find_from (In_delims delims) (pre ++ rest) (length pre)) as [p|].
  - destruct Hfind as (a & c & b & -> & -> & Hc & Ha).
    rewrite fields_nodelim_app by assumption.
    rewrite drop_last_empty_cons by apply fields_nonnil.
    rewrite keep_cons.
    assert (Hsub : substr (pre ++ a ++ c :: b) (length pre) (length pre + length a - length pre) = a).
    { unfold substr. replace (length pre + length a - length pre) with (length a) by lia.
      rewrite skipn_app, skipn_all, Nat.sub_diag. cbn [skipn app].
      rewrite firstn_app, firstn_all, Nat.sub_diag. cbn. apply app_nil_r. }
    rewrite Hsub.
    replace (pre ++ a ++ c :: b) with ((pre ++ a ++ [c]) ++ b) by (rewrite <- !app_assoc; reflexivity).
    replace (S (length pre + length a)) with (length (pre ++ a ++ [c])) by (rewrite !app_length; cbn; lia).
    rewrite app_length in Hf. cbn in Hf. rewrite IH by lia.
    destruct (ne && (length a =? 0)); [reflexivity|]. rewrite <- app_assoc. reflexivity.
  - rewrite fields_nodelim by exact Hfind.
    rewrite app_length, skipn_app, skipn_all, Nat.sub_diag. cbn [skipn app drop_last_empty].
    destruct rest as [|c r]; cbn [nonempty length].
    + replace (length pre <? length pre + 0) with false by lia. destruct ne; cbn; rewrite app_nil_r; reflexivity.
    + replace (length pre <? length pre + S (length r)) with true by lia. destruct ne; reflexivity.
Qed.

Theorem split_spec s delims ne :
  split s delims ne =
  if forallb is_space s then UB
  else Ok (keep ne (drop_last_empty (fields (In_delims delims) (join (lit " ") (words s))))).
Proof.
  unfold split. rewrite squashSpaces_spec. destruct (forallb is_space s); [reflexivity|].
  cbn [obind]. pose proof (split_loop_ok (S (length (join (lit " ") (words s)))) delims ne []
                             (join (lit " ") (words s)) []) as H.
  cbn [length app] in H. rewrite H by lia. reflexivity.
Qed.

Lemma fields_nodelims p s : Forall (fun t => forallb (fun c => negb (p c)) t = true) (fields p s).
Proof.
  induction s as [|c s IH]; cbn [fields].
  - repeat constructor.
  - destruct (p c) eqn:Hc; [constructor; [reflexivity|exact IH]|].
    destruct (fields_cons_ex p s) as (f & fs & E). rewrite E in *.
    inversion IH; subst. constructor; [|assumption]. cbn. rewrite Hc. assumption.
Qed.

Lemma drop_last_empty_incl x l : In x (drop_last_empty l) -> In x l.
Proof.
  induction l as [|y l IH]; [auto|]. destruct l as [|z l].
  - cbn. destruct (nonempty y); cbn; tauto.
  - rewrite drop_last_empty_cons by discriminate. intros [->|H]; [left; reflexivity|right; auto].
Qed.

Lemma weave_fields p s :
  exists ds, forallb p ds = true /\ weave (drop_last_empty (fields p s)) ds = s.
Proof.
  induction s as [|c s IH]; cbn [fields].
  - exists []. auto.
  - destruct IH as (ds & Hds & Hw). destruct (p c) eqn:Hc.
    + exists (c :: ds). cbn [forallb]. rewrite Hc, Hds. split; [reflexivity|].
      rewrite drop_last_empty_cons by apply fields_nonnil. cbn [weave app]. rewrite Hw. reflexivity.
    + destruct (fields_cons_ex p s) as (f & fs & E). rewrite E in *.
      destruct fs as [|g fs].
      * cbn [drop_last_empty nonempty] in *. destruct f as [|x f]; cbn [nonempty] in Hw.
        { cbn [weave] in Hw. destruct ds as [|d ds]; [|].
          - subst s. exists []. split; reflexivity.
          - (* s = d :: ds all delimiters: but then fields has more than one element *)
            subst s. cbn in Hds. apply andb_true_iff in Hds as [Hd _]. cbn in E. rewrite Hd in E.
            injection E as E2. exfalso. exact (fields_nonnil _ _ E2). }
        { exists ds. split; [exact Hds|]. destruct ds as [|d ds]; cbn [weave] in *; rewrite <- Hw; reflexivity. }
      * rewrite drop_last_empty_cons in * by discriminate. exists ds. split; [exact Hds|].
        destruct ds; cbn [weave] in *; rewrite <- Hw; reflexivity.
Qed.

Lemma splitVec_split s d ne : splitVec s d ne = split s d ne.
Proof.
  unfold splitVec. destruct (split s d ne) as [l|e|]; cbn [obind]; [|reflexivity..].
  f_equal. cut (forall acc, fold_left (fun ret x => ret ++ [x]) l acc = acc ++ l).
  { intros H. apply H. }
  induction l as [|x l IH]; intros acc; cbn; [symmetry; apply app_nil_r|].
  rewrite IH, <- app_assoc. reflexivity.
Qed.

(* more facts about words, used for the readable corollaries *)
Lemma words_nospace s : Forall (fun w => w <> [] /\ forallb (fun c => negb (is_space c)) w = true) (words s).
Proof.
  unfold words. pose proof (fields_nodelims is_space s) as H.
  induction (fields is_space s) as [|f fs IH]; cbn [filter]; [constructor|].
  inversion H; subst. destruct f as [|c f]; cbn [nonempty]; [auto|].
  constructor; [split; [discriminate|assumption]|auto].
Qed.
