(* L_OptionsT.v -- from strings to tokens: quoting, argv, key=value lists. *)
From Verif Require L_Num.
From Verif Require Import Base M_StreamIn M_Stream M_Split M_Format M_Options S_Split S_Options S_Num L_Split C_Split L_Options.

(* ---------- buildTokenList ---------- *)
Lemma defined_app im a b : defined_on im (a ++ b) <-> defined_on im a /\ defined_on im b.
Proof. destruct im; cbn; [rewrite forallb_app, andb_true_iff; reflexivity|tauto]. Qed.
Lemma defined_cons im c b : defined_on im (c :: b) -> c_isspace im c = Ok (space_byte c) /\ defined_on im b.
Proof.
  destruct im; cbn; [|tauto]. intros H. apply andb_true_iff in H as [H1 H2]. apply negb_true_iff in H1. rewrite H1. auto.
Qed.

Lemma tok_blank im w : blank w -> forall r ret, defined_on im (w ++ r) ->
  tok_loop im (w ++ r) ret [] false = tok_loop im r ret [] false.
Proof.
  intros B. induction B as [|c w Hc B IH]; intros r ret D; [reflexivity|]. cbn [app tok_loop].
  apply defined_cons in D as [-> D]. cbn [obind]. unfold space in Hc; rewrite L_Num.white_eq in Hc. rewrite Hc. cbn [length Nat.ltb Nat.leb]. apply IH, D.
Qed.
Lemma quote_not_space : space_byte """"%char = false. Proof. reflexivity. Qed.
Lemma tok_inquote im t : no_quote t -> forall r ret cur, defined_on im (t ++ r) ->
  tok_loop im (t ++ r) ret cur true = tok_loop im r ret (cur ++ t) true.
Proof.
  intros NQ. induction t as [|c t IH]; intros r ret cur D; [rewrite app_nil_r; reflexivity|]. cbn [app tok_loop].
  apply defined_cons in D as [-> D]. cbn [obind].
  assert (N : no_quote t) by (intros H; apply NQ; right; exact H).
  assert (Q : Ascii.eqb c """"%char = false) by (apply Ascii.eqb_neq; intros ->; apply NQ; left; reflexivity).
  rewrite Q.
  replace (cur ++ c :: t) with ((cur ++ [c]) ++ t) by (rewrite <- app_assoc; reflexivity).
  rewrite <- IH by assumption. destruct (space_byte c); reflexivity.
Qed.
Lemma tok_plain im t : no_quote t -> Forall (fun c => ~ space c) t -> forall r ret cur, defined_on im (t ++ r) ->
  tok_loop im (t ++ r) ret cur false = tok_loop im r ret (cur ++ t) false.
Proof.
  intros NQ NS. induction NS as [|c t Hc NS IH]; intros r ret cur D; [rewrite app_nil_r; reflexivity|]. cbn [app tok_loop].
  apply defined_cons in D as [-> D]. cbn [obind].
  assert (N : no_quote t) by (intros H; apply NQ; right; exact H).
  assert (Q : Ascii.eqb c """"%char = false) by (apply Ascii.eqb_neq; intros ->; apply NQ; left; reflexivity).
  unfold space in Hc; rewrite L_Num.white_eq in Hc. destruct (space_byte c); [elim Hc; reflexivity|]. rewrite Q.
  rewrite IH by assumption. rewrite <- app_assoc. reflexivity.
Qed.

Lemma quoted_typed ts l : quoted_line ts l -> typed_line ts l.
Proof. induction 1; constructor; assumption. Qed.
Lemma plain_typed ts l : plain_text ts l -> typed_line ts l.
Proof. induction 1; [apply TL_end|apply TL_last|apply TL_plain]; assumption. Qed.

(* ---------- any string ---------- *)
Lemma cl_space ts l c : space c -> command_line ts l -> command_line ts (c :: l).
Proof.
  intros S. inversion 1; subst.
  - apply CL_end. constructor; assumption.
  - apply (CL_word (c :: w)); [constructor; assumption|assumption..].
  - apply (CL_quoted (c :: w)); [constructor; assumption|assumption..].
  - apply (CL_open (c :: w)); [constructor; assumption|assumption..].
  - apply (CL_lone (c :: w)). constructor; assumption.
Qed.
Lemma typed_command ts l : typed_line ts l -> command_line ts l.
Proof.
  induction 1 as [w B|w t ts l B NQ H IH|w t B NE NQ NS|w t c ts l B NE NQ NS Hc H IH].
  - apply CL_end, B.
  - apply (CL_quoted w [] t); [exact B|split; [intros []|constructor]|exact NQ|exact IH].
  - rewrite <- (app_nil_r t) at 2. apply (CL_word w t [] []); [exact B|split; assumption|exact NE|left; reflexivity|apply CL_end; constructor].
  - apply (CL_word w t ([c] ++ l)); [exact B|split; assumption|exact NE|right; exists c, l; auto|apply cl_space; assumption].
Qed.
Lemma tok_quote im r ret cur q : tok_loop im (""""%char :: r) ret cur q =
  if q then tok_loop im r (ret ++ [cur]) [] false else tok_loop im r ret cur true.
Proof. destruct im; reflexivity. Qed.
Lemma command_tokens im ts l : command_line ts l -> defined_on im l ->
  forall ret, tok_loop im l ret [] false = Ok (ret ++ ts).
Proof.
  induction 1 as [w B|w t r ts B [NQ NS] NE E H IH|w t q ts r B [NQ NS] Q H IH|w t q B [NQ NS] Q NE|w B]; intros D ret.
  - rewrite <- (app_nil_r w) in D. rewrite <- (app_nil_r w). rewrite tok_blank by assumption. cbn. rewrite app_nil_r. reflexivity.
  - rewrite tok_blank by assumption. apply defined_app in D as [_ D]. rewrite tok_plain by assumption. apply defined_app in D as [_ D]. cbn [app].
    destruct E as [->|(c & r' & -> & Hc)].
    + specialize (IH D []). cbn in IH. injection IH as <-. cbn. destruct t; [contradiction|reflexivity].
    + specialize (IH D (ret ++ [t])). cbn [tok_loop] in *. destruct (defined_cons _ _ _ D) as (E & _). rewrite E in *. cbn [obind] in *.
      unfold space in Hc; rewrite L_Num.white_eq in Hc. rewrite Hc in *. destruct t; [contradiction|]. cbn [length Nat.ltb Nat.leb] in *. rewrite IH, <- app_assoc. reflexivity.
  - rewrite tok_blank by assumption. apply defined_app in D as [_ D]. rewrite tok_plain by assumption. apply defined_app in D as [_ D].
    cbn [app] in *. rewrite tok_quote. apply defined_cons in D as [_ D].
    rewrite tok_inquote by assumption. apply defined_app in D as [_ D]. rewrite tok_quote. apply defined_cons in D as [_ D].
    rewrite (IH D). rewrite <- app_assoc. reflexivity.
  - rewrite tok_blank by assumption. apply defined_app in D as [_ D]. rewrite tok_plain by assumption. apply defined_app in D as [_ D].
    cbn [app] in *. rewrite tok_quote. apply defined_cons in D as [_ D].
    assert (E : q = q ++ []) by (symmetry; apply app_nil_r). rewrite E in D. rewrite E at 1. rewrite tok_inquote by assumption.
    cbn. destruct (t ++ q); [contradiction|reflexivity].
  - rewrite tok_blank by assumption. rewrite tok_quote. cbn. rewrite app_nil_r. reflexivity.
Qed.
Lemma cut_at_quote l : exists q, no_quote q /\ (l = q \/ exists r, l = q ++ """"%char :: r).
Proof.
  induction l as [|c l (q & NQ & E)]; [exists []; split; [intros []|left; reflexivity]|].
  destruct (ascii_dec c """"%char) as [->|N]; [exists []; split; [intros []|right; exists l; reflexivity]|].
  exists (c :: q). split; [intros [X|X]; [congruence|exact (NQ X)]|].
  destruct E as [->|(r & ->)]; [left; reflexivity|right; exists r; reflexivity].
Qed.
Lemma cut_blank l : exists w r, l = w ++ r /\ blank w /\ (forall c r', r = c :: r' -> ~ space c).
Proof.
  induction l as [|c l (w & r & -> & B & H)]; [exists [], []; repeat split; [constructor|discriminate]|].
  rewrite <- ?L_Num.white_eq in *. destruct (white c) eqn:E; [exists (c :: w), r; repeat split; [constructor; assumption|exact H]|].
  exists [], (c :: w ++ r). repeat split; [constructor|]. intros c' r' [= <- _]. unfold space. congruence.
Qed.
Lemma cut_run l : exists t r, l = t ++ r /\ plain_run t /\ (r = [] \/ exists c r', r = c :: r' /\ (space c \/ c = """"%char)).
Proof.
  induction l as [|c l (t & r & -> & [NQ NS] & H)]; [exists [], []; repeat split; [intros []|constructor|left; reflexivity]|].
  rewrite <- ?L_Num.white_eq in *. destruct (white c) eqn:E; [exists [], (c :: t ++ r); repeat split; [intros []|constructor|right; exists c, (t ++ r); auto]|].
  destruct (ascii_dec c """"%char) as [->|N]; [eexists [], _; repeat split; [intros []|constructor|right; eauto]|].
  exists (c :: t), r. split; [reflexivity|]. split; [|exact H]. split; [intros [X|X]; [congruence|exact (NQ X)]|].
  constructor; [unfold space; congruence|exact NS].
Qed.
Lemma command_exists n : forall l, length l <= n -> exists ts, command_line ts l.
Proof.
  induction n as [|n IH]; intros l Hl.
  - destruct l; [|cbn in Hl; lia]. exists []. apply CL_end. constructor.
  - destruct (cut_blank l) as (w & r & -> & B & NS). destruct (cut_run r) as (t & r' & -> & P & E). rewrite !app_length in Hl.
    destruct E as [->|(c & r2 & -> & [Hc| ->])].
    + destruct t as [|x t]; [exists []; rewrite !app_nil_r; apply CL_end, B|]. exists [x :: t].
      apply CL_word; [exact B|exact P|discriminate|left; reflexivity|apply CL_end; constructor].
    + destruct t as [|x t]; [elim (NS c r2 eq_refl Hc)|]. destruct (IH (c :: r2)) as (ts & H); [cbn in *; lia|].
      exists ((x :: t) :: ts). apply CL_word; [exact B|exact P|discriminate|right; eauto|exact H].
    + destruct (cut_at_quote r2) as (q & NQ & [E|(r3 & E)]); subst r2.
      * destruct (t ++ q) as [|x y] eqn:E.
        -- apply app_eq_nil in E as (-> & ->). exists []. apply (CL_lone w), B.
        -- exists [t ++ q]. apply (CL_open w t q); [exact B|exact P|exact NQ|congruence].
      * destruct (IH r3) as (ts & H); [cbn [length] in Hl; rewrite app_length in Hl; cbn [length] in Hl; lia|]. exists ((t ++ q) :: ts).
        apply (CL_quoted w t q ts r3); assumption.
Qed.
Lemma command_unique ts1 ts2 l : command_line ts1 l -> command_line ts2 l -> ts1 = ts2.
Proof.
  intros A B. assert (E1 := command_tokens Glibc ts1 l A I []). assert (E2 := command_tokens Glibc ts2 l B I []).
  rewrite E1 in E2. cbn in E2. congruence.
Qed.
Lemma parse_string_command im s ts l : is_kvp s = false -> command_line ts l -> defined_on im l ->
  parse_string im s l = parse_list s ts.
Proof.
  intros K T D. unfold parse_string, buildTokenList. rewrite K, (command_tokens im ts l T D). reflexivity.
Qed.
Lemma parse_string_typed im s ts l : is_kvp s = false -> typed_line ts l -> defined_on im l ->
  parse_string im s l = parse_list s ts.
Proof. intros K T. apply parse_string_command; [exact K|apply typed_command, T]. Qed.
Lemma parse_string_command_ok im s ts l b s' : is_kvp s = false -> command_line ts l ->
  parse_string im s l = Ok (b, s') -> parse_list s ts = Ok (b, s').
Proof.
  intros K T. unfold parse_string, buildTokenList. rewrite K.
  assert (G : tok_loop Glibc l [] [] false = Ok ts) by (apply (command_tokens Glibc ts l T I)).
  assert (X : forall s ret cur q, tok_loop im s ret cur q = UB \/ tok_loop im s ret cur q = tok_loop Glibc s ret cur q).
  { clear. induction s as [|c s IH]; intros ret cur q; [right; reflexivity|]. cbn [tok_loop].
    destruct im; [|right; reflexivity]. cbn [c_isspace]. destruct (high_byte c); [left; reflexivity|]. cbn [obind].
    destruct (space_byte c), q, (0 <? length cur), (Ascii.eqb c """"%char); apply IH. }
  destruct (X l [] [] false) as [E|E]; rewrite E; [discriminate|]. rewrite G. cbn. auto.
Qed.

(* ---------- argv ---------- *)
Lemma args_from_exact ts more : args_from (length ts) (ts ++ more) = Ok ts.
Proof. induction ts as [|t ts IH]; cbn; [reflexivity|]. rewrite IH. reflexivity. Qed.
Lemma argv_tokens prog ts more :
  buildTokenList_argv (Z.of_nat (S (length ts))) (prog :: ts ++ more) = Ok ts.
Proof.
  unfold buildTokenList_argv. destruct (Z.ltb_spec (Z.of_nat (S (length ts))) 2) as [H|H].
  - destruct ts; [reflexivity|cbn in H; lia].
  - cbn [tl]. replace (Z.to_nat (Z.of_nat (S (length ts)) - 1)) with (length ts) by lia. apply args_from_exact.
Qed.

(* ---------- words and fields ---------- *)
Definition one (f : str) : list str := if nonempty f then [f] else [].
Fixpoint glue {A} (a b : list (list A)) : list (list A) :=
  match a with
  | [] => b
  | [x] => match b with y :: r => (x ++ y) :: r | [] => [x] end
  | x :: r => x :: glue r b
  end.
Fixpoint cut_words (p : ascii -> bool) (ws : list str) : list (list str) :=
  match ws with
  | [] => [[]]
  | w :: r => glue (map one (fields p w)) (cut_words p r)
  end.

Lemma glue_cons {A} (x : list A) r b : r <> [] -> glue (x :: r) b = x :: glue r b.
Proof. destruct r; [contradiction|reflexivity]. Qed.
Lemma glue_nonnil {A} (a b : list (list A)) : a <> [] -> glue a b <> [].
Proof. destruct a as [|x [|y a]]; [contradiction|..]; intros _; [destruct b|]; discriminate. Qed.

Lemma fields_app p a b : fields p (a ++ b) = glue (fields p a) (fields p b).
Proof.
  induction a as [|c a IH]; cbn [app fields].
  - destruct (fields_cons_ex p b) as (f & fs & ->). reflexivity.
  - rewrite IH. destruct (p c).
    + rewrite glue_cons by apply fields_nonnil. reflexivity.
    + destruct (fields_cons_ex p a) as (g & gs & ->). destruct gs as [|h gs].
      * cbn [glue]. destruct (fields_cons_ex p b) as (f & fs & ->). reflexivity.
      * reflexivity.
Qed.

(* the first field of a text that begins with a space, or is empty *)
Definition sp_head (b : str) : Prop := match b with [] => True | c :: _ => is_sp c = true end.
Lemma fields_sp_head p b f fs : p " "%char = false -> sp_head b -> fields p b = f :: fs -> sp_head f.
Proof.
  intros Hp. destruct b as [|c b]; cbn; [intros _ [= <- _]; exact I|].
  intros H. assert (c = " "%char) by (apply Ascii.eqb_eq; exact H). subst c. rewrite Hp.
  destruct (fields p b); intros [= <- _]; reflexivity.
Qed.

Lemma words_app_sp x y : forallb (fun c => negb (is_sp c)) x = true -> sp_head y -> words (x ++ y) = one x ++ words y.
Proof.
  intros Hx Hy. destruct x as [|c x]; [reflexivity|]. cbn [one nonempty].
  assert (G : good_word (c :: x)) by (split; [discriminate|exact Hx]).
  destruct y as [|d y].
  - rewrite app_nil_r. rewrite words_word by exact G. reflexivity.
  - cbn in Hy. assert (d = " "%char) by (apply Ascii.eqb_eq; exact Hy). subst d.
    rewrite words_app_word by exact G. rewrite words_sp_cons by reflexivity. reflexivity.
Qed.

Lemma nosp_fields p a : forallb (fun c => negb (is_sp c)) a = true ->
  Forall (fun f => forallb (fun c => negb (is_sp c)) f = true) (fields p a).
Proof.
  induction a as [|c a IH]; cbn [fields forallb]; intros H; [repeat constructor|].
  apply andb_true_iff in H as [Hc H]. specialize (IH H). destruct (p c); [constructor; [reflexivity|exact IH]|].
  destruct (fields p a) as [|f fs].
  - repeat constructor. cbn. rewrite Hc. reflexivity.
  - inversion IH; subst. constructor; [cbn; rewrite Hc; assumption|assumption].
Qed.

Lemma map_words_glue (A B : list str) :
  Forall (fun f => forallb (fun c => negb (is_sp c)) f = true) A -> A <> [] ->
  (match B with f :: _ => sp_head f | [] => False end) ->
  map words (glue A B) = glue (map one A) (map words B).
Proof.
  intros HA NE HB. induction A as [|x A IH]; [contradiction|]. inversion HA as [|? ? Hx HA']; subst.
  destruct A as [|y A].
  - cbn [glue map]. destruct B as [|f B]; [contradiction|]. cbn [map]. rewrite words_app_sp by assumption. reflexivity.
  - rewrite glue_cons by discriminate. cbn [map]. cbn [map] in IH. rewrite IH by (assumption || discriminate).
    rewrite (glue_cons (one x) (one y :: map one A)) by discriminate. f_equal.
    rewrite <- (app_nil_r x) at 1. rewrite words_app_sp by (assumption || exact I). apply app_nil_r.
Qed.

(* the leading run of non-spaces *)
Lemma run_split s : exists a b, s = a ++ b /\ forallb (fun c => negb (is_sp c)) a = true /\ sp_head b.
Proof.
  induction s as [|c s (a & b & -> & Ha & Hb)]; [exists [], []; repeat split|].
  destruct (is_sp c) eqn:E.
  - exists [], (c :: a ++ b). repeat split. exact E.
  - exists (c :: a), b. repeat split; auto. cbn. rewrite E. exact Ha.
Qed.

Lemma words_of_fields p : p " "%char = false -> forall n s, length s <= n ->
  map words (fields p s) = cut_words p (words s).
Proof.
  intros Hp. induction n as [|n IH]; intros s Hn.
  { destruct s; [reflexivity|cbn in Hn; lia]. }
  destruct s as [|c s]; [reflexivity|]. destruct (is_sp c) eqn:SP.
  - rewrite words_sp_cons by exact SP. rewrite <- (IH s) by (cbn in Hn; lia). cbn [fields].
    assert (c = " "%char) by (apply Ascii.eqb_eq; exact SP). subst c. rewrite Hp.
    destruct (fields_cons_ex p s) as (f & fs & ->). cbn [map]. rewrite words_sp_cons by reflexivity. reflexivity.
  - destruct (run_split (c :: s)) as (a & b & E & Ha & Hb).
    destruct a as [|x a]; [cbn in E; subst b; cbn in Hb; congruence|]. rewrite E in *. clear s E.
    rewrite words_app_sp by assumption. cbn [one nonempty app cut_words].
    rewrite <- (IH b) by (cbn in Hn; rewrite app_length in Hn; lia).
    change (x :: a ++ b) with ((x :: a) ++ b). rewrite fields_app.
    apply map_words_glue; [apply nosp_fields; exact Ha|apply fields_nonnil|].
    destruct (fields p b) as [|f fs] eqn:E; [apply fields_nonnil in E; contradiction|].
    exact (fields_sp_head p b f fs Hp Hb E).
Qed.

(* squashing does not change the words of the fields *)
Lemma fields_squashed p s : p " "%char = false ->
  map words (fields p (join (lit " ") (words s))) = map words (fields p s).
Proof.
  intros Hp. rewrite !(words_of_fields p Hp _ _ (le_n _)). f_equal. apply words_join. apply words_nospace.
Qed.

(* ---------- key=value ---------- *)
Lemma words_spaces_both w u w' : spaces w -> spaces w' -> words (w ++ u ++ w') = words u.
Proof.
  intros Hw Hw'.
  assert (A : forall v, spaces v -> all_sp v = true).
  { intros v H. unfold all_sp. apply forallb_forall. intros x Hx. apply H in Hx. subst x. reflexivity. }
  rewrite words_sp_app by (apply A, Hw). apply words_app_tail. apply A, Hw'.
Qed.

(* a text without blanks at the ends or doubled is its own squashed form *)
Lemma normal_squash u : u <> [] -> hd_error u <> Some " "%char -> hd_error (rev u) <> Some " "%char ->
  (forall a b, u <> a ++ " "%char :: " "%char :: b) -> join (lit " ") (words u) = u.
Proof.
  intros NE H1 H2 H3. destruct (exists_last NE) as (v & c & ->).
  rewrite rev_app_distr in H2. cbn in H2.
  assert (Hc : is_sp c = false) by (apply Ascii.eqb_neq; congruence).
  pose proof (squeeze_words v c Hc) as SQ.
  assert (ID : forall t, (forall a b, t <> a ++ " "%char :: " "%char :: b) -> squeeze t = t).
  { clear. induction t as [|x t IH]; intros H; [reflexivity|]. destruct t as [|y t]; [reflexivity|].
    rewrite squeeze_cons2. destruct (is_sp x && is_sp y) eqn:E.
    - apply andb_true_iff in E as [E1 E2]. apply Ascii.eqb_eq in E1, E2. subst. elim (H [] t). reflexivity.
    - rewrite IH; [reflexivity|]. intros a b X. apply (H (x :: a) b). rewrite X. reflexivity. }
  rewrite (ID _ H3) in SQ. destruct (v ++ [c]) as [|x r] eqn:E; [destruct v; discriminate|].
  cbn in H1. assert (Hx : is_sp x = false) by (apply Ascii.eqb_neq; congruence).
  rewrite Hx in SQ. symmetry. exact SQ.
Qed.

Definition u_of (p : str * str) : str := fst p ++ lit "=" ++ snd p.

Lemma In_delims_one d c : In_delims [d] c = Ascii.eqb c d.
Proof. unfold In_delims. cbn. apply orb_false_r. Qed.
Lemma no_delim d u : ~ In d u -> forallb (fun c => negb (In_delims [d] c)) u = true.
Proof.
  intros H. apply forallb_forall. intros x Hx. rewrite In_delims_one. apply negb_true_iff, Ascii.eqb_neq. intros ->. contradiction.
Qed.

Lemma u_words p : plain_kv p -> words (u_of p) <> [] /\ join (lit " ") (words (u_of p)) = u_of p.
Proof.
  intros (V & E & C & H1 & H2 & H3). fold (u_of p) in *.
  assert (NE : u_of p <> []) by (unfold u_of; destruct (fst p); discriminate).
  split; [|apply normal_squash; assumption].
  apply words_nonblank_nonnil. unfold all_sp. destruct (forallb is_sp (u_of p)) eqn:B; [|reflexivity].
  rewrite forallb_forall in B. assert (X : In "="%char (u_of p)) by (unfold u_of; apply in_or_app; right; left; reflexivity).
  apply B in X. discriminate.
Qed.

Lemma kv_fields l t : kv_text l t -> Forall plain_kv l ->
  map words (fields (In_delims (lit ",")) t) = map (fun p => words (u_of p)) l.
Proof.
  assert (SC : forall w, spaces w -> ~ In ","%char w) by (intros w H X; apply H in X; discriminate).
  induction 1 as [w k v w' Hw Hw'|w k v w' l t Hw Hw' H IH]; intros F; inversion F as [|? ? P F']; subst.
  - rewrite fields_nodelim.
    + cbn [map]. rewrite words_spaces_both by assumption. reflexivity.
    + apply no_delim. rewrite !in_app_iff. destruct P as (_ & _ & C & _). cbn [fst snd] in C. rewrite !in_app_iff in C.
      intros [X|[X|X]]; [exact (SC w Hw X)|tauto|exact (SC w' Hw' X)].
  - change (lit "," ++ t) with (","%char :: t). rewrite fields_nodelim_app; [|..|reflexivity].
    + cbn [map]. rewrite words_spaces_both by assumption. rewrite IH by assumption. reflexivity.
    + apply no_delim. rewrite !in_app_iff. destruct P as (_ & _ & C & _). cbn [fst snd] in C. rewrite !in_app_iff in C.
      intros [X|[X|X]]; [exact (SC w Hw X)|tauto|exact (SC w' Hw' X)].
Qed.

Lemma drop_last_id l : Forall (fun f => words f <> []) l -> drop_last_empty l = l.
Proof.
  induction 1 as [|x l Hx H IH]; [reflexivity|]. destruct l as [|y l].
  - cbn. destruct x; [elim Hx; reflexivity|reflexivity].
  - rewrite drop_last_empty_cons by discriminate. rewrite IH. reflexivity.
Qed.

Lemma words_nonblank s : words s <> [] -> forallb is_space s = false.
Proof.
  intros H. destruct (forallb is_space s) eqn:E; [|reflexivity]. elim H. apply words_all_sp. exact E.
Qed.

Lemma kv_tokens_ok l : Forall plain_kv l -> forall fs, map words fs = map (fun p => words (u_of p)) l ->
  kv_tokens fs = Ok (kv_tokens_of l).
Proof.
  induction 1 as [|p l P F IH]; intros fs E.
  - destruct fs; [reflexivity|discriminate].
  - destruct fs as [|f fs]; [discriminate|]. cbn [map] in E. injection E as E1 E2.
    destruct (u_words p P) as [NE J]. cbn [kv_tokens].
    rewrite squashSpaces_spec, words_nonblank by (rewrite E1; exact NE). cbn [obind].
    rewrite E1, J, split_spec, words_nonblank by exact NE. cbn [obind]. rewrite J.
    destruct P as (V & Q & _ & _). rewrite in_app_iff in Q.
    assert (FE : fields (In_delims (lit "=")) (u_of p) = [fst p; snd p]).
    { unfold u_of. change (lit "=" ++ snd p) with ("="%char :: snd p). rewrite fields_nodelim_app; [|..|reflexivity].
      - rewrite fields_nodelim; [reflexivity|]. apply no_delim. tauto.
      - apply no_delim. tauto. }
    rewrite FE. cbn [drop_last_empty keep]. destruct (snd p) as [|c v] eqn:SV; [contradiction|]. cbn [nonempty].
    cbn [keep]. cbn [last]. rewrite (IH fs E2). cbn [obind kv_tokens_of flat_map]. rewrite SV. reflexivity.
Qed.

Lemma kv_text_nonnil l t : kv_text l t -> l <> [] /\ exists c, In c t /\ c <> " "%char.
Proof.
  intros H. split; [destruct H; discriminate|]. exists "="%char. split; [|discriminate].
  destruct H; rewrite !in_app_iff; cbn; tauto.
Qed.

Lemma kv_list_ok l t : kv_text l t -> Forall plain_kv l ->
  exists fs, split t (lit ",") false = Ok fs /\ fs <> [] /\ kv_tokens fs = Ok (kv_tokens_of l).
Proof.
  intros K F. destruct (kv_text_nonnil l t K) as [NE NB].
  rewrite split_spec, (nonblank t NB). set (fs := fields (In_delims (lit ",")) (join (lit " ") (words t))).
  assert (E : map words fs = map (fun p => words (u_of p)) l).
  { unfold fs. rewrite fields_squashed by reflexivity. apply kv_fields; assumption. }
  assert (D : drop_last_empty fs = fs).
  { apply drop_last_id. clear -E F. revert l F E. induction fs as [|f fs IH]; intros l F E; [constructor|].
    destruct l as [|p l]; [discriminate|]. injection E as E1 E2. inversion F; subst. constructor; [|eapply IH; eassumption].
    rewrite E1. apply u_words. assumption. }
  exists fs. cbn [keep]. rewrite D. split; [reflexivity|]. split.
  - intros X. rewrite X in E. destruct l; [contradiction|discriminate].
  - apply kv_tokens_ok; assumption.
Qed.

Lemma parseKeyValue_ok s l t : kv_text l t -> Forall plain_kv l ->
  parseKeyValue s t = parse_list s (kv_tokens_of l).
Proof.
  intros K F. destruct (kv_list_ok l t K F) as (fs & E & NE & T).
  destruct (kv_text_nonnil l t K) as [_ (c & Hc & _)].
  unfold parseKeyValue. destruct t as [|x t]; [destruct Hc|]. rewrite E. cbn [obind].
  destruct fs as [|f fs]; [contradiction|]. unfold parseKeyValue_list. rewrite T. reflexivity.
Qed.

(* ---------- any key=value text ---------- *)
Lemma words_nil_spaces s : words s = [] <-> spaces s.
Proof.
  split.
  - intros H. destruct (all_sp s) eqn:E; [|elim (words_nonblank_nonnil s E H)]. unfold all_sp in E. rewrite forallb_forall in E.
    intros c Hc. apply E in Hc. apply Ascii.eqb_eq, Hc.
  - intros H. apply words_all_sp. unfold all_sp. apply forallb_forall. intros x Hx. apply H in Hx. subst x. reflexivity.
Qed.
Lemma fields_nonnil p s : fields p s <> [].
Proof. destruct s as [|c s]; cbn; [discriminate|]. destruct (p c); [discriminate|]. destruct (fields p s); discriminate. Qed.
Lemma drop_last_nonnil f : f <> [] -> last f [] <> [] \/ 2 <= length f -> drop_last_empty f <> [].
Proof.
  destruct f as [|x [|y f]]; [contradiction| |].
  - cbn. intros _ [H|H]; [destruct x; [contradiction|discriminate]|lia].
  - intros _ _. rewrite drop_last_empty_cons by discriminate. discriminate.
Qed.
Lemma hd_drop_last f : drop_last_empty f <> [] -> hd [] (drop_last_empty f) = hd [] f.
Proof.
  destruct f as [|x [|y f]]; [contradiction| |].
  - cbn. destruct x; cbn; [contradiction|reflexivity].
  - intros _. rewrite drop_last_empty_cons by discriminate. reflexivity.
Qed.
Lemma fields_one_nonnil p s : s <> [] -> drop_last_empty (fields p s) <> [].
Proof.
  intros H. apply drop_last_nonnil; [apply fields_nonnil|].
  destruct s as [|c s]; [contradiction|]. cbn [fields]. destruct (p c).
  - right. assert (N := fields_nonnil p s). destruct (fields p s); [contradiction|cbn; lia].
  - destruct (fields p s) as [|f [|g fs]] eqn:E; [left; discriminate|left; discriminate|right; cbn; lia].
Qed.
Lemma join_words_nonnil s : words s <> [] -> join (lit " ") (words s) <> [].
Proof.
  intros H. assert (F := words_nospace s). destruct (words s) as [|w ws]; [contradiction|]. inversion F as [|? ? [A _] _]; subst.
  destruct w; [contradiction|]. destruct ws; discriminate.
Qed.
Lemma kv_piece f r : words f <> [] -> kv_tokens (f :: r) = do t <- kv_tokens r; Ok ((lit "--" ++ fst (kv_pair f)) :: snd (kv_pair f) :: t).
Proof.
  intros H. assert (J := words_join (words f) (words_nospace f)).
  cbn [kv_tokens]. rewrite squashSpaces_spec, words_nonblank by exact H. cbn [obind].
  rewrite split_spec. rewrite words_nonblank by (rewrite J; exact H). cbn [obind keep]. rewrite J.
  unfold kv_pair. set (fs := fields (In_delims (lit "=")) (join (lit " ") (words f))). cbn [fst snd].
  assert (N : drop_last_empty fs <> []) by (apply fields_one_nonnil, join_words_nonnil, H).
  assert (E := hd_drop_last fs N). destruct (drop_last_empty fs) as [|k l]; [contradiction|]. cbn [hd] in E. subst k. reflexivity.
Qed.
Lemma kv_tokens_all l : Forall (fun f => words f <> []) l -> kv_tokens l = Ok (kv_tokens_of (map kv_pair l)).
Proof.
  induction 1 as [|f l H F IH]; [reflexivity|]. rewrite kv_piece by exact H. rewrite IH. reflexivity.
Qed.
Lemma kv_tokens_ub l f : In f l -> words f = [] -> kv_tokens l = UB.
Proof.
  induction l as [|x l IH]; [intros []|]. intros [->|Hin] E.
  - cbn [kv_tokens]. rewrite squashSpaces_spec.
    assert (B : forallb is_space f = true) by (apply forallb_forall; intros c Hc; apply (proj1 (words_nil_spaces f) E) in Hc; subst; reflexivity).
    rewrite B. reflexivity.
  - destruct (words x) as [|w ws] eqn:W.
    + cbn [kv_tokens]. rewrite squashSpaces_spec.
      assert (B : forallb is_space x = true) by (apply forallb_forall; intros c Hc; apply (proj1 (words_nil_spaces x) W) in Hc; subst; reflexivity).
      rewrite B. reflexivity.
    + rewrite kv_piece by congruence. rewrite IH by assumption. reflexivity.
Qed.
(* the pieces of the squashed text have the words of the pieces of the text *)
Lemma drop_last_words f g : map words f = map words g -> (words (last f []) = [] -> last f [] = []) -> f <> [] ->
  map words (drop_last_empty f) = map words (match words (last g []) with [] => removelast g | _ => g end).
Proof.
  revert g. induction f as [|x f IH]; intros g E L N; [contradiction|]. destruct g as [|y g]; [discriminate|]. injection E as E1 E2.
  destruct f as [|x' f].
  - destruct g; [|discriminate]. cbn [last drop_last_empty removelast] in *. rewrite <- E1. destruct (words x) eqn:W.
    + rewrite L by reflexivity. reflexivity.
    + destruct x; [cbn in W; discriminate|]. cbn [nonempty map]. congruence.
  - destruct g as [|y' g]; [discriminate|]. rewrite drop_last_empty_cons by discriminate. cbn [map].
    specialize (IH (y' :: g) E2 L ltac:(discriminate)). rewrite IH.
    change (last (y :: y' :: g) []) with (last (y' :: g) []). change (removelast (y :: y' :: g)) with (y :: removelast (y' :: g)).
    destruct (words (last (y' :: g) [])); cbn [map]; rewrite E1; reflexivity.
Qed.
Lemma last_field p s : fields p s = [s] \/ (2 <= length (fields p s) /\ exists x, s = x ++ last (fields p s) []).
Proof.
  induction s as [|c s IH]; [left; reflexivity|]. cbn [fields]. destruct (p c).
  - right. assert (N := fields_nonnil p s). destruct (fields p s) as [|f fs]; [contradiction|]. split; [cbn; lia|].
    change (last ([] :: f :: fs) []) with (last (f :: fs) []). destruct IH as [[= -> ->]|(_ & x & IH)].
    + exists [c]. reflexivity.
    + exists (c :: x). cbn [app]. congruence.
  - destruct IH as [E|(L & x & IH)].
    + rewrite E. left. reflexivity.
    + right. destruct (fields p s) as [|f [|g fs]]; [cbn in L; lia|cbn in L; lia|]. split; [cbn; lia|].
      exists (c :: x). cbn [app]. change (last ((c :: f) :: g :: fs) []) with (last (f :: g :: fs) []). congruence.
Qed.
Lemma join_no_final_space l x : Forall (fun w => w <> [] /\ forallb (fun c => negb (is_space c)) w = true) l -> join (lit " ") l <> x ++ lit " ".
Proof.
  revert x. induction l as [|w l IH]; intros x F; [destruct x; discriminate|]. inversion F as [|? ? [N G] F']; subst.
  destruct l as [|w' l].
  - cbn. intros ->. rewrite forallb_app in G. apply andb_true_iff in G as [_ G]. discriminate G.
  - intros E. assert (E2 := E). change (w ++ lit " " ++ join (lit " ") (w' :: l) = x ++ lit " ") in E2.
    assert (NE : join (lit " ") (w' :: l) <> []) by (inversion F' as [|? ? [N' _] _]; subst; destruct w'; [contradiction|destruct l; discriminate]).
    destruct (exists_last NE) as (y & c & Y). rewrite Y, !app_assoc in E2. apply app_inj_tail in E2 as (_ & ->).
    exact (IH y F' Y).
Qed.
Lemma last_blank_empty t : words (last (fields (In_delims (lit ",")) (join (lit " ") (words t))) []) = [] -> words t <> [] ->
  last (fields (In_delims (lit ",")) (join (lit " ") (words t))) [] = [].
Proof.
  intros W N. set (sq := join (lit " ") (words t)) in *. set (lf := last _ []) in *.
  assert (X : exists x, sq = x ++ lf).
  { destruct (last_field (In_delims (lit ",")) sq) as [E|(_ & E)]; [|exact E]. exists []. unfold lf. rewrite E. reflexivity. }
  destruct X as (x & X). destruct lf as [|c l]; [reflexivity|]. exfalso.
  destruct (exists_last (l := c :: l)) as (y & d & Y); [discriminate|]. rewrite Y in X, W.
  apply words_nil_spaces in W. assert (d = " "%char) as -> by (apply W; apply in_or_app; right; left; reflexivity).
  rewrite app_assoc in X. exact (join_no_final_space (words t) (x ++ y) (words_nospace t) X).
Qed.
Lemma kv_pair_words f g : words f = words g -> kv_pair f = kv_pair g.
Proof. unfold kv_pair. intros ->. reflexivity. Qed.
Lemma map_kv_pair f g : map words f = map words g -> map kv_pair f = map kv_pair g.
Proof.
  revert g. induction f as [|x f IH]; intros [|y g] E; try discriminate; [reflexivity|]. injection E as E1 E2.
  cbn [map]. rewrite (kv_pair_words x y E1), (IH g E2). reflexivity.
Qed.
Lemma kv_split t : words t <> [] -> exists fs, split t (lit ",") false = Ok fs /\ fs <> [] /\ map words fs = map words (kv_cut t).
Proof.
  intros N. rewrite split_spec, words_nonblank by exact N. cbn [keep]. eexists. split; [reflexivity|].
  split; [apply fields_one_nonnil, join_words_nonnil, N|].
  unfold kv_cut. apply drop_last_words; [apply fields_squashed; reflexivity|intros W; apply last_blank_empty; assumption|apply fields_nonnil].
Qed.
Lemma kv_exact s t : ~ spaces t -> (forall f, In f (kv_cut t) -> ~ spaces f) ->
  parseKeyValue s t = parse_list s (kv_tokens_of (map kv_pair (kv_cut t))).
Proof.
  intros NB NF. rewrite <- words_nil_spaces in NB. destruct (kv_split t NB) as (fs & E & NE & W).
  unfold parseKeyValue. destruct t as [|c t]; [elim NB; reflexivity|]. rewrite E. cbn [obind].
  destruct fs as [|f fs]; [contradiction|]. unfold parseKeyValue_list. rewrite kv_tokens_all.
  - rewrite (map_kv_pair _ _ W). reflexivity.
  - apply Forall_forall. intros x Hx X. apply (in_map words) in Hx. rewrite W in Hx. apply in_map_iff in Hx as (y & Y & Hy).
    apply (NF y Hy). apply words_nil_spaces. congruence.
Qed.
Lemma kv_blank_piece s t f : t <> [] -> In f (kv_cut t) -> spaces f -> parseKeyValue s t = UB.
Proof.
  intros N Hf B. unfold parseKeyValue. destruct t as [|c t]; [contradiction|]. destruct (words (c :: t)) as [|w ws] eqn:WT.
  - rewrite split_spec. assert (A : forallb is_space (c :: t) = true).
    { apply forallb_forall. intros x Hx. apply (proj1 (words_nil_spaces _) WT) in Hx. subst. reflexivity. }
    rewrite A. reflexivity.
  - destruct (kv_split (c :: t)) as (fs & E & NE & W); [congruence|]. rewrite E. cbn [obind]. destruct fs as [|g fs]; [contradiction|].
    apply words_nil_spaces in B. apply (in_map words) in Hf. rewrite <- W in Hf. apply in_map_iff in Hf as (y & Y & Hy).
    unfold parseKeyValue_list. rewrite (kv_tokens_ub _ y Hy) by congruence. reflexivity.
Qed.
Lemma kv_blank s t : t <> [] -> spaces t -> parseKeyValue s t = UB.
Proof.
  intros N B. unfold parseKeyValue. destruct t as [|c t]; [contradiction|]. rewrite split_spec.
  assert (A : forallb is_space (c :: t) = true) by (apply forallb_forall; intros x Hx; apply B in Hx; subst; reflexivity).
  rewrite A. reflexivity.
Qed.
Lemma kv_ok s t b s' : parseKeyValue s t = Ok (b, s') -> t <> [] -> parse_list s (kv_tokens_of (map kv_pair (kv_cut t))) = Ok (b, s').
Proof.
  intros P N. rewrite <- (kv_exact s t); [exact P| |].
  - intros B. rewrite (kv_blank s t N B) in P. discriminate.
  - intros f Hf B. rewrite (kv_blank_piece s t f N Hf B) in P. discriminate.
Qed.
