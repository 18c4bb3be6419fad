(* L_FormatThreads.v -- lemmas for C142. *)
From Verif Require L_Format.
From Verif Require Import Base M_Stream M_Float M_Format M_FormatF M_FormatMem M_FormatThreads S_FormatThreads.

Definition touches (p : list taction) : Prop := assigns p \/ prints_zero p.

Lemma reads_touches c r : reads_sep c = true -> touches (TAdd c :: r).
Proof.
  destruct c as [|? ? ? ? ?|s v fm w sd| | |]; try discriminate. cbn. intros H. apply andb_prop in H as [E Z].
  apply Ascii.eqb_eq in E. subst fm. right. exists s, v, w, sd. split; [left; reflexivity|exact Z].
Qed.
Lemma touches_cons a p : touches p -> touches (a :: p).
Proof.
  intros [(ch & H)|(s & v & w & sd & H & Z)]; [left; exists ch; right; exact H|].
  right. exists s, v, w, sd. split; [right; exact H|exact Z].
Qed.
Lemma assigns_cons a p : assigns p -> assigns (a :: p).
Proof. intros (ch & H). exists ch. right. exact H. Qed.

Lemma sep_unused fuel c x y : reads_sep c = false ->
  full_text fuel (with_sep x c) = full_text fuel (with_sep y c).
Proof.
  destruct c as [|? ? ? ? ?|s v fm w sd| | |]; try reflexivity. cbn [reads_sep with_sep full_text]. intros H.
  unfold addF_text. destruct (d_isnan v || d_isnan (dopp v)); [reflexivity|].
  destruct (d_isinf v); [reflexivity|].
  destruct (Ascii.eqb fm "f"); [reflexivity|]. destruct (Ascii.eqb fm "s"); [reflexivity|].
  destruct (Ascii.eqb fm "g"); [reflexivity|]. destruct (Ascii.eqb fm "e"); [|reflexivity].
  cbn in H. rewrite H. reflexivity.
Qed.
Lemma do_unused im fuel a x y fo out :
  match a with TAdd c => reads_sep c = false | _ => True end ->
  t_do im fuel x a fo out = t_do im fuel y a fo out.
Proof.
  destruct a; try reflexivity. cbn. intros H. destruct fo; [|reflexivity]. rewrite (sep_unused fuel c x y H). reflexivity.
Qed.

(* without an access the separator at the start does not matter *)
Lemma alone_unused im fuel x y p : ~ touches p -> forall fo out,
  alone im fuel x p fo out = alone im fuel y p fo out.
Proof.
  induction p as [|a p IH]; intros N fo out; [reflexivity|].
  assert (N' : ~ touches p) by (intros H; apply N, touches_cons, H).
  destruct a as [s|c| |ck|ch]; [| | | |contradiction N; left; exists ch; left; reflexivity].
  all: cbn [alone]; rewrite (do_unused im fuel _ x y fo out);
    [destruct (t_do im fuel y _ fo out) as [[fo' out']|]; [apply IH, N'|reflexivity]|].
  all: try exact I.
  destruct (reads_sep c) eqn:R; [contradiction N; apply reads_touches, R|reflexivity].
Qed.

Lemma alone_prefix im fuel p : forall sep fo out, exists more, alone im fuel sep p fo out = out ++ more.
Proof.
  induction p as [|a p IH]; intros sep fo out; [exists []; cbn; rewrite app_nil_r; reflexivity|].
  assert (D : forall x fo' out', t_do im fuel x a fo out = Some (fo', out') -> exists m, out' = out ++ m).
  { intros x fo' out' E. destruct a; cbn in E; destruct fo as [f|]; try discriminate.
    all: repeat match type of E with context [match ?y with _ => _ end] => destruct y; try discriminate end.
    all: injection E as <- <-; try (exists []; rewrite app_nil_r; reflexivity).
    eexists; reflexivity. }
  destruct a; cbn [alone]; try apply IH;
    (destruct (t_do im fuel sep _ fo out) as [[fo' out']|] eqn:E;
     [destruct (D _ _ _ E) as (m & ->); destruct (IH sep fo' (out ++ m)) as (m2 & ->); exists (m ++ m2); rewrite app_assoc; reflexivity
     |exists []; rewrite app_nil_r; reflexivity]).
Qed.

Section Run.
Variables (im : ctype_impl) (fuel : nat) (sep0 : ascii) (prog : nat -> list taction).
Hypothesis apart : forall i j, i <> j -> assigns (prog i) -> ~ touches (prog j).

(* thread i will end as it does alone *)
Definition on_track (sep : ascii) (i : nat) (t : thr) : Prop :=
  (exists done, prog i = done ++ t_rest t) /\
  (match t_held t with
   | None => True
   | Some x => x = sep /\ exists c r, t_rest t = TAdd c :: r /\ reads_sep c = true
   end) /\
  alone im fuel sep (t_rest t) (t_fmt t) (t_out t) = alone im fuel sep0 (prog i) None [].

Lemma touches_app a b : touches b -> touches (a ++ b).
Proof. intros H. induction a as [|x a IH]; [exact H|]. apply touches_cons, IH. Qed.
Lemma assigns_app a b : assigns b -> assigns (a ++ b).
Proof. intros H. induction a as [|x a IH]; [exact H|]. apply assigns_cons, IH. Qed.

Lemma track_other sep sep' i t : ~ touches (prog i) -> on_track sep i t -> on_track sep' i t.
Proof.
  intros N ((d & D) & H & E). assert (N' : ~ touches (t_rest t)) by (intros T; apply N; rewrite D; apply touches_app, T).
  split; [exists d; exact D|]. split.
  - destruct (t_held t); [|exact I]. destruct H as (_ & c & r & R & Rc). contradiction N'. rewrite R. apply reads_touches, Rc.
  - rewrite (alone_unused im fuel sep' sep _ N'). exact E.
Qed.

Lemma track g : treach im fuel (t_start sep0 prog) g -> forall i, on_track (fst g) i (snd g i).
Proof.
  induction 1 as [|g1 k g2 _ IH St]; intros i.
  { cbn. split; [exists []; reflexivity|]. split; [exact I|reflexivity]. }
  destruct St as [sep th k c r fo out E R|sep th k ch r fo out E|sep th k c x r fo out fo' out' E D|sep th k a r fo out fo' out' E A D];
    cbn [fst snd] in *; unfold t_upd; specialize (IH i) as Ti;
    destruct (Nat.eqb_spec i k) as [->|Ne]; try exact Ti.
  - rewrite E in Ti. destruct Ti as (P & _ & A). split; [exact P|]. split; [|exact A]. cbn. split; [reflexivity|eauto].
  - rewrite E in Ti. destruct Ti as ((d & P) & _ & A). cbn in *. split; [exists (d ++ [TSetSep ch]); rewrite <- app_assoc; exact P|].
    split; [exact I|exact A].
  - assert (Ak : assigns (prog k)).
    { specialize (IH k). rewrite E in IH. destruct IH as ((d & P) & _). cbn in P. rewrite P. apply assigns_app. exists ch. left. reflexivity. }
    apply (track_other sep); [apply (apart k); auto|exact Ti].
  - rewrite E in Ti. destruct Ti as ((d & P) & (-> & _) & A). cbn [t_rest t_fmt t_out t_held] in *.
    split; [exists (d ++ [TAdd c]); rewrite <- app_assoc; exact P|]. split; [exact I|].
    cbn [t_rest t_fmt t_out]. rewrite <- A. cbn [alone]. rewrite D. reflexivity.
  - rewrite E in Ti. destruct Ti as ((d & P) & _ & A'). cbn [t_rest t_fmt t_out t_held] in *.
    split; [exists (d ++ [a]); rewrite <- app_assoc; exact P|]. split; [exact I|].
    cbn [t_rest t_fmt t_out]. rewrite <- A'.
    rewrite (do_unused im fuel a nul sep) in D by (destruct a; auto).
    destruct a; cbn [alone]; try rewrite D; try reflexivity. contradiction.
Qed.

Lemma access_touches t : t_access t <> None -> touches (t_rest t).
Proof.
  unfold t_access. destruct (t_rest t) as [|[s|c| |ck|ch] r]; try contradiction.
  - destruct (reads_sep c) eqn:R; [|contradiction]. intros _. apply reads_touches, R.
  - intros _. left. exists ch. left. reflexivity.
Qed.

Lemma no_race g : treach im fuel (t_start sep0 prog) g -> ~ separator_race g.
Proof.
  intros R (i & j & b & Ne & Ai & Aj).
  destruct (track g R i) as ((di & Pi) & _), (track g R j) as ((dj & Pj) & _).
  apply (apart i j Ne).
  - rewrite Pi. apply assigns_app. unfold t_access in Ai. destruct (t_rest (snd g i)) as [|[s|c| |ck|ch] r]; try discriminate.
    + destruct (reads_sep c), (t_held (snd g i)); discriminate.
    + exists ch. left. reflexivity.
  - rewrite Pj. apply touches_app, access_touches. rewrite Aj. discriminate.
Qed.

(* a thread that cannot go on could not alone *)
Lemma goes_on g i : treach im fuel (t_start sep0 prog) g ->
  (exists g', tstep im fuel g i g') \/ t_out (snd g i) = alone im fuel sep0 (prog i) None [].
Proof.
  intros R. destruct (track g R i) as (_ & H & A). rewrite <- A. destruct g as [sep th]. cbn [fst snd] in *.
  destruct (th i) as [rest held fo out] eqn:E. cbn [t_rest t_held t_fmt t_out] in *.
  destruct held as [x|].
  - destruct H as (-> & c & r & -> & Rc). cbn [alone].
    destruct (t_do im fuel sep (TAdd c) fo out) as [[fo' out']|] eqn:D; [|right; reflexivity].
    left. eexists. eapply ts_held; eauto.
  - destruct rest as [|a r]; [right; reflexivity|].
    assert (O : (match a with TAdd c => reads_sep c = false | TSetSep _ => False | _ => True end) ->
      (exists g', tstep im fuel (sep, th) i g') \/ out = alone im fuel sep (a :: r) fo out).
    { intros Ha. destruct (t_do im fuel nul a fo out) as [[fo' out']|] eqn:D.
      - left. eexists. eapply ts_other; eauto.
      - right. rewrite (do_unused im fuel a nul sep) in D by (destruct a; auto).
        destruct a; cbn [alone]; try rewrite D; try reflexivity. contradiction. }
    destruct a; try (apply O; exact I).
    + destruct (reads_sep c) eqn:Rc; [|apply O; reflexivity]. left. eexists. eapply ts_read; eauto.
    + left. eexists. eapply ts_write; eauto.
Qed.
End Run.

(* ---- the converse: threads that touch the separator can meet ---- *)
Lemma treach_trans im fuel g1 g2 g3 : treach im fuel g1 g2 -> treach im fuel g2 g3 -> treach im fuel g1 g3.
Proof. intros A B. induction B as [|g i g' _ IH S]; [exact A|]. eapply tr_step; eauto. Qed.
Lemma treach_one im fuel g i g' : tstep im fuel g i g' -> treach im fuel g g'.
Proof. intros S. eapply tr_step; [apply tr_here|exact S]. Qed.

Lemma text_sep fuel c x : full_text fuel c <> None -> full_text fuel (with_sep x c) <> None.
Proof.
  destruct c as [|? ? ? ? ?|s v fm w sd| | |]; auto. cbn [with_sep full_text]. unfold addF_text.
  destruct (d_isnan v || d_isnan (dopp v)); [auto|]. destruct (d_isinf v); [auto|].
  destruct (Ascii.eqb fm "f"); [auto|]. destruct (Ascii.eqb fm "s"); [auto|].
  destruct (Ascii.eqb fm "g"); [auto|]. destruct (Ascii.eqb fm "e"); [|auto].
  destruct (deq v dzero); [discriminate|auto].
Qed.

Definition has_texts (fuel : nat) (p : list taction) : Prop := forall c, In (TAdd c) p -> full_text fuel c <> None.

Lemma do_some fuel x a f out : has_texts fuel [a] ->
  exists f' out', t_do Glibc fuel x a (Some f) out = Some (Some f', out').
Proof.
  intros H. destruct a as [s|c| |ck|ch]; cbn.
  - destruct (L_Format.newFormat_glibc s) as (g & ->). eauto.
  - specialize (H c (or_introl eq_refl)). apply (text_sep fuel c x) in H.
    destruct (full_text fuel (with_sep x c)); [eauto|congruence].
  - destruct (L_Format.newFormat_glibc (f_orig f)) as (g & E). unfold newFormat in E. unfold reset.
    destruct (initialScan Glibc (f_orig f)); try discriminate. cbn. eauto.
  - eauto.
  - eauto.
Qed.

Lemma t_upd_same th i t : t_upd th i t i = t.
Proof. unfold t_upd. rewrite Nat.eqb_refl. reflexivity. Qed.
Lemma t_upd_other th i t j : j <> i -> t_upd th i t j = th j.
Proof. intros H. unfold t_upd. apply Nat.eqb_neq in H. rewrite H. reflexivity. Qed.

Lemma run_part fuel i rest : forall a sep th f out, has_texts fuel a ->
  th i = mkThr (a ++ rest) None (Some f) out ->
  exists sep' th' f' out', treach Glibc fuel (sep, th) (sep', th') /\
    th' i = mkThr rest None (Some f') out' /\ forall j, j <> i -> th' j = th j.
Proof.
  induction a as [|x a IH]; intros sep th f out H E.
  { exists sep, th, f, out. split; [apply tr_here|]. split; [exact E|auto]. }
  assert (H1 : has_texts fuel [x]) by (intros c [X|[]]; apply H; left; exact X).
  assert (H2 : has_texts fuel a) by (intros c I; apply H; right; exact I).
  assert (K : forall sep1 th1 f1 out1, treach Glibc fuel (sep, th) (sep1, th1) ->
     th1 i = mkThr (a ++ rest) None (Some f1) out1 -> (forall j, j <> i -> th1 j = th j) ->
     exists sep' th' f' out', treach Glibc fuel (sep, th) (sep', th') /\
       th' i = mkThr rest None (Some f') out' /\ forall j, j <> i -> th' j = th j).
  { intros sep1 th1 f1 out1 R E1 O. destruct (IH sep1 th1 f1 out1 H2 E1) as (s' & t' & f' & o' & R' & E' & O').
    exists s', t', f', o'. split; [eapply treach_trans; eauto|]. split; [exact E'|].
    intros j Nj. rewrite O', O by exact Nj. reflexivity. }
  cbn [app] in E.
  assert (Other : (match x with TAdd c => reads_sep c = false | TSetSep _ => False | _ => True end) ->
     exists sep' th' f' out', treach Glibc fuel (sep, th) (sep', th') /\
       th' i = mkThr rest None (Some f') out' /\ forall j, j <> i -> th' j = th j).
  { intros Hx. destruct (do_some fuel nul x f out H1) as (f1 & o1 & D).
    eapply K; [eapply treach_one; eapply ts_other; eauto|apply t_upd_same|]. intros j Nj. apply t_upd_other, Nj. }
  destruct x as [s|c| |ck|ch]; try (apply Other; exact I).
  - destruct (reads_sep c) eqn:R; [|apply Other; reflexivity].
    destruct (do_some fuel sep (TAdd c) f out H1) as (f1 & o1 & D).
    eapply K; [eapply treach_trans; [eapply treach_one; eapply ts_read; eauto|eapply treach_one; eapply ts_held; [apply t_upd_same|exact D]]|apply t_upd_same|].
    intros j Nj. rewrite !t_upd_other by exact Nj. reflexivity.
  - eapply K; [eapply treach_one; eapply ts_write; eauto|apply t_upd_same|]. intros j Nj. apply t_upd_other, Nj.
Qed.

(* a program that begins by making a Format, run up to a point *)
Lemma run_to fuel i s a rest sep th : has_texts fuel (TNew s :: a) ->
  th i = mkThr ((TNew s :: a) ++ rest) None None [] ->
  exists sep' th' f' out', treach Glibc fuel (sep, th) (sep', th') /\
    th' i = mkThr rest None (Some f') out' /\ forall j, j <> i -> th' j = th j.
Proof.
  intros H E. destruct (L_Format.newFormat_glibc s) as (f & F).
  assert (S1 : tstep Glibc fuel (sep, th) i (sep, t_upd th i (mkThr (a ++ rest) None (Some f) []))).
  { eapply ts_other; [exact E|exact I|]. cbn. rewrite F. reflexivity. }
  assert (H2 : has_texts fuel a) by (intros c I; apply H; right; exact I).
  destruct (run_part fuel i rest a sep (t_upd th i (mkThr (a ++ rest) None (Some f) [])) f [] H2 (t_upd_same _ _ _))
    as (s' & t' & f' & o' & R & E' & O).
  exists s', t', f', o'. split; [eapply treach_trans; [eapply treach_one; exact S1|exact R]|]. split; [exact E'|].
  intros j Nj. rewrite O, t_upd_other by exact Nj. reflexivity.
Qed.

Lemma touch_point s p : touches (TNew s :: p) ->
  exists a rest b, TNew s :: p = (TNew s :: a) ++ rest /\ forall fo out, t_access (mkThr rest None fo out) = Some b.
Proof.
  intros [(ch & [D|I])|(x & v & w & sd & [D|I] & Z)]; try discriminate.
  - apply in_split in I as (a & r & ->). exists a, (TSetSep ch :: r), true. split; reflexivity.
  - apply in_split in I as (a & r & ->). exists a, (TAdd (AF x v "e"%char w sd) :: r), false. split; [reflexivity|].
    intros. cbn. rewrite Z. reflexivity.
Qed.
Lemma assign_point s p : assigns (TNew s :: p) ->
  exists a rest, TNew s :: p = (TNew s :: a) ++ rest /\ forall fo out, t_access (mkThr rest None fo out) = Some true.
Proof.
  intros (ch & [D|I]); try discriminate.
  apply in_split in I as (a & r & ->). exists a, (TSetSep ch :: r). split; reflexivity.
Qed.

Lemma meet fuel sep0 prog i j s1 p1 s2 p2 : i <> j ->
  prog i = TNew s1 :: p1 -> prog j = TNew s2 :: p2 -> has_texts fuel (prog i) -> has_texts fuel (prog j) ->
  assigns (prog i) -> touches (prog j) ->
  exists g, treach Glibc fuel (t_start sep0 prog) g /\ separator_race g.
Proof.
  intros Ne E1 E2 H1 H2 A T. rewrite E1 in A, H1. rewrite E2 in T, H2.
  destruct (assign_point _ _ A) as (a1 & r1 & D1 & X1). destruct (touch_point _ _ T) as (a2 & r2 & b & D2 & X2).
  assert (K1 : has_texts fuel (TNew s1 :: a1)) by (intros c I; apply H1; rewrite D1; apply in_or_app; left; exact I).
  assert (K2 : has_texts fuel (TNew s2 :: a2)) by (intros c I; apply H2; rewrite D2; apply in_or_app; left; exact I).
  destruct (run_to fuel i s1 a1 r1 sep0 (fun k => mkThr (prog k) None None []) K1) as (s' & t' & f' & o' & R & F & O).
  { rewrite E1, D1. reflexivity. }
  destruct (run_to fuel j s2 a2 r2 s' t' K2) as (s'' & t'' & f'' & o'' & R' & F' & O').
  { rewrite O, E2, D2 by auto. reflexivity. }
  exists (s'', t''). split; [eapply treach_trans; eauto|].
  exists i, j, b. split; [exact Ne|]. cbn [snd]. rewrite F', (O' i Ne), F. split; [apply X1|apply X2].
Qed.
