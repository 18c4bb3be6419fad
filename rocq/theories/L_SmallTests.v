(* L_SmallTests.v -- the loops of SplitTest and FormatHexTest. *)
From Verif Require Import Base M_Stream M_Split M_Format L_Map M_SmallTests.

Lemma check_vec_iff ref : forall sv pass b, check_vec ref sv pass = Ok b <->
  length ref <= length sv /\ (b = true <-> pass = true /\ firstn (length ref) sv = ref).
Proof.
  induction ref as [|r ref IH]; intros [|s sv] pass b; cbn [check_vec length firstn].
  - split; [intros [= ->]; split; [lia|tauto]|]. intros (_ & H). f_equal. destruct pass, b; try reflexivity; [symmetry; apply H; auto|apply H; reflexivity].
  - split; [intros [= ->]; split; [lia|tauto]|]. intros (_ & H). f_equal. destruct pass, b; try reflexivity; [symmetry; apply H; auto|apply H; reflexivity].
  - split; [discriminate|intros (H & _); lia].
  - rewrite IH. destruct (str_eqb_spec s r) as [->|N].
    + split; intros (H1 & H2); (split; [lia|rewrite H2]); (split; intros (P & E); (split; [exact P|congruence])).
    + split; intros (H1 & H2); (split; [lia|rewrite H2]); (split; intros (P & E); exfalso; congruence).
Qed.
Lemma check_list_iff sl : forall ref pass b, check_list sl ref pass = Ok b <->
  length sl <= length ref /\ (b = true <-> pass = true /\ sl = firstn (length sl) ref).
Proof.
  induction sl as [|s sl IH]; intros [|r ref] pass b; cbn [check_list length firstn].
  - split; [intros [= ->]; split; [lia|tauto]|]. intros (_ & H). f_equal. destruct pass, b; try reflexivity; [symmetry; apply H; auto|apply H; reflexivity].
  - split; [intros [= ->]; split; [lia|tauto]|]. intros (_ & H). f_equal. destruct pass, b; try reflexivity; [symmetry; apply H; auto|apply H; reflexivity].
  - split; [discriminate|intros (H & _); lia].
  - rewrite IH. destruct (str_eqb_spec s r) as [->|N].
    + split; intros (H1 & H2); (split; [lia|rewrite H2]); (split; intros (P & E); (split; [exact P|congruence])).
    + split; intros (H1 & H2); (split; [lia|rewrite H2]); (split; intros (P & E); exfalso; congruence).
Qed.

(* a table passes exactly if every line of it does *)
Definition line_ok (p : printer) (fm sep : ascii) (e : row) : Prop := p (fst (snd e)) fm (snd (snd e)) sep = Ok (fst e).
Lemma check_map_false p fm sep m b : check_map p fm sep m false = Ok b -> b = false.
Proof. revert b. induction m as [|(pat & v & w) m IH]; intros b; cbn; [congruence|apply IH]. Qed.
Lemma check_map_iff p fm sep m b : check_map p fm sep m b = Ok true <-> b = true /\ Forall (line_ok p fm sep) m.
Proof.
  revert b. induction m as [|(pat & v & w) m IH]; intros b; cbn [check_map].
  - split; [intros [= ->]; auto|intros (-> & _); reflexivity].
  - destruct b.
    + unfold test_fmt. destruct (p v fm w sep) as [t|e|] eqn:E; cbn [obind].
      * rewrite IH. destruct (str_eqb_spec t pat) as [->|N].
        -- split; intros (_ & H); (split; [reflexivity|]); [constructor; [exact E|exact H]|inversion H; assumption].
        -- split; [intros (H & _); discriminate|]. intros (_ & H). inversion H as [|? ? H1 _]. unfold line_ok in H1. cbn in H1. congruence.
      * split; [discriminate|]. intros (_ & H). inversion H as [|? ? H1 _]. unfold line_ok in H1. cbn in H1. congruence.
      * split; [discriminate|]. intros (_ & H). inversion H as [|? ? H1 _]. unfold line_ok in H1. cbn in H1. congruence.
    + cbn [obind]. split; [intros H; apply check_map_false in H; discriminate|intros (H & _); discriminate].
Qed.
Lemma hex_main_iff p : hex_main p = Ok 0%Z <->
  Forall (line_ok p "X" nul) (map_of hex_lines) /\ Forall (line_ok p "X" "_") (map_of under_lines) /\
  Forall (line_ok p nul nul) (map_of dec_lines) /\ Forall (line_ok p "o" nul) (map_of oct_lines).
Proof.
  unfold hex_main. split.
  - intros H. destruct (check_map p "X" nul (map_of hex_lines) true) as [b1|e|] eqn:E1; cbn [obind] in H; try discriminate.
    destruct (check_map p "X" "_" (map_of under_lines) b1) as [b2|e|] eqn:E2; cbn [obind] in H; try discriminate.
    destruct (check_map p nul nul (map_of dec_lines) b2) as [b3|e|] eqn:E3; cbn [obind] in H; try discriminate.
    destruct (check_map p "o" nul (map_of oct_lines) b3) as [b4|e|] eqn:E4; cbn [obind] in H; try discriminate.
    destruct b4; [|discriminate]. apply check_map_iff in E4 as (-> & F4). apply check_map_iff in E3 as (-> & F3).
    apply check_map_iff in E2 as (-> & F2). apply check_map_iff in E1 as (_ & F1). auto.
  - intros (F1 & F2 & F3 & F4).
    rewrite (proj2 (check_map_iff _ _ _ _ _) (conj eq_refl F1)). cbn [obind].
    rewrite (proj2 (check_map_iff _ _ _ _ _) (conj eq_refl F2)). cbn [obind].
    rewrite (proj2 (check_map_iff _ _ _ _ _) (conj eq_refl F3)). cbn [obind].
    rewrite (proj2 (check_map_iff _ _ _ _ _) (conj eq_refl F4)). reflexivity.
Qed.
