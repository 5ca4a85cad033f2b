(** Redundant columns change nothing (C59). *)
From Coq Require Import Permutation Sorted.
From Verif Require Import Base Num ModelCommon ModelTree ModelBoost Lib Spec SpecTree SpecScore SpecExtra ProofData ProofSort ProofSplit
  ProofSplit2 ProofTree ProofTree2 ProofTransform ProofTree3 ProofScore ProofBoost.

Section Redundant.
Context {O : NumOps} (LW : NumLaws O).

(* ------------------------------------------------------------------ *)
(** ** Columns *)

Lemma feqb_refl_num x : is_num x -> feqb x x = true.
Proof. intros H. rewrite (feqb_fleb _ LW). unfold is_num in H. now rewrite H. Qed.

(** Columns ordered alike sort alike. *)
Definition ordered_alike (c c' : list F) : Prop :=
  length c' = length c /\
  forall i k x y x' y', nth_error c i = Some x -> nth_error c k = Some y ->
    nth_error c' i = Some x' -> nth_error c' k = Some y' -> fleb x' y' = fleb x y.

Lemma alike_num c c' : ordered_alike c c' -> Forall is_num c -> Forall is_num c'.
Proof.
  intros [HL H] Hn. apply Forall_forall. intros x' Hx. apply In_nth_error in Hx as (i & Hi).
  assert (Hlt : i < length c) by (rewrite <- HL; apply nth_error_Some; congruence).
  destruct (lt_nth _ _ Hlt) as (x & Ex). unfold is_num. rewrite (H i i x x x' x'); auto.
  rewrite Forall_forall in Hn. apply Hn. eapply nth_error_In; eauto.
Qed.

Lemma alike_sort c c' : ordered_alike c c' -> Forall is_num c ->
  the_sort c' = map (fun p => (nth (snd p) c' f0, snd p)) (the_sort c).
Proof.
  intros HA Hn. pose proof (alike_num c c' HA Hn) as Hn'. destruct HA as [HL HA].
  destruct (the_sort_spec LW c Hn) as [_ [P S]]. destruct (the_sort_spec LW c' Hn') as [_ S'].
  apply (sorted_version_unique LW c'); auto. split.
  - transitivity (map (fun p => (nth (snd p) c' f0, snd p)) (value_positions c)); [now apply Permutation_map|].
    apply perm_eq. apply nth_error_ext. intros i. rewrite nth_error_map, !nth_error_value_positions.
    destruct (nth_error c i) as [x|] eqn:Ei.
    + cbn. assert (Hi : i < length c') by (rewrite HL; apply nth_error_Some; congruence).
      now rewrite (nth_error_nth' _ f0 Hi).
    + cbn. apply nth_error_None in Ei. rewrite <- HL in Ei. apply nth_error_None in Ei. now rewrite Ei.
  - eapply StronglySorted_map; [|exact S]. intros [x i] [y k] Hx Hy H. cbn [fst snd].
    apply (Permutation_in _ P), value_positions_In in Hx. apply (Permutation_in _ P), value_positions_In in Hy. cbn [fst snd] in *.
    assert (Hi : i < length c') by (rewrite HL; apply nth_error_Some; congruence).
    assert (Hk : k < length c') by (rewrite HL; apply nth_error_Some; congruence).
    pose proof (nth_error_nth' _ f0 Hi) as Ei. pose proof (nth_error_nth' _ f0 Hk) as Ek.
    unfold pair_lt in *. cbn [fst snd] in *. rewrite !(fltb_fleb _ LW), !(feqb_fleb _ LW) in *.
    rewrite (HA i k x y _ _ Hx Hy Ei Ek), (HA k i y x _ _ Hy Hx Ek Ei). exact H.
Qed.

(** Scans that ask the same questions of the same labels find the same loss. *)
Lemma pscan_loss k total vls vls' :
  Forall2 (fun p p' => snd p' = snd p) vls vls' ->
  (forall p q p' q' i, hd_error vls = Some q -> hd_error vls' = Some q' -> nth_error vls i = Some p -> nth_error vls' i = Some p' ->
     feqb (fst p') (fst q') = feqb (fst p) (fst q)) ->
  bt_loss (sc_best (pscan k total vls')) = bt_loss (sc_best (pscan k total vls)).
Proof.
  intros H2 HE. unfold pscan. destruct H2 as [|[v l] [v' l'] vls vls' Hl H2]; [reflexivity|].
  assert (HF : Forall2 (fun p p' => snd p' = snd p /\ feqb (fst p') v' = feqb (fst p) v) ((v, l) :: vls) ((v', l') :: vls')).
  { apply Forall2_nth. pose proof (Forall2_length _ _ _ H2) as HL. split; [cbn; lia|]. intros i p p' Hp Hp'. split.
    - destruct i as [|i]; [injection Hp as <-; injection Hp' as <-; exact Hl|]. apply Forall2_nth in H2 as [_ H2]. eapply H2; eauto.
    - apply (HE p (v, l) p' (v', l') i); auto. }
  clear HE Hl H2. revert HF. generalize ((v, l) :: vls) ((v', l') :: vls').
  set (s0 := mkScan _ _ _). intros a b HF.
  cut (forall s s', bt_loss (sc_best s') = bt_loss (sc_best s) -> sc_left s' = sc_left s -> sc_right s' = sc_right s ->
    bt_loss (sc_best (fold_left (pstep v') b s')) = bt_loss (sc_best (fold_left (pstep v) a s))).
  { intros H. now apply H. }
  clear s0. induction HF as [|p p' a b [Hp Hq] _ IH]; intros s s' HB HL HR; cbn [fold_left]; auto. apply IH.
  - unfold pstep. cbn [sc_best]. rewrite Hq, HL, HR, HB. destruct (feqb (fst p) v); cbn [negb]; auto.
    destruct (fltb _ _); auto.
  - unfold pstep. cbn [sc_left]. now rewrite HL, Hp.
  - unfold pstep. cbn [sc_right]. now rewrite HR, Hp.
Qed.

Lemma alike_loss nt lbls c c' : ordered_alike c c' -> Forall is_num c ->
  bt_loss (pcolumn nt lbls (vls_of lbls (the_sort c'))) = bt_loss (pcolumn nt lbls (vls_of lbls (the_sort c))).
Proof.
  intros HA Hn. rewrite (alike_sort c c' HA Hn). destruct HA as [HL HA].
  destruct (the_sort_spec LW c Hn) as [_ [P S]]. unfold pcolumn. apply pscan_loss.
  - unfold vls_of. rewrite map_map. induction (the_sort c) as [|p l IH] in |- *; cbn; constructor; auto.
  - assert (Hin : forall i p, nth_error (the_sort c) i = Some p -> nth_error c (snd p) = Some (fst p)).
    { intros i p Hp. apply value_positions_In. eapply Permutation_in; [exact P|]. destruct p. eapply nth_error_In; eauto. }
    unfold vls_of. intros p q p' q' i Hq Hq' Hp Hp'. rewrite map_map in Hq', Hp'. rewrite nth_error_map in Hp, Hp'.
    destruct (nth_error (the_sort c) i) as [[x k]|] eqn:Ei; [|discriminate]. cbn in Hp, Hp'. injection Hp as <-. injection Hp' as <-.
    destruct (the_sort c) as [|[y m] l] eqn:Es; [discriminate|]. cbn in Hq, Hq'. injection Hq as <-. injection Hq' as <-. cbn [fst].
    pose proof (Hin i _ Ei) as Hx. pose proof (Hin 0 _ eq_refl) as Hy. cbn [fst snd] in Hx, Hy.
    assert (Hk : k < length c') by (rewrite HL; apply nth_error_Some; congruence).
    assert (Hm : m < length c') by (rewrite HL; apply nth_error_Some; congruence).
    rewrite !(feqb_fleb _ LW). 
    rewrite (HA k m x y _ _ Hx Hy (nth_error_nth' _ f0 Hk) (nth_error_nth' _ f0 Hm)),
      (HA m k y x _ _ Hy Hx (nth_error_nth' _ f0 Hm) (nth_error_nth' _ f0 Hk)). reflexivity.
Qed.

Lemma constant_loss nt lbls c : (forall x y, In x c -> In y c -> feqb x y = true) ->
  pcolumn nt lbls (vls_of lbls (the_sort c)) = mkBT finf f0.
Proof.
  intros H. assert (Hn : Forall is_num c).
  { apply Forall_forall. intros x Hx. specialize (H x x Hx Hx). rewrite (feqb_fleb _ LW) in H. now apply andb_true_iff in H. }
  destruct (the_sort_spec LW c Hn) as [_ [P S]]. unfold pcolumn.
  destruct (pscan_best_cases nt (ptotal nt lbls) (vls_of lbls (the_sort c))) as [E|(pre & v & l & post & prev & E & Hp & Hf & _)]; auto.
  exfalso. assert (Hin : forall x, In x (map fst (vls_of lbls (the_sort c))) -> In x c).
  { intros x Hx. unfold vls_of in Hx. rewrite map_map in Hx. cbn in Hx. apply in_map_iff in Hx as ([x' i] & <- & Hx).
    apply (Permutation_in _ P), value_positions_In in Hx. eapply nth_error_In; eauto. }
  rewrite H in Hf; [discriminate| |].
  - apply Hin. rewrite E, map_app. apply in_or_app. right. now left.
  - apply Hin. destruct (map fst _); [discriminate|]. injection Hp as ->. now left.
Qed.

(** Candidates that lose do not matter. *)
Lemma pselect_app tv rs xs :
  Forall (fun x => x = mkBT finf f0 \/ exists r, In r rs /\ bt_loss x = bt_loss r) xs -> pselect tv (rs ++ xs) = pselect tv rs.
Proof.
  induction xs as [|x xs IH] using rev_ind; intros H; [now rewrite app_nil_r|].
  apply Forall_app in H as [H1 H2]. inversion H2 as [|? ? Hx _]; subst.
  rewrite app_assoc. unfold pselect at 1. rewrite enumerate_snoc, fold_left_app. cbn [fold_left].
  change (fold_left (pselect_step tv) (enumerate (rs ++ xs)) no_split) with (pselect tv (rs ++ xs)).
  rewrite (IH H1). unfold pselect_step. cbn [fst snd].
  destruct (fltb (bs_gain (pselect tv rs)) (fsub tv (bt_loss x))) eqn:E; auto. exfalso.
  assert (Hpos : fltb f0 (fsub tv (bt_loss x)) = true).
  { eapply (fle_ltb_trans LW); [|exact E]. destruct (pselect_spec LW tv rs) as [[-> _]|(i & r & _ & _ & Hp & _)].
    - apply (f0_num _ LW).
    - now apply (fltb_le LW). }
  destruct Hx as [->|(r & Hr & El)]; [cbn in Hpos; rewrite (fsub_inf _ LW) in Hpos; discriminate|].
  rewrite El in *. destruct (pselect_spec LW tv rs) as [[_ Hz]|(i & r' & _ & _ & Hp & _ & Hle)].
  - rewrite Forall_forall in Hz. rewrite (Hz r Hr) in Hpos. discriminate.
  - apply In_nth_error in Hr as (j & Hj). specialize (Hle j r Hj). unfold col_gain in Hle. rewrite Hpos in Hle.
    rewrite (fltb_fleb _ LW), Hle, andb_false_r in E. discriminate.
Qed.

(* ------------------------------------------------------------------ *)
(** ** Data sets *)

Variable es : list (list F -> F).
Notation ext := (extend es).

Lemma extend_row_length row : length (extend_row es row) = length row + length es.
Proof. unfold extend_row. now rewrite app_length, map_length. Qed.

Lemma redundant_num nc nt d e : wf_dataset nc nt d -> redundant nc (feature_rows d) e ->
  Forall is_num (map e (feature_rows d)).
Proof.
  intros W H. apply Forall_map, Forall_forall. intros r Hr. destruct H as [H|j Hj H].
  - specialize (H r r Hr Hr). rewrite (feqb_fleb _ LW) in H. now apply andb_true_iff in H.
  - pose proof (wf_row_length _ _ _ _ W Hr) as L. destruct (lt_nth r j ltac:(lia)) as (x & Ex).
    unfold is_num. rewrite (H r r x x Hr Hr Ex Ex). pose proof (wf_nonan _ _ _ W) as Hn. rewrite Forall_forall in Hn.
    specialize (Hn r Hr). rewrite Forall_forall in Hn. apply Hn. eapply nth_error_In; eauto.
Qed.

Lemma extend_wf nc nt d : wf_dataset nc nt d -> Forall (redundant nc (feature_rows d)) es ->
  (N.of_nat (nc + length es) <= 2 ^ 32)%N -> wf_dataset (nc + length es) nt (ext d).
Proof.
  intros W He Hu. destruct (wf_columns _ _ _ W) as [Lc Ht]. constructor; cbn [extend feature_rows labels feature_columns].
  - pose proof (wf_nonempty _ _ _ W). destruct (feature_rows d); [congruence|discriminate].
  - rewrite map_length. apply (wf_lengths _ _ _ W).
  - apply Forall_map. eapply Forall_impl; [|exact (wf_rows _ _ _ W)]. cbn. intros r Hr. rewrite extend_row_length. lia.
  - apply (wf_labels _ _ _ W).
  - split; [rewrite app_length, map_length; lia|]. intros j col Hj.
    destruct (Nat.lt_ge_cases j (length (feature_columns d))) as [Hlt|Hge].
    + rewrite nth_error_app1 in Hj by auto. destruct (Ht _ _ Hj) as [Ll Hc]. rewrite map_length. split; auto.
      intros i row Hi. rewrite nth_error_map in Hi. destruct (nth_error (feature_rows d) i) as [r|] eqn:Er; [|discriminate].
      injection Hi as <-. destruct (Hc _ _ Er) as [H1 H2]. rewrite extend_row_length. split; [lia|].
      unfold extend_row. rewrite nth_error_app1 by auto. exact H2.
    + rewrite nth_error_app2 in Hj by auto. rewrite nth_error_map in Hj.
      destruct (nth_error es (j - length (feature_columns d))) as [e|] eqn:Ee; [|discriminate]. injection Hj as <-.
      rewrite !map_length. split; auto. intros i row Hi. rewrite nth_error_map in Hi.
      destruct (nth_error (feature_rows d) i) as [r|] eqn:Er; [|discriminate]. injection Hi as <-.
      pose proof (wf_row_length _ _ _ _ W (nth_error_In _ _ Er)) as Lr.
      assert (j - length (feature_columns d) < length es) by (apply nth_error_Some; congruence).
      rewrite extend_row_length. split; [lia|]. unfold extend_row. rewrite nth_error_map, Er, nth_error_app2 by lia.
      rewrite nth_error_map. rewrite Lc in Ee. rewrite Lr, Ee. reflexivity.
  - apply Forall_map. apply Forall_forall. intros r Hr. unfold extend_row. apply Forall_app. split.
    + pose proof (wf_nonan _ _ _ W) as Hn. rewrite Forall_forall in Hn. auto.
    + apply Forall_map, Forall_forall. intros e Hin. rewrite Forall_forall in He.
      pose proof (redundant_num nc nt d e W (He e Hin)) as Hn. rewrite Forall_forall in Hn. exact (Hn _ (in_map e _ _ Hr)).
  - exact Hu.
Qed.

Lemma recoded_alike nc nt d e j col : wf_dataset nc nt d -> nth_error (feature_columns d) j = Some col ->
  (forall r r' x x', In r (feature_rows d) -> In r' (feature_rows d) -> nth_error r j = Some x -> nth_error r' j = Some x' ->
       fleb (e r) (e r') = fleb x x') -> ordered_alike col (map e (feature_rows d)).
Proof.
  intros W Ec H. destruct (wf_columns _ _ _ W) as [Lc Ht]. destruct (Ht _ _ Ec) as [Ll Hc]. split; [rewrite map_length; lia|].
  intros i k x y x' y' Hx Hy Hx' Hy'. rewrite nth_error_map in Hx', Hy'.
  destruct (nth_error (feature_rows d) i) as [r|] eqn:Er; [|discriminate]. injection Hx' as <-.
  destruct (nth_error (feature_rows d) k) as [r'|] eqn:Er'; [|discriminate]. injection Hy' as <-.
  destruct (Hc _ _ Er) as [_ E1]. destruct (Hc _ _ Er') as [_ E2].
  apply H; try (eapply nth_error_In; eassumption); congruence.
Qed.

Lemma split_extend nc nt d : wf_dataset nc nt d -> Forall (redundant nc (feature_rows d)) es ->
  (N.of_nat (nc + length es) <= 2 ^ 32)%N ->
  find_best_split (ext d) (N.of_nat nt) = find_best_split d (N.of_nat nt).
Proof.
  intros W He Hu. rewrite (find_best_split_eq LW nc nt d W), (find_best_split_eq LW _ nt _ (extend_wf nc nt d W He Hu)).
  f_equal. unfold pfind. cbn [extend labels]. unfold dvls. cbn [extend labels feature_columns].
  rewrite !map_app. apply pselect_app. rewrite !map_map. apply Forall_map. rewrite Forall_forall in *. intros e Hin.
  destruct (He e Hin) as [H|j Hj H].
  - left. apply constant_loss. intros x y Hx Hy. apply in_map_iff in Hx as (r & <- & Hr). apply in_map_iff in Hy as (r' & <- & Hr'). auto.
  - right. destruct (wf_columns _ _ _ W) as [Lc _]. destruct (lt_nth (feature_columns d) j ltac:(lia)) as (col & Ec).
    eexists. split; [apply in_map; eapply nth_error_In; exact Ec|]. cbn.
    apply alike_loss; [|eapply wf_column_num; eauto using nth_error_In]. eapply recoded_alike; eauto.
Qed.

Lemma samples_extend d : samples (ext d) = map (fun p => (extend_row es (fst p), snd p)) (samples d).
Proof.
  unfold samples. cbn. apply nth_error_ext. intros i. rewrite nth_error_map, !nth_error_combine, nth_error_map.
  destruct (nth_error (feature_rows d) i), (nth_error (labels d) i); reflexivity.
Qed.

Lemma answers_extend q row : N.to_nat (q_column q) < length row -> answers q (extend_row es row) = answers q row.
Proof. intros H. unfold answers, extend_row. now rewrite nth_error_app1. Qed.

Lemma redundant_sub nc d d' (p : list F * list F -> bool) :
  length (labels d') = length (feature_rows d') -> samples d' = filter p (samples d) ->
  Forall (redundant nc (feature_rows d)) es -> Forall (redundant nc (feature_rows d')) es.
Proof.
  intros HL Hs H. assert (Hin : forall r, In r (feature_rows d') -> In r (feature_rows d)).
  { intros r Hr. rewrite <- (map_fst_combine (feature_rows d') (labels d')) in Hr by auto. fold (samples d') in Hr. rewrite Hs in Hr.
    apply in_map_iff in Hr as ([r' l'] & <- & Hr). apply filter_In in Hr as [Hr _]. now apply in_combine_l in Hr. }
  eapply Forall_impl; [|exact H]. intros e [He|j Hj He]; [left|right with j]; eauto.
Qed.

Lemma partition_extend nc nt d q fd td : wf_dataset nc nt d -> Forall (redundant nc (feature_rows d)) es ->
  (N.of_nat (nc + length es) <= 2 ^ 32)%N ->
  partition d q = Ok (fd, td) -> partition (ext d) q = Ok (ext fd, ext td).
Proof.
  intros W He Hu Ep. pose proof (extend_wf nc nt d W He Hu) as W'.
  destruct (partition_wf nc nt d _ fd td W Ep) as (Hq & Wf & Wt & St & Sf).
  assert (Rf : Forall (redundant nc (feature_rows fd)) es) by (eapply redundant_sub; eauto; apply (wf_lengths _ _ _ Wf)).
  assert (Rt : Forall (redundant nc (feature_rows td)) es) by (eapply redundant_sub; eauto; apply (wf_lengths _ _ _ Wt)).
  assert (Ha : forall p, In p (samples d) -> answers q (extend_row es (fst p)) = answers q (fst p)).
  { intros [r l] Hp. apply answers_extend. apply in_combine_l in Hp. cbn. rewrite (wf_row_length _ _ _ _ W Hp). exact Hq. }
  assert (St' : filter (fun p => answers q (fst p)) (samples (ext d)) = samples (ext td)).
  { rewrite !samples_extend, St. apply filter_map_comb. intros p Hp. cbn. auto. }
  assert (Sf' : filter (fun p => negb (answers q (fst p))) (samples (ext d)) = samples (ext fd)).
  { rewrite !samples_extend, Sf. apply (filter_map_comb _ _ (fun p => negb (answers q (fst p)))). intros p Hp. cbn. f_equal. auto. }
  assert (NE : forall c x, wf_dataset c nt x -> samples x <> []).
  { intros c x Wx. pose proof (wf_nonempty _ _ _ Wx). pose proof (wf_lengths _ _ _ Wx). unfold samples.
    destruct (feature_rows x); [congruence|]. destruct (labels x); discriminate. }
  destruct (partition_Ok (nc + length es) (ext d) q) as (fd' & td' & E' & _).
  - apply (wf_lengths _ _ _ W').
  - apply (wf_rows _ _ _ W').
  - lia.
  - rewrite St'. apply (NE (nc + length es)). now apply extend_wf.
  - rewrite Sf'. apply (NE (nc + length es)). now apply extend_wf.
  - rewrite E'. destruct (partition_wf _ nt _ _ fd' td' W' E') as (_ & Wf' & Wt' & St'' & Sf'').
    assert (fd' = ext fd) by (apply (dataset_eq (nc + length es) nt); [auto|now apply extend_wf|congruence]).
    assert (td' = ext td) by (apply (dataset_eq (nc + length es) nt); [auto|now apply extend_wf|congruence]).
    now subst.
Qed.

Lemma built_extend {L} (mk mk' : dataset -> res L) (g : L -> L) cfg nc nt level d t :
  (forall x l, mk x = Ok l -> mk' (ext x) = Ok (g l)) ->
  standard cfg -> tc_number_of_classes cfg = N.of_nat nt -> (N.of_nat (nc + length es) <= 2 ^ 32)%N ->
  built mk cfg level d t -> wf_dataset nc nt d -> Forall (redundant nc (feature_rows d)) es ->
  built mk' cfg level (ext d) (tree_map g t).
Proof.
  intros Hg Hs Hk Hu B. induction B as [level d s l Es Est El|level d s fd td t f Es Est Ep Bt IHt Bf IHf]; intros W He.
  - change (built mk' cfg level (ext d) (leaf_node (bs_question s) (g l))). eapply built_leaf; eauto.
    rewrite Hs, Hk in *. change (find_best_split (ext d) (N.of_nat nt) = Ok s). now rewrite (split_extend nc nt).
  - destruct (partition_wf nc nt d _ fd td W Ep) as (Hq & Wf & Wt & St & Sf).
    change (built mk' cfg level (ext d) (node_new (bs_question s) (tree_map g t) (tree_map g f))).
    eapply built_node with (fd := ext fd) (td := ext td).
    + rewrite Hs, Hk in *. change (find_best_split (ext d) (N.of_nat nt) = Ok s). now rewrite (split_extend nc nt).
    + exact Est.
    + eapply partition_extend; eauto.
    + apply IHt; auto. eapply redundant_sub; eauto. apply (wf_lengths _ _ _ Wt).
    + apply IHf; auto. eapply redundant_sub; eauto. apply (wf_lengths _ _ _ Wf).
Qed.

Fixpoint tree_ind' {L} (P : tree_node L -> Prop)
    (H : forall q t f l, (forall n, t = Some n -> P n) -> (forall n, f = Some n -> P n) -> P (TreeNode L q t f l)) n : P n.
Proof.
  destruct n as [q t f l]. apply H.
  - intros n E. destruct t as [m|]; [|discriminate]. injection E as <-. now apply tree_ind'.
  - intros n E. destruct f as [m|]; [|discriminate]. injection E as <-. now apply tree_ind'.
Defined.

Lemma tree_map_id {L} (t : tree_node L) : tree_map (fun l => l) t = t.
Proof.
  induction t as [q t f l Ht Hf] using tree_ind'. cbn. f_equal.
  - destruct t as [n|]; auto. f_equal. auto.
  - destruct f as [n|]; auto. f_equal. auto.
  - now destruct l.
Qed.

Section Trees.
Context (nc nt : nat) (d : dataset) (cfg : tree_config).
Hypotheses (W : wf_dataset nc nt d) (He : Forall (redundant nc (feature_rows d)) es)
  (Hu : (N.of_nat (nc + length es) <= 2 ^ 32)%N) (Hs : standard cfg) (Hk : tc_number_of_classes cfg = N.of_nat nt).

Theorem regression_extend t : regression_tree_new d cfg = Ok t ->
  regression_tree_new (ext d) cfg = Ok (tree_map (fun l => mkRL (option_map ext (rl_data l))) t).
Proof.
  rewrite !regression_tree_new_eq. intros E. apply build_with_built in E.
  apply built_build_with; [|unfold fuel_for; lia]. eapply built_extend; eauto.
  intros x l El. injection El as <-. reflexivity.
Qed.

Lemma calc_extend kind x : leaf_output_calculator_new kind (ext x) = leaf_output_calculator_new kind x.
Proof. destruct kind; reflexivity. Qed.

Theorem grad_boost_extend kind :
  grad_boost_tree_new (ext d) cfg (leaf_output_calculator_new kind) = grad_boost_tree_new d cfg (leaf_output_calculator_new kind).
Proof.
  destruct (grad_boost_total LW nc nt d cfg kind W Hs Hk) as (t & E). rewrite E. revert E.
  rewrite !grad_boost_tree_new_eq. intros E. apply build_with_built in E.
  apply built_build_with; [|unfold fuel_for; lia]. rewrite <- (tree_map_id t). eapply built_extend; eauto.
  intros x l El. unfold mk_gb in *. now rewrite calc_extend.
Qed.

Theorem amg_extend kind :
  amg_boost_tree_new (ext d) cfg (leaf_output_calculator_new kind) = amg_boost_tree_new d cfg (leaf_output_calculator_new kind).
Proof.
  destruct (amg_total LW nc nt d cfg kind W Hs Hk) as (t & E). rewrite E. revert E.
  rewrite !amg_boost_tree_new_eq. intros E. apply build_with_built in E.
  apply built_build_with; [|unfold fuel_for; lia]. rewrite <- (tree_map_id t). eapply built_extend; eauto.
  intros x l El. unfold mk_amg in *. now rewrite calc_extend.
Qed.
End Trees.

(* ------------------------------------------------------------------ *)
(** ** Longer rows *)

Lemma lookup_longer {L} (t : tree_node L) row xs l :
  find_leaf_node_for_data row t = Ok l -> find_leaf_node_for_data (row ++ xs) t = Ok l.
Proof.
  induction t as [q t f o Ht Hf] using tree_ind'. cbn.
  destruct (is_leaf_node (TreeNode L q t f o)); auto.
  destruct (le_lt_dec (length row) (N.to_nat (q_column q))) as [Hq|Hq].
  - rewrite (proj2 (solve_Panic q row) Hq). discriminate.
  - rewrite !solve_Ok by (rewrite ?app_length; lia). cbn [bind].
    replace (answers q (row ++ xs)) with (answers q row) by (unfold answers; now rewrite nth_error_app1).
    destruct (answers q row).
    + destruct t as [n|]; cbn; auto.
    + destruct f as [n|]; cbn; auto.
Qed.

Lemma gb_out_longer row xs t o : gb_out row t = Ok o -> gb_out (row ++ xs) t = Ok o.
Proof.
  unfold gb_out. intros H. apply bind_Ok in H as (l & E & H). now rewrite (lookup_longer t row xs l E).
Qed.

Lemma amg_out_longer k row xs t o : amg_out k row t = Ok o -> amg_out k (row ++ xs) t = Ok o.
Proof.
  unfold amg_out. intros H. apply bind_Ok in H as (l & E & H). now rewrite (lookup_longer t row xs l E).
Qed.

Lemma raw_longer {L} (out : list F -> tree_node L -> res (list F)) lr g row xs ts s :
  (forall t o, out row t = Ok o -> out (row ++ xs) t = Ok o) ->
  raw out lr g row ts = Ok s -> raw out lr g (row ++ xs) ts = Ok s.
Proof.
  intros Ho. unfold raw. intros H. apply bind_Ok in H as (outs & E & H). apply bind_Ok. exists outs. split; auto.
  apply mapM_Forall2 in E. apply mapM_Forall2. eapply Forall2_impl; [|exact E]. cbn. intros t y Hy.
  apply bind_Ok in Hy as (o & Eo & Hy). rewrite (Ho _ _ Eo). exact Hy.
Qed.

Theorem regression_boost_longer m row xs p :
  regression_boost_predict m row = Ok p -> regression_boost_predict m (row ++ xs) = Ok p.
Proof.
  unfold regression_boost_predict. rewrite !predict_instance_raw. apply raw_longer. intros. now apply gb_out_longer.
Qed.
Theorem multi_class_boost_longer m row xs p :
  multi_class_boost_predict m row = Ok p -> multi_class_boost_predict m (row ++ xs) = Ok p.
Proof.
  unfold multi_class_boost_predict, multi_class_boost_raw. rewrite !predict_instance_raw. intros H. apply bind_Ok in H as (s & E & H).
  apply bind_Ok. exists s. split; auto. eapply raw_longer; eauto. intros. now apply gb_out_longer.
Qed.
Theorem amg_boost_longer m row xs p :
  amg_boost_predict m row = Ok p -> amg_boost_predict m (row ++ xs) = Ok p.
Proof.
  unfold amg_boost_predict, amg_boost_raw. rewrite !amg_predict_instance_raw. intros H. apply bind_Ok in H as (s & E & H).
  apply bind_Ok. exists s. split; auto. eapply raw_longer; eauto. intros. now apply amg_out_longer.
Qed.

(* ------------------------------------------------------------------ *)
(** ** Scores on longer rows *)

Lemma for_range_impl {S} (f g : S -> nat -> res S) n s r :
  (forall i s r, f s i = Ok r -> g s i = Ok r) -> for_range n f s = Ok r -> for_range n g s = Ok r.
Proof.
  intros H. unfold for_range. generalize (seq 0 n). intros l. revert s. induction l as [|i l IH]; intros s; [auto|].
  cbn [foldM]. intros E. apply bind_Ok in E as (s' & E1 & E2). rewrite (H _ _ _ E1). cbn [bind]. auto.
Qed.

Lemma longer_idx (rows rows' : list (list F)) i r :
  Forall2 (fun r r' => exists xs, r' = r ++ xs) rows rows' -> idx rows i = Ok r -> exists xs, idx rows' i = Ok (r ++ xs).
Proof.
  intros H. revert i. induction H as [|x y rows rows' (xs & ->) _ IH]; intros [|i] E; try discriminate.
  - injection E as <-. now exists xs.
  - apply (IH i E).
Qed.

Definition etree (t : tree_node regression_leaf) : tree_node regression_leaf :=
  tree_map (fun l => mkRL (option_map ext (rl_data l))) t.

Lemma lookup_etree t : forall row,
  find_leaf_node_for_data row (etree t) = (l <- find_leaf_node_for_data row t;; Ok (mkRL (option_map ext (rl_data l)))).
Proof.
  induction t as [q t f l IHt IHf] using tree_ind'. intros row. destruct t as [t|], f as [f|], l as [l|]; cbn; try reflexivity;
    cbn in *; try (destruct (solve _ _) as [[|]| |]; cbn; auto).
Qed.

Lemma leaf_longer t row xs l d :
  find_leaf_node_for_data row t = Ok l -> rl_data l = Some d ->
  find_leaf_node_for_data (row ++ xs) (etree t) = Ok (mkRL (Some (ext d))).
Proof. intros E Ed. rewrite lookup_etree, (lookup_longer t row xs l E). cbn. now rewrite Ed. Qed.

Theorem predict_class_extend t row xs p :
  predict_class row t = Ok p -> predict_class (row ++ xs) (etree t) = Ok p.
Proof.
  unfold predict_class. intros H. apply bind_Ok in H as (l & E & H). apply bind_Ok in H as (x & Ex & H).
  destruct (rl_data l) as [y|] eqn:El; [|discriminate]. injection Ex as ->. rewrite (leaf_longer t row xs l x E El). exact H.
Qed.

Theorem accuracy_extend t test test' a : longer_rows test test' ->
  calculate_accuracy test t = Ok a -> calculate_accuracy test' (etree t) = Ok a.
Proof.
  intros (H & HL). unfold calculate_accuracy. rewrite <- (Forall2_length _ _ _ H), HL. intros E. apply bind_Ok in E as (c & E & E').
  apply bind_Ok. exists c. split; [|exact E']. eapply for_range_impl; [|exact E]. cbn. intros i s r Ei.
  apply bind_Ok in Ei as (row & Er & Ei). destruct (longer_idx _ _ _ _ H Er) as (xs & ->). cbn [bind].
  apply bind_Ok in Ei as (p & Ep & Ei). rewrite (predict_class_extend _ _ xs _ Ep). exact Ei.
Qed.

Theorem error_extend t test test' a : longer_rows test test' ->
  calculate_overall_mean_squared_error test t = Ok a -> calculate_overall_mean_squared_error test' (etree t) = Ok a.
Proof.
  intros (H & HL). unfold calculate_overall_mean_squared_error. rewrite <- (Forall2_length _ _ _ H), HL. intros E.
  apply bind_Ok in E as (c & E & E').
  apply bind_Ok. exists c. split; [|exact E']. eapply for_range_impl; [|exact E]. cbn. intros i s r Ei.
  apply bind_Ok in Ei as (row & Er & Ei). destruct (longer_idx _ _ _ _ H Er) as (xs & ->). cbn [bind].
  apply bind_Ok in Ei as (l & El & Ei). apply bind_Ok in Ei as (x & Ex & Ei).
  destruct (rl_data l) as [y|] eqn:Ey; [|discriminate]. injection Ex as ->. rewrite (leaf_longer t row xs l x El Ey). exact Ei.
Qed.

Theorem tree_scores_extend nc nt d cfg t t' test test' a :
  wf_dataset nc nt d -> Forall (redundant nc (feature_rows d)) es -> (N.of_nat (nc + length es) <= 2 ^ 32)%N ->
  standard cfg -> tc_number_of_classes cfg = N.of_nat nt ->
  regression_tree_new d cfg = Ok t -> regression_tree_new (ext d) cfg = Ok t' -> longer_rows test test' ->
  (calculate_accuracy test t = Ok a -> calculate_accuracy test' t' = Ok a) /\
  (calculate_overall_mean_squared_error test t = Ok a -> calculate_overall_mean_squared_error test' t' = Ok a).
Proof.
  intros W He Hu Hs Hk E E' H. rewrite (regression_extend nc nt d cfg W He Hu Hs Hk t E) in E'. injection E' as <-.
  split; [now apply accuracy_extend|now apply error_extend].
Qed.

Lemma all_predictions_longer (predict : list F -> res (list F)) test test' ps :
  longer_rows test test' -> (forall row xs p, predict row = Ok p -> predict (row ++ xs) = Ok p) ->
  calculate_all_predictions predict test = Ok ps -> calculate_all_predictions predict test' = Ok ps.
Proof.
  intros (H & HL) Hp. unfold calculate_all_predictions. rewrite <- (Forall2_length _ _ _ H).
  apply for_range_impl. cbn. intros i s r Ei.
  apply bind_Ok in Ei as (row & Er & Ei). destruct (longer_idx _ _ _ _ H Er) as (xs & ->). cbn [bind].
  apply bind_Ok in Ei as (p & Ep & Ei). rewrite (Hp _ xs _ Ep). exact Ei.
Qed.

Theorem regression_score_longer m test test' a : longer_rows test test' ->
  regression_boost_score m test = Ok a -> regression_boost_score m test' = Ok a.
Proof.
  intros H. unfold regression_boost_score, regression_boost_all_predictions. intros E. apply bind_Ok in E as (ps & E & E').
  rewrite (all_predictions_longer _ _ _ _ H (regression_boost_longer m) E). cbn [bind]. now rewrite (proj2 H).
Qed.
Theorem multi_class_score_longer m test test' a : longer_rows test test' ->
  multi_class_boost_score m test = Ok a -> multi_class_boost_score m test' = Ok a.
Proof.
  intros H. unfold multi_class_boost_score, multi_class_boost_all_predictions. intros E. apply bind_Ok in E as (ps & E & E').
  rewrite (all_predictions_longer _ _ _ _ H (multi_class_boost_longer m) E). cbn [bind].
  unfold calculate_accuracy_from_predictions in *. now rewrite (proj2 H).
Qed.
Theorem amg_score_longer m test test' a : longer_rows test test' ->
  amg_boost_score m test = Ok a -> amg_boost_score m test' = Ok a.
Proof.
  intros H. unfold amg_boost_score, amg_boost_all_predictions. intros E. apply bind_Ok in E as (ps & E & E').
  rewrite (all_predictions_longer _ _ _ _ H (amg_boost_longer m) E). cbn [bind].
  unfold calculate_accuracy_from_predictions in *. now rewrite (proj2 H).
Qed.

(* ------------------------------------------------------------------ *)
(** ** Ensembles *)

Definition etd (td : training_data) : training_data := mkTD (ext (td_data td)) (td_labels td) (td_size td).

Lemma additive_extend {L} (out : list F -> tree_node L -> res (list F)) lr td td' t :
  (forall row o, out row t = Ok o -> out (extend_row es row) t = Ok o) ->
  additive_update out lr td td' t -> additive_update out lr (etd td) (etd td') t.
Proof.
  intros Ho (H1 & H2 & H3). unfold additive_update, etd. cbn [td_data td_labels td_size]. split; [now rewrite H1|]. split; auto.
  cbn [extend feature_rows]. revert H3. generalize (td_labels td'). generalize (td_labels td). clear H1 H2.
  induction (feature_rows (td_data td)) as [|r rows IH]; intros ls ls' H; destruct ls as [|l ls]; cbn in *;
    inversion H as [|? ? ? ? (o & E1 & E2 & E3) Hr]; subst; constructor; eauto.
Qed.

Lemma iterations_extend {L} (out : list F -> tree_node L -> res (list F)) (kind : list F -> list F)
    residuals fit update lr nc nt d g :
  wf_dataset nc nt d -> length g = nt -> (forall s, length (kind s) = length s) ->
  (forall td, residuals (etd td) = residuals td) ->
  (forall td r, td_size td = length (labels (td_data td)) -> length (td_labels td) = length (labels (td_data td)) ->
     residuals td = Ok r -> r = differences (labels (td_data td)) (map kind (td_labels td))) ->
  (forall r, wf_dataset nc nt (with_labels d r) -> fit (ext (with_labels d r)) = fit (with_labels d r)) ->
  (forall t row o, out row t = Ok o -> out (extend_row es row) t = Ok o) ->
  (forall x td td' t, length (feature_rows x) = length (feature_rows d) -> td_data td = x ->
     length (td_labels td) = length (feature_rows x) -> td_size td = length (td_labels td) ->
     Forall (fun s => length s = nt) (td_labels td) -> (update td t = Ok td' <-> additive_update out lr td td' t)) ->
  forall n td ts, boosting_iterations residuals fit update (start d g) n = Ok (td, ts) ->
  boosting_iterations residuals fit update (start (ext d) g) n = Ok (etd td, ts) /\ state_is out lr d g td ts.
Proof.
  intros W Hg Hkind He Hres Hfit Ho Hupd. pose proof (wf_lengths _ _ _ W) as HL.
  induction n as [|n IH]; intros td ts E.
  - inversion E; subst. split; [reflexivity|]. now apply start_state.
  - replace (S n) with (n + 1) in * by lia. apply iter_S_Ok in E as (td1 & ts1 & r & t & E1 & Er & Ef & Eu & ->).
    destruct (IH _ _ E1) as [E1' HI]. destruct (state_lengths _ _ _ _ _ _ HL HI) as (A & B & C & D).
    pose proof HI as (D1 & D2 & D3 & D4).
    assert (D4' : rectangular nt (td_labels td1)) by (unfold rectangular; rewrite <- Hg; exact D4).
    assert (Hadd : additive_update out lr td1 td t) by (apply (Hupd d); auto).
    pose proof (Hres td1 r D C Er) as Hr.
    assert (Wr : wf_dataset nc nt (with_labels d r)).
    { destruct (differences_rect nt (labels (td_data td1)) (map kind (td_labels td1))) as [Q1 Q2].
      - now rewrite map_length.
      - rewrite D1. apply W.
      - apply Forall_forall. intros x Hx. apply in_map_iff in Hx as (s & <- & Hs). rewrite Hkind.
        unfold rectangular in D4'. rewrite Forall_forall in D4'. auto.
      - rewrite <- Hr in Q1, Q2. apply with_labels_wf; auto. rewrite Q1, D1. exact HL. }
    split; [|eapply state_step; eauto].
    rewrite iter_S, E1'. cbn [bind]. rewrite He, Er. cbn [bind].
    change (with_labels (td_data (etd td1)) r) with (ext (with_labels (td_data td1) r)).
    rewrite D1 in *. rewrite (Hfit r Wr), Ef. cbn [bind].
    assert (Eu' : update (etd td1) t = Ok (etd td)).
    { apply (Hupd (ext d)); auto.
      - cbn. apply map_length.
      - cbn. now rewrite D1.
      - cbn. now rewrite map_length.
      - apply additive_extend; auto. }
    rewrite Eu'. reflexivity.
Qed.

Section Ensembles.
Context (nc nt : nat) (d : dataset) (cfg : tree_config) (n : nat) (lr : F).
Hypotheses (W : wf_dataset nc nt d) (He : Forall (redundant nc (feature_rows d)) es)
  (Hu : (N.of_nat (nc + length es) <= 2 ^ 32)%N) (Hs : standard cfg) (Hk : tc_number_of_classes cfg = N.of_nat nt)
  (Hnt : (Z.of_nat nt <= 2 ^ 53)%Z).

Lemma guess_extend ty g :
  determine_initial_guess (mkTD d (labels d) (length (labels d))) ty = Ok g ->
  determine_initial_guess (mkTD (ext d) (labels (ext d)) (length (labels (ext d)))) ty = Ok g.
Proof. auto. Qed.

Theorem regression_boost_extend : regression_boost_train (ext d) cfg n lr = regression_boost_train d cfg n lr.
Proof.
  destruct (regression_train_total LW nc nt d cfg n lr W Hs Hk Hnt) as (m & E & Lg & _). rewrite E.
  apply boosting_loop_Ok in E as (E1 & E2 & td & E3). apply boosting_loop_Ok. split; [now apply guess_extend|]. split; auto.
  exists (etd td). unfold regression_executor in *.
  eapply (iterations_extend gb_out (fun s => s)) with (lr := lr); eauto.
  - intros td' r H1 H2 H3. apply calculate_residuals_regression_eq in H3 as [_ ->]; auto. now rewrite map_id.
  - intros r Wr. apply (grad_boost_extend nc nt); auto.
  - intros t row o. apply gb_out_longer.
  - intros x td1 td2 t H0 H1 H2 H3 _. apply gb_update; auto. congruence.
Qed.

Theorem multi_class_boost_extend : multi_class_boost_train (ext d) cfg n lr = multi_class_boost_train d cfg n lr.
Proof.
  destruct (multi_class_train_total LW nc nt d cfg n lr W Hs Hk Hnt) as (m & E & Lg & _). rewrite E.
  apply boosting_loop_Ok in E as (E1 & E2 & td & E3). apply boosting_loop_Ok. split; [now apply guess_extend|]. split; auto.
  exists (etd td). unfold multi_class_executor in *.
  eapply (iterations_extend gb_out softmax) with (lr := lr); eauto.
  - apply softmax_length.
  - intros td' r H1 H2 H3. apply calculate_residuals_multi_class_eq in H3 as [_ ->]; auto.
  - intros r Wr. apply (grad_boost_extend nc nt); auto.
  - intros t row o. apply gb_out_longer.
  - intros x td1 td2 t H0 H1 H2 H3 _. apply gb_update; auto. congruence.
Qed.

Theorem amg_boost_extend : 0 < nt -> amg_boost_train (ext d) cfg n lr = amg_boost_train d cfg n lr.
Proof.
  intros Hpos. destruct (amg_train_total LW nc nt d cfg n lr W Hpos Hs Hk Hnt) as (m & E & Lg & _). rewrite E.
  apply boosting_loop_Ok in E as (E1 & E2 & td & E3). apply boosting_loop_Ok. split; [now apply guess_extend|]. split; auto.
  exists (etd td). unfold amg_executor in *.
  eapply (iterations_extend (amg_out nt) softmax) with (lr := lr); eauto.
  - apply softmax_length.
  - intros td' r H1 H2 H3. apply calculate_residuals_multi_class_eq in H3 as [_ ->]; auto.
  - intros r Wr. apply (amg_extend nc nt); auto.
  - intros t row o. apply amg_out_longer.
  - intros x td1 td2 t H0 H1 H2 H3 H4. apply (amg_update _ _ _ _ nt); auto; [congruence|].
    intros E0. apply (wf_nonempty _ _ _ W), length_zero_iff_nil. rewrite <- H0, <- H2, E0. reflexivity.
Qed.
End Ensembles.

End Redundant.
