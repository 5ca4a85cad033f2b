(** Tree building: one generic builder, termination, totality, structure. *)
From Coq Require Import Permutation Sorted.
From Verif Require Import Base Num ModelCommon ModelTree Lib Spec SpecTree ProofData ProofSort ProofSplit ProofSplit2.

Section Tree.
Context {O : NumOps}.

(** The shape shared by all six builders. *)
Fixpoint build_with {L} (mk : dataset -> res L) (fuel : nat) (data : dataset) (cfg : tree_config) (level : N)
  : res (tree_node L) :=
  match fuel with
  | 0 => OutOfFuel
  | S fuel' =>
      s <- tc_split_finder cfg data (tc_number_of_classes cfg);;
      if stop_here s level (tc_max_levels cfg) then
        l <- mk data;; Ok (leaf_node (bs_question s) l)
      else
        '(fd, td) <- partition data (bs_question s);;
        t <- build_with mk fuel' td cfg (level + 1)%N;;
        f <- build_with mk fuel' fd cfg (level + 1)%N;;
        Ok (node_new (bs_question s) t f)
  end.

Definition mk_reg (d : dataset) : res regression_leaf := Ok (mkRL (Some d)).
Definition mk_gb (calc : leaf_output_calculator) (d : dataset) : res grad_boost_leaf :=
  o <- calc d;; Ok (mkGL (Some o)).
Definition amg_leaf_of (o : list F) : amg_leaf :=
  let '(m, c) := find_max_value_and_index_from_vector o in mkAL (Some m) (Some c).
Definition mk_amg (calc : leaf_output_calculator) (d : dataset) : res amg_leaf :=
  o <- calc d;; Ok (amg_leaf_of o).

Ltac same_builder IH :=
  intros data level; simpl; auto;
  destruct (tc_split_finder _ _ _) as [s| |]; simpl; auto;
  destruct (stop_here _ _ _);
  [ unfold mk_reg, mk_gb, mk_amg, amg_leaf_of; rewrite ?bind_assoc;
    repeat match goal with |- bind ?m _ = bind ?m _ => destruct m; simpl; auto end;
    try (destruct (find_max_value_and_index_from_vector _)); reflexivity
  | destruct (partition _ _) as [[fd td]| |]; simpl; auto; unfold rayon_join; rewrite ?IH;
    destruct (build_with _ _ td _ _); simpl; auto; rewrite ?IH;
    destruct (build_with _ _ fd _ _); simpl; auto ].

Lemma build_reg_eq fuel : forall data cfg level,
  build_regression_tree fuel data cfg level = build_with mk_reg fuel data cfg level.
Proof. intros data cfg level; revert data level. induction fuel as [|fuel IH]; [reflexivity|same_builder IH]. Qed.

Lemma build_reg_threads_eq fuel : forall data cfg level,
  build_regression_tree_using_multiple_threads fuel data cfg level = build_with mk_reg fuel data cfg level.
Proof. intros data cfg level; revert data level. induction fuel as [|fuel IH]; [reflexivity|same_builder IH]. Qed.

Lemma build_gb_eq fuel : forall data cfg calc level,
  build_grad_boost_regression_tree fuel data cfg calc level = build_with (mk_gb calc) fuel data cfg level.
Proof. intros data cfg calc level; revert data level. induction fuel as [|fuel IH]; [reflexivity|same_builder IH]. Qed.

Lemma build_gb_threads_eq fuel : forall data cfg calc level,
  build_grad_boost_regression_tree_using_multiple_threads fuel data cfg calc level = build_with (mk_gb calc) fuel data cfg level.
Proof. intros data cfg calc level; revert data level. induction fuel as [|fuel IH]; [reflexivity|same_builder IH]. Qed.

Lemma build_amg_eq fuel : forall data cfg calc level,
  build_approximate_grad_boost_regression_tree fuel data cfg calc level = build_with (mk_amg calc) fuel data cfg level.
Proof. intros data cfg calc level; revert data level. induction fuel as [|fuel IH]; [reflexivity|same_builder IH]. Qed.

Lemma build_amg_threads_eq fuel : forall data cfg calc level,
  build_approximate_grad_boost_regression_tree_using_multiple_threads fuel data cfg calc level = build_with (mk_amg calc) fuel data cfg level.
Proof. intros data cfg calc level; revert data level. induction fuel as [|fuel IH]; [reflexivity|same_builder IH]. Qed.

Lemma regression_tree_new_eq data cfg :
  regression_tree_new data cfg = build_with mk_reg (fuel_for data) data cfg 0.
Proof. unfold regression_tree_new. rewrite build_reg_eq, build_reg_threads_eq. now destruct (tc_use_multi_threading cfg). Qed.
Lemma grad_boost_tree_new_eq data cfg calc :
  grad_boost_tree_new data cfg calc = build_with (mk_gb calc) (fuel_for data) data cfg 0.
Proof. unfold grad_boost_tree_new. rewrite build_gb_eq, build_gb_threads_eq. now destruct (tc_use_multi_threading cfg). Qed.
Lemma amg_boost_tree_new_eq data cfg calc :
  amg_boost_tree_new data cfg calc = build_with (mk_amg calc) (fuel_for data) data cfg 0.
Proof. unfold amg_boost_tree_new. rewrite build_amg_eq, build_amg_threads_eq. now destruct (tc_use_multi_threading cfg). Qed.

(* ------------------------------------------------------------------ *)
(** ** partition shrinks, on any input *)

Lemma partition_rows_count q rows lbls tr tl fr fl :
  partition_rows q rows lbls = Ok ((tr, tl), (fr, fl)) ->
  length tr + length fr = length (combine rows lbls).
Proof.
  unfold partition_rows. set (l := combine rows lbls).
  cut (forall l tr0 tl0 fr0 fl0,
    foldM (fun acc p =>
      let '((tr, tl), (fr, fl)) := acc in
      b <- solve q (fst p);;
      if (b : bool) then Ok ((tr ++ [fst p], tl ++ [snd p]), (fr, fl))
      else Ok ((tr, tl), (fr ++ [fst p], fl ++ [snd p]))) l ((tr0, tl0), (fr0, fl0)) = Ok ((tr, tl), (fr, fl)) ->
    length tr + length fr = length tr0 + length fr0 + length l).
  { intros H E. apply H in E. simpl in E. exact E. }
  clear. induction l as [|p l IH]; intros tr0 tl0 fr0 fl0 H; simpl in *.
  - injection H as <- <- <- <-. lia.
  - destruct (solve q (fst p)) as [b| |]; simpl in H; try discriminate.
    destruct b; simpl in H; apply IH in H; rewrite app_length in H; simpl in H; lia.
Qed.

Lemma create_feature_columns_nonempty rows cols : create_feature_columns rows = Ok cols -> rows <> [].
Proof. intros H ->. discriminate. Qed.

Lemma partition_shrinks d q fd td :
  partition d q = Ok (fd, td) ->
  length (feature_rows fd) < length (feature_rows d) /\ length (feature_rows td) < length (feature_rows d).
Proof.
  unfold partition. intros H. destruct (partition_rows _ _ _) as [[[tr tl] [fr fl]]| |] eqn:E; simpl in H; try discriminate.
  destruct (create_feature_columns fr) as [fc| |] eqn:Ef; simpl in H; try discriminate.
  destruct (create_feature_columns tr) as [tc| |] eqn:Et; simpl in H; try discriminate.
  injection H as <- <-. simpl. apply partition_rows_count in E.
  apply create_feature_columns_nonempty in Ef, Et. rewrite combine_length in E.
  destruct fr; [congruence|]. destruct tr; [congruence|]. simpl in *. lia.
Qed.

Lemma partition_fuel d q : partition d q <> OutOfFuel.
Proof.
  unfold partition, partition_rows. apply bind_fuel.
  - apply foldM_fuel. intros [[? ?] [? ?]] p. unfold solve, idxN. apply bind_fuel.
    + apply bind_fuel; [|intros; discriminate]. destruct (_ <? _)%N; [apply idx_fuel|discriminate].
    + intros [|] _; discriminate.
  - intros [[? ?] [? ?]] _. apply bind_fuel; [apply create_feature_columns_fuel|]. intros ? _.
    apply bind_fuel; [apply create_feature_columns_fuel|]. intros; discriminate.
Qed.

Lemma build_with_fuel {L} (mk : dataset -> res L) cfg :
  (forall d k, tc_split_finder cfg d k <> OutOfFuel) -> (forall d, mk d <> OutOfFuel) ->
  forall fuel d level, length (feature_rows d) < fuel -> build_with mk fuel d cfg level <> OutOfFuel.
Proof.
  intros Hsf Hmk. induction fuel as [|fuel IH]; intros d level Hf; [lia|]. simpl.
  apply bind_fuel; auto. intros s _. destruct (stop_here _ _ _).
  - apply bind_fuel; auto. intros; discriminate.
  - apply bind_fuel; [apply partition_fuel|]. intros [fd td] E. apply partition_shrinks in E as [E1 E2].
    apply bind_fuel; [apply IH; lia|]. intros t _. apply bind_fuel; [apply IH; lia|]. intros; discriminate.
Qed.

Lemma build_with_budget {L} (mk : dataset -> res L) cfg : forall fuel fuel' d level,
  length (feature_rows d) < fuel -> length (feature_rows d) < fuel' ->
  build_with mk fuel d cfg level = build_with mk fuel' d cfg level.
Proof.
  induction fuel as [|fuel IH]; intros [|fuel'] d level H1 H2; try lia. simpl.
  destruct (tc_split_finder _ _ _) as [s| |]; simpl; auto. destruct (stop_here _ _ _); auto.
  destruct (partition _ _) as [[fd td]| |] eqn:Ep; simpl; auto. apply partition_shrinks in Ep as [E1 E2].
  rewrite (IH fuel' td), (IH fuel' fd) by lia. reflexivity.
Qed.

(* ------------------------------------------------------------------ *)
(** ** Successful builds *)

Inductive built {L} (mk : dataset -> res L) (cfg : tree_config) : N -> dataset -> tree_node L -> Prop :=
| built_leaf level d s l :
    tc_split_finder cfg d (tc_number_of_classes cfg) = Ok s ->
    stop_here s level (tc_max_levels cfg) = true -> mk d = Ok l ->
    built mk cfg level d (leaf_node (bs_question s) l)
| built_node level d s fd td t f :
    tc_split_finder cfg d (tc_number_of_classes cfg) = Ok s ->
    stop_here s level (tc_max_levels cfg) = false ->
    partition d (bs_question s) = Ok (fd, td) ->
    built mk cfg (level + 1) td t -> built mk cfg (level + 1) fd f ->
    built mk cfg level d (node_new (bs_question s) t f).

Lemma build_with_built {L} (mk : dataset -> res L) cfg fuel : forall d level t,
  build_with mk fuel d cfg level = Ok t -> built mk cfg level d t.
Proof.
  induction fuel as [|fuel IH]; intros d level t H; simpl in H; [discriminate|].
  destruct (tc_split_finder _ _ _) as [s| |] eqn:Es; simpl in H; try discriminate.
  destruct (stop_here _ _ _) eqn:Est.
  - destruct (mk d) as [l| |] eqn:El; simpl in H; try discriminate. injection H as <-.
    eapply built_leaf; eauto.
  - destruct (partition _ _) as [[fd td]| |] eqn:Ep; simpl in H; try discriminate.
    destruct (build_with mk fuel td cfg _) as [t'| |] eqn:Et; simpl in H; try discriminate.
    destruct (build_with mk fuel fd cfg _) as [f'| |] eqn:Ef; simpl in H; try discriminate.
    injection H as <-. eapply built_node; eauto.
Qed.

Lemma built_build_with {L} (mk : dataset -> res L) cfg level d t :
  built mk cfg level d t -> forall fuel, length (feature_rows d) < fuel -> build_with mk fuel d cfg level = Ok t.
Proof.
  induction 1 as [level d s l Es Est El|level d s fd td t f Es Est Ep Bt IHt Bf IHf]; intros [|fuel] Hf; try lia; simpl.
  - rewrite Es. simpl. rewrite Est, El. reflexivity.
  - rewrite Es. simpl. rewrite Est, Ep. simpl. apply partition_shrinks in Ep as [E1 E2].
    rewrite IHt by lia. simpl. rewrite IHf by lia. reflexivity.
Qed.

Lemma built_proper {L} (mk : dataset -> res L) cfg level d t : built mk cfg level d t -> proper t.
Proof. induction 1; constructor; auto. Qed.

Lemma stop_here_max s max : stop_here s max max = true.
Proof. unfold stop_here. rewrite N.eqb_refl. apply orb_true_r. Qed.

Lemma built_depth {L} (mk : dataset -> res L) cfg level d t :
  built mk cfg level d t ->
  ((level <= tc_max_levels cfg)%N -> (level + N.of_nat (depth t) <= tc_max_levels cfg)%N) /\
  (feature_rows d <> [] -> depth t < length (feature_rows d)).
Proof.
  induction 1 as [level d s l Es Est El|level d s fd td t f Es Est Ep Bt IHt Bf IHf]; simpl.
  - split; [lia|]. intros Hne. destruct (feature_rows d); [congruence|simpl; lia].
  - apply partition_shrinks in Ep as Hs. destruct Hs as [E1 E2]. destruct IHt as [It It'], IHf as [If If'].
    split.
    + intros Hl. assert (level <> tc_max_levels cfg).
      { intros ->. rewrite stop_here_max in Est. discriminate. }
      lia.
    + intros Hne. unfold partition in Ep.
      destruct (partition_rows _ _ _) as [[[tr tl] [fr fl]]| |] eqn:E; simpl in Ep; try discriminate.
      destruct (create_feature_columns fr) as [fc| |] eqn:Ef; simpl in Ep; try discriminate.
      destruct (create_feature_columns tr) as [tc| |] eqn:Et; simpl in Ep; try discriminate.
      injection Ep as <- <-. simpl in *. apply create_feature_columns_nonempty in Ef, Et.
      specialize (It' Et). specialize (If' Ef). lia.
Qed.

(** Lookup in a proper tree. *)
Lemma lookup_proper {L} nc (t : tree_node L) row :
  proper t -> asks_below nc t -> nc <= length row ->
  exists l, find_leaf_node_for_data row t = Ok l /\ In l (leaves t).
Proof.
  induction 1 as [q l|q t f Ht IHt Hf IHf]; simpl; intros Ha Hr.
  - exists l. simpl. auto.
  - destruct Ha as (Hq & Hat & Haf). rewrite solve_Ok by lia. simpl. destruct (answers q row).
    + destruct (IHt Hat Hr) as (l & E & I). exists l. split; auto. apply in_or_app. auto.
    + destruct (IHf Haf Hr) as (l & E & I). exists l. split; auto. apply in_or_app. auto.
Qed.

(* ------------------------------------------------------------------ *)
(** ** C25: boosting trees are regression trees with computed outputs *)

Lemma build_with_mapM {L} (mk : dataset -> res L) cfg (leaf_mk : regression_leaf -> res L) :
  (forall d k, tc_split_finder cfg d k <> OutOfFuel) -> (forall d, mk d <> OutOfFuel) ->
  (forall d, leaf_mk (mkRL (Some d)) = mk d) ->
  forall fuel d level, length (feature_rows d) < fuel ->
  build_with mk fuel d cfg level = (t <- build_with mk_reg fuel d cfg level;; tree_mapM leaf_mk t).
Proof.
  intros Hsf Hmk Hl. induction fuel as [|fuel IH]; intros d level Hf; [lia|]. simpl.
  destruct (tc_split_finder _ _ _) as [s| |]; simpl; auto.
  destruct (stop_here _ _ _).
  - simpl. rewrite Hl. destruct (mk d); reflexivity.
  - destruct (partition _ _) as [[fd td]| |] eqn:Ep; simpl; auto.
    apply partition_shrinks in Ep as [E1 E2].
    assert (Nt := build_with_fuel mk cfg Hsf Hmk fuel td (level + 1)%N ltac:(lia)).
    assert (Nf := build_with_fuel mk cfg Hsf Hmk fuel fd (level + 1)%N ltac:(lia)).
    assert (Rt := build_with_fuel mk_reg cfg Hsf ltac:(discriminate) fuel td (level + 1)%N ltac:(lia)).
    assert (Rf := build_with_fuel mk_reg cfg Hsf ltac:(discriminate) fuel fd (level + 1)%N ltac:(lia)).
    rewrite !IH in * by lia.
    destruct (build_with mk_reg fuel td cfg _) as [t| |]; cbn [bind] in *; try congruence.
    destruct (build_with mk_reg fuel fd cfg _) as [f| |]; cbn [bind] in *; try congruence.
    + simpl. destruct (tree_mapM leaf_mk t); simpl; auto. destruct (tree_mapM leaf_mk f); simpl; auto.
    + destruct (tree_mapM leaf_mk t); simpl; auto. congruence.
Qed.

Lemma avg_fuel vv : calculate_average_f64_vector vv <> OutOfFuel.
Proof.
  unfold calculate_average_f64_vector. apply bind_fuel; [apply idx_fuel|]. intros first _.
  apply bind_fuel.
  - apply for_range_fuel. intros. apply for_range_fuel. intros.
    repeat (apply bind_fuel; [apply idx_fuel|intros ? _]). apply upd_fuel.
  - intros ? _. apply for_range_fuel. intros. apply bind_fuel; [apply idx_fuel|intros ? _]. apply upd_fuel.
Qed.

Lemma zip_with_fuel f a b : zip_with f a b <> OutOfFuel.
Proof. unfold zip_with. destruct (_ =? _); discriminate. Qed.

Lemma leaf_output_calculator_fuel k d : leaf_output_calculator_new k d <> OutOfFuel.
Proof.
  destruct k; cbn [leaf_output_calculator_new].
  - apply avg_fuel.
  - unfold calculate_leaf_output_multi_class_loss. apply bind_fuel.
    + unfold sum_of_f64_vectors. apply bind_fuel; [apply idx_fuel|]. intros ? _. apply foldM_fuel. intros. apply zip_with_fuel.
    + intros ? _. apply bind_fuel.
      * unfold calculate_denominator_term_for_leaf_output. apply bind_fuel; [apply idx_fuel|]. intros ? _.
        apply foldM_fuel. intros. apply zip_with_fuel.
      * intros ? _. apply bind_fuel; [apply zip_with_fuel|]. intros ? _.
        apply bind_fuel; [apply idx_fuel|]. intros; discriminate.
Qed.

Lemma mk_gb_fuel k d : mk_gb (leaf_output_calculator_new k) d <> OutOfFuel.
Proof. unfold mk_gb. apply bind_fuel; [apply leaf_output_calculator_fuel|intros; discriminate]. Qed.
Lemma mk_amg_fuel k d : mk_amg (leaf_output_calculator_new k) d <> OutOfFuel.
Proof. unfold mk_amg. apply bind_fuel; [apply leaf_output_calculator_fuel|intros; discriminate]. Qed.

(* ------------------------------------------------------------------ *)
(** ** Well-formed data *)

Section Wf.
Context (LW : NumLaws O).

Lemma partition_wf nc nt d q fd td :
  wf_dataset nc nt d -> partition d q = Ok (fd, td) ->
  N.to_nat (q_column q) < nc /\
  wf_dataset nc nt fd /\ wf_dataset nc nt td /\
  samples td = filter (fun p => answers q (fst p)) (samples d) /\
  samples fd = filter (fun p => negb (answers q (fst p))) (samples d).
Proof.
  intros W E. pose proof (wf_lengths _ _ _ W) as HL. pose proof (wf_rows _ _ _ W) as HR.
  assert (NP : ~ ((N.of_nat nc <= q_column q)%N \/
   filter (fun p => answers q (fst p)) (samples d) = [] \/
   filter (fun p => negb (answers q (fst p))) (samples d) = [])).
  { rewrite <- (partition_Panic nc) by auto. congruence. }
  assert (Hq : N.to_nat (q_column q) < nc).
  { destruct (N.le_gt_cases (N.of_nat nc) (q_column q)); [tauto|lia]. }
  destruct (partition_Ok nc d q HL HR Hq) as (fd' & td' & E' & A1 & A2 & A3 & B1 & B2 & B3); try tauto.
  rewrite E in E'. injection E' as <- <-.
  assert (Hsub : forall p (x : dataset), feature_rows x = map fst (filter p (samples d)) ->
    labels x = map snd (filter p (samples d)) -> filter p (samples d) <> [] ->
    is_transpose nc (feature_rows x) (feature_columns x) ->
    wf_dataset nc nt x /\ samples x = filter p (samples d)).
  { intros p x Hr Hl Hne Ht. split.
    - constructor; auto.
      + rewrite Hr. destruct (filter p (samples d)); [congruence|discriminate].
      + rewrite Hr, Hl, !map_length. reflexivity.
      + rewrite Hr. apply Forall_forall. intros r Hin. apply in_map_iff in Hin as ([r' l'] & <- & Hin).
        apply filter_In in Hin as [Hin _]. apply in_combine_l in Hin.
        unfold rectangular in HR. rewrite Forall_forall in HR. now apply HR.
      + rewrite Hl. apply Forall_forall. intros r Hin. apply in_map_iff in Hin as ([r' l'] & <- & Hin).
        apply filter_In in Hin as [Hin _]. apply in_combine_r in Hin.
        pose proof (wf_labels _ _ _ W) as HLb. unfold rectangular in HLb. rewrite Forall_forall in HLb. now apply HLb.
      + rewrite Hr. apply Forall_forall. intros r Hin. apply in_map_iff in Hin as ([r' l'] & <- & Hin).
        apply filter_In in Hin as [Hin _]. apply in_combine_l in Hin.
        pose proof (wf_nonan _ _ _ W) as HN. rewrite Forall_forall in HN. now apply HN.
      + apply (wf_u32 _ _ _ W).
    - unfold samples at 1. rewrite Hr, Hl. apply combine_map_fst_snd. }
  split; auto.
  destruct (Hsub _ fd B1 B2 ltac:(tauto) B3) as [F1 F2].
  destruct (Hsub _ td A1 A2 ltac:(tauto) A3) as [T1 T2]. auto.
Qed.

Lemma calc_total nc nt kind d :
  wf_dataset nc nt d -> exists o, leaf_output_calculator_new kind d = Ok o /\ length o = nt.
Proof.
  intros W. pose proof (wf_labels _ _ _ W) as Hl. pose proof (wf_lengths _ _ _ W) as HL.
  assert (Hne : labels d <> []).
  { pose proof (wf_nonempty _ _ _ W). destruct (labels d); [|discriminate]. destruct (feature_rows d); [congruence|discriminate]. }
  destruct kind; cbn [leaf_output_calculator_new].
  - unfold calculate_leaf_output_squared_loss. rewrite (calculate_average_f64_vector_eq nt) by auto.
    eexists. split; [reflexivity|]. unfold colmean. rewrite map_length. apply colsum_length. now apply rect_ge.
  - unfold calculate_leaf_output_multi_class_loss. rewrite (sum_of_f64_vectors_eq nt) by auto. cbn [bind].
    assert (E : exists v, calculate_denominator_term_for_leaf_output (labels d) = Ok v /\ length v = nt).
    { unfold calculate_denominator_term_for_leaf_output. destruct (labels d) as [|l0 ls] eqn:E; [congruence|].
      cbn [idx nth_error bind]. assert (L0 : length l0 = nt) by now inversion Hl. rewrite L0. clear E Hne HL.
      assert (Hz : length (repeat f0 nt) = nt) by apply repeat_length. revert Hz. generalize (repeat f0 nt) as acc.
      clear L0. induction Hl as [|l lbls Hlen _ IH]; intros acc Hacc; cbn [foldM]; [eauto|].
      unfold add_f64_slices_as_vector at 1. rewrite zip_with_eq by now rewrite map_length, Hlen. cbn [bind].
      apply IH. rewrite map2_length, map_length. lia. }
    destruct E as (v & -> & Lv). cbn [bind]. unfold divide_f64_slices_as_vector.
    assert (Ls : length (colsum nt (labels d)) = nt) by (apply colsum_length; now apply rect_ge).
    rewrite zip_with_eq by lia. cbn [bind].
    destruct (labels d) as [|l0 ls] eqn:E; [congruence|]. cbn [idx nth_error bind].
    eexists. split; [reflexivity|]. unfold multiply_f64_slice_by_f64_scalar. rewrite map_length, map2_length. lia.
Qed.

(** On a usable question partition succeeds. *)
Lemma split_partition nc nt d cfg s level :
  wf_dataset nc nt d -> standard cfg -> tc_number_of_classes cfg = N.of_nat nt ->
  tc_split_finder cfg d (tc_number_of_classes cfg) = Ok s -> stop_here s level (tc_max_levels cfg) = false ->
  exists fd td, partition d (bs_question s) = Ok (fd, td).
Proof.
  intros W Hs Hk E Hst. rewrite Hs, Hk in E. change (find_best_split d (N.of_nat nt) = Ok s) in E.
  destruct (split_usable LW nc nt d W) as (b & Eb & _ & _ & Hu). rewrite E in Eb. injection Eb as <-.
  unfold stop_here in Hst. apply orb_false_iff in Hst as [Hg _].
  destruct (Hu Hg) as (_ & Hc & (i & ri & Hi & Hv) & (j & rj & u & Hj & Hu' & Hlt)).
  destruct (usable_sides LW nc nt d _ i j ri rj u W Hi Hv Hj Hu' Hlt) as [Ht Hf].
  destruct (partition_Ok nc d (bs_question s)) as (fd & td & Ep & _); eauto.
  - apply (wf_lengths _ _ _ W).
  - apply (wf_rows _ _ _ W).
Qed.

Lemma build_total {L} (mk : dataset -> res L) cfg nc nt :
  standard cfg -> tc_number_of_classes cfg = N.of_nat nt ->
  (forall d, wf_dataset nc nt d -> exists l, mk d = Ok l) ->
  forall fuel d level, length (feature_rows d) < fuel -> wf_dataset nc nt d ->
  exists t, build_with mk fuel d cfg level = Ok t.
Proof.
  intros Hs Hk Hmk. induction fuel as [|fuel IH]; intros d level Hf W; [lia|]. simpl.
  destruct (split_usable LW nc nt d W) as (b & Eb & _).
  assert (E : tc_split_finder cfg d (tc_number_of_classes cfg) = Ok b) by (rewrite Hs, Hk; exact Eb).
  rewrite E. simpl. destruct (stop_here _ _ _) eqn:Hst.
  - destruct (Hmk d W) as (l & ->). simpl. eauto.
  - destruct (split_partition nc nt d cfg b level W Hs Hk E Hst) as (fd & td & Ep).
    rewrite Ep. simpl. destruct (partition_wf nc nt d _ fd td W Ep) as (_ & Wf & Wt & _).
    apply partition_shrinks in Ep as [E1 E2].
    destruct (IH td (level + 1)%N ltac:(lia) Wt) as (t & ->). simpl.
    destruct (IH fd (level + 1)%N ltac:(lia) Wf) as (f & ->). simpl. eauto.
Qed.

Lemma build_mismatch {L} (mk : dataset -> res L) cfg nc nt d fuel level :
  standard cfg -> wf_dataset nc nt d -> 0 < nc -> tc_number_of_classes cfg <> N.of_nat nt -> fuel <> 0 ->
  build_with mk fuel d cfg level = Panic.
Proof.
  intros Hs W Hnc Hk Hf. destruct fuel; [congruence|]. simpl. rewrite Hs.
  change (split_finder_new Variance d) with (find_best_split d).
  rewrite <- (N2Nat.id (tc_number_of_classes cfg)).
  rewrite (split_panics_on_mismatch LW nc nt); auto. intros ->. apply Hk. now rewrite N2Nat.id.
Qed.

Lemma built_asks {L} (mk : dataset -> res L) cfg nc nt level d t :
  built mk cfg level d t -> wf_dataset nc nt d -> asks_below nc t.
Proof.
  induction 1 as [level d s l Es Est El|level d s fd td t f Es Est Ep Bt IHt Bf IHf]; intros W; simpl; auto.
  destruct (partition_wf nc nt d _ fd td W Ep) as (Hq & Wf & Wt & _). auto.
Qed.

Lemma Permutation_filter_split {A} (p : A -> bool) l :
  Permutation l (filter p l ++ filter (fun x => negb (p x)) l).
Proof.
  induction l as [|x l IH]; simpl; auto. destruct (p x); simpl.
  - now constructor.
  - rewrite IH at 1. apply Permutation_middle.
Qed.

(** C20 *)
Lemma built_leaves_wf cfg nc nt level d t :
  built mk_reg cfg level d t -> wf_dataset nc nt d ->
  Permutation (leaf_samples t) (samples d) /\
  Forall (fun l => exists x, rl_data l = Some x /\ wf_dataset nc nt x) (leaves t).
Proof.
  induction 1 as [level d s l Es Est El|level d s fd td t f Es Est Ep Bt IHt Bf IHf]; intros W.
  - injection El as <-. unfold leaf_samples. simpl. rewrite app_nil_r. split; auto.
    repeat constructor. exists d. auto.
  - destruct (partition_wf nc nt d _ fd td W Ep) as (Hq & Wf & Wt & St & Sf).
    destruct (IHt Wt) as [Pt Lt], (IHf Wf) as [Pf Lf]. split.
    + unfold leaf_samples in *. simpl. rewrite flat_map_app, Pt, Pf, St, Sf.
      apply Permutation_sym, Permutation_filter_split.
    + simpl. apply Forall_app. auto.
Qed.

(** C21 *)
Definition same_answers (qs : list question) (x : list F) (row : list F) : bool :=
  forallb (fun q => Bool.eqb (answers q row) (answers q x)) qs.

Lemma filter_filter {A} (p q : A -> bool) l : filter p (filter q l) = filter (fun x => q x && p x) l.
Proof.
  induction l as [|x l IH]; simpl; auto. destruct (q x) eqn:E; simpl; rewrite IH; auto.
Qed.

Lemma built_lookup cfg nc nt level d t x :
  built mk_reg cfg level d t -> wf_dataset nc nt d -> nc <= length x ->
  exists ld, find_leaf_node_for_data x t = Ok (mkRL (Some ld)) /\
    samples ld = filter (fun p => same_answers (path x t) x (fst p)) (samples d) /\ wf_dataset nc nt ld.
Proof.
  induction 1 as [level d s l Es Est El|level d s fd td t f Es Est Ep Bt IHt Bf IHf]; intros W Hx.
  - injection El as <-. exists d. simpl. split; [reflexivity|]. split; auto. symmetry. apply filter_all. reflexivity.
  - destruct (partition_wf nc nt d _ fd td W Ep) as (Hq & Wf & Wt & St & Sf).
    simpl. rewrite solve_Ok by lia. simpl. destruct (answers (bs_question s) x) eqn:A.
    + destruct (IHt Wt Hx) as (ld & E & Hs & Hw). exists ld. split; [exact E|]. split; auto. rewrite Hs, St, filter_filter.
      apply filter_ext_In. intros p _. unfold same_answers. simpl.
      destruct (answers (bs_question s) (fst p)); reflexivity.
    + destruct (IHf Wf Hx) as (ld & E & Hs & Hw). exists ld. split; [exact E|]. split; auto. rewrite Hs, Sf, filter_filter.
      apply filter_ext_In. intros p _. unfold same_answers. simpl.
      destruct (answers (bs_question s) (fst p)); reflexivity.
Qed.

(** C26 *)
Lemma built_cut cfg cfg' nc nt level d t :
  built mk_reg cfg' level d t -> wf_dataset nc nt d ->
  tc_split_finder cfg = tc_split_finder cfg' -> tc_number_of_classes cfg = tc_number_of_classes cfg' ->
  (level <= tc_max_levels cfg)%N -> (tc_max_levels cfg <= tc_max_levels cfg')%N ->
  exists t', built mk_reg cfg level d t' /\ cut_at (N.to_nat (tc_max_levels cfg - level)) t t'.
Proof.
  intros H. induction H as [level d s l Es Est El|level d s fd td t f Es Est Ep Bt IHt Bf IHf]; intros W H1 H2 H3 H4.
  - exists (leaf_node (bs_question s) l). split; [|constructor].
    eapply built_leaf; eauto. { rewrite H1, H2. exact Es. }
    unfold stop_here in *. apply orb_true_iff in Est as [Est|Est]; [now rewrite Est|].
    apply N.eqb_eq in Est. assert (level = tc_max_levels cfg) by lia. subst level. rewrite H. rewrite N.eqb_refl. apply orb_true_r.
  - destruct (partition_wf nc nt d _ fd td W Ep) as (Hq & Wf & Wt & St & Sf).
    destruct (N.eq_dec level (tc_max_levels cfg)) as [->|Hne].
    + exists (leaf_node (bs_question s) (mkRL (Some d))). split.
      * eapply built_leaf; [rewrite H1, H2; exact Es|apply stop_here_max|reflexivity].
      * rewrite N.sub_diag. apply cut_here.
        assert (B : built mk_reg cfg' (tc_max_levels cfg) d (node_new (bs_question s) t f)) by (eapply built_node; eauto).
        symmetry. apply (built_leaves_wf cfg' nc nt _ _ _ B W).
    + destruct (IHt Wt H1 H2) as (t' & Bt' & Ct); try lia.
      destruct (IHf Wf H1 H2) as (f' & Bf' & Cf); try lia.
      exists (node_new (bs_question s) t' f'). split.
      * eapply built_node; eauto. { rewrite H1, H2. exact Es. }
        unfold stop_here in *. apply orb_false_iff in Est as [Est _]. rewrite Est. simpl.
        now apply N.eqb_neq.
      * replace (N.to_nat (tc_max_levels cfg - level)) with (S (N.to_nat (tc_max_levels cfg - (level + 1)))) by lia.
        now constructor.
Qed.

End Wf.
End Tree.
