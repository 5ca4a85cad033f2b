(** One regression boosting iteration blends the mean with the single tree, in exact arithmetic (C106). *)
From Coq Require Import Reals Lra Lia.
From Verif Require Import Base Num ModelCommon ModelTree ModelBoost Lib XR Spec SpecTree SpecExact SpecScore SpecFit SpecError SpecClass SpecAffine ProofReal ProofSort ProofData
  ProofSplit ProofSplit2 ProofTree ProofTree3 ProofScore ProofScore2 ProofSplitExact ProofSplitExact2 ProofTreeExact ProofScoreExact ProofBoost ProofBoost2 ProofLeaf ProofBoostExact
  ProofBalance ProofClassExact ProofClassRun ProofShift ProofFirst.
Local Open Scope R_scope.

Lemma opp_length k (v : list R) : length v = k -> length (map Ropp v) = k.
Proof. intros. now rewrite map_length. Qed.

Lemma centred k l v : length l = k -> length v = k -> vsub l v = affine 1 (map Ropp v) l.
Proof.
  intros Hl Hv. subst k. unfold vsub, affine. revert v Hv. induction l as [|x l IH]; intros [|y v] Hv; try discriminate; auto.
  cbn [map2 map combine fst snd]. f_equal; [ring|]. apply IH. auto.
Qed.

Lemma blend_step k lr v p : length v = k -> length p = k ->
  vstep lr v (affine 1 (map Ropp v) p) = map (fun q => (1 - lr) * fst q + lr * snd q) (combine v p).
Proof.
  intros Hv Hp. subst k. revert p Hp. unfold vstep, affine. induction v as [|x v IH]; intros [|y p] Hp; try discriminate; auto.
  cbn [map combine map2 fst snd]. f_equal; [ring|]. apply IH. auto.
Qed.

Section Blend.
Variables (nc nt : nat) (d : @dataset xr_ops) (ls : list (list R)) (cfg : @tree_config xr_ops) (lr : R) (t : tree_node (@regression_leaf xr_ops)) (m : @regression_boost_model xr_ops).
Hypotheses (W : wf_dataset nc nt d) (Hl : real_labels ls d) (Hst : standard cfg) (Hc : tc_number_of_classes cfg = N.of_nat nt)
  (Et : regression_tree_new d cfg = Ok t) (E : regression_boost_train d cfg 1 (Fin lr) = Ok m).

Theorem regression_blend :
  (exists g, m_trees m = [g] /\ tree_map (fun _ => tt) g = tree_map (fun _ => tt) t) /\
  forall row, (nc <= length row)%nat -> exists p, tree_prediction row t = Ok (map Fin p) /\ length p = nt /\
    regression_boost_predict m row = Ok (map Fin (map (fun q => (1 - lr) * fst q + lr * snd q) (combine (map (fun j => mean (target j ls)) (seq 0 nt)) p))).
Proof.
  destruct (guess_real _ _ _ _ _ _ _ _ W Hl E) as (Hg & Hlr & HT). destruct (real_rect _ _ _ _ W Hl) as [Rl Nl].
  destruct (regression_stage d cfg 1 (Fin lr) m 0 (wf_lengths _ _ _ W) E ltac:(lia)) as (q & g & Q & _ & T & B).
  set (v := means nt ls) in *. assert (Hv : length v = nt) by apply means_length.
  unfold regression_boost_all_predictions in Q. rewrite all_predictions_eq in Q.
  assert (Eq : q = map (map Fin) (map (fun _ => v) ls)).
  { refine (Forall2_real nt _ _ (map (fun _ => v) ls) _ _ _); [|exact Q]. clear Q. pose proof (xr_len nc nt d ls W Hl) as HL. xr. clearbody v. clear -Hv Hg HL.
    revert HL. generalize (feature_rows d). clear d. intros rows. revert rows. induction ls as [|l ls' IH]; intros [|r rows] HL; try discriminate; cbn [map]; [constructor|]; constructor; [|apply IH; now injection HL].
    split; [|exact Hv]. unfold regression_boost_predict. rewrite predict_instance_raw. cbn [first_trees firstn m_trees m_initial_guess]. rewrite Hg. reflexivity. }
  assert (ED : mkDS (feature_rows d) (differences (labels d) q) (feature_columns d) = relabel d (map (affine 1 (map Ropp v)) ls)).
  { unfold relabel. f_equal. rewrite Eq. pose proof Hl as Hl'. unfold real_labels in Hl'. xr. rewrite Hl', differences_Fin. f_equal.
    clearbody v. clear -Rl Hv. induction Rl as [|l ls' Ll Rl IH]; auto. cbn [map map2]. f_equal; [|exact IH]. now apply (centred nt). }
  rewrite ED in B. clear ED Eq Q q.
  assert (Hv' : length (map Ropp v) = nt) by now apply opp_length.
  pose proof (relabel_moved nc nt d ls 1 (map Ropp v) W Hl Hv') as M.
  rewrite regression_tree_new_eq in Et. rewrite grad_boost_tree_new_eq in B. apply build_with_built in Et. apply build_with_built in B.
  destruct (built_moved nc nt 1 (map Ropp v) R1_neq_R0 Hv' _ _ _ _ _ _ _ _ Hst Hc Et B M) as [S L].
  destruct (m_trees m) as [|a [|? ?]] eqn:Em; try discriminate. injection T as ->.
  split; [exists g; auto|]. intros row Hrow.
  destruct (trained_predictions nc nt d ls cfg 1 lr m [row] W Hl E) as (ps & HP). { intros r [<-|[]]. exact Hrow. }
  inversion HP as [|r0 p0 rs0 ps0 [P0 _] _ Hr0 Hps0]. clear HP. unfold regression_boost_predict in *. rewrite predict_instance_raw in *. rewrite Em, Hg, Hlr in *.
  destruct (L row) as [[_ L2]|(x & x' & l & l' & L1 & E1 & L2 & E2 & Mx)].
  { exfalso. unfold raw, gb_out in P0. cbn [mapM] in P0. xr. rewrite L2 in P0. discriminate. }
  pose proof (moved_labels _ _ _ _ _ _ Mx) as Er. destruct Mx as (Wx & Wx' & Lx & Lx' & _). destruct (real_rect _ _ _ _ Wx Lx) as [Rx Nx].
  apply (mk_gb_regression nc nt) in E2; auto. unfold mk_reg in E1. cbn [bind] in E1. injection E1 as <-. subst l'.
  exists (means nt (rl x)). split; [unfold tree_prediction; rewrite L1; cbn [bind rl_data unwrap]; exact (leaf_prediction nc nt x Wx Lx)|]. split; [apply means_length|].
  fold (means nt ls). fold v. rewrite <- (blend_step nt) by (auto; apply means_length).
  apply (one_step (@gb_out xr_ops) nt); auto; [|rewrite (affine_length nt); auto; apply means_length].
  unfold gb_out. xr. rewrite L2. cbn [bind gl_output unwrap]. do 2 f_equal. rewrite Er. apply means_affine; auto.
Qed.

End Blend.

Lemma blend_one v (p : list R) : length v = length p -> map (fun q => (1 - 1) * fst q + 1 * snd q) (combine v p) = p.
Proof. revert p. induction v as [|x v IH]; intros [|y p] H; try discriminate; auto. cbn [combine map fst snd]. f_equal; [ring|]. apply IH. auto. Qed.

(** A full step is the tree. *)
Theorem regression_full_step nc nt d ls cfg t m row :
  wf_dataset nc nt d -> real_labels ls d -> standard cfg -> tc_number_of_classes cfg = N.of_nat nt ->
  regression_tree_new d cfg = Ok t -> regression_boost_train d cfg 1 (Fin 1) = Ok m -> (nc <= length row)%nat ->
  regression_boost_predict m row = tree_prediction row t.
Proof.
  intros W Hl Hst Hc Et E Hrow. destruct (regression_blend nc nt d ls cfg 1 t m W Hl Hst Hc Et E) as [_ H].
  destruct (H row Hrow) as (p & P1 & P2 & P3). rewrite P1, P3. do 2 f_equal. apply blend_one. now rewrite map_length, seq_length.
Qed.

Theorem regression_full_step_error nc nt d ls cfg t m test ys :
  (0 < nt)%nat -> wf_dataset nc nt d -> real_labels ls d -> standard cfg -> tc_number_of_classes cfg = N.of_nat nt ->
  regression_tree_new d cfg = Ok t -> regression_boost_train d cfg 1 (Fin 1) = Ok m ->
  Forall (fun row => (nc <= length row)%nat) (feature_rows test) -> real_labels ys test -> rectangular nt ys -> ys <> [] -> length (feature_rows test) = length ys ->
  regression_boost_score m test = calculate_overall_mean_squared_error test t.
Proof.
  intros Hk W Hl Hst Hc Et E HR Hy Ry Ny Ly.
  destruct (trained_predictions nc nt d ls cfg 1 1 m (feature_rows test) W Hl E) as (ps & HP). { intros r Hr. exact (proj1 (Forall_forall _ _) HR r Hr). }
  rewrite (boost_score_exact nt m test ys ps Hk Hy Ny Ry HP Ly). symmetry. apply (tree_score_exact nt t test ys ps); auto.
  clear -HP HR W Hl Hst Hc Et E. induction HP as [|row p rows ps [P1 P2] HP IH]; constructor; inversion HR; subst; auto.
  split; auto. rewrite <- P1. symmetry. eapply regression_full_step; eauto.
Qed.
