(** Tree size (C60). *)
From Verif Require Import Base Num ModelCommon ModelTree ModelBoost Lib Spec SpecTree SpecExtra ProofData ProofSplit
  ProofSplit2 ProofTree ProofTree2 ProofTree3.

Section Size.
Context {O : NumOps}.

Lemma built_size {L} (mk : dataset -> res L) cfg level d t :
  built mk cfg level d t ->
  node_count t + 1 = 2 * length (leaves t) /\
  ((level <= tc_max_levels cfg)%N -> (N.of_nat (length (leaves t)) <= 2 ^ (tc_max_levels cfg - level))%N) /\
  (feature_rows d <> [] -> length (leaves t) <= length (feature_rows d)).
Proof.
  induction 1 as [level d s l Es Est El|level d s fd td t f Es Est Ep Bt IHt Bf IHf]; simpl.
  - split; [reflexivity|]. split.
    + intros _. pose proof (N.pow_nonzero 2 (tc_max_levels cfg - level)). lia.
    + intros Hne. destruct (feature_rows d); [congruence|simpl; lia].
  - apply partition_shrinks in Ep as Hs. destruct Hs as [E1 E2]. destruct IHt as (A1 & A2 & A3), IHf as (B1 & B2 & B3).
    rewrite app_length. split; [lia|]. split.
    + intros Hl. assert (level <> tc_max_levels cfg).
      { intros ->. rewrite stop_here_max in Est. discriminate. }
      specialize (A2 ltac:(lia)). specialize (B2 ltac:(lia)).
      replace (tc_max_levels cfg - level)%N with (N.succ (tc_max_levels cfg - (level + 1))) by lia.
      rewrite N.pow_succ_r'. lia.
    + intros Hne. unfold partition in Ep.
      destruct (partition_rows _ _ _) as [[[tr tl] [fr fl]]| |] eqn:E; simpl in Ep; try discriminate.
      destruct (create_feature_columns fr) as [fc| |] eqn:Ef; simpl in Ep; try discriminate.
      destruct (create_feature_columns tr) as [tc| |] eqn:Et; simpl in Ep; try discriminate.
      injection Ep as <- <-. simpl in *. apply create_feature_columns_nonempty in Ef, Et.
      apply partition_rows_count in E. rewrite combine_length in E.
      specialize (A3 Et). specialize (B3 Ef). lia.
Qed.

Lemma size_bound {L} (mk : dataset -> res L) cfg d t :
  standard cfg -> build_with mk (fuel_for d) d cfg 0 = Ok t ->
  node_count t + 1 = 2 * length (leaves t) /\ length (leaves t) <= length (feature_rows d) /\
  (N.of_nat (length (leaves t)) <= 2 ^ tc_max_levels cfg)%N.
Proof.
  intros Hs E. apply build_with_built in E. destruct (built_size mk cfg 0 d t E) as (H1 & H2 & H3).
  pose proof (built_root_rows mk cfg 0 d t Hs E) as Hne. split; auto. split; auto.
  specialize (H2 ltac:(lia)). now rewrite N.sub_0_r in H2.
Qed.

Theorem regression_size d cfg t : standard cfg -> regression_tree_new d cfg = Ok t ->
  node_count t + 1 = 2 * length (leaves t) /\ length (leaves t) <= length (feature_rows d) /\
  (N.of_nat (length (leaves t)) <= 2 ^ tc_max_levels cfg)%N.
Proof. intros Hs. rewrite regression_tree_new_eq. now apply size_bound. Qed.
Theorem grad_boost_size d cfg calc t : standard cfg -> grad_boost_tree_new d cfg calc = Ok t ->
  node_count t + 1 = 2 * length (leaves t) /\ length (leaves t) <= length (feature_rows d) /\
  (N.of_nat (length (leaves t)) <= 2 ^ tc_max_levels cfg)%N.
Proof. intros Hs. rewrite grad_boost_tree_new_eq. now apply size_bound. Qed.
Theorem amg_size d cfg calc t : standard cfg -> amg_boost_tree_new d cfg calc = Ok t ->
  node_count t + 1 = 2 * length (leaves t) /\ length (leaves t) <= length (feature_rows d) /\
  (N.of_nat (length (leaves t)) <= 2 ^ tc_max_levels cfg)%N.
Proof. intros Hs. rewrite amg_boost_tree_new_eq. now apply size_bound. Qed.

End Size.
