(** Concrete exact-arithmetic trees for the examples. *)
From Coq Require Import Reals Lra Permutation.
From Verif Require Import Base Num ModelCommon ModelTree Lib XR Spec SpecTree SpecExact SpecScore SpecFit ProofReal ProofData ProofTree ProofTree3
  ProofSplitExact ProofSplitExact2 ProofWitness ProofTreeExact.
Local Open Scope R_scope.

Definition plain_cfg (m : N) : @tree_config xr_ops := mkTC (split_finder_new Variance) false 1 m.

Definition plain_high := real_data [[2]] [[2]] [[9]].
Definition plain_low := real_data [[0]; [1]] [[0; 1]] [[0]; [0]].

Lemma plain_partition : partition plain (@Question xr_ops 0 (Fin 2)) = Ok (plain_low, plain_high).
Proof.
  unfold plain, partition, partition_rows, real_data, solve, idxN. cbn.
  destruct (Rle_dec 2 2) as [_|H]; [|lra]. cbn. destruct (Rle_dec 2 0) as [H|_]; [lra|]. cbn.
  destruct (Rle_dec 2 1) as [H|_]; [lra|]. reflexivity.
Qed.

Lemma plain_tree m : (0 < m)%N -> exists q1 q2,
  regression_tree_new plain (plain_cfg m) =
  Ok (node_new (@Question xr_ops 0 (Fin 2)) (leaf_node q1 (mkRL (Some plain_high))) (leaf_node q2 (mkRL (Some plain_low)))).
Proof.
  intros Hm. rewrite regression_tree_new_eq. change (fuel_for plain) with 4%nat.
  cbn [build_with]. change (tc_split_finder (plain_cfg m)) with (@find_best_split xr_ops). cbn [plain_cfg tc_number_of_classes tc_max_levels].
  destruct plain_split as (b & E & Eg & Eq).
  rewrite E. cbn [bind]. assert (S1 : stop_here b 0 m = false).
  { unfold stop_here. rewrite Eg. change (xeqb (Fin 18) (Fin 0) || (0 =? m)%N = false). apply orb_false_iff. split.
    - unfold xeqb. cbn. destruct (Rle_dec 18 0); [lra|]. reflexivity.
    - apply N.eqb_neq. lia. }
  rewrite S1, Eq, plain_partition. cbn [bind].
  assert (Wh : wf_dataset 1 1 plain_high /\ real_labels [[9]] plain_high) by (unfold plain_high; real_wf).
  assert (Wl : wf_dataset 1 1 plain_low /\ real_labels [[0]; [0]] plain_low) by (unfold plain_low; real_wf).
  destruct (found _ _ _ (proj1 Wh)) as (bh & Eh). destruct (found _ _ _ (proj1 Wl)) as (bl & El).
  change (N.of_nat 1) with 1%N in *. rewrite Eh, El. cbn [bind].
  assert (Gh : bs_gain bh = Fin 0). { apply (pure_no_gain 1 1 plain_high [[9]] [9] bh); try apply Wh; auto. intros x [<-|[]]. reflexivity. }
  assert (Gl : bs_gain bl = Fin 0). { apply (pure_no_gain 1 1 plain_low [[0]; [0]] [0] bl); try apply Wl; auto. intros x [<-|[<-|[]]]; reflexivity. }
  assert (E0 : xeqb (Fin 0) (Fin 0) = true) by now apply xeqb_Fin.
  unfold stop_here. rewrite Gh, Gl. change (@feqb xr_ops) with xeqb. change (@f0 xr_ops) with (Fin 0). rewrite E0. cbn [orb bind mk_reg].
  eauto.
Qed.

Lemma plain_consistent : consistent plain.
Proof.
  intros row l l' H1 H2. unfold samples, plain, real_data in H1, H2. cbn [feature_rows labels map combine] in H1, H2.
  destruct H1 as [H1|[H1|[H1|[]]]], H2 as [H2|[H2|[H2|[]]]]; injection H1 as <- <-; injection H2; intros; subst; auto; lra.
Qed.

Lemma plain_predicts : exists t, regression_tree_new plain (plain_cfg 2) = Ok t /\
  tree_prediction [Fin 7] t = Ok [Fin 9] /\ tree_prediction [Fin (3/2)] t = Ok [Fin 0] /\ length (path [Fin 7] t) = 1%nat.
Proof.
  destruct (plain_tree 2) as (q1 & q2 & E); [lia|]. eexists. split; [exact E|].
  assert (Wh : wf_dataset 1 1 plain_high /\ real_labels [[9]] plain_high) by (unfold plain_high; real_wf).
  assert (Wl : wf_dataset 1 1 plain_low /\ real_labels [[0]; [0]] plain_low) by (unfold plain_low; real_wf).
  unfold tree_prediction, node_new, leaf_node, path, solve, idxN, answers. cbn.
  destruct (Rle_dec 2 7) as [_|H]; [|lra]. destruct (Rle_dec 2 (3/2)) as [H|_]; [lra|]. cbn [bind unwrap rl_data length].
  rewrite (leaf_prediction 1 1 plain_high) by (try apply Wh; rewrite (real_rl _ _ (proj2 Wh)); apply Wh).
  rewrite (leaf_prediction 1 1 plain_low) by (try apply Wl; rewrite (real_rl _ _ (proj2 Wl)); apply Wl).
  rewrite (real_rl _ _ (proj2 Wh)), (real_rl _ _ (proj2 Wl)).
  unfold means, mean, target. cbn. repeat split; do 3 f_equal; field.
Qed.

Lemma plain_errors : exists t t',
  regression_tree_new plain (with_levels 0 (plain_cfg 2)) = Ok t /\ regression_tree_new plain (plain_cfg 2) = Ok t' /\
  calculate_overall_mean_squared_error plain t = Ok (Fin 18) /\ calculate_overall_mean_squared_error plain t' = Ok (Fin 0).
Proof.
  destruct plain_wf as [W Hl].
  destruct (regression_total xr_laws 1 1 plain (with_levels 0 (plain_cfg 2)) W eq_refl eq_refl) as (t & E).
  destruct (plain_tree 2) as (q1 & q2 & E'); [lia|].
  exists t. eexists. split; [exact E|]. split; [exact E'|]. split.
  - rewrite (single_leaf_error 1 1 plain plain_labels (plain_cfg 2) t W Hl) by (auto; lia). do 2 f_equal.
    unfold plain_labels, total_variance, variance, mean, target. cbn. field.
  - apply (deep_tree_zero_error 1 1 plain plain_labels (plain_cfg 2)); auto; try exact plain_consistent; try reflexivity; try lia.
Qed.
