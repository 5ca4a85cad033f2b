(** Example runs for C103: two rows of different classes. *)
From Coq Require Import Reals Lra Lia.
From Verif Require Import Base Num ModelCommon ModelTree ModelBoost Lib XR Spec SpecTree SpecExact SpecScore SpecFit SpecError SpecClass SpecAffine SpecGradient SpecLoss ProofReal ProofSort ProofData
  ProofSplit ProofSplit2 ProofTree ProofTree3 ProofScore ProofSplitExact ProofSplitExact2 ProofTreeExact ProofScoreExact ProofBoost ProofBoost2 ProofLeaf ProofBoostExact
  ProofBalance ProofClassExact ProofClassRun ProofGradient ProofDescent ProofLoss ProofSeparate ProofWitness DemoExact DemoBoostExact.
Local Open Scope R_scope.

Lemma two_consistent : consistent two.
Proof.
  intros row l l' H1 H2. unfold samples, two, real_data in H1, H2. cbn [feature_rows labels map combine] in H1, H2.
  destruct H1 as [H1|[H1|[]]], H2 as [H2|[H2|[]]]; injection H1 as <- <-; injection H2; intros; subst; auto; lra.
Qed.

Lemma two_multi_learnt n lr : (0 < n)%nat -> 0 < lr -> exists m, multi_class_boost_train two (two_cfg 1) n (Fin lr) = Ok m /\
  multi_class_boost_predict m [Fin 0] = Ok [Fin 1; Fin 0] /\ multi_class_boost_predict m [Fin 1] = Ok [Fin 0; Fin 1] /\
  multi_class_boost_score m two = Ok (Fin 1).
Proof.
  intros Hn Hl. destruct (two_multi 1 n (Fin lr)) as (m & E). exists m. split; [exact E|].
  assert (Hz : (Z.of_nat 2 <= 2 ^ 53)%Z) by lia.
  assert (Hd : (N.of_nat (length (feature_rows two)) <= tc_max_levels (two_cfg 1) + 1)%N) by (cbn; lia).
  repeat split.
  - apply (multi_class_learns 1 2 two (two_cfg 1) n lr m); auto; try exact (proj1 two_wf); try exact two_one_hot; try exact two_consistent; try reflexivity; now left.
  - apply (multi_class_learns 1 2 two (two_cfg 1) n lr m); auto; try exact (proj1 two_wf); try exact two_one_hot; try exact two_consistent; try reflexivity; right; now left.
  - apply (multi_class_full_score 1 2 two (two_cfg 1) n lr m); auto; try exact (proj1 two_wf); try exact two_one_hot; try exact two_consistent; try reflexivity; cbn; lia.
Qed.

Lemma two_amg_learnt n lr : (0 < n)%nat -> 0 < lr -> exists m, amg_boost_train two (two_cfg 1) n (Fin lr) = Ok m /\
  amg_boost_predict m [Fin 0] = Ok [Fin 1; Fin 0] /\ amg_boost_predict m [Fin 1] = Ok [Fin 0; Fin 1] /\
  amg_boost_score m two = Ok (Fin 1).
Proof.
  intros Hn Hl. destruct (two_amg 1 n (Fin lr)) as (m & E). exists m. split; [exact E|].
  assert (Hz : (Z.of_nat 2 <= 2 ^ 53)%Z) by lia.
  assert (Hd : (N.of_nat (length (feature_rows two)) <= tc_max_levels (two_cfg 1) + 1)%N) by (cbn; lia).
  repeat split.
  - apply (amg_learns 1 2 two (two_cfg 1) n lr m); auto; try exact (proj1 two_wf); try exact two_one_hot; try exact two_consistent; try reflexivity; now left.
  - apply (amg_learns 1 2 two (two_cfg 1) n lr m); auto; try exact (proj1 two_wf); try exact two_one_hot; try exact two_consistent; try reflexivity; right; now left.
  - apply (amg_full_score 1 2 two (two_cfg 1) n lr m); auto; try exact (proj1 two_wf); try exact two_one_hot; try exact two_consistent; try reflexivity; cbn; lia.
Qed.
