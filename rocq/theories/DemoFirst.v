(** Example runs for C104: two rows of different classes. *)
From Coq Require Import Reals Lra Lia.
From Verif Require Import Base Num ModelCommon ModelTree ModelBoost Lib XR Spec SpecTree SpecExact SpecScore SpecFit SpecError SpecClass SpecAffine SpecGradient SpecLoss ProofReal ProofSort ProofData
  ProofSplit ProofSplit2 ProofTree ProofTree3 ProofScore ProofSplitExact ProofSplitExact2 ProofTreeExact ProofScoreExact ProofBoost ProofBoost2 ProofLeaf ProofBoostExact
  ProofBalance ProofClassExact ProofClassRun ProofGradient ProofDescent ProofLoss ProofSeparate ProofFirst ProofWitness DemoExact DemoBoostExact DemoSeparate.
Local Open Scope R_scope.

Lemma two_tree m : exists t, regression_tree_new two (two_cfg m) = Ok t.
Proof. exact (regression_total xr_laws 1 2 two (two_cfg m) (proj1 two_wf) eq_refl eq_refl). Qed.

Lemma two_first lr : 0 < lr -> exists t m m', regression_tree_new two (two_cfg 1) = Ok t /\
  multi_class_boost_train two (two_cfg 1) 1 (Fin lr) = Ok m /\ amg_boost_train two (two_cfg 1) 1 (Fin lr) = Ok m' /\
  predict_class [Fin 0] t = Ok [Fin 1; Fin 0] /\ predict_class [Fin 1] t = Ok [Fin 0; Fin 1] /\
  multi_class_boost_predict m [Fin 0] = Ok [Fin 1; Fin 0] /\ amg_boost_predict m' [Fin 1] = Ok [Fin 0; Fin 1].
Proof.
  intros Hl. destruct (two_tree 1) as (t & Et). destruct (two_multi_learnt 1 lr ltac:(lia) Hl) as (m & Em & A & B & _).
  destruct (two_amg_learnt 1 lr ltac:(lia) Hl) as (m' & Em' & A' & B' & _). exists t, m, m'.
  assert (Hz : (Z.of_nat 2 <= 2 ^ 53)%Z) by lia.
  assert (H : forall row, (1 <= length row)%nat -> multi_class_boost_predict m row = predict_class row t).
  { intros row Hr. exact (multi_class_first_answer 1 2 two (two_cfg 1) lr t row (le_n 2) Hz (proj1 two_wf) two_one_hot eq_refl eq_refl Et Hr m Hl Em). }
  rewrite <- (H [Fin 0]), <- (H [Fin 1]) by (cbn; lia). auto 9.
Qed.
