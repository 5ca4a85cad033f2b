(** Example runs for C105 and C106: three rows, of which one stands out. *)
From Coq Require Import Reals Lra Lia.
From Verif Require Import Base Num ModelCommon ModelTree ModelBoost Lib XR Spec SpecTree SpecExact SpecScore SpecFit SpecError SpecClass SpecAffine ProofReal ProofSort ProofData
  ProofSplit ProofSplit2 ProofTree ProofTree3 ProofScore ProofSplitExact ProofSplitExact2 ProofTreeExact ProofScoreExact ProofBoost ProofBoost2 ProofLeaf ProofBoostExact
  ProofBalance ProofClassExact ProofClassRun ProofShift ProofRestart ProofBlend ProofWitness DemoExact DemoBoostExact.
Local Open Scope R_scope.

Lemma Fin1 x y : x = y -> @Ok (list xr) [Fin x] = Ok [Fin y]. Proof. now intros ->. Qed.

Lemma plain_blend lr : exists t m, regression_tree_new plain (plain_cfg 2) = Ok t /\ regression_boost_train plain (plain_cfg 2) 1 (Fin lr) = Ok m /\
  tree_prediction [Fin 7] t = Ok [Fin 9] /\ tree_prediction [Fin (3/2)] t = Ok [Fin 0] /\
  regression_boost_predict m [Fin 7] = Ok [Fin (3 + 6 * lr)] /\ regression_boost_predict m [Fin (3/2)] = Ok [Fin (3 - 3 * lr)].
Proof.
  destruct plain_predicts as (t & Et & A & B & _). destruct (plain_trained 2 1 (Fin lr)) as (m & E). exists t, m. destruct plain_wf as [W Hl].
  destruct (regression_blend 1 1 plain plain_labels (plain_cfg 2) lr t m W Hl eq_refl eq_refl Et E) as [_ H].
  split; [exact Et|]. split; [exact E|]. split; [exact A|]. split; [exact B|].
  assert (EM : mean (target 0 plain_labels) = 3) by (unfold plain_labels, mean, target; cbn; field).
  split.
  - destruct (H [Fin 7] (le_n 1)) as (p & P1 & P2 & P3). rewrite A in P1. injection P1 as P1. destruct p as [|x [|? ?]]; try discriminate. injection P1 as <-.
    rewrite P3. cbn [seq map combine fst snd]. rewrite EM. apply Fin1. ring.
  - destruct (H [Fin (3/2)] (le_n 1)) as (p & P1 & P2 & P3). rewrite B in P1. injection P1 as P1. destruct p as [|x [|? ?]]; try discriminate. injection P1 as <-.
    rewrite P3. cbn [seq map combine fst snd]. rewrite EM. apply Fin1. ring.
Qed.

Lemma plain_restart n k : exists m preds r m', regression_boost_train plain (plain_cfg 2) n (Fin (1/2)) = Ok m /\
  regression_boost_all_predictions m plain = Ok preds /\
  regression_boost_train (mkDS (feature_rows plain) (differences (labels plain) preds) (feature_columns plain)) (plain_cfg 2) k (Fin (1/2)) = Ok r /\
  regression_boost_train plain (plain_cfg 2) (n + k) (Fin (1/2)) = Ok m'.
Proof. exact (restart_succeeds 1 1 plain plain_labels (plain_cfg 2) n k (1/2) (proj1 plain_wf) (proj2 plain_wf) eq_refl eq_refl ltac:(lia)). Qed.
