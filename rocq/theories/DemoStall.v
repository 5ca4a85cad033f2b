(** Example run for C67: at rate 2 the error stays while the answers move. *)
From Coq Require Import Reals Lra Lia.
From Verif Require Import Base Num ModelCommon ModelTree ModelBoost Lib XR Spec SpecTree SpecExact SpecScore SpecFit SpecError SpecStage SpecAffine ProofReal ProofData
  ProofTree ProofTree3 ProofScore ProofTreeExact ProofScoreExact ProofBoost ProofBoost2 ProofLeaf ProofBoostExact ProofBalance
  ProofShift ProofStage ProofBlend ProofWitness DemoExact DemoBoostExact DemoRestart.
Local Open Scope R_scope.

Lemma plain_rate_two : exists m m', regression_boost_train plain (plain_cfg 2) 0 (Fin 2) = Ok m /\ regression_boost_train plain (plain_cfg 2) 1 (Fin 2) = Ok m' /\
  regression_boost_score m plain = Ok (Fin 18) /\ regression_boost_score m' plain = Ok (Fin 18) /\
  regression_boost_predict m [Fin 7] = Ok [Fin 3] /\ regression_boost_predict m' [Fin 7] = Ok [Fin 15].
Proof.
  destruct (plain_trained 2 0 (Fin 2)) as (m & E). destruct (plain_blend 2) as (t & m' & _ & E' & _ & _ & A & _). exists m, m'. destruct plain_wf as [W Hl].
  pose proof (plain_start 2 m E) as S.
  destruct (stage_error 1 1 plain plain_labels (plain_cfg 2) 2 W Hl ltac:(lia) 0 m m' E E') as (t' & ps & os & e & _ & _ & _ & _ & _ & _ & _ & S1 & S2).
  rewrite S in S1. injection S1 as <-. split; [exact E|]. split; [exact E'|]. split; [exact S|]. split; [rewrite S2; do 2 f_equal; ring|]. split; [|rewrite A; apply Fin1; ring].
  destruct (guess_real _ _ _ _ _ _ _ _ W Hl E) as (Hg & Hlr & HT). unfold regression_boost_predict. rewrite predict_instance_raw, Hg. destruct (m_trees m); [|discriminate].
  unfold means. cbn [seq map]. assert (EM : mean (target 0 plain_labels) = 3) by (unfold plain_labels, mean, target; cbn; field). rewrite EM. reflexivity.
Qed.
