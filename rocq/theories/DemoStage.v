(** Example runs for C67. *)
From Coq Require Import Reals Lra.
From Verif Require Import Base Num ModelCommon ModelTree ModelBoost Spec SpecTree XR SpecExact SpecScore SpecFit ProofBoost ProofBoost2 ProofBoostExact ProofWitness DemoExact DemoBoostExact.
Local Open Scope R_scope.

Lemma plain_done : exists m m' m2,
  regression_boost_train plain (plain_cfg 2) 1 (Fin 1) = Ok m /\ regression_boost_train plain (plain_cfg 2) 2 (Fin 1) = Ok m' /\
  regression_boost_score m plain = Ok (Fin 0) /\ regression_boost_score m' plain = Ok (Fin 0) /\
  regression_boost_train plain (plain_cfg 2) (1 + 9) (Fin 1) = Ok m2.
Proof.
  destruct (plain_step 1) as (m0 & m & E0 & E & _ & S). destruct (plain_trained 2 2 (Fin 1)) as (m' & E'). destruct (plain_trained 2 (1 + 9) (Fin 1)) as (m2 & E2).
  exists m, m', m2. destruct plain_wf as [W Hl]. replace ((1 - 1) * (1 - 1) * 18) with 0 in S by ring.
  destruct (deep_boosting 1 1 plain plain_labels (plain_cfg 2) 1 1 m m') as (e & S1 & S2); auto; try lia; try reflexivity; try exact plain_consistent.
  repeat split; auto. rewrite S2. do 2 f_equal. ring.
Qed.
