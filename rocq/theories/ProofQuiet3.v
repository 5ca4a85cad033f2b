(** Training that cannot ask anything: classification ensembles after one iteration, in exact arithmetic (C112). *)
From Coq Require Import Reals Lra Lia.
From Verif Require Import Base Num ModelCommon ModelTree ModelBoost Lib XR Spec SpecTree SpecExact SpecScore SpecFit SpecClass SpecQuiet ProofTree3 ProofFirst ProofQuiet.
Local Open Scope R_scope.

Lemma quiet_first nc nt (d : dataset) cfg lr row :
  (2 <= nt)%nat -> (Z.of_nat nt <= 2 ^ 53)%Z -> wf_dataset nc nt d -> one_hot_labels nt d -> standard cfg -> tc_number_of_classes cfg = N.of_nat nt ->
  nothing_to_ask cfg (feature_rows d) -> (nc <= length row)%nat -> 0 < lr ->
  exists c v, one_hot nt (N.of_nat c) v /\ most_votes nt (labels d) c /\
    (forall m, multi_class_boost_train d cfg 1 (Fin lr) = Ok m -> multi_class_boost_predict m row = Ok v) /\
    (forall m, amg_boost_train d cfg 1 (Fin lr) = Ok m -> amg_boost_predict m row = Ok v).
Proof.
  intros Hk Hz W HO Hs Hc Q Hr Hlr. destruct (regression_total xr_laws nc nt d cfg W) as (t & Et); [auto..|].
  destruct (quiet_class xr_laws nc nt d cfg W Hs Hc Q t row ltac:(lia) Hz Hr Et) as (c & v & E1 & E2 & E3). exists c, v. repeat split; try apply E2; try apply E3; auto.
  - intros m Em. rewrite <- E1. exact (multi_class_first_answer nc nt d cfg lr t row Hk Hz W HO Hs Hc Et Hr m Hlr Em).
  - intros m Em. rewrite <- E1. exact (amg_first_answer nc nt d cfg lr t row Hk Hz W HO Hs Hc Et Hr m Hlr Em).
Qed.
