(** Property C71: how far a regression ensemble's answers can be from the mean label, in exact arithmetic. *)
From Coq Require Import Reals.
From Verif Require Import Base Num ModelCommon ModelTree ModelBoost Spec SpecTree XR SpecExact ProofBound ProofWitness DemoExact DemoBoostExact DemoBound.
Local Open Scope R_scope.

(* ------------------------------------------------------------------ *)
(** ** C71 *)

(** For any row, seen in training or not. [INR (length ls) * variance (target j ls)] is the sum of the squared
    deviations of the training labels from their mean. *)
Theorem C71_answers_stay_near_the_mean (nc nt : nat) (d : dataset) (ls : list (list R)) (cfg : tree_config) (n : nat) (lr : R)
    (m : regression_boost_model) (row : list xr) :
  wf_dataset nc nt d -> real_labels ls d -> (0 < nt)%nat -> 0 <= lr <= 2 ->
  regression_boost_train d cfg n (Fin lr) = Ok m -> (nc <= length row)%nat ->
  exists p, regression_boost_predict m row = Ok (map Fin p) /\ length p = nt /\
    forall j, (j < nt)%nat ->
      Rabs (nth j p 0 - mean (target j ls)) <= INR n * lr * sqrt (INR (length ls) * variance (target j ls)).
Proof. exact (answers_bounded nc nt d ls cfg n lr m row). Qed.
Print Assumptions C71_answers_stay_near_the_mean.

(** Labels 9, 0, 0: at most n * lr * sqrt 54 from 3, for any number of iterations and depth limit. *)
Example C71_example :
  wf_dataset 1 1 plain /\ real_labels plain_labels plain /\
  (forall levels n lr, exists m, regression_boost_train plain (plain_cfg levels) n lr = Ok m) /\
  INR (length plain_labels) * variance (target 0 plain_labels) = 54 /\ mean (target 0 plain_labels) = 3.
Proof. exact (conj (proj1 plain_wf) (conj (proj2 plain_wf) (conj plain_trained plain_spread))). Qed.
