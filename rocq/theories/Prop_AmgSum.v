(** Property C42, scores: the class scores of an AMG ensemble add up to 1, in exact arithmetic. *)
From Coq Require Import Reals.
From Verif Require Import Base Num ModelCommon ModelTree ModelBoost Spec SpecTree XR SpecExact SpecScore SpecFit SpecClass ProofAmgSum DemoBoostExact.
Local Open Scope R_scope.

(* ------------------------------------------------------------------ *)
(** ** C42 *)

(** For every row, training row or not, after any number of iterations. *)
Theorem C42_scores_sum_to_one (nc nt : nat) (d : dataset) (cfg : tree_config) (n : nat) (lr : R) (m : amg_boost_model) (row : list xr) :
  (2 <= nt)%nat -> (Z.of_nat nt <= 2 ^ 53)%Z -> wf_dataset nc nt d -> one_hot_labels nt d -> amg_boost_train d cfg n (Fin lr) = Ok m ->
  (nc <= length row)%nat -> exists s, amg_boost_raw m row = Ok (map Fin s) /\ length s = nt /\ Rsum s = 1.
Proof. exact (amg_scores_total nc nt d cfg n lr m row). Qed.
Print Assumptions C42_scores_sum_to_one.

Example C42_scores_example : wf_dataset 1 2 two /\ one_hot_labels 2 two /\ forall n lr, exists m, amg_boost_train two (two_cfg 2) n (Fin lr) = Ok m.
Proof. exact (conj (proj1 two_wf) (conj two_one_hot (fun n lr => two_amg 2 n (Fin lr)))). Qed.
