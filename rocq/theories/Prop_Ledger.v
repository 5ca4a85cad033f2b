(** Property C109: the training error is the label variance minus what the trees explain, in exact arithmetic. *)
From Coq Require Import Reals.
From Verif Require Import Base Num ModelCommon ModelTree ModelBoost Spec SpecTree XR SpecExact SpecScore SpecFit SpecStage ProofLedger ProofWitness DemoExact DemoBoostExact.
Local Open Scope R_scope.

(* ------------------------------------------------------------------ *)
(** ** C109 *)

(** [oss] are the outputs of the trees for the training rows, tree by tree. *)
Theorem C109_ledger (nc nt : nat) (d : dataset) (ls : list (list R)) (cfg : tree_config) (n : nat) (lr : R) (m : regression_boost_model) :
  wf_dataset nc nt d -> real_labels ls d -> (0 < nt)%nat -> regression_boost_train d cfg n (Fin lr) = Ok m ->
  exists oss, Forall2 (fun t os => outputs t (feature_rows d) os /\ rectangular nt os) (m_trees m) oss /\
    regression_boost_score m d = Ok (Fin ((total_variance nt ls - lr * (2 - lr) * Rsum (map (total_variance nt) oss)) / INR nt)).
Proof. exact (fun W Hl Hk => ledger nc nt d ls cfg lr W Hl Hk n m). Qed.
Print Assumptions C109_ledger.

(** However many trees there are, their outputs vary in total by at most a fixed multiple of the label variance. *)
Theorem C109_bounded (nc nt : nat) (d : dataset) (ls : list (list R)) (cfg : tree_config) (n : nat) (lr : R) (m : regression_boost_model)
    (oss : list (list (list R))) :
  wf_dataset nc nt d -> real_labels ls d -> (0 < nt)%nat -> 0 < lr < 2 -> regression_boost_train d cfg n (Fin lr) = Ok m ->
  Forall2 (fun t os => outputs t (feature_rows d) os) (m_trees m) oss ->
  Rsum (map (total_variance nt) oss) <= total_variance nt ls / (lr * (2 - lr)).
Proof. exact (fun W Hl Hk => ledger_bound nc nt d ls cfg lr W Hl Hk n m oss). Qed.
Print Assumptions C109_bounded.

(** Whatever the learning rate, some iteration among the first [n] brings less than [eps] once [n * eps] exceeds the error of the initial guess. *)
Theorem C109_some_small_step (nc nt : nat) (d : dataset) (ls : list (list R)) (cfg : tree_config) (n : nat) (lr eps : R) (m : regression_boost_model) :
  wf_dataset nc nt d -> real_labels ls d -> (0 < nt)%nat -> 0 < eps -> total_variance nt ls / INR nt < INR n * eps ->
  regression_boost_train d cfg n (Fin lr) = Ok m ->
  exists k e e', (k < n)%nat /\ regression_boost_score (first_trees k m) d = Ok (Fin e) /\
    regression_boost_score (first_trees (S k) m) d = Ok (Fin e') /\ e - eps < e'.
Proof. exact (fun W Hl Hk => some_small_step nc nt d ls cfg lr W Hl Hk n m eps). Qed.
Print Assumptions C109_some_small_step.

(** With learning rates from 0 to 2 the training error converges, from above. *)
Theorem C109_converges (nc nt : nat) (d : dataset) (ls : list (list R)) (cfg : tree_config) (lr : R) :
  wf_dataset nc nt d -> real_labels ls d -> (0 < nt)%nat -> standard cfg -> tc_number_of_classes cfg = N.of_nat nt -> (Z.of_nat nt <= 2 ^ 53)%Z ->
  0 <= lr <= 2 ->
  exists e, 0 <= e <= total_variance nt ls / INR nt /\
  (forall n m, regression_boost_train d cfg n (Fin lr) = Ok m -> exists x, regression_boost_score m d = Ok (Fin x) /\ e <= x) /\
  forall eps, 0 < eps -> exists N, forall n m x, (N <= n)%nat -> regression_boost_train d cfg n (Fin lr) = Ok m ->
    regression_boost_score m d = Ok (Fin x) -> x < e + eps.
Proof. exact (error_converges nc nt d ls cfg lr). Qed.
Print Assumptions C109_converges.

(** Three rows, labels 0, 0 and 9: the errors go down from 18, by the factor (1 - lr)^2 in the first iteration. *)
Example C109_example : wf_dataset 1 1 plain /\ real_labels plain_labels plain /\ standard (plain_cfg 2) /\ tc_number_of_classes (plain_cfg 2) = 1%N /\
  (forall n lr, exists m, regression_boost_train plain (plain_cfg 2) n (Fin lr) = Ok m) /\
  forall lr, exists m m', regression_boost_train plain (plain_cfg 2) 0 (Fin lr) = Ok m /\ regression_boost_train plain (plain_cfg 2) 1 (Fin lr) = Ok m' /\
    regression_boost_score m plain = Ok (Fin 18) /\ regression_boost_score m' plain = Ok (Fin ((1 - lr) * (1 - lr) * 18)).
Proof.
  exact (conj (proj1 plain_wf) (conj (proj2 plain_wf) (conj eq_refl (conj eq_refl (conj (fun n lr => plain_trained 2 n (Fin lr)) plain_step))))).
Qed.
