(** Property C107: a class that no training row has. *)
From Coq Require Import Reals.
From Flocq Require Import IEEE754.BinarySingleNaN.
From Verif Require Import Base Num F64 ModelCommon ModelTree ModelBoost Spec SpecTree XR SpecExact SpecScore SpecFit SpecClass ProofAbsent Decide Check Demo DemoAmg DemoAbsent DemoAbsentFloat.
Local Open Scope R_scope.

(* ------------------------------------------------------------------ *)
(** ** C107 *)

(** With floating-point numbers: the class that a tree answers, for any row at all, is the class of one of the training rows. *)
Theorem C107_tree (P : platform) (O := f64_ops P) (nc nt : nat) (d : dataset) (cfg : tree_config) (t : tree_node regression_leaf) (row : list f64) :
  (0 < nt)%nat -> (Z.of_nat nt <= 2 ^ 53)%Z -> wf_dataset nc nt d -> Forall (fun y => exists c, one_hot nt c y) (labels d) ->
  regression_tree_new d cfg = Ok t -> (nc <= length row)%nat -> exists y, In y (labels d) /\ predict_class row t = Ok y.
Proof. exact (tree_answer_is_label (f64_laws P) eq_refl eq_refl nc nt d cfg t row). Qed.
Print Assumptions C107_tree.

(** In exact arithmetic, so is every answer of an AMG ensemble. *)
Theorem C107_amg_answer (nc nt : nat) (d : dataset) (cfg : tree_config) (n : nat) (lr : R) (m : amg_boost_model) (row : list xr) :
  (2 <= nt)%nat -> (Z.of_nat nt <= 2 ^ 53)%Z -> wf_dataset nc nt d -> one_hot_labels nt d -> amg_boost_train d cfg n (Fin lr) = Ok m ->
  0 < lr -> (0 < n)%nat -> (nc <= length row)%nat -> exists y, In y (labels d) /\ amg_boost_predict m row = Ok y.
Proof. exact (amg_answer_is_label nc nt d cfg n lr m row). Qed.
Print Assumptions C107_amg_answer.

(** The score of a class [j] that no row has is the smallest of all, and below the initial 1/K. *)
Theorem C107_amg_scores (nc nt : nat) (d : dataset) (cfg : tree_config) (n : nat) (lr : R) (j : nat) (m : amg_boost_model) (row : list xr) :
  (2 <= nt)%nat -> (Z.of_nat nt <= 2 ^ 53)%Z -> wf_dataset nc nt d -> one_hot_labels nt d -> (j < nt)%nat ->
  Forall (fun y => nth_error y j = Some (Fin 0)) (labels d) -> amg_boost_train d cfg n (Fin lr) = Ok m ->
  0 < lr -> (0 < n)%nat -> (nc <= length row)%nat ->
  exists s, amg_boost_raw m row = Ok (map Fin s) /\ length s = nt /\ (forall i, (i < nt)%nat -> nth j s 0 <= nth i s 0) /\ nth j s 0 < 1 / INR nt.
Proof. exact (amg_absent_scores nc nt d cfg n lr j m row). Qed.
Print Assumptions C107_amg_scores.

(** In a multi-class ensemble each iteration lowers the score of such a class by at least lr (K-1)/K, for every row. *)
Theorem C107_multi_class_scores (nc nt : nat) (d : dataset) (cfg : tree_config) (n : nat) (lr : R) (j : nat) (m : multi_class_boost_model) (row : list xr) :
  (2 <= nt)%nat -> (Z.of_nat nt <= 2 ^ 53)%Z -> wf_dataset nc nt d -> one_hot_labels nt d -> (j < nt)%nat ->
  Forall (fun y => nth_error y j = Some (Fin 0)) (labels d) -> multi_class_boost_train d cfg n (Fin lr) = Ok m ->
  0 <= lr -> (nc <= length row)%nat ->
  exists s, multi_class_boost_raw m row = Ok (map Fin s) /\ length s = nt /\ nth j s 0 <= 1 / INR nt - INR n * (lr * ((INR nt - 1) / INR nt)).
Proof. exact (fun Hk Hz W HO Hj Ha => multi_class_absent nc nt d cfg n lr j Hk Hz W HO Hj Ha m row). Qed.
Print Assumptions C107_multi_class_scores.

(** Without any iteration an ensemble may answer a class that no row has. *)
Theorem C107_iteration_needed : exists (d : @dataset xr_ops) cfg (m : amg_boost_model) row, wf_dataset 1 3 d /\ one_hot_labels 3 d /\
  amg_boost_train d cfg 0 (Fin 1) = Ok m /\ length row = 1%nat /\ exists y, amg_boost_predict m row = Ok y /\ ~ In y (labels d).
Proof. exact gap_iteration_needed. Qed.
Print Assumptions C107_iteration_needed.

(** With floating-point numbers an ensemble may answer a class that no row has although it was trained: once it has learned every row
    perfectly, its next tree makes the scores infinite (AMG) or NaN (multi-class). *)
Theorem C107_exact_arithmetic_needed : exists P : platform, let O := f64_ops P in
  (exists (d : dataset) (cfg : tree_config) (n : nat) (lr : f64) (m : amg_boost_model) row y,
     wf_dataset 1 3 d /\ Forall (fun l => exists c, one_hot 3 c l) (labels d) /\ (0 < n)%nat /\ is_finite lr = true /\ 0 < B2R lr /\
     amg_boost_train d cfg n lr = Ok m /\ In row (feature_rows d) /\ amg_boost_predict m row = Ok y /\ ~ In y (labels d)) /\
  (exists (d : dataset) (cfg : tree_config) (n : nat) (lr : f64) (m : multi_class_boost_model) row y,
     wf_dataset 1 3 d /\ Forall (fun l => exists c, one_hot 3 c l) (labels d) /\ (0 < n)%nat /\ is_finite lr = true /\ 0 < B2R lr /\
     multi_class_boost_train d cfg n lr = Ok m /\ In row (feature_rows d) /\ multi_class_boost_predict m row = Ok y /\ ~ In y (labels d)).
Proof. exact absent_float. Qed.
Print Assumptions C107_exact_arithmetic_needed.

(** Two rows of the second and third class. *)
Example C107_example : wf_dataset 1 3 gap /\ one_hot_labels 3 gap /\ Forall (fun y => nth_error y 0 = Some (Fin 0)) (labels gap) /\
  forall k n lr, (exists m, amg_boost_train gap (gap_cfg k) n (Fin lr) = Ok m) /\ exists m, multi_class_boost_train gap (gap_cfg k) n (Fin lr) = Ok m.
Proof. exact (conj (proj1 gap_wf) (conj gap_one_hot (conj gap_absent (fun k n lr => conj (gap_amg k n (Fin lr)) (gap_multi k n (Fin lr)))))). Qed.

Example C107_tree_example : let O := f64_ops taylor_platform in wf_dataset 1 2 four /\ Forall (fun y => exists c, one_hot 2 c y) (labels four) /\
  (t <- regression_tree_new four (four_cfg 1 true);; predict_class [n64 4] t) = Ok [n64 1; n64 0].
Proof.
  intros O. split; [check_wf|]. split; [|compute_eqs].
  assert (A : one_hot (O := f64_ops taylor_platform) 2 0 [n64 1; n64 0]) by (split; [reflexivity|split; [reflexivity|intros [|[|i]] H; [reflexivity|reflexivity|exfalso; inversion H as [|? H1]; inversion H1 as [|? H2]; inversion H2]]]).
  assert (B : one_hot (O := f64_ops taylor_platform) 2 1 [n64 0; n64 1]) by (split; [reflexivity|split; [reflexivity|intros [|[|i]] H; [reflexivity|reflexivity|exfalso; inversion H as [|? H1]; inversion H1 as [|? H2]; inversion H2]]]).
  constructor; [now exists 0%N|]. constructor; [now exists 0%N|]. constructor; [now exists 1%N|]. constructor; [now exists 0%N|]. constructor.
Qed.
