(** Property C101: ensembles and increasing transforms of the features, in binary64 arithmetic on every platform. *)
From Coq Require Import ZArith.
From Flocq Require Import IEEE754.BinarySingleNaN.
From Verif Require Import Base Num ModelCommon ModelTree ModelBoost Spec SpecTree SpecScore SpecTransformBoost F64
  ProofTransformBoost Demo DemoColumns DemoColumnsBoost DemoTransformBoost.
Local Open Scope nat_scope.
Local Existing Instance f64_ops.

Theorem C101_regression (P : platform) (D : nat -> F -> Prop) (phi : nat -> F -> F) (nc nt : nat) (d : dataset) (cfg : tree_config) (n : nat) (lr : F)
    (m : regression_boost_model) :
  increasing_on D phi -> wf_dataset nc nt d -> Forall (row_in D) (feature_rows d) ->
  standard cfg -> tc_number_of_classes cfg = N.of_nat nt -> (Z.of_nat nt <= 2 ^ 53)%Z ->
  regression_boost_train d cfg n lr = Ok m ->
  exists m', regression_boost_train (transform phi d) cfg n lr = Ok m' /\ same_ensemble_but_thresholds phi m m' /\
    (forall row, row_in D row -> nc <= length row -> regression_boost_predict m' (transform_row phi row) = regression_boost_predict m row) /\
    (forall test, Forall (row_in D) (feature_rows test) -> Forall (fun r => nc <= length r) (feature_rows test) ->
      regression_boost_score m' (transform phi test) = regression_boost_score m test).
Proof. exact (fun Hp W Hi Hs Hk Hn => regression_boost_transform (f64_laws P) D phi Hp nc nt d cfg n lr W Hi Hs Hk Hn m). Qed.
Print Assumptions C101_regression.

Theorem C101_multi_class (P : platform) (D : nat -> F -> Prop) (phi : nat -> F -> F) (nc nt : nat) (d : dataset) (cfg : tree_config) (n : nat) (lr : F)
    (m : multi_class_boost_model) :
  increasing_on D phi -> wf_dataset nc nt d -> Forall (row_in D) (feature_rows d) ->
  standard cfg -> tc_number_of_classes cfg = N.of_nat nt -> (Z.of_nat nt <= 2 ^ 53)%Z ->
  multi_class_boost_train d cfg n lr = Ok m ->
  exists m', multi_class_boost_train (transform phi d) cfg n lr = Ok m' /\ same_ensemble_but_thresholds phi m m' /\
    (forall row, row_in D row -> nc <= length row -> multi_class_boost_predict m' (transform_row phi row) = multi_class_boost_predict m row) /\
    (forall test, Forall (row_in D) (feature_rows test) -> Forall (fun r => nc <= length r) (feature_rows test) ->
      multi_class_boost_score m' (transform phi test) = multi_class_boost_score m test).
Proof. exact (fun Hp W Hi Hs Hk Hn => multi_class_boost_transform (f64_laws P) D phi Hp nc nt d cfg n lr W Hi Hs Hk Hn m). Qed.
Print Assumptions C101_multi_class.

Theorem C101_amg (P : platform) (D : nat -> F -> Prop) (phi : nat -> F -> F) (nc nt : nat) (d : dataset) (cfg : tree_config) (n : nat) (lr : F)
    (m : amg_boost_model) :
  increasing_on D phi -> wf_dataset nc nt d -> Forall (row_in D) (feature_rows d) ->
  standard cfg -> tc_number_of_classes cfg = N.of_nat nt -> 0 < nt -> (Z.of_nat nt <= 2 ^ 53)%Z ->
  amg_boost_train d cfg n lr = Ok m ->
  exists m', amg_boost_train (transform phi d) cfg n lr = Ok m' /\ same_ensemble_but_thresholds phi m m' /\
    (forall row, row_in D row -> nc <= length row -> amg_boost_predict m' (transform_row phi row) = amg_boost_predict m row) /\
    (forall test, Forall (row_in D) (feature_rows test) -> Forall (fun r => nc <= length r) (feature_rows test) ->
      amg_boost_score m' (transform phi test) = amg_boost_score m test).
Proof. exact (fun Hp W Hi Hs Hk H0 Hn => amg_boost_transform (f64_laws P) D phi Hp nc nt d cfg n lr W Hi Hs Hk Hn m H0). Qed.
Print Assumptions C101_amg.

(** Doubling feature 0 and subtracting 100 from feature 1: ensembles of three trees, and their first thresholds before and after. *)
Example C101_example :
  let O := f64_ops taylor_platform in
  @increasing_on O (fun _ x => In x small_integers) stretch /\
  @wf_dataset O 2 1 mixed /\ @wf_dataset O 2 3 mixed_classes /\
  Forall (@row_in O (fun _ x => In x small_integers)) (feature_rows mixed) /\ feature_rows mixed_classes = feature_rows mixed /\
  ((exists m, regression_boost_train mixed mixed_cfg 3 rate = Ok m) /\
   (exists m, multi_class_boost_train mixed_classes mixed_classes_cfg 3 rate = Ok m) /\
   (exists m, amg_boost_train mixed_classes mixed_classes_cfg 3 rate = Ok m)) /\
  first_values (regression_boost_train mixed mixed_cfg 3 rate) = Ok [n64 3; n64 3; n64 3] /\
  first_values (regression_boost_train (@transform O stretch mixed) mixed_cfg 3 rate) = Ok [n64 6; n64 6; n64 6].
Proof. exact (conj stretch_increasing (conj mixed_wf (conj mixed_classes_wf (conj mixed_in (conj eq_refl (conj mixed_trained mixed_values)))))). Qed.
