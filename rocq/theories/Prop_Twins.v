(** Property C110: test rows with the same features. *)
From Coq Require Import Reals Permutation.
From Flocq Require Import IEEE754.BinarySingleNaN.
From Verif Require Import Base Num F64 ModelCommon ModelTree ModelBoost Spec SpecTree XR SpecExact SpecScore SpecFit SpecF64 SpecTwins
  ProofTwins ProofTwins3 ProofWitness Decide Check Demo DemoExact DemoBoostExact DemoTwins.
Local Open Scope R_scope.

(* ------------------------------------------------------------------ *)
(** ** C110 *)

(** [groups] lists the test samples, in any order, by their feature rows. In exact arithmetic no ensemble's error on them is below what their own
    mean labels leave, and it is that only if every row is answered with the mean of its labels. *)
Theorem C110_ensemble_error (nc nt : nat) (d : dataset) (ls : list (list R)) (cfg : tree_config) (n : nat) (lr : R) (m : regression_boost_model)
    (test : dataset) (tls : list (list R)) (groups : list (list xr * list (list R))) :
  wf_dataset nc nt d -> real_labels ls d -> (0 < nt)%nat -> regression_boost_train d cfg n (Fin lr) = Ok m ->
  real_labels tls test -> tls <> [] -> rectangular nt tls -> length (feature_rows test) = length tls ->
  (forall row, In row (feature_rows test) -> (nc <= length row)%nat) ->
  Permutation (combine (feature_rows test) tls) (listed groups) ->
  exists e, regression_boost_score m test = Ok (Fin e) /\ irreducible_error nt groups <= e /\
    (e = irreducible_error nt groups <-> forall g, In g groups -> snd g <> [] -> regression_boost_predict m (fst g) = Ok (map Fin (mean_label nt (snd g)))).
Proof. exact (twins_boost nc nt d ls cfg n lr m test tls groups). Qed.
Print Assumptions C110_ensemble_error.

Theorem C110_tree_error (nc nt : nat) (d : dataset) (ls : list (list R)) (cfg : tree_config) (t : tree_node regression_leaf)
    (test : dataset) (tls : list (list R)) (groups : list (list xr * list (list R))) :
  wf_dataset nc nt d -> real_labels ls d -> (0 < nt)%nat -> regression_tree_new d cfg = Ok t ->
  real_labels tls test -> tls <> [] -> rectangular nt tls -> length (feature_rows test) = length tls ->
  (forall row, In row (feature_rows test) -> (nc <= length row)%nat) ->
  Permutation (combine (feature_rows test) tls) (listed groups) ->
  exists e, calculate_overall_mean_squared_error test t = Ok (Fin e) /\ irreducible_error nt groups <= e /\
    (e = irreducible_error nt groups <-> forall g, In g groups -> snd g <> [] -> tree_prediction (fst g) t = Ok (map Fin (mean_label nt (snd g)))).
Proof. exact (twins_tree nc nt d ls cfg t test tls groups). Qed.
Print Assumptions C110_tree_error.

(** With floating-point numbers: of the rows with the same features, no classifier has more right than the largest class among them. *)
Theorem C110_tree_accuracy (P : platform) (O := f64_ops P) (nc nt : nat) (d : dataset) (cfg : tree_config) (t : tree_node regression_leaf)
    (test : dataset) (groups : list (list f64 * list (list f64))) :
  wf_dataset nc nt d -> (0 < nt)%nat -> (Z.of_nat nt <= 2 ^ 53)%Z -> regression_tree_new d cfg = Ok t ->
  length (labels test) = length (feature_rows test) -> feature_rows test <> [] -> (Z.of_nat (length (feature_rows test)) <= 2 ^ 53)%Z ->
  rectangular nt (labels test) -> (forall row, In row (feature_rows test) -> (nc <= length row)%nat) -> Permutation (samples test) (listed groups) ->
  exists k r, calculate_accuracy test t = Ok r /\ is_fraction k (length (feature_rows test)) r /\
    (k <= list_sum (map (fun g => largest_class nt (snd g)) groups))%nat.
Proof. exact (tree_twins P nc nt d cfg t test groups). Qed.
Print Assumptions C110_tree_accuracy.

Theorem C110_multi_class_accuracy (P : platform) (O := f64_ops P) (m : multi_class_boost_model) (nt : nat) (test : dataset)
    (groups : list (list f64 * list (list f64))) :
  length (labels test) = length (feature_rows test) -> feature_rows test <> [] -> (Z.of_nat (length (feature_rows test)) <= 2 ^ 53)%Z ->
  rectangular nt (labels test) -> Forall (fun row => exists v, multi_class_boost_predict m row = Ok v) (feature_rows test) ->
  Permutation (samples test) (listed groups) ->
  exists k r, multi_class_boost_score m test = Ok r /\ is_fraction k (length (feature_rows test)) r /\
    (k <= list_sum (map (fun g => largest_class nt (snd g)) groups))%nat.
Proof. exact (multi_class_twins P m nt test groups). Qed.
Print Assumptions C110_multi_class_accuracy.

Theorem C110_amg_accuracy (P : platform) (O := f64_ops P) (m : amg_boost_model) (nt : nat) (test : dataset)
    (groups : list (list f64 * list (list f64))) :
  length (labels test) = length (feature_rows test) -> feature_rows test <> [] -> (Z.of_nat (length (feature_rows test)) <= 2 ^ 53)%Z ->
  rectangular nt (labels test) -> Forall (fun row => exists v, amg_boost_predict m row = Ok v) (feature_rows test) ->
  Permutation (samples test) (listed groups) ->
  exists k r, amg_boost_score m test = Ok r /\ is_fraction k (length (feature_rows test)) r /\
    (k <= list_sum (map (fun g => largest_class nt (snd g)) groups))%nat.
Proof. exact (amg_twins P m nt test groups). Qed.
Print Assumptions C110_amg_accuracy.

(** A test set with a row that has the labels 0 and 2: an error of at least 2/3. *)
Example C110_example : wf_dataset 1 1 plain /\ real_labels plain_labels plain /\ (forall n lr, exists m, regression_boost_train plain (plain_cfg 2) n (Fin lr) = Ok m) /\
  real_labels twins_labels twins /\ rectangular 1 twins_labels /\ length (feature_rows twins) = length twins_labels /\
  Permutation (combine (feature_rows twins) twins_labels) (listed twins_groups) /\ irreducible_error 1 twins_groups = 2 / 3.
Proof.
  exact (conj (proj1 plain_wf) (conj (proj2 plain_wf) (conj (fun n lr => plain_trained 2 n (Fin lr)) (conj eq_refl
    (conj twins_rect (conj eq_refl (conj twins_listed twins_irreducible))))))).
Qed.

(** A test set of four rows, three of them alike but of two classes: at most three right, and three are. *)
Example C110_accuracy_example : let O := f64_ops taylor_platform in
  wf_dataset 1 2 four /\ rectangular 2 (labels disputed) /\ Permutation (samples disputed) (listed disputed_groups) /\
  list_sum (map (fun g => largest_class 2 (snd g)) disputed_groups) = 3%nat /\
  (t <- regression_tree_new four (four_cfg 1 true);; calculate_accuracy disputed t) = Ok (Bdiv mode_NE (n64 3) (n64 4)) /\
  (m <- multi_class_boost_train four (four_cfg 1 true) 1 (n64 1);; multi_class_boost_score m disputed) = Ok (Bdiv mode_NE (n64 3) (n64 4)).
Proof.
  intros O. split; [check_wf|]. split; [repeat constructor|]. split; [exact disputed_listed|]. split; [vm_compute; reflexivity|]. compute_eqs.
Qed.
