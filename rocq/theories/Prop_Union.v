(** Property C111: scores of two test sets taken together. *)
From Coq Require Import Reals.
From Flocq Require Import IEEE754.BinarySingleNaN.
From Verif Require Import Base Num F64 ModelCommon ModelTree ModelBoost Spec SpecTree XR SpecExact SpecScore SpecF64 SpecUnion
  ProofScoreF64 ProofUnion ProofUnion2 ProofWitness Decide Check Demo DemoExact DemoBoostExact DemoTwins.
Local Open Scope R_scope.

(* ------------------------------------------------------------------ *)
(** ** C111 *)

(** In exact arithmetic the error on [a] and [b] together is the average of the two errors, weighted by the numbers of rows. *)
Theorem C111_ensemble_error (nc nt : nat) (d : dataset) (ls : list (list R)) (cfg : tree_config) (n : nat) (lr : R) (m : regression_boost_model)
    (a b c : dataset) (las lbs : list (list R)) :
  wf_dataset nc nt d -> real_labels ls d -> (0 < nt)%nat -> regression_boost_train d cfg n (Fin lr) = Ok m ->
  wf_dataset nc nt a -> wf_dataset nc nt b -> real_labels las a -> real_labels lbs b -> together a b c ->
  exists ea eb, regression_boost_score m a = Ok (Fin ea) /\ regression_boost_score m b = Ok (Fin eb) /\
    regression_boost_score m c = Ok (Fin ((INR (length las) * ea + INR (length lbs) * eb) / (INR (length las) + INR (length lbs)))).
Proof. exact (boost_together nc nt d ls cfg n lr m a b c las lbs). Qed.
Print Assumptions C111_ensemble_error.

Theorem C111_tree_error (nc nt : nat) (d : dataset) (ls : list (list R)) (cfg : tree_config) (t : tree_node regression_leaf)
    (a b c : dataset) (las lbs : list (list R)) :
  wf_dataset nc nt d -> real_labels ls d -> (0 < nt)%nat -> regression_tree_new d cfg = Ok t ->
  wf_dataset nc nt a -> wf_dataset nc nt b -> real_labels las a -> real_labels lbs b -> together a b c ->
  exists ea eb, calculate_overall_mean_squared_error a t = Ok (Fin ea) /\ calculate_overall_mean_squared_error b t = Ok (Fin eb) /\
    calculate_overall_mean_squared_error c t = Ok (Fin ((INR (length las) * ea + INR (length lbs) * eb) / (INR (length las) + INR (length lbs)))).
Proof. exact (tree_together nc nt d ls cfg t a b c las lbs). Qed.
Print Assumptions C111_tree_error.

(** With floating-point numbers: accuracies [ka/na] and [kb/nb], rounded, make [(ka + kb)/(na + nb)], rounded. *)
Theorem C111_tree_accuracy (P : platform) (O := f64_ops P) (t : tree_node regression_leaf) (a b c : dataset) :
  scorable (fun row => predict_class row t) a -> scorable (fun row => predict_class row t) b -> (Z.of_nat (length (feature_rows c)) <= 2 ^ 53)%Z -> together a b c ->
  exists ka kb ra rb rc, calculate_accuracy a t = Ok ra /\ calculate_accuracy b t = Ok rb /\ calculate_accuracy c t = Ok rc /\
    is_fraction ka (length (feature_rows a)) ra /\ is_fraction kb (length (feature_rows b)) rb /\
    is_fraction (ka + kb) (length (feature_rows a) + length (feature_rows b)) rc.
Proof. exact (accuracy_together P (fun row => predict_class row t) (fun test => calculate_accuracy test t) a b c (fun test => tree_accuracy_f64 P test t)). Qed.
Print Assumptions C111_tree_accuracy.

Theorem C111_multi_class_accuracy (P : platform) (O := f64_ops P) (m : multi_class_boost_model) (a b c : dataset) :
  scorable (multi_class_boost_predict m) a -> scorable (multi_class_boost_predict m) b -> (Z.of_nat (length (feature_rows c)) <= 2 ^ 53)%Z -> together a b c ->
  exists ka kb ra rb rc, multi_class_boost_score m a = Ok ra /\ multi_class_boost_score m b = Ok rb /\ multi_class_boost_score m c = Ok rc /\
    is_fraction ka (length (feature_rows a)) ra /\ is_fraction kb (length (feature_rows b)) rb /\
    is_fraction (ka + kb) (length (feature_rows a) + length (feature_rows b)) rc.
Proof. exact (accuracy_together P (multi_class_boost_predict m) (multi_class_boost_score m) a b c (fun test => ensemble_accuracy_f64 P test (multi_class_boost_predict m))). Qed.
Print Assumptions C111_multi_class_accuracy.

Theorem C111_amg_accuracy (P : platform) (O := f64_ops P) (m : amg_boost_model) (a b c : dataset) :
  scorable (amg_boost_predict m) a -> scorable (amg_boost_predict m) b -> (Z.of_nat (length (feature_rows c)) <= 2 ^ 53)%Z -> together a b c ->
  exists ka kb ra rb rc, amg_boost_score m a = Ok ra /\ amg_boost_score m b = Ok rb /\ amg_boost_score m c = Ok rc /\
    is_fraction ka (length (feature_rows a)) ra /\ is_fraction kb (length (feature_rows b)) rb /\
    is_fraction (ka + kb) (length (feature_rows a) + length (feature_rows b)) rc.
Proof. exact (accuracy_together P (amg_boost_predict m) (amg_boost_score m) a b c (fun test => ensemble_accuracy_f64 P test (amg_boost_predict m))). Qed.
Print Assumptions C111_amg_accuracy.

(** The three rows of [plain] and those of [twins]. *)
Example C111_example : wf_dataset 1 1 plain /\ real_labels plain_labels plain /\ wf_dataset 1 1 twins /\ real_labels twins_labels twins /\
  (forall n lr, exists m, regression_boost_train plain (plain_cfg 2) n (Fin lr) = Ok m) /\
  together plain twins (@mkDS xr_ops (feature_rows plain ++ feature_rows twins) (labels plain ++ labels twins) []).
Proof.
  exact (conj (proj1 plain_wf) (conj (proj2 plain_wf) (conj (proj1 twins_wf) (conj (proj2 twins_wf) (conj (fun n lr => plain_trained 2 n (Fin lr)) (conj eq_refl eq_refl)))))).
Qed.

(** Three of four right, and three of four right: six of eight. *)
Example C111_accuracy_example : let O := f64_ops taylor_platform in
  let c := mkDS (feature_rows four ++ feature_rows disputed) (labels four ++ labels disputed) [] in
  together four disputed c /\
  (t <- regression_tree_new four (four_cfg 1 true);; a <- calculate_accuracy four t;; b <- calculate_accuracy disputed t;; r <- calculate_accuracy c t;; Ok [a; b; r])
  = Ok [Bdiv mode_NE (n64 3) (n64 4); Bdiv mode_NE (n64 3) (n64 4); Bdiv mode_NE (n64 6) (n64 8)].
Proof. intros O c. split; [exact (conj eq_refl eq_refl)|]. unfold c. compute_eqs. Qed.
