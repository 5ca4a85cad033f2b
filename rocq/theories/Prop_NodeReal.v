(** Property C78: in binary64, on labels of bounded size, trees ask nearly the best question at every node and
    stop above the depth limit only where no question gains more than the rounding error. *)
From Coq Require Import Reals ZArith.
From Flocq Require Import IEEE754.BinarySingleNaN.
From Verif Require Import Base Num ModelCommon ModelTree ModelBoost Spec SpecTree F64 XR SpecExact SpecInt SpecNear SpecNode ProofNode Decide Check Demo DemoNear.
Local Open Scope R_scope.

Theorem C78_questions_nearly_best (P : platform) (B : R) (nc nt : nat) (d : @dataset (f64_ops P)) (cfg : @tree_config (f64_ops P))
    (calc : @leaf_output_calculator (f64_ops P)) :
  wf_dataset nc nt d -> bounded_labels B d -> ordinary_table B d -> (Z.of_nat nt <= 2 ^ 40)%Z ->
  standard cfg -> tc_number_of_classes cfg = N.of_nat nt ->
  (forall t, regression_tree_new d cfg = Ok t -> nearly_best_questions B nt d t) /\
  (forall t, grad_boost_tree_new d cfg calc = Ok t -> nearly_best_questions B nt d t) /\
  (forall t, amg_boost_tree_new d cfg calc = Ok t -> nearly_best_questions B nt d t).
Proof. exact (fun W Hb Ho Hk Hs HK => questions_nearly_best P B nc nt d W Hb Ho Hk cfg Hs HK calc). Qed.
Print Assumptions C78_questions_nearly_best.

Theorem C78_leaf_above_the_limit_has_little_to_gain (P : platform) (B : R) (nc nt : nat) (d : @dataset (f64_ops P))
    (cfg : @tree_config (f64_ops P)) (calc : @leaf_output_calculator (f64_ops P)) :
  wf_dataset nc nt d -> bounded_labels B d -> ordinary_table B d -> (Z.of_nat nt <= 2 ^ 40)%Z ->
  standard cfg -> tc_number_of_classes cfg = N.of_nat nt ->
  (forall t, regression_tree_new d cfg = Ok t -> little_left B nt (tc_max_levels cfg) d t) /\
  (forall t, grad_boost_tree_new d cfg calc = Ok t -> little_left B nt (tc_max_levels cfg) d t) /\
  (forall t, amg_boost_tree_new d cfg calc = Ok t -> little_left B nt (tc_max_levels cfg) d t).
Proof. exact (fun W Hb Ho Hk Hs HK => leaves_little_left P B nc nt d W Hb Ho Hk cfg Hs HK calc). Qed.
Print Assumptions C78_leaf_above_the_limit_has_little_to_gain.

(** Four rows with fractional labels: a row meets two questions, each with a value that occurs once at its node, and
    ends in a leaf above the depth limit of five. *)
Example C78_example :
  let O := f64_ops taylor_platform in
  let cfg := @mkTC O (split_finder_new Variance) false 2 5 in
  @wf_dataset O 1 2 fractions /\ bounded_labels 4 fractions /\ ordinary_table 4 fractions /\ @standard O cfg /\
  (t <- @regression_tree_new O fractions cfg;; Ok (path [n64 4] t)) = Ok [@Question O 0 (n64 3); @Question O 0 (n64 4)] /\
  occurs_once (exact_data (@table_of O (@answering_like O [] [n64 4] (@samples O fractions)))) (exact_question (@Question O 0 (n64 3))) /\
  @answering_like O [@Question O 0 (n64 3)] [n64 4] (@samples O fractions) =
    [([n64 3], [tenths_of 31; tenths_of (-22)]); ([n64 4], [tenths_of 33; tenths_of (-22)])].
Proof.
  split; [check_wf|]. split; [exact fractions_bounded|]. split; [exact fractions_ordinary|]. split; [reflexivity|].
  split; [compute_eq|]. split; [exact fractions_once|compute_eqs].
Qed.
