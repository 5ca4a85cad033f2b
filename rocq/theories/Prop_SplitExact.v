(** Properties C10, C11, C12, C14, C16 and C51: the split finder in exact arithmetic. *)
From Coq Require Import Permutation Reals.
From Verif Require Import Base Num ModelCommon ModelTree Spec SpecTree XR SpecExact ProofSplitExact ProofSplitExact2 ProofWitness ProofSplit.
Local Open Scope R_scope.

(* ------------------------------------------------------------------ *)
(** ** C10: full statement, false; true when the reported threshold value is not repeated *)

Theorem C10_refuted :
  exists (nc nt : nat) (d : dataset) (ls : list (list R)) (b : best_split),
    wf_dataset nc nt d /\ real_labels ls d /\ find_best_split d (N.of_nat nt) = Ok b /\
    bs_gain b <> Fin (question_gain nt (bs_question b) (feature_rows d) ls).
Proof. exact gain_not_true_gain. Qed.
Print Assumptions C10_refuted.

Theorem C10_gain_is_the_true_reduction_partial (nc nt : nat) (d : dataset) (ls : list (list R)) (b : best_split) :
  wf_dataset nc nt d -> real_labels ls d -> find_best_split d (N.of_nat nt) = Ok b ->
  (bs_gain b <> Fin 0 -> occurs_once d (bs_question b)) ->
  bs_gain b = Fin (question_gain nt (bs_question b) (feature_rows d) ls).
Proof. exact (gain_is_true_gain nc nt d ls b). Qed.
Print Assumptions C10_gain_is_the_true_reduction_partial.

(** In particular when no column repeats a value above its minimum. *)
Theorem C10_distinct_values_partial (nc nt : nat) (d : dataset) (ls : list (list R)) (b : best_split) :
  wf_dataset nc nt d -> real_labels ls d -> distinct_above_minimum d -> find_best_split d (N.of_nat nt) = Ok b ->
  bs_gain b = Fin (question_gain nt (bs_question b) (feature_rows d) ls).
Proof. exact (fun W L D E => gain_is_true_gain nc nt d ls b W L E (distinct_occurs_once nc nt d ls b W L E D)). Qed.
Print Assumptions C10_distinct_values_partial.

Example C10_example :
  wf_dataset 1 1 plain /\ real_labels plain_labels plain /\ distinct_above_minimum plain /\
  exists b, find_best_split plain 1 = Ok b /\ bs_gain b = Fin 18 /\ bs_question b = Question 0 (Fin 2).
Proof. exact (conj (proj1 plain_wf) (conj (proj2 plain_wf) (conj plain_distinct plain_split))). Qed.

(* ------------------------------------------------------------------ *)
(** ** C11 *)

Theorem C11_refuted :
  exists (nc nt : nat) (d : dataset) (ls : list (list R)) (b : best_split) (q : question),
    wf_dataset nc nt d /\ real_labels ls d /\ find_best_split d (N.of_nat nt) = Ok b /\
    question_gain nt (bs_question b) (feature_rows d) ls < question_gain nt q (feature_rows d) ls.
Proof. exact split_not_optimal. Qed.
Print Assumptions C11_refuted.

Theorem C11_optimal_partial (nc nt : nat) (d : dataset) (ls : list (list R)) (b : best_split) (q : question) :
  wf_dataset nc nt d -> real_labels ls d -> find_best_split d (N.of_nat nt) = Ok b ->
  (bs_gain b <> Fin 0 -> occurs_once d (bs_question b)) ->
  question_gain nt q (feature_rows d) ls <= question_gain nt (bs_question b) (feature_rows d) ls.
Proof. exact (split_optimal nc nt d ls b q). Qed.
Print Assumptions C11_optimal_partial.

Theorem C11_distinct_values_partial (nc nt : nat) (d : dataset) (ls : list (list R)) (b : best_split) (q : question) :
  wf_dataset nc nt d -> real_labels ls d -> distinct_above_minimum d -> find_best_split d (N.of_nat nt) = Ok b ->
  question_gain nt q (feature_rows d) ls <= question_gain nt (bs_question b) (feature_rows d) ls.
Proof. exact (fun W L D E => split_optimal nc nt d ls b q W L E (distinct_occurs_once nc nt d ls b W L E D)). Qed.
Print Assumptions C11_distinct_values_partial.
(* [plain] of C10_example meets the hypotheses. *)

(* ------------------------------------------------------------------ *)
(** ** C12: no distinctness assumption *)

Theorem C12_gain_bounds_every_question (nc nt : nat) (d : dataset) (ls : list (list R)) (b : best_split) (q : question) :
  wf_dataset nc nt d -> real_labels ls d -> find_best_split d (N.of_nat nt) = Ok b ->
  exists g, bs_gain b = Fin g /\ question_gain nt q (feature_rows d) ls <= g.
Proof. exact (gain_bounds_every_question nc nt d ls b q). Qed.
Print Assumptions C12_gain_bounds_every_question.

Theorem C12_zero_gain_means_nothing_to_gain (nc nt : nat) (d : dataset) (ls : list (list R)) (b : best_split) :
  wf_dataset nc nt d -> real_labels ls d -> find_best_split d (N.of_nat nt) = Ok b -> feqb (bs_gain b) f0 = true ->
  forall q, question_gain nt q (feature_rows d) ls = 0.
Proof. exact (zero_gain_nothing nc nt d ls b). Qed.
Print Assumptions C12_zero_gain_means_nothing_to_gain.

Example C12_example : wf_dataset 2 1 rep_c /\ real_labels [[0]; [0]; [10]] rep_c /\
  question_gain 1 (Question 1 (Fin 1)) (feature_rows rep_c) [[0]; [0]; [10]] = 200 / 9.
Proof. exact (conj (proj1 rep_c_wf) (conj (proj2 rep_c_wf) rep_c_gain1)). Qed.

Example C12_example_zero_gain : wf_dataset 1 1 flat /\ real_labels flat_labels flat /\
  exists b, find_best_split flat 1 = Ok b /\ bs_gain b = Fin 0.
Proof. exact flat_no_gain. Qed.

(* ------------------------------------------------------------------ *)
(** ** C14 *)

Theorem C14_pure_node_has_no_gain (nc nt : nat) (d : dataset) (ls : list (list R)) (l : list R) (b : best_split) :
  wf_dataset nc nt d -> real_labels ls d -> (forall x, In x ls -> x = l) -> find_best_split d (N.of_nat nt) = Ok b ->
  bs_gain b = Fin 0.
Proof. exact (pure_no_gain nc nt d ls l b). Qed.
Print Assumptions C14_pure_node_has_no_gain.

Theorem C14_pure_node_is_a_leaf (nc nt : nat) (d : dataset) (ls : list (list R)) (l : list R) (cfg : tree_config) :
  wf_dataset nc nt d -> real_labels ls d -> (forall x, In x ls -> x = l) ->
  standard cfg -> tc_number_of_classes cfg = N.of_nat nt ->
  exists q, regression_tree_new d cfg = Ok (leaf_node q (mkRL (Some d))).
Proof. exact (pure_leaf nc nt d ls l cfg). Qed.
Print Assumptions C14_pure_node_is_a_leaf.

Example C14_example :
  let d := real_data [[2]; [0]; [1]] [[2; 0; 1]] [[9; 4]; [9; 4]; [9; 4]] in
  wf_dataset 1 2 d /\ real_labels [[9; 4]; [9; 4]; [9; 4]] d.
Proof. real_wf. Qed.

(* ------------------------------------------------------------------ *)
(** ** C16 *)

Theorem C16_refuted :
  exists (nc nt : nat) (d d' : dataset) (ls : list (list R)) (b b' : best_split),
    wf_dataset nc nt d /\ wf_dataset nc nt d' /\ real_labels ls d /\ Permutation (samples d) (samples d') /\
    find_best_split d (N.of_nat nt) = Ok b /\ find_best_split d' (N.of_nat nt) = Ok b' /\
    bs_gain b <> bs_gain b'.
Proof. exact row_order_matters. Qed.
Print Assumptions C16_refuted.

(** Enough: rows that share a value above the column's minimum have the same label. *)
Theorem C16_row_order_partial (nc nt : nat) (d d' : dataset) (ls : list (list R)) :
  wf_dataset nc nt d -> wf_dataset nc nt d' -> real_labels ls d -> ties_agree d ->
  Permutation (samples d) (samples d') ->
  find_best_split d' (N.of_nat nt) = find_best_split d (N.of_nat nt).
Proof. exact (row_order_irrelevant nc nt d d' ls). Qed.
Print Assumptions C16_row_order_partial.

Example C16_example :
  let d' := real_data [[0]; [1]; [2]] [[0; 1; 2]] [[0]; [0]; [9]] in
  wf_dataset 1 1 plain /\ ties_agree plain /\ wf_dataset 1 1 d' /\ Permutation (samples plain) (samples d').
Proof. exact plain_permuted. Qed.

(* ------------------------------------------------------------------ *)
(** ** C51: what the finder really computes, repeated values included *)

Theorem C51_best_considered_cut (nc nt : nat) (d : dataset) (ls : list (list R)) (b : best_split) :
  wf_dataset nc nt d -> real_labels ls d -> find_best_split d (N.of_nat nt) = Ok b ->
  exists g, bs_gain b = Fin g /\
    (forall j r i v, considered d j r i v -> cut_gain nt i (labels_in_order ls r) <= g) /\
    ((g = 0 /\ b = mkBS (Fin 0) (Question 0 (Fin 0))) \/
     (0 < g /\ exists j r i v, considered d j r i v /\ cut_gain nt i (labels_in_order ls r) = g /\
        bs_question b = Question (N.of_nat j) v /\
        (forall i' v', (i' < i)%nat -> considered d j r i' v' -> cut_gain nt i' (labels_in_order ls r) < g) /\
        (forall j' r' i' v', (j' < j)%nat -> considered d j' r' i' v' -> cut_gain nt i' (labels_in_order ls r') < g))).
Proof. exact (split_exact nc nt d ls b). Qed.
Print Assumptions C51_best_considered_cut.

Example C51_example : considered rep_a 0 sort011 1 (Fin 1) /\ considered rep_a 0 sort011 2 (Fin 1) /\
  cut_gain 1 1 (labels_in_order [[0]; [0]; [10]] sort011) = 50 / 9 /\
  cut_gain 1 2 (labels_in_order [[0]; [0]; [10]] sort011) = 200 / 9.
Proof.
  exact (conj (considered_011_1 rep_a 0 eq_refl) (conj (considered_011_2 rep_a 0 eq_refl) (conj rep_a_cut1 rep_a_cut2))).
Qed.
