(** Property C90: subtrees are trees of the rows that reach them, in binary64 arithmetic on every platform. *)
From Verif Require Import Base Num ModelCommon ModelTree Spec SpecTree SpecBelow F64 ProofBelow Decide Check.
Local Open Scope nat_scope.

(* ------------------------------------------------------------------ *)
(** ** C90 *)

Theorem C90_regression_tree (P : platform) (nc nt : nat) (d : dataset) (cfg : tree_config) (t : tree_node regression_leaf)
    (steps : list (question * bool)) (s : tree_node regression_leaf) :
  wf_dataset nc nt d -> regression_tree_new d cfg = Ok t -> below steps t s ->
  (N.of_nat (length steps) <= tc_max_levels cfg)%N /\ wf_dataset nc nt (only_rows (takes steps) d) /\
  regression_tree_new (only_rows (takes steps) d) (levels_left (length steps) cfg) = Ok s.
Proof. exact (regression_below nc nt d cfg t steps s). Qed.
Print Assumptions C90_regression_tree.

Theorem C90_grad_boost_tree (P : platform) (nc nt : nat) (d : dataset) (cfg : tree_config) (kind : leaf_output_type)
    (t : tree_node grad_boost_leaf) (steps : list (question * bool)) (s : tree_node grad_boost_leaf) :
  wf_dataset nc nt d -> grad_boost_tree_new d cfg (leaf_output_calculator_new kind) = Ok t -> below steps t s ->
  (N.of_nat (length steps) <= tc_max_levels cfg)%N /\ wf_dataset nc nt (only_rows (takes steps) d) /\
  grad_boost_tree_new (only_rows (takes steps) d) (levels_left (length steps) cfg) (leaf_output_calculator_new kind) = Ok s.
Proof. exact (grad_boost_below nc nt d cfg (leaf_output_calculator_new kind) t steps s). Qed.
Print Assumptions C90_grad_boost_tree.

Theorem C90_amg_tree (P : platform) (nc nt : nat) (d : dataset) (cfg : tree_config) (kind : leaf_output_type)
    (t : tree_node amg_leaf) (steps : list (question * bool)) (s : tree_node amg_leaf) :
  wf_dataset nc nt d -> amg_boost_tree_new d cfg (leaf_output_calculator_new kind) = Ok t -> below steps t s ->
  (N.of_nat (length steps) <= tc_max_levels cfg)%N /\ wf_dataset nc nt (only_rows (takes steps) d) /\
  amg_boost_tree_new (only_rows (takes steps) d) (levels_left (length steps) cfg) (leaf_output_calculator_new kind) = Ok s.
Proof. exact (amg_below nc nt d cfg (leaf_output_calculator_new kind) t steps s). Qed.
Print Assumptions C90_amg_tree.

(** Hence what the other rows are, and how they are labelled, does not matter to the subtree. *)
Theorem C90_other_rows_do_not_matter (P : platform) (nc nt : nat) (d d' : dataset) (cfg : tree_config)
    (t t' : tree_node regression_leaf) (steps : list (question * bool)) (s s' : tree_node regression_leaf) :
  wf_dataset nc nt d -> wf_dataset nc nt d' -> regression_tree_new d cfg = Ok t -> regression_tree_new d' cfg = Ok t' ->
  below steps t s -> below steps t' s' ->
  filter (fun p => takes steps (fst p)) (samples d) = filter (fun p => takes steps (fst p)) (samples d') ->
  s = s'.
Proof. exact (others_irrelevant nc nt d d' cfg t t' steps s s'). Qed.
Print Assumptions C90_other_rows_do_not_matter.

Definition z (n : Z) : f64 := f64_of_Z n.
Definition cfg (m : N) : @tree_config (f64_ops demo_platform) := mkTC (split_finder_new Variance) false 1 m.

(** Six rows with one feature; the first question separates the last three. *)
Definition six : @dataset (f64_ops demo_platform) :=
  @mkDS (f64_ops demo_platform) [[z 1]; [z 2]; [z 3]; [z 4]; [z 5]; [z 6]] [[z 1]; [z 1]; [z 2]; [z 60]; [z 70]; [z 71]]
    [[z 1; z 2; z 3; z 4; z 5; z 6]].
(** The same with other labels on the other side. *)
Definition six' : @dataset (f64_ops demo_platform) :=
  @mkDS (f64_ops demo_platform) [[z 1]; [z 2]; [z 3]; [z 4]; [z 5]; [z 6]] [[z 3]; [z 0]; [z 0]; [z 60]; [z 70]; [z 71]]
    [[z 1; z 2; z 3; z 4; z 5; z 6]].
Definition upper : list (@question (f64_ops demo_platform) * bool) :=
  [(@Question (f64_ops demo_platform) 0 (z 4), true)].
Definition true_side {L} (t : @tree_node (f64_ops demo_platform) L) : res (tree_node L) :=
  match t with TreeNode _ _ (Some s) _ _ => Ok s | _ => Panic end.

Example C90_example :
  wf_dataset 1 1 six /\ wf_dataset 1 1 six' /\
  (t <- regression_tree_new six (cfg 2);; Ok (nd_question t, depth t)) = Ok (@Question (f64_ops demo_platform) 0 (z 4), 2) /\
  (t <- regression_tree_new six' (cfg 2);; Ok (nd_question t, depth t)) = Ok (@Question (f64_ops demo_platform) 0 (z 4), 2) /\
  only_rows (takes upper) six =
    @mkDS (f64_ops demo_platform) [[z 4]; [z 5]; [z 6]] [[z 60]; [z 70]; [z 71]] [[z 4; z 5; z 6]] /\
  (t <- regression_tree_new six (cfg 2);; true_side t) = regression_tree_new (only_rows (takes upper) six) (cfg 1) /\
  (t <- regression_tree_new six' (cfg 2);; true_side t) = regression_tree_new (only_rows (takes upper) six) (cfg 1) /\
  (t <- regression_tree_new six (cfg 2);; s <- true_side t;; Ok (depth s)) = Ok 1 /\
  (t <- regression_tree_new six (cfg 2);; s <- true_side t;; Ok (nd_question s)) = Ok (@Question (f64_ops demo_platform) 0 (z 5)).
Proof. do 2 (split; [check_wf|]). compute_eqs. Qed.
