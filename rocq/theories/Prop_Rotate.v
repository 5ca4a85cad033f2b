(** Property C89: maps of the target space that preserve shapes, in exact arithmetic. *)
From Coq Require Import Reals.
From Verif Require Import Base Num ModelCommon ModelTree ModelBoost Spec SpecTree SpecFit F64 XR SpecExact SpecAffine SpecRotate
  ProofRotate Decide Demo DemoExact DemoBoostExact DemoRotate.
Local Open Scope R_scope.

(* ------------------------------------------------------------------ *)
(** ** C89 *)

(** [M] may be a rotation or reflection of the targets, a common change of unit, a repetition of all targets, an embedding
    into more targets, or any combination; [v] shifts the result. *)
Theorem C89_tree (nc nt nt' : nat) (w : R) (M : list (list R)) (v : list R) (d : dataset) (ls : list (list R)) (cfg : tree_config)
    (t t' : tree_node regression_leaf) :
  keeps_shapes nt w M -> length M = nt' -> length v = nt' ->
  wf_dataset nc nt d -> real_labels ls d -> standard cfg -> tc_number_of_classes cfg = N.of_nat nt ->
  regression_tree_new d cfg = Ok t ->
  regression_tree_new (relabel d (map (transform M v) ls)) (for_targets nt' cfg) = Ok t' ->
  tree_map (fun _ => tt) t' = tree_map (fun _ => tt) t /\
  forall row, (tree_prediction row t = Panic /\ tree_prediction row t' = Panic) \/
    exists p, tree_prediction row t = Ok (map Fin p) /\ length p = nt /\ tree_prediction row t' = Ok (map Fin (transform M v p)).
Proof. exact (fun HM LM Lv W Hl Hs Hc E E' => tree_tr nc nt nt' w M HM LM d ls cfg v t t' W Hl Hs Hc Lv E E'). Qed.
Print Assumptions C89_tree.

Theorem C89_ensemble (nc nt nt' : nat) (w : R) (M : list (list R)) (v : list R) (d : dataset) (ls : list (list R)) (cfg : tree_config)
    (n : nat) (lr : R) (m m' : regression_boost_model) :
  keeps_shapes nt w M -> length M = nt' -> length v = nt' ->
  wf_dataset nc nt d -> real_labels ls d -> standard cfg -> tc_number_of_classes cfg = N.of_nat nt ->
  regression_boost_train d cfg n (Fin lr) = Ok m ->
  regression_boost_train (relabel d (map (transform M v) ls)) (for_targets nt' cfg) n (Fin lr) = Ok m' ->
  Forall2 (fun t t' => tree_map (fun _ => tt) t' = tree_map (fun _ => tt) t) (m_trees m) (m_trees m') /\
  forall row, (regression_boost_predict m row = Panic /\ regression_boost_predict m' row = Panic) \/
    exists p, regression_boost_predict m row = Ok (map Fin p) /\ length p = nt /\
      regression_boost_predict m' row = Ok (map Fin (transform M v p)).
Proof. exact (fun HM LM Lv W Hl Hs Hc E E' => boost_tr nc nt nt' w M HM LM d ls cfg n lr v m m' W Hl Hs Hc Lv E E'). Qed.
Print Assumptions C89_ensemble.

(** Targets that are all computed from one number [y] as [a_j * y + b_j] are learned exactly like that number alone. *)
Theorem C89_targets_from_one_tree (nc : nat) (d : dataset) (ys : list R) (cfg : tree_config) (a b : list R) (t t' : tree_node regression_leaf) :
  wf_dataset nc 1 d -> real_labels (map (fun y => [y]) ys) d -> standard cfg -> tc_number_of_classes cfg = 1%N ->
  length b = length a -> Exists (fun x => x <> 0) a ->
  regression_tree_new d cfg = Ok t -> regression_tree_new (relabel d (map (from_one a b) ys)) (for_targets (length a) cfg) = Ok t' ->
  tree_map (fun _ => tt) t' = tree_map (fun _ => tt) t /\
  forall row, (tree_prediction row t = Panic /\ tree_prediction row t' = Panic) \/
    exists y, tree_prediction row t = Ok [Fin y] /\ tree_prediction row t' = Ok (map Fin (from_one a b y)).
Proof. exact (tree_from_one nc d ys cfg a b t t'). Qed.
Print Assumptions C89_targets_from_one_tree.

Theorem C89_targets_from_one_ensemble (nc : nat) (d : dataset) (ys : list R) (cfg : tree_config) (n : nat) (lr : R) (a b : list R)
    (m m' : regression_boost_model) :
  wf_dataset nc 1 d -> real_labels (map (fun y => [y]) ys) d -> standard cfg -> tc_number_of_classes cfg = 1%N ->
  length b = length a -> Exists (fun x => x <> 0) a ->
  regression_boost_train d cfg n (Fin lr) = Ok m ->
  regression_boost_train (relabel d (map (from_one a b) ys)) (for_targets (length a) cfg) n (Fin lr) = Ok m' ->
  Forall2 (fun t t' => tree_map (fun _ => tt) t' = tree_map (fun _ => tt) t) (m_trees m) (m_trees m') /\
  forall row, (regression_boost_predict m row = Panic /\ regression_boost_predict m' row = Panic) \/
    exists y, regression_boost_predict m row = Ok [Fin y] /\ regression_boost_predict m' row = Ok (map Fin (from_one a b y)).
Proof. exact (boost_from_one nc d ys cfg n lr a b m m'). Qed.
Print Assumptions C89_targets_from_one_ensemble.

(** Other maps do change the model: multiplying only the second target by 100 changes the first question (in f64). *)
Theorem C89_stretching_one_target_matters : exists t t',
  regression_tree_new (crossed 10 1) crossed_cfg = Ok t /\ regression_tree_new (crossed 10 100) crossed_cfg = Ok t' /\
  tree_map (fun _ => tt) t <> tree_map (fun _ => tt) t'.
Proof. exact stretched. Qed.
Print Assumptions C89_stretching_one_target_matters.

(** The rotation with cosine 3/5, then a shift, on two rows with the labels (1, 0) and (0, 1). *)
Example C89_example :
  keeps_shapes 2 1 rotation /\ wf_dataset 1 2 two /\ real_labels [[1; 0]; [0; 1]] two /\ standard (two_cfg 2) /\
  tc_number_of_classes (two_cfg 2) = N.of_nat 2 /\
  exists m t m' t',
    regression_boost_train two (two_cfg 2) 3 (Fin (1/2)) = Ok m /\ regression_tree_new two (two_cfg 2) = Ok t /\
    regression_boost_train (relabel two (map (transform rotation [1; 7]) [[1; 0]; [0; 1]])) (for_targets 2 (two_cfg 2)) 3 (Fin (1/2)) = Ok m' /\
    regression_tree_new (relabel two (map (transform rotation [1; 7]) [[1; 0]; [0; 1]])) (for_targets 2 (two_cfg 2)) = Ok t'.
Proof. exact (conj rotation_keeps (conj (proj1 two_wf) (conj (proj2 two_wf) (conj eq_refl (conj eq_refl rotated_trained))))). Qed.
