(** Properties C59 and C60: redundant features, longer rows and tree size, in binary64 arithmetic on every platform. *)
From Flocq Require Import IEEE754.BinarySingleNaN.
From Verif Require Import Base Num ModelCommon ModelTree ModelBoost Spec SpecTree SpecExtra F64 ProofRedundant ProofSize
  Decide Check Demo.
Local Open Scope nat_scope.

(* ------------------------------------------------------------------ *)
(** ** C59 *)

(** Training on data with extra redundant columns: the same questions; leaves hold the same samples, with the extra entries. *)
Theorem C59_regression_tree (P : platform) (es : list (list F -> F)) (nc nt : nat) (d : dataset) (cfg : tree_config)
    (t : tree_node regression_leaf) :
  wf_dataset nc nt d -> Forall (redundant nc (feature_rows d)) es -> (N.of_nat (nc + length es) <= 2 ^ 32)%N ->
  standard cfg -> tc_number_of_classes cfg = N.of_nat nt ->
  regression_tree_new d cfg = Ok t ->
  regression_tree_new (extend es d) cfg = Ok (tree_map (fun l => mkRL (option_map (extend es) (rl_data l))) t).
Proof. exact (fun W He Hu Hs Hk => regression_extend (f64_laws P) es nc nt d cfg W He Hu Hs Hk t). Qed.
Print Assumptions C59_regression_tree.

Theorem C59_grad_boost_tree (P : platform) (es : list (list F -> F)) (nc nt : nat) (d : dataset) (cfg : tree_config)
    (kind : leaf_output_type) :
  wf_dataset nc nt d -> Forall (redundant nc (feature_rows d)) es -> (N.of_nat (nc + length es) <= 2 ^ 32)%N ->
  standard cfg -> tc_number_of_classes cfg = N.of_nat nt ->
  grad_boost_tree_new (extend es d) cfg (leaf_output_calculator_new kind) =
  grad_boost_tree_new d cfg (leaf_output_calculator_new kind).
Proof. exact (fun W He Hu Hs Hk => grad_boost_extend (f64_laws P) es nc nt d cfg W He Hu Hs Hk kind). Qed.
Print Assumptions C59_grad_boost_tree.

Theorem C59_amg_tree (P : platform) (es : list (list F -> F)) (nc nt : nat) (d : dataset) (cfg : tree_config)
    (kind : leaf_output_type) :
  wf_dataset nc nt d -> Forall (redundant nc (feature_rows d)) es -> (N.of_nat (nc + length es) <= 2 ^ 32)%N ->
  standard cfg -> tc_number_of_classes cfg = N.of_nat nt ->
  amg_boost_tree_new (extend es d) cfg (leaf_output_calculator_new kind) =
  amg_boost_tree_new d cfg (leaf_output_calculator_new kind).
Proof. exact (fun W He Hu Hs Hk => amg_extend (f64_laws P) es nc nt d cfg W He Hu Hs Hk kind). Qed.
Print Assumptions C59_amg_tree.

Theorem C59_ensembles (P : platform) (es : list (list F -> F)) (nc nt : nat) (d : dataset) (cfg : tree_config) (n : nat) (lr : F) :
  wf_dataset nc nt d -> Forall (redundant nc (feature_rows d)) es -> (N.of_nat (nc + length es) <= 2 ^ 32)%N ->
  standard cfg -> tc_number_of_classes cfg = N.of_nat nt -> (Z.of_nat nt <= 2 ^ 53)%Z ->
  regression_boost_train (extend es d) cfg n lr = regression_boost_train d cfg n lr /\
  multi_class_boost_train (extend es d) cfg n lr = multi_class_boost_train d cfg n lr /\
  (0 < nt -> amg_boost_train (extend es d) cfg n lr = amg_boost_train d cfg n lr).
Proof.
  exact (fun W He Hu Hs Hk Hn => conj (regression_boost_extend (f64_laws P) es nc nt d cfg n lr W He Hu Hs Hk Hn)
    (conj (multi_class_boost_extend (f64_laws P) es nc nt d cfg n lr W He Hu Hs Hk Hn)
          (amg_boost_extend (f64_laws P) es nc nt d cfg n lr W He Hu Hs Hk Hn))).
Qed.
Print Assumptions C59_ensembles.

(** Entries beyond those the model asks about are not read: answers and scores stay the same. *)
Theorem C59_longer_rows (P : platform) (row xs p : list F) :
  (forall (L : Type) (t : tree_node L) (l : L),
     find_leaf_node_for_data row t = Ok l -> find_leaf_node_for_data (row ++ xs) t = Ok l) /\
  (forall m, regression_boost_predict m row = Ok p -> regression_boost_predict m (row ++ xs) = Ok p) /\
  (forall m, multi_class_boost_predict m row = Ok p -> multi_class_boost_predict m (row ++ xs) = Ok p) /\
  (forall m, amg_boost_predict m row = Ok p -> amg_boost_predict m (row ++ xs) = Ok p).
Proof.
  exact (conj (fun L t l => lookup_longer t row xs l)
    (conj (fun m => regression_boost_longer m row xs p)
    (conj (fun m => multi_class_boost_longer m row xs p) (fun m => amg_boost_longer m row xs p)))).
Qed.
Print Assumptions C59_longer_rows.

Theorem C59_ensemble_scores (P : platform) (test test' : dataset) (a : F) :
  longer_rows test test' ->
  (forall m, regression_boost_score m test = Ok a -> regression_boost_score m test' = Ok a) /\
  (forall m, multi_class_boost_score m test = Ok a -> multi_class_boost_score m test' = Ok a) /\
  (forall m, amg_boost_score m test = Ok a -> amg_boost_score m test' = Ok a).
Proof.
  exact (fun H => conj (fun m => regression_score_longer m test test' a H)
    (conj (fun m => multi_class_score_longer m test test' a H) (fun m => amg_score_longer m test test' a H))).
Qed.
Print Assumptions C59_ensemble_scores.

Theorem C59_tree_scores (P : platform) (es : list (list F -> F)) (nc nt : nat) (d : dataset) (cfg : tree_config)
    (t t' : tree_node regression_leaf) (test test' : dataset) (a : F) :
  wf_dataset nc nt d -> Forall (redundant nc (feature_rows d)) es -> (N.of_nat (nc + length es) <= 2 ^ 32)%N ->
  standard cfg -> tc_number_of_classes cfg = N.of_nat nt ->
  regression_tree_new d cfg = Ok t -> regression_tree_new (extend es d) cfg = Ok t' -> longer_rows test test' ->
  (calculate_accuracy test t = Ok a -> calculate_accuracy test' t' = Ok a) /\
  (calculate_overall_mean_squared_error test t = Ok a -> calculate_overall_mean_squared_error test' t' = Ok a).
Proof. exact (tree_scores_extend (f64_laws P) es nc nt d cfg t t' test test' a). Qed.
Print Assumptions C59_tree_scores.

(** A constant column and an increasing recoding of column 0, and what is trained with and without them. *)
Definition extras : list (list (@F (f64_ops taylor_platform)) -> @F (f64_ops taylor_platform)) :=
  [fun _ => n64 7; fun r => Bmult mode_NE (hd (n64 0) r) (hd (n64 0) r)].

Example C59_example :
  let O := f64_ops taylor_platform in
  Forall (redundant 1 (feature_rows four)) extras /\
  feature_rows (extend extras four) =
    [[n64 1; n64 7; n64 1]; [n64 2; n64 7; n64 4]; [n64 3; n64 7; n64 9]; [n64 4; n64 7; n64 16]] /\
  (m <- regression_boost_train four (four_cfg 2 true) 2 (n64 1);; Ok (length (m_trees m))) = Ok 2 /\
  (t <- grad_boost_tree_new four (four_cfg 2 true) (leaf_output_calculator_new Regression);; Ok (node_count t)) = Ok 5.
Proof.
  cbn zeta. split; [|compute_eqs].
  constructor; [|constructor; [|constructor]].
  - apply redundant_constant. reflexivity.
  - apply redundant_recoded with (j := 0); [constructor|]. intros r r' x x' Hr Hr' E E'.
    cbn in Hr, Hr'. destruct Hr as [<-|[<-|[<-|[<-|[]]]]], Hr' as [<-|[<-|[<-|[<-|[]]]]];
      injection E as <-; injection E' as <-; vm_compute; reflexivity.
Qed.

(* ------------------------------------------------------------------ *)
(** ** C60 *)

Theorem C60_regression_tree_size (P : platform) (d : dataset) (cfg : tree_config) (t : tree_node regression_leaf) :
  standard cfg -> regression_tree_new d cfg = Ok t ->
  node_count t + 1 = 2 * length (leaves t) /\ length (leaves t) <= length (feature_rows d) /\
  (N.of_nat (length (leaves t)) <= 2 ^ tc_max_levels cfg)%N.
Proof. exact (regression_size d cfg t). Qed.
Print Assumptions C60_regression_tree_size.

Theorem C60_grad_boost_tree_size (P : platform) (d : dataset) (cfg : tree_config) (calc : leaf_output_calculator)
    (t : tree_node grad_boost_leaf) :
  standard cfg -> grad_boost_tree_new d cfg calc = Ok t ->
  node_count t + 1 = 2 * length (leaves t) /\ length (leaves t) <= length (feature_rows d) /\
  (N.of_nat (length (leaves t)) <= 2 ^ tc_max_levels cfg)%N.
Proof. exact (grad_boost_size d cfg calc t). Qed.
Print Assumptions C60_grad_boost_tree_size.

Theorem C60_amg_tree_size (P : platform) (d : dataset) (cfg : tree_config) (calc : leaf_output_calculator)
    (t : tree_node amg_leaf) :
  standard cfg -> amg_boost_tree_new d cfg calc = Ok t ->
  node_count t + 1 = 2 * length (leaves t) /\ length (leaves t) <= length (feature_rows d) /\
  (N.of_nat (length (leaves t)) <= 2 ^ tc_max_levels cfg)%N.
Proof. exact (amg_size d cfg calc t). Qed.
Print Assumptions C60_amg_tree_size.

(** Both bounds are reached. *)
Example C60_example :
  let O := f64_ops taylor_platform in
  (t <- regression_tree_new four (four_cfg 1 false);; Ok (length (leaves t), node_count t)) = Ok (2, 3) /\
  (t <- regression_tree_new (@mkDS O [[n64 1]; [n64 2]] [[n64 0; n64 1]; [n64 1; n64 0]] [[n64 1; n64 2]]) (four_cfg 9 true);;
   Ok (length (leaves t), node_count t)) = Ok (2, 3).
Proof. compute_eqs. Qed.
