(** Specification vocabulary for trees. *)
From Coq Require Import Permutation.
From Verif Require Import Base Num ModelCommon ModelTree Spec.

Section SpecTree.
Context {O : NumOps}.

(** Leaf payloads, true branch first. *)
Fixpoint leaves {L} (n : tree_node L) : list L :=
  match n with
  | TreeNode _ _ t f l =>
      match l with Some x => [x] | None => [] end ++
      match t with Some n => leaves n | None => [] end ++
      match f with Some n => leaves n | None => [] end
  end.

(** Number of questions on the longest path. *)
Fixpoint depth {L} (n : tree_node L) : nat :=
  match n with
  | TreeNode _ _ t f _ =>
      Nat.max (match t with Some n => S (depth n) | None => 0 end)
              (match f with Some n => S (depth n) | None => 0 end)
  end.

(** Every node is a leaf with a payload and no branches, or has two branches and no payload. *)
Inductive proper {L} : tree_node L -> Prop :=
| proper_leaf q l : proper (TreeNode L q None None (Some l))
| proper_inner q t f : proper t -> proper f -> proper (TreeNode L q (Some t) (Some f) None).

(** The questions met by a row on its way down. *)
Fixpoint path {L} (row : list F) (n : tree_node L) : list question :=
  match n with
  | TreeNode _ q (Some t) (Some f) _ => q :: (if answers q row then path row t else path row f)
  | _ => []
  end.

(** Same tree with another payload. *)
Fixpoint tree_map {L M} (g : L -> M) (n : tree_node L) : tree_node M :=
  match n with
  | TreeNode _ q t f l =>
      TreeNode M q (match t with Some n => Some (tree_map g n) | None => None end)
                   (match f with Some n => Some (tree_map g n) | None => None end)
                   (option_map g l)
  end.

(** Same tree with payloads computed, left to right, by a function that may panic. *)
Fixpoint tree_mapM {L M} (g : L -> res M) (n : tree_node L) : res (tree_node M) :=
  match n with
  | TreeNode _ q t f l =>
      l' <- match l with Some x => y <- g x;; Ok (Some y) | None => Ok None end;;
      t' <- match t with Some n => m <- tree_mapM g n;; Ok (Some m) | None => Ok None end;;
      f' <- match f with Some n => m <- tree_mapM g n;; Ok (Some m) | None => Ok None end;;
      Ok (TreeNode M q t' f' l')
  end.

(** [built t] satisfies the question-column bound: every inner question asks about a column below [nc]. *)
Fixpoint asks_below {L} (nc : nat) (n : tree_node L) : Prop :=
  match n with
  | TreeNode _ q (Some t) (Some f) _ => N.to_nat (q_column q) < nc /\ asks_below nc t /\ asks_below nc f
  | _ => True
  end.

(** All samples stored in the leaves of a regression tree. *)
Definition leaf_samples (n : tree_node regression_leaf) : list (list F * list F) :=
  flat_map (fun l => match rl_data l with Some d => samples d | None => [] end) (leaves n).

(** [t'] is [t] cut at depth [m]: same questions down to depth [m]; a subtree below depth [m] is replaced
    by a leaf holding all the subtree's samples. *)
Inductive cut_at : nat -> tree_node regression_leaf -> tree_node regression_leaf -> Prop :=
| cut_leaf m q l : cut_at m (leaf_node q l) (leaf_node q l)
| cut_here q t f d :
    Permutation (samples d) (leaf_samples (node_new q t f)) ->
    cut_at 0 (node_new q t f) (leaf_node q (mkRL (Some d)))
| cut_below m q t f t' f' :
    cut_at m t t' -> cut_at m f f' -> cut_at (S m) (node_new q t f) (node_new q t' f').

(** [cfg] with another depth limit. *)
Definition with_levels (m : N) (cfg : tree_config) : tree_config :=
  mkTC (tc_split_finder cfg) (tc_use_multi_threading cfg) (tc_number_of_classes cfg) m.

(** [cfg] with another thread flag. *)
Definition with_threads (b : bool) (cfg : tree_config) : tree_config :=
  mkTC (tc_split_finder cfg) b (tc_number_of_classes cfg) (tc_max_levels cfg).

(** A configuration using the code's split finder. *)
Definition standard (cfg : tree_config) : Prop := tc_split_finder cfg = split_finder_new Variance.

End SpecTree.

(** Monotone feature transforms (C15). *)
Section Transform.
Context {O : NumOps}.

(** [phi j] keeps the order of the values of feature [j] lying in [D j]. *)
Definition increasing_on (D : nat -> F -> Prop) (phi : nat -> F -> F) : Prop :=
  forall j x y, D j x -> D j y -> fleb (phi j x) (phi j y) = fleb x y.

(** Every entry of the row lies in the domain of its feature. *)
Definition row_in (D : nat -> F -> Prop) (row : list F) : Prop :=
  forall j x, nth_error row j = Some x -> D j x.

(** Apply [phi j] to entry [j]. *)
Definition transform_row (phi : nat -> F -> F) (row : list F) : list F :=
  map (fun p => phi (fst p) (snd p)) (enumerate row).

Definition transform (phi : nat -> F -> F) (d : dataset) : dataset :=
  mkDS (map (transform_row phi) (feature_rows d)) (labels d)
       (map (fun p => map (phi (fst p)) (snd p)) (enumerate (feature_columns d))).

(** Same shape, thresholds transformed, leaves holding the transformed data (hence the same labels). *)
Inductive transformed (phi : nat -> F -> F) : tree_node regression_leaf -> tree_node regression_leaf -> Prop :=
| tr_leaf q q' d : transformed phi (leaf_node q (mkRL (Some d))) (leaf_node q' (mkRL (Some (transform phi d))))
| tr_node c v t f t' f' : transformed phi t t' -> transformed phi f f' ->
    transformed phi (node_new (Question c v) t f) (node_new (Question c (phi (N.to_nat c) v)) t' f').

End Transform.
