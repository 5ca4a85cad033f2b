(** Specification vocabulary: decisions that are clear, in exact arithmetic, by more than a given margin (C91). *)
From Coq Require Import Reals List.
From Verif Require Import Base Num ModelCommon ModelTree ModelBoost Spec SpecTree SpecNode SpecScore F64 XR SpecExact SpecInt.
Local Open Scope R_scope.

(** Among the cuts the split finder considers on [d], one for question [q] reduces the variance by more than [margin],
    and by more than [margin] beyond every cut for another question. *)
Definition clear_question (margin : R) (nt : nat) (d : @dataset xr_ops) (ls : list (list R)) (q : @question xr_ops) : Prop :=
  exists j r i v, considered d j r i v /\ q = Question (N.of_nat j) v /\
    margin < cut_gain nt i (labels_in_order ls r) /\
    forall j' r' i' v', considered d j' r' i' v' -> Question (N.of_nat j') v' <> q ->
      cut_gain nt i' (labels_in_order ls r') + margin < cut_gain nt i (labels_in_order ls r).

(** [here] is the part of [d] that answers the questions [qs] as row [x] does. *)
Definition at_node (nc nt : nat) (d : @dataset xr_ops) (qs : list (@question xr_ops)) (x : list xr) (here : @dataset xr_ops) : Prop :=
  wf_dataset nc nt here /\ samples here = answering_like qs x (samples d).

(** Every question that row [x] meets in tree [t], built from [d] with depth limit [levels], is clear by [margin] on the rows
    that reach it. The leaf it ends in is at the depth limit, or no cut is considered there, or all labels there are equal. *)
Definition clear_path {L} (margin : R) (nc nt : nat) (levels : N) (d : @dataset xr_ops) (t : @tree_node xr_ops L) (x : list xr) : Prop :=
  (forall k q here ls, nth_error (path x t) k = Some q -> at_node nc nt d (firstn k (path x t)) x here -> real_labels ls here ->
     clear_question margin nt here ls q) /\
  (forall here, at_node nc nt d (path x t) x here ->
     N.of_nat (length (path x t)) = levels \/ (forall j r i v, ~ considered here j r i v) \/
     (forall l l', In l (labels here) -> In l' (labels here) -> l = l')).

(** Row [x] meets only clear decisions in tree number [k] of the ensemble [m] trained on [d]: that tree was built from the rows of [d]
    labelled with what the first [k] trees leave of the labels. *)
Definition clear_stage (margin : R) (nc nt : nat) (levels : N) (d : @dataset xr_ops) (m : @regression_boost_model xr_ops) (k : nat) (x : list xr) : Prop :=
  forall ps t, regression_boost_all_predictions (first_trees k m) d = Ok ps -> nth_error (m_trees m) k = Some t ->
    clear_path margin nc nt levels (mkDS (feature_rows d) (differences (labels d) ps) (feature_columns d)) t x.

(** The binary64 tree [t] asks row [row] the questions that the exact tree [te], built from [d], asks it, in the same order;
    if [t] asks more, then all rows of [d] that end in the same leaf of [te] carry the same label. *)
Definition same_questions {P : platform} {L L'} (row : list f64) (t : @tree_node (f64_ops P) L) (d : @dataset xr_ops) (te : @tree_node xr_ops L') : Prop :=
  exists rest, map exact_question (@path (f64_ops P) L row t) = @path xr_ops L' (map exact_value row) te ++ rest /\
    (rest = [] \/ forall s s', In s (samples_like (map exact_value row) te d) -> In s' (samples_like (map exact_value row) te d) -> snd s = snd s').
