(** Data for the examples of C100. *)
From Coq Require Import Lia.
From Flocq Require Import IEEE754.BinarySingleNaN.
From Verif Require Import Base Num ModelCommon ModelTree ModelBoost Spec SpecTree SpecScore SpecColumns SpecColumnsBoost F64 ProofColumns Decide Check Demo DemoColumns.
Local Open Scope nat_scope.
Local Notation O := (f64_ops taylor_platform).
Local Existing Instance f64_ops.

Definition stages_b {L} (pr : @model O L -> list f64 -> res (list f64)) (tg : list f64 -> list f64) (nc nt : nat) (d : @dataset O) (m : @model O L) : bool :=
  forallb (fun k => match nth_error (m_trees m) k, mapM (pr (first_trees k m)) (feature_rows d) with
    | Some t, Ok ss => decisive_b nc nt (@mkDS O (feature_rows d) (@differences O (labels d) (map tg ss)) (feature_columns d)) t
    | _, _ => false end) (seq 0 (length (m_trees m))).

Lemma stages_b_ok {L} pr tg nc nt d (m : @model O L) : stages_b pr tg nc nt d m = true -> @decisive_stages O L pr tg nc nt d m.
Proof.
  intros H k t ss Ht Hs. unfold stages_b in H. rewrite forallb_forall in H.
  assert (Hk : k < length (m_trees m)) by (apply nth_error_Some; congruence).
  specialize (H k ltac:(apply in_seq; lia)). rewrite Ht in H. change (@F O) with f64 in *. rewrite Hs in H. exact (decisive_b_ok nc nt _ _ H).
Qed.

(** The rows of [mixed] in three classes. *)
Definition mixed_classes : @dataset O :=
  @mkDS O (feature_rows mixed) [[n64 1; n64 0; n64 0]; [n64 1; n64 0; n64 0]; [n64 0; n64 1; n64 0]; [n64 0; n64 0; n64 1]] (feature_columns mixed).
Definition mixed_classes_cfg : @tree_config O := @mkTC O (split_finder_new Variance) true 3 4.
Lemma mixed_classes_wf : @wf_dataset O 2 3 mixed_classes. Proof. check_wf. Qed.

Definition rate : f64 := Bdiv mode_NE (n64 1) (n64 2).

Lemma mixed_stages : exists m, regression_boost_train mixed mixed_cfg 3 rate = Ok m /\ @decisive_stages O _ regression_boost_predict (fun s => s) 2 1 mixed m.
Proof.
  assert (H : match regression_boost_train mixed mixed_cfg 3 rate with Ok m => stages_b (@regression_boost_predict O) (fun s => s) 2 1 mixed m | _ => false end = true) by (vm_compute; reflexivity).
  destruct (regression_boost_train mixed mixed_cfg 3 rate) as [m| |]; try discriminate. exists m. split; auto. now apply stages_b_ok.
Qed.
Lemma mixed_class_stages : exists m, multi_class_boost_train mixed_classes mixed_classes_cfg 3 rate = Ok m /\ @decisive_stages O _ multi_class_boost_raw softmax 2 3 mixed_classes m.
Proof.
  assert (H : match multi_class_boost_train mixed_classes mixed_classes_cfg 3 rate with Ok m => stages_b (@multi_class_boost_raw O) (@softmax O) 2 3 mixed_classes m | _ => false end = true) by (vm_compute; reflexivity).
  destruct (multi_class_boost_train mixed_classes mixed_classes_cfg 3 rate) as [m| |]; try discriminate. exists m. split; auto. now apply stages_b_ok.
Qed.
Lemma mixed_amg_stages : exists m, amg_boost_train mixed_classes mixed_classes_cfg 3 rate = Ok m /\ @decisive_stages O _ amg_boost_raw softmax 2 3 mixed_classes m.
Proof.
  assert (H : match amg_boost_train mixed_classes mixed_classes_cfg 3 rate with Ok m => stages_b (@amg_boost_raw O) (@softmax O) 2 3 mixed_classes m | _ => false end = true) by (vm_compute; reflexivity).
  destruct (amg_boost_train mixed_classes mixed_classes_cfg 3 rate) as [m| |]; try discriminate. exists m. split; auto. now apply stages_b_ok.
Qed.

(** The first questions of the first two trees before and after swapping the columns. *)
Definition first_columns (r : res (@regression_boost_model O)) : res (list N) := m <- r;; Ok (map (fun t => q_column (nd_question t)) (m_trees m)).
Lemma mixed_boost_columns :
  first_columns (regression_boost_train mixed mixed_cfg 3 rate) = Ok [0%N; 0%N; 0%N] /\
  first_columns (regression_boost_train (reorder swap mixed) mixed_cfg 3 rate) = Ok [1%N; 1%N; 1%N].
Proof. vm_compute. auto. Qed.

(** With ties the order matters for ensembles too. *)
Lemma tied_boost_differ :
  exists (P : platform) (order : list nat) (d : @dataset (f64_ops P)) (cfg : tree_config) (row p p' : list f64),
    column_order 2 order /\ @wf_dataset (f64_ops P) 2 2 d /\
    (m <- regression_boost_train d cfg 1 (n64 1);; regression_boost_predict m row) = Ok p /\
    (m <- regression_boost_train (reorder order d) cfg 1 (n64 1);; regression_boost_predict m (reorder_row order row)) = Ok p' /\ p <> p'.
Proof.
  exists taylor_platform, swap, tied, tied_cfg, mid.
  set (a := m <- regression_boost_train tied tied_cfg 1 (n64 1);; regression_boost_predict m mid).
  set (b := m <- regression_boost_train (reorder swap tied) tied_cfg 1 (n64 1);; regression_boost_predict m (reorder_row swap mid)).
  assert (H : match a, b with Ok (x :: _), Ok (y :: _) => negb (Beqb (x : f64) y) && negb (is_nan x) | _, _ => false end = true) by (vm_compute; reflexivity).
  destruct a as [[|x p]| |], b as [[|y p']| |]; try discriminate H. exists (x :: p), (y :: p').
  split; [exact swap_order|]. split; [exact tied_wf|]. split; [reflexivity|]. split; [reflexivity|]. intros E. injection E as -> _.
  apply andb_true_iff in H as [H1 H2]. rewrite (Beqb_refl _ _ (y : f64)) in H1. destruct (is_nan y); discriminate.
Qed.
