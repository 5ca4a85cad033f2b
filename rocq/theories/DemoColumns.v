(** Facts about binary64 and data for the examples of C70. *)
From Coq Require Import Permutation Reals Lra.
From Flocq Require Import Core IEEE754.BinarySingleNaN.
From Verif Require Import Base Num ModelCommon ModelTree ModelBoost Spec SpecTree SpecColumns F64 ProofColumns Decide Check Demo.
Local Open Scope nat_scope.

Lemma f64_positive_eq (P : platform) (x y : @F (f64_ops P)) : fltb f0 x = true -> feqb x y = true -> x = y.
Proof.
  intros Hx He. change (Bltb (B754_zero false : f64) x = true) in Hx. change (Beqb (x : f64) y = true) in He.
  destruct x as [s|s| |s m e Hm], y as [s'|s'| |s' m' e' Hm']; try discriminate He; try discriminate Hx.
  all: try (destruct s, s'; discriminate).
  - destruct s, s'; try discriminate; reflexivity.
  - apply B2R_inj; auto. assert (H := Beqb_correct _ _ (B754_finite s m e Hm : f64) (B754_finite s' m' e' Hm') eq_refl eq_refl).
    rewrite He in H. symmetry in H. revert H. case Req_bool_spec; intros; [assumption|discriminate].
Qed.

(** Four rows, two features: the first question asks about column 0, one below it about column 1. *)
Definition mixed : @dataset (f64_ops taylor_platform) :=
  @mkDS (f64_ops taylor_platform)
    [[n64 1; n64 5]; [n64 2; n64 5]; [n64 3; n64 7]; [n64 3; n64 1]]
    [[n64 0]; [n64 1]; [n64 10]; [n64 12]]
    [[n64 1; n64 2; n64 3; n64 3]; [n64 5; n64 5; n64 7; n64 1]].
Definition mixed_cfg : @tree_config (f64_ops taylor_platform) := mkTC (split_finder_new Variance) true 1 4.

(** Two rows that both features tell apart equally well. *)
Definition tied : @dataset (f64_ops taylor_platform) :=
  @mkDS (f64_ops taylor_platform) [[n64 0; n64 0]; [n64 1; n64 1]] [[n64 1; n64 0]; [n64 0; n64 1]] [[n64 0; n64 1]; [n64 0; n64 1]].
Definition tied_cfg : @tree_config (f64_ops taylor_platform) := mkTC (split_finder_new Variance) true 2 4.

Definition swap : list nat := [1; 0].
Lemma swap_order : column_order 2 swap.
Proof. apply perm_swap. Qed.
Lemma mixed_wf : wf_dataset 2 1 mixed. Proof. check_wf. Qed.
Lemma tied_wf : wf_dataset 2 2 tied. Proof. check_wf. Qed.

Lemma mixed_decisive : exists t, regression_tree_new mixed mixed_cfg = Ok t /\ decisive 2 1 mixed t.
Proof.
  assert (H : match regression_tree_new mixed mixed_cfg with Ok t => decisive_b 2 1 mixed t | _ => false end = true) by (vm_compute; reflexivity).
  destruct (regression_tree_new mixed mixed_cfg) as [t| |]; try discriminate. exists t. split; auto. now apply decisive_b_ok.
Qed.

Definition root_question (r : res (tree_node (@regression_leaf (f64_ops taylor_platform)))) : res (N * @F (f64_ops taylor_platform)) :=
  t <- r;; Ok (q_column (nd_question t), q_value (nd_question t)).

Lemma mixed_questions :
  root_question (regression_tree_new mixed mixed_cfg) = Ok (0%N, n64 3) /\
  root_question (regression_tree_new (reorder swap mixed) mixed_cfg) = Ok (1%N, n64 3).
Proof. compute_eqs. Qed.

Definition mid : list (@F (f64_ops taylor_platform)) := [n64 0; n64 1].
Definition left_label : list (@F (f64_ops taylor_platform)) := [n64 1; n64 0].
Lemma tied_predictions :
  (t <- regression_tree_new tied tied_cfg;; predict_class mid t) = Ok left_label /\
  (t <- regression_tree_new (reorder swap tied) tied_cfg;; predict_class (reorder_row swap mid) t) = Ok mid.
Proof. compute_eqs. Qed.

Lemma tied_differ :
  exists (P : platform) (order : list nat) (d : @dataset (f64_ops P)) (cfg : tree_config) (row p p' : list f64),
    column_order 2 order /\ wf_dataset 2 2 d /\
    (t <- regression_tree_new d cfg;; predict_class row t) = Ok p /\
    (t <- regression_tree_new (reorder order d) cfg;; predict_class (reorder_row order row) t) = Ok p' /\ p <> p'.
Proof.
  exists taylor_platform, swap, tied, tied_cfg, mid, left_label, mid.
  split; [exact swap_order|]. split; [exact tied_wf|]. destruct tied_predictions as [H1 H2]. split; [exact H1|]. split; [exact H2|].
  intros E. apply (f_equal (fun l => Beqb (hd (n64 0) l) (n64 0))) in E. vm_compute in E. discriminate.
Qed.
