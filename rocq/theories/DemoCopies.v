(** Example data for C72. *)
From Coq Require Import Reals Lra ZArith Permutation.
From Flocq Require Import IEEE754.BinarySingleNaN.
From Verif Require Import Base Num ModelCommon ModelTree ModelBoost Spec SpecTree F64 XR SpecExact SpecCopies ProofWitness Decide Check Demo DemoOrder.
Local Open Scope R_scope.

(** The rows of [blooms] twice each, in another order. *)
Definition blooms_twice := real_data [[1; 7]; [2; 5]; [0; 5]; [2; 5]; [1; 7]; [0; 5]] [[1; 2; 0; 2; 1; 0]; [7; 5; 5; 5; 7; 5]]
  [[1; 0]; [1; 0]; [0; 1]; [1; 0]; [1; 0]; [0; 1]].

Lemma blooms_twice_wf : wf_dataset 2 2 blooms_twice.
Proof. refine (proj1 (_ : _ /\ real_labels [[1; 0]; [1; 0]; [0; 1]; [1; 0]; [1; 0]; [0; 1]] blooms_twice)). unfold blooms_twice. real_wf. Qed.

Lemma blooms_twice_copies : Permutation (samples blooms_twice) (copies 2%nat (samples blooms)).
Proof.
  unfold samples, blooms, blooms_twice, real_data. cbn [feature_rows labels map combine copies flat_map repeat app].
  match goal with |- Permutation [?c; ?a; ?b; _; _; _] _ => generalize a b c; intros x y z end.
  apply (Permutation_cons_app [x; x; y; y] [z]); cbn [app].
  apply perm_skip. apply (Permutation_cons_app [x] [y; z]); cbn [app]. apply perm_skip. apply perm_swap.
Qed.

Lemma blooms_repeated : samples (repeat_rows 2%nat blooms) <> samples blooms.
Proof. intros H. apply (f_equal (@length _)) in H. cbn in H. discriminate. Qed.

(** One row with label 0.1: three copies average to something else in binary64. *)
Definition tenth : @dataset (f64_ops taylor_platform) :=
  let O := f64_ops taylor_platform in @mkDS O [[n64 1]] [[@fdiv O (n64 1) (n64 10)]] [[n64 1]].

Local Open Scope nat_scope.
Theorem copies_matter :
  exists (P : platform) (d : @dataset (f64_ops P)) (cfg : @tree_config (f64_ops P)) (v v' : @F (f64_ops P)),
    let O := f64_ops P in
    wf_dataset 1 1 d /\ standard cfg /\
    (m <- regression_boost_train d cfg 0 f1;; regression_boost_predict m [f0]) = Ok [v] /\
    (m <- regression_boost_train (repeat_rows 3 d) cfg 0 f1;; regression_boost_predict m [f0]) = Ok [v'] /\ fltb v v' = true.
Proof.
  exists taylor_platform, tenth, (mkTC (split_finder_new Variance) false 1 1), (@fdiv (f64_ops taylor_platform) (n64 1) (n64 10)),
    (let O := f64_ops taylor_platform in let x := @fdiv O (n64 1) (n64 10) in fdiv (fadd (fadd x x) x) (n64 3)).
  intros O. split; [check_wf|]. split; [reflexivity|]. split; [compute_eq|]. split; [compute_eq|vm_compute; reflexivity].
Qed.
