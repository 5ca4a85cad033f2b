(** A tree prediction outside the range of its labels, in binary64. *)
From Flocq Require Import IEEE754.BinarySingleNaN.
From Verif Require Import Base Num ModelCommon ModelTree ModelBoost Spec SpecTree SpecScore SpecFit F64 Decide Check Demo.
Local Open Scope nat_scope.

(** Three equal rows with label 0.1. *)
Definition tenths : @dataset (f64_ops taylor_platform) :=
  let O := f64_ops taylor_platform in
  let x := @fdiv O (n64 1) (n64 10) in @mkDS O [[n64 1]; [n64 1]; [n64 1]] [[x]; [x]; [x]] [[n64 1; n64 1; n64 1]].

Theorem mean_above_labels :
  exists (P : platform) (d : @dataset (f64_ops P)) (cfg : @tree_config (f64_ops P)) (hi v : @F (f64_ops P)),
    let O := f64_ops P in
    wf_dataset 1 1 d /\ (forall l x, In l (labels d) -> In x l -> fleb x hi = true) /\
    (t <- regression_tree_new d cfg;; tree_prediction [f0] t) = Ok [v] /\ fltb hi v = true.
Proof.
  exists taylor_platform, tenths, (mkTC (split_finder_new Variance) false 1 1), (@fdiv (f64_ops taylor_platform) (n64 1) (n64 10)),
    (average_of (labels tenths) 0).
  intros O. split; [check_wf|]. split.
  - intros l x Hl Hx. destruct Hl as [<-|[<-|[<-|[]]]]; destruct Hx as [<-|[]]; vm_compute; reflexivity.
  - split; [compute_eq|vm_compute; reflexivity].
Qed.
