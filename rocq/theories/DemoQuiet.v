(** Example training sets for C112: rows that all have the same features. *)
From Coq Require Import Reals Lra Lia.
From Flocq Require Import IEEE754.BinarySingleNaN.
From Verif Require Import Base Num F64 ModelCommon ModelTree ModelBoost Spec SpecTree XR SpecExact SpecFit SpecClass SpecTwins SpecQuiet ProofWitness ProofBoost Decide Check Demo DemoExact DemoBoostExact.
Local Open Scope R_scope.

Definition alike_labels : list (list R) := [[0]; [9]; [3]].
Definition alike : @dataset xr_ops := real_data [[5]; [5]; [5]] [[5; 5; 5]] alike_labels.

Lemma alike_wf : wf_dataset 1 1 alike /\ real_labels alike_labels alike.
Proof. unfold alike. real_wf. Qed.

Lemma alike_quiet m : nothing_to_ask (plain_cfg m) (feature_rows alike).
Proof. right. cbn. intros r r' [<-|[<-|[<-|[]]]] [<-|[<-|[<-|[]]]]; reflexivity. Qed.

Lemma alike_trained m n lr : exists e, regression_boost_train alike (plain_cfg m) n lr = Ok e.
Proof.
  destruct (regression_total_run xr_laws 1 1 alike (plain_cfg m) n lr (proj1 alike_wf) eq_refl eq_refl) as (e & E & _); [vm_compute; discriminate|]. eauto.
Qed.

Lemma alike_mean : mean_label 1 alike_labels = [4].
Proof. unfold mean_label, mean, target, alike_labels. cbn. f_equal. lra. Qed.

(** Three rows, two of them of the second class. *)
Definition alike64 : @dataset (f64_ops taylor_platform) :=
  @mkDS (f64_ops taylor_platform) [[n64 5]; [n64 5]; [n64 5]] [[n64 0; n64 1]; [n64 1; n64 0]; [n64 0; n64 1]] [[n64 5; n64 5; n64 5]].

Lemma alike64_quiet m b : nothing_to_ask (four_cfg m b) (feature_rows alike64).
Proof. right. cbn [feature_rows alike64]. intros r r' [<-|[<-|[<-|[]]]] [<-|[<-|[<-|[]]]]; reflexivity. Qed.

(** The same three rows in exact arithmetic. *)
Definition alike_classes : @dataset xr_ops := real_data [[5]; [5]; [5]] [[5; 5; 5]] [[0; 1]; [1; 0]; [0; 1]].

Lemma alike_classes_wf : wf_dataset 1 2 alike_classes /\ real_labels [[0; 1]; [1; 0]; [0; 1]] alike_classes.
Proof. unfold alike_classes. real_wf. Qed.

Lemma alike_classes_one_hot : one_hot_labels 2 alike_classes.
Proof.
  constructor; [exists 1%N|constructor; [exists 0%N|constructor; [exists 1%N|constructor]]].
  all: split; [lia|]; split; [reflexivity|]; intros [|[|j]] Hj; try lia; reflexivity.
Qed.

Lemma alike_classes_quiet m : nothing_to_ask (two_cfg m) (feature_rows alike_classes).
Proof. right. cbn. intros r r' [<-|[<-|[<-|[]]]] [<-|[<-|[<-|[]]]]; reflexivity. Qed.

Lemma alike_classes_trained m n lr : (exists e, multi_class_boost_train alike_classes (two_cfg m) n lr = Ok e) /\ (exists e, amg_boost_train alike_classes (two_cfg m) n lr = Ok e).
Proof.
  split.
  - destruct (multi_class_total_run xr_laws 1 2 alike_classes (two_cfg m) n lr (proj1 alike_classes_wf) ltac:(lia) eq_refl eq_refl) as (e & E & _);
      [vm_compute; discriminate|]. eauto.
  - destruct (amg_total_run xr_laws 1 2 alike_classes (two_cfg m) n lr (proj1 alike_classes_wf) ltac:(lia) eq_refl eq_refl) as (e & E & _);
      [vm_compute; discriminate|]. eauto.
Qed.
