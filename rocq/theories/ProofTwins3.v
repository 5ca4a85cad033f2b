(** Test rows with the same features: accuracies in binary64 (C110). *)
From Coq Require Import Reals Lia Permutation.
From Flocq Require Import IEEE754.BinarySingleNaN.
From Verif Require Import Base Num F64 ModelCommon ModelTree ModelBoost Spec SpecTree SpecScore SpecF64 SpecTwins ProofScore2 ProofScoreF64 ProofTwins2.

Section Twins3.
Context (P : platform).
Let O := f64_ops P.
Local Existing Instance O.

Lemma tree_twins (nc nt : nat) (d : dataset) (cfg : tree_config) (t : tree_node regression_leaf) (test : dataset) groups :
  wf_dataset nc nt d -> (0 < nt)%nat -> (Z.of_nat nt <= 2 ^ 53)%Z -> regression_tree_new d cfg = Ok t ->
  length (labels test) = length (feature_rows test) -> feature_rows test <> [] -> (Z.of_nat (length (feature_rows test)) <= 2 ^ 53)%Z ->
  rectangular nt (labels test) -> (forall row, In row (feature_rows test) -> (nc <= length row)%nat) -> Permutation (samples test) (listed groups) ->
  exists k r, calculate_accuracy test t = Ok r /\ is_fraction k (length (feature_rows test)) r /\
    (k <= list_sum (map (fun g => largest_class nt (snd g)) groups))%nat.
Proof.
  intros W Hk Hz E HL Hne HN HR Hrow HP.
  assert (HM : forall row, In row (feature_rows test) -> exists v, predict_class row t = Ok v /\ exists c, one_hot nt (N.of_nat c) v).
  { intros row Hr. destruct (majority_class (f64_laws P) nc nt d cfg t row W Hk Hz E (Hrow row Hr)) as (c & v & Ev & Hv & _). eauto. }
  destruct (tree_accuracy_f64 P test t HL Hne HN) as (r & Er & Hr).
  { apply Forall_forall. intros row Hr. destruct (HM row Hr) as (v & Ev & _). eauto. }
  exists (length (correct_samples (fun row => predict_class row t) test)), r. split; [exact Er|]. split; [exact Hr|].
  apply (twins_correct (f64_laws P)); auto. intros row v Ev Hi. destruct (HM row Hi) as (w & Ew & c & Hc). rewrite Ev in Ew. injection Ew as <-.
  exists c. exact (eq_ind_r (fun n => one_hot n (N.of_nat c) v) Hc (proj1 (proj2 Hc))).
Qed.

Lemma multi_class_twins (m : multi_class_boost_model) (nt : nat) (test : dataset) groups :
  length (labels test) = length (feature_rows test) -> feature_rows test <> [] -> (Z.of_nat (length (feature_rows test)) <= 2 ^ 53)%Z ->
  rectangular nt (labels test) -> Forall (fun row => exists v, multi_class_boost_predict m row = Ok v) (feature_rows test) ->
  Permutation (samples test) (listed groups) ->
  exists k r, multi_class_boost_score m test = Ok r /\ is_fraction k (length (feature_rows test)) r /\
    (k <= list_sum (map (fun g => largest_class nt (snd g)) groups))%nat.
Proof.
  intros HL Hne HN HR HF HP. destruct (ensemble_accuracy_f64 P test (multi_class_boost_predict m) HL Hne HN HF) as (r & Er & Hr).
  exists (length (correct_samples (multi_class_boost_predict m) test)), r. split; [exact Er|]. split; [exact Hr|].
  apply (twins_correct (f64_laws P)); auto. intros row v Ev _. exact (multi_class_hot (f64_laws P) m row v Ev).
Qed.

Lemma amg_twins (m : amg_boost_model) (nt : nat) (test : dataset) groups :
  length (labels test) = length (feature_rows test) -> feature_rows test <> [] -> (Z.of_nat (length (feature_rows test)) <= 2 ^ 53)%Z ->
  rectangular nt (labels test) -> Forall (fun row => exists v, amg_boost_predict m row = Ok v) (feature_rows test) ->
  Permutation (samples test) (listed groups) ->
  exists k r, amg_boost_score m test = Ok r /\ is_fraction k (length (feature_rows test)) r /\
    (k <= list_sum (map (fun g => largest_class nt (snd g)) groups))%nat.
Proof.
  intros HL Hne HN HR HF HP. destruct (ensemble_accuracy_f64 P test (amg_boost_predict m) HL Hne HN HF) as (r & Er & Hr).
  exists (length (correct_samples (amg_boost_predict m) test)), r. split; [exact Er|]. split; [exact Hr|].
  apply (twins_correct (f64_laws P)); auto. intros row v Ev _. exact (amg_hot (f64_laws P) m row v Ev).
Qed.

End Twins3.
