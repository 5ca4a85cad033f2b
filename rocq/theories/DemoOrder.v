(** Example data for the row-order theorems (C61, C62). *)
From Coq Require Import Reals Lra Lia ZArith Permutation.
From Flocq Require Import IEEE754.BinarySingleNaN.
From Verif Require Import Base Num ModelCommon ModelTree Spec SpecTree SpecOrder F64 XR SpecExact SpecClass SpecInt ProofWitness Decide Check Demo.
Local Open Scope R_scope.

(** Two classes described by two measurements, and the same rows in another order. *)
Definition blooms := real_data [[2; 5]; [0; 5]; [1; 7]] [[2; 0; 1]; [5; 5; 7]] [[1; 0]; [0; 1]; [1; 0]].
Definition blooms' := real_data [[1; 7]; [2; 5]; [0; 5]] [[1; 2; 0]; [7; 5; 5]] [[1; 0]; [1; 0]; [0; 1]].
Definition blooms_labels : list (list R) := [[1; 0]; [0; 1]; [1; 0]].

Lemma blooms_wf : wf_dataset 2 2 blooms /\ real_labels blooms_labels blooms.
Proof. unfold blooms. real_wf. Qed.
Lemma blooms'_wf : wf_dataset 2 2 blooms'.
Proof. refine (proj1 (_ : _ /\ real_labels [[1; 0]; [1; 0]; [0; 1]] blooms')). unfold blooms'. real_wf. Qed.

Lemma blooms_distinct : distinct_above_minimum blooms.
Proof.
  intros j i i' ri ri' v v' m rm Hi Hi' Hv Hv' Hne Hrm Hm Hlt ->.
  destruct i as [|[|[|i]]], i' as [|[|[|i']]]; try congruence; cbn in Hi, Hi'; try (destruct i; discriminate); try (destruct i'; discriminate);
    injection Hi as <-; injection Hi' as <-; destruct j as [|[|[|j]]]; cbn in Hv, Hv'; try discriminate;
    injection Hv as <-; try (injection Hv' as E; lra);
    cbn in Hrm; destruct Hrm as [<-|[<-|[<-|[]]]]; cbn in Hm; injection Hm as <-; apply xltb_Fin in Hlt; lra.
Qed.

Lemma blooms_one_hot : one_hot_labels 2 blooms.
Proof.
  constructor; [exists 0%N|constructor; [exists 1%N|constructor; [exists 0%N|constructor]]].
  all: split; [lia|]; split; [reflexivity|]; intros [|[|j]] Hj; try lia; reflexivity.
Qed.

Lemma blooms_permuted : Permutation (samples blooms) (samples blooms').
Proof.
  unfold samples, blooms, blooms', real_data. cbn [feature_rows labels map combine].
  symmetry. etransitivity; [apply perm_swap|]. apply perm_skip, perm_swap.
Qed.

(** The four-row example with its last two rows exchanged. *)
Definition four' : @dataset (f64_ops taylor_platform) :=
  @mkDS (f64_ops taylor_platform)
    [[n64 1]; [n64 2]; [n64 4]; [n64 3]]
    [[n64 1; n64 0]; [n64 1; n64 0]; [n64 1; n64 0]; [n64 0; n64 1]]
    [[n64 1; n64 2; n64 4; n64 3]].

Lemma four_permuted : Permutation (samples four) (samples four').
Proof. unfold samples, four, four'. cbn [feature_rows labels combine]. do 2 apply perm_skip. apply perm_swap. Qed.

Lemma four_ties : float_ties_agree four.
Proof.
  intros j ri li ri' li' v v' m rm H H' Hv Hv' He _ _ _. cbn in H, H'.
  repeat (destruct H as [H|H]; [injection H as <- <-|]); [..|destruct H];
    (repeat (destruct H' as [H'|H']; [injection H' as <- <-|]); [..|destruct H']);
    (destruct j as [|[|j]]; cbn [nth_error] in Hv, Hv'; [|discriminate|discriminate]);
    injection Hv as <-; injection Hv' as <-; try (split; reflexivity);
    exfalso; revert He; vm_compute; discriminate.
Qed.

Lemma blooms_differ : samples blooms <> samples blooms'.
Proof.
  intros H. apply (f_equal (@hd_error _)) in H. unfold samples, blooms, blooms', real_data in H. cbn [feature_rows labels map combine hd_error] in H.
  injection H as H _. lra.
Qed.
