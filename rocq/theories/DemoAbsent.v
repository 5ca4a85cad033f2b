(** Example runs for C107: two rows, three classes, no row has the first. *)
From Coq Require Import Reals Lra Lia.
From Verif Require Import Base Num ModelCommon ModelTree ModelBoost Lib XR Spec SpecTree SpecExact SpecScore SpecFit SpecClass ProofReal ProofSort ProofData
  ProofTree ProofTree3 ProofSplitExact2 ProofScore ProofBoost ProofBoost2 ProofBoostExact ProofClassExact ProofClassRun ProofAbsent ProofWitness DemoExact DemoBoostExact.
Local Open Scope R_scope.

Definition gap : @dataset xr_ops := real_data [[0]; [1]] [[0; 1]] [[0; 1; 0]; [0; 0; 1]].
Definition gap_cfg (m : N) : @tree_config xr_ops := mkTC (split_finder_new Variance) false 3 m.

Lemma gap_wf : wf_dataset 1 3 gap /\ real_labels [[0; 1; 0]; [0; 0; 1]] gap.
Proof. unfold gap. real_wf. Qed.

Lemma gap_one_hot : one_hot_labels 3 gap.
Proof.
  constructor; [exists 1%N|constructor; [exists 2%N|constructor]].
  all: split; [lia|]; split; [reflexivity|]; intros [|[|[|j]]] Hj; try lia; reflexivity.
Qed.

Lemma gap_absent : Forall (fun y => nth_error y 0 = Some (Fin 0)) (labels gap).
Proof. repeat constructor. Qed.

Lemma gap_multi m n lr : exists e, multi_class_boost_train gap (gap_cfg m) n lr = Ok e.
Proof.
  destruct (multi_class_total_run xr_laws 1 3 gap (gap_cfg m) n lr (proj1 gap_wf) ltac:(lia) eq_refl eq_refl) as (e & E & _);
    [vm_compute; discriminate|]. eauto.
Qed.

Lemma gap_amg m n lr : exists e, amg_boost_train gap (gap_cfg m) n lr = Ok e.
Proof.
  destruct (amg_total_run xr_laws 1 3 gap (gap_cfg m) n lr (proj1 gap_wf) ltac:(lia) eq_refl eq_refl) as (e & E & _);
    [vm_compute; discriminate|]. eauto.
Qed.

(** With no iteration the answer is the first class, which no row has. *)
Lemma gap_untrained lr : exists m, amg_boost_train gap (gap_cfg 2) 0 (Fin lr) = Ok m /\ amg_boost_predict m [Fin 0] = Ok [Fin 1; Fin 0; Fin 0] /\
  ~ In [Fin 1; Fin 0; Fin 0] (labels gap).
Proof.
  destruct (gap_amg 2 0 (Fin lr)) as (m & E). exists m. split; [exact E|]. split.
  - destruct (amg_guess 1 3 gap (gap_cfg 2) 0 (Fin lr) m ltac:(lia) ltac:(lia) (proj1 gap_wf) E) as (Hg & _ & HT). apply length_zero_iff_nil in HT.
    assert (R : amg_boost_raw m [Fin 0] = Ok (map Fin (even 3))). { unfold amg_boost_raw. rewrite amg_predict_instance_raw, Hg, HT. reflexivity. }
    unfold amg_boost_predict. rewrite R. cbn [bind]. destruct (binary_prediction xr_laws (map Fin (even 3))) as (c & v & Eb & Hv & HF); [discriminate|].
    xr. rewrite Eb. f_equal. assert (Hc : c = 0%nat).
    { destruct HF as [(x & H1 & _ & H2)|[H _]]; auto. destruct c as [|c]; auto. exfalso. destruct (H2 0%nat (Fin (1 / INR 3)) eq_refl) as [_ H3].
      rewrite nth_error_map in H1. destruct (nth_error (even 3) (S c)) as [y|] eqn:Ey; [|discriminate]. injection H1 as <-. apply nth_error_In in Ey. apply repeat_spec in Ey. subst y.
      destruct H3 as [H3|H3]; [lia| |apply H3; apply xleb_Fin, Rle_refl]. change (xltb (Fin (1 / INR 3)) (Fin (1 / INR 3)) = true) in H3. apply xltb_Fin in H3. lra. }
    subst c. change (length (map Fin (even 3))) with 3%nat in Hv. apply (@one_hot_unique xr_ops 3 0%N v); [exact Hv|]. split; [lia|]. split; [reflexivity|]. intros [|[|[|j]]] Hj; try lia; reflexivity.
  - unfold gap, real_data. cbn [labels map]. intros [H|[H|[]]]; injection H; intros; lra.
Qed.

Lemma gap_iteration_needed : exists (d : @dataset xr_ops) cfg (m : amg_boost_model) row, wf_dataset 1 3 d /\ one_hot_labels 3 d /\
  amg_boost_train d cfg 0 (Fin 1) = Ok m /\ length row = 1%nat /\ exists y, amg_boost_predict m row = Ok y /\ ~ In y (labels d).
Proof.
  destruct (gap_untrained 1) as (m & A & B & C). exists gap, (gap_cfg 2), m, [Fin 0]. split; [exact (proj1 gap_wf)|]. split; [exact gap_one_hot|]. split; [exact A|].
  split; [reflexivity|]. eauto.
Qed.
