(** Floating-point runs for C107: a perfectly fitted ensemble answers a class that no training row has. *)
From Coq Require Import Reals ZArith Lra Lia.
From Flocq Require Import Core.
From Flocq Require Import IEEE754.BinarySingleNaN.
From Verif Require Import Base Num ModelCommon ModelTree ModelBoost Spec SpecTree F64 Decide Check Demo DemoAmg.
Local Open Scope R_scope.

Ltac hot := split; [reflexivity|split; [reflexivity|intros [|[|[|i]]] H; [reflexivity|reflexivity|reflexivity|exfalso; cbn in H; lia]]].

Lemma skipped_hot : Forall (fun l => exists c, @one_hot (f64_ops series_platform) 3 c l) (labels skipped).
Proof. constructor; [exists 0%N; hot|]. constructor; [exists 2%N; hot|constructor]. Qed.

Lemma headless_hot : Forall (fun l => exists c, @one_hot (f64_ops series_platform) 3 c l) (labels headless).
Proof. constructor; [exists 1%N; hot|]. constructor; [exists 2%N; hot|constructor]. Qed.

Lemma rate_402 : is_finite (n64 402) = true /\ 0 < B2R (n64 402).
Proof.
  split; [reflexivity|]. assert (H : Bltb (B754_zero false : f64) (n64 402) = true) by (vm_compute; reflexivity).
  rewrite Bltb_correct in H by reflexivity. destruct (Rlt_bool_spec (B2R (B754_zero false : f64)) (B2R (n64 402))) as [L|]; [exact L|discriminate H].
Qed.

Lemma amg_answer : exists m, @amg_boost_train (f64_ops series_platform) skipped skipped_cfg 2 (n64 402) = Ok m /\
  @amg_boost_predict (f64_ops series_platform) m [n64 0] = Ok [n64 0; n64 1; n64 0].
Proof.
  assert (E : bind (@amg_boost_train (f64_ops series_platform) skipped skipped_cfg 2 (n64 402)) (fun m => @amg_boost_predict (f64_ops series_platform) m [n64 0]) =
    Ok [n64 0; n64 1; n64 0]) by compute_eqs.
  destruct (amg_boost_train skipped skipped_cfg 2 (n64 402)) as [m| |]; [|discriminate E|discriminate E]. exists m. split; [reflexivity|exact E].
Qed.

Lemma multi_class_answer : exists m, @multi_class_boost_train (f64_ops series_platform) headless skipped_cfg 2 (n64 402) = Ok m /\
  @multi_class_boost_predict (f64_ops series_platform) m [n64 0] = Ok [n64 1; n64 0; n64 0].
Proof.
  assert (E : bind (@multi_class_boost_train (f64_ops series_platform) headless skipped_cfg 2 (n64 402)) (fun m => @multi_class_boost_predict (f64_ops series_platform) m [n64 0]) =
    Ok [n64 1; n64 0; n64 0]) by compute_eqs.
  destruct (multi_class_boost_train headless skipped_cfg 2 (n64 402)) as [m| |]; [|discriminate E|discriminate E]. exists m. split; [reflexivity|exact E].
Qed.

Lemma not_label (y : list f64) (ls : list (list f64)) :
  Forall (fun l => exists j v w, nth_error y j = Some v /\ nth_error l j = Some w /\ Beqb v w = false /\ is_finite v = true) ls -> ~ In y ls.
Proof.
  intros H HI. apply (proj1 (Forall_forall _ _) H) in HI as (j & v & w & A & B & C & D). assert (Q : Some w = Some v) by (etransitivity; [symmetry; exact B|exact A]). injection Q as ->.
  rewrite Beqb_correct, Req_bool_true in C by auto. discriminate C.
Qed.

Lemma absent_float : exists P : platform, let O := f64_ops P in
  (exists (d : dataset) (cfg : tree_config) (n : nat) (lr : f64) (m : amg_boost_model) row y,
     wf_dataset 1 3 d /\ Forall (fun l => exists c, one_hot 3 c l) (labels d) /\ (0 < n)%nat /\ is_finite lr = true /\ 0 < B2R lr /\
     amg_boost_train d cfg n lr = Ok m /\ In row (feature_rows d) /\ amg_boost_predict m row = Ok y /\ ~ In y (labels d)) /\
  (exists (d : dataset) (cfg : tree_config) (n : nat) (lr : f64) (m : multi_class_boost_model) row y,
     wf_dataset 1 3 d /\ Forall (fun l => exists c, one_hot 3 c l) (labels d) /\ (0 < n)%nat /\ is_finite lr = true /\ 0 < B2R lr /\
     multi_class_boost_train d cfg n lr = Ok m /\ In row (feature_rows d) /\ multi_class_boost_predict m row = Ok y /\ ~ In y (labels d)).
Proof.
  exists series_platform. cbv zeta. destruct rate_402 as [L1 L2]. split.
  - destruct amg_answer as (m & A & B). exists skipped, skipped_cfg, 2%nat, (n64 402), m, [n64 0], [n64 0; n64 1; n64 0].
    split; [check_wf|]. split; [exact skipped_hot|]. split; [auto|]. split; [exact L1|]. split; [exact L2|]. split; [exact A|]. split; [left; reflexivity|]. split; [exact B|].
    apply not_label. repeat constructor; exists 1%nat; do 2 eexists; repeat split; reflexivity.
  - destruct multi_class_answer as (m & A & B). exists headless, skipped_cfg, 2%nat, (n64 402), m, [n64 0], [n64 1; n64 0; n64 0].
    split; [check_wf|]. split; [exact headless_hot|]. split; [auto|]. split; [exact L1|]. split; [exact L2|]. split; [exact A|]. split; [left; reflexivity|]. split; [exact B|].
    apply not_label. repeat constructor; exists 0%nat; do 2 eexists; repeat split; reflexivity.
Qed.
