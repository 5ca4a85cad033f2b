(** Final forms of some ensemble theorems, for any arithmetic. *)
From Verif Require Import Base Num ModelCommon ModelTree ModelBoost Spec SpecTree SpecScore Lib ProofData
  ProofTree ProofTree3 ProofScore ProofBoost.

Section Boost2.
Context {O : NumOps}.

Theorem multi_class_raw_sum (m : multi_class_boost_model) row outs :
  Forall2 (fun t o => find_leaf_node_for_data row t = Ok (mkGL (Some o)) /\ length (m_initial_guess m) <= length o) (m_trees m) outs ->
  exists p, multi_class_boost_raw m row = Ok p /\ length p = length (m_initial_guess m) /\
    forall j x, nth_error (m_initial_guess m) j = Some x ->
      nth_error p j = Some (fold_left (fun s o => fadd s (fmul (m_learning_rate m) (nth j o f0))) outs x).
Proof. exact (regression_predict_sum m row outs). Qed.

Theorem amg_raw_sum (m : amg_boost_model) row (outs : list (nat * F)) :
  Forall2 (fun t o => find_leaf_node_for_data row t = Ok (mkAL (Some (snd o)) (Some (fst o))) /\ fst o < length (m_initial_guess m)) (m_trees m) outs ->
  exists p, amg_boost_raw m row = Ok p /\ length p = length (m_initial_guess m) /\
    forall j x, nth_error (m_initial_guess m) j = Some x ->
      nth_error p j = Some (fold_left (fun s o => fadd s (fmul (m_learning_rate m)
        (if j =? fst o then snd o else fdiv (fneg (snd o)) (fsub (f_of_nat (length (m_initial_guess m))) f1)))) outs x).
Proof.
  intros H. unfold amg_boost_raw. rewrite amg_predict_instance_raw. set (k := length (m_initial_guess m)) in *.
  set (vec := fun o : nat * F => list_set (repeat (fdiv (fneg (snd o)) (fsub (f_of_nat k) f1)) k) (fst o) (snd o)).
  rewrite (raw_outs (amg_out k) _ _ _ _ (map vec outs)).
  2:{ clear -H. induction H as [|t o ts os [E Ho] H IH]; constructor; auto.
      unfold amg_out. rewrite E. cbn [bind]. unfold construct_approximate_leaf_output. cbn [al_max al_class unwrap bind].
      unfold vec, calculate_approximate_value. rewrite upd_lt by (rewrite repeat_length; auto). reflexivity. }
  destruct (sum_outputs (m_learning_rate m) (map vec outs) (m_initial_guess m)) as (p & E & HL & Hp).
  { apply Forall_forall. intros o Ho. apply in_map_iff in Ho as (o' & <- & _). unfold vec. rewrite length_list_set, repeat_length. reflexivity. }
  exists p. split; auto. split; auto. intros j x Hj. rewrite (Hp j x Hj). f_equal.
  assert (Hlt : j < k) by (apply nth_error_Some; congruence).
  clear -H Hlt. revert x. generalize (m_trees m) H. clear H. induction outs as [|o outs IH]; intros ts H x; [reflexivity|].
  inversion H as [|t ? ts' ? [_ Ho] H']; subst. cbn [map fold_left].
  replace (nth j (vec o) f0) with (if j =? fst o then snd o else fdiv (fneg (snd o)) (fsub (f_of_nat k) f1)).
  - eapply IH; eauto.
  - unfold vec. symmetry. apply nth_error_nth. rewrite nth_error_list_set, repeat_length.
    rewrite (Nat.eqb_sym (fst o) j). destruct (Nat.eqb_spec j (fst o)) as [->|Hn]; cbn [andb]; [now apply Nat.ltb_lt in Ho as ->|]. rewrite nth_error_repeat; auto.
Qed.

(** Leaves of the trees of a trained model. *)
Theorem regression_trained_sum nc nt d cfg n lr m row :
  wf_dataset nc nt d -> regression_boost_train d cfg n lr = Ok m -> nc <= length row ->
  exists outs p,
    Forall2 (fun t o => find_leaf_node_for_data row t = Ok (mkGL (Some o)) /\ length o = nt) (m_trees m) outs /\
    regression_boost_predict m row = Ok p /\ length p = nt /\
    forall j x, nth_error (m_initial_guess m) j = Some x ->
      nth_error p j = Some (fold_left (fun s o => fadd s (fmul lr (nth j o f0))) outs x).
Proof.
  intros W E Hr. destruct (regression_shape nt d cfg n lr m (wf_labels _ _ _ W) E) as (HL & Hlr & Hg & _).
  assert (HG : Forall (fun t => exists o, gb_out row t = Ok o /\ length o = nt) (m_trees m)).
  { apply Forall_forall. intros t Ht. apply In_nth_error in Ht as [k Hk].
    assert (k < n) by (rewrite <- HL; apply nth_error_Some; congruence).
    destruct (regression_stage d cfg n lr m k (wf_lengths _ _ _ W) E H) as (ps & t' & _ & Hs & Ht' & Eb).
    rewrite Hk in Ht'. inversion Ht'; subst t'.
    refine (gb_tree_outputs nc nt _ cfg Regression t row _ Eb Hr).
    assert (Rp : rectangular nt ps).
    { pose proof (wf_labels _ _ _ W) as R. clear -Hs R. unfold rectangular in *.
      induction Hs; constructor; inversion R; subst; auto; congruence. }
    destruct (differences_rect nt (labels d) ps) as [Q1 Q2].
    { exact (Forall2_length _ _ _ Hs). }
    { apply (wf_labels _ _ _ W). }
    { exact Rp. }
    apply (with_labels_wf nc nt d (differences (labels d) ps) W); auto. rewrite Q1. apply (wf_lengths _ _ _ W). }
  assert (HF : exists outs, Forall2 (fun t o => find_leaf_node_for_data row t = Ok (mkGL (Some o)) /\ length o = nt) (m_trees m) outs).
  { clear -HG. induction HG as [|t ts (o & E & Ho) _ (os & IH)]; [now exists []|]. exists (o :: os). constructor; auto.
    split; auto. now apply gb_out_leaf. }
  destruct HF as (outs & HF). exists outs.
  destruct (regression_predict_sum m row outs) as (p & Ep & Hp & Hn).
  { eapply Forall2_impl; [|exact HF]. intros t o [? ?]. split; auto. lia. }
  exists p. rewrite Hlr in Hn. split; auto. split; auto. split; [lia|auto].
Qed.

Theorem no_iterations d cfg lr (m : regression_boost_model) row :
  regression_boost_train d cfg 0 lr = Ok m -> regression_boost_predict m row = Ok (m_initial_guess m).
Proof.
  intros E. destruct (shape d cfg 0 lr RegressionBoost regression_executor m
    (fun _ _ => calculate_residuals_regression) (fun cfg _ d => grad_boost_tree_new d cfg (leaf_output_calculator_new Regression))
    (fun _ lr td t => update_dataset_labels td t lr)) as (HL & _ & _); auto.
  unfold regression_boost_predict. rewrite predict_instance_raw. destruct (m_trees m); [reflexivity|discriminate].
Qed.

End Boost2.
