(** The prediction of a regression tree, in any arithmetic. *)
From Verif Require Import Base Num ModelCommon ModelTree ModelBoost Lib Spec SpecTree SpecScore SpecFit ProofData ProofTree ProofTree3 ProofScore ProofBoost.

Section Prediction.
Context {O : NumOps} (LW : NumLaws O).

Theorem prediction_average nc nt d cfg t row :
  wf_dataset nc nt d -> regression_tree_new d cfg = Ok t -> nc <= length row ->
  tree_prediction row t = Ok (map (average_of (map snd (samples_like row t d))) (seq 0 nt)).
Proof.
  intros W E Hr. rewrite regression_tree_new_eq in E. apply build_with_built in E.
  destruct (built_lookup cfg nc nt 0 d t row E W Hr) as (ld & Ef & Es & Wl).
  unfold tree_prediction. rewrite Ef. cbn [bind unwrap rl_data].
  assert (Hl : map snd (samples_like row t d) = labels ld).
  { change (samples_like row t d) with (filter (fun p => same_answers (path row t) row (fst p)) (samples d)). rewrite <- Es.
    apply map_snd_combine. now rewrite (wf_lengths _ _ _ Wl). }
  rewrite Hl. pose proof (wf_labels _ _ _ Wl) as R.
  rewrite (avg_label_eq nt); auto.
  - f_equal. apply nth_error_ext. intros j. rewrite nth_error_map. destruct (Nat.lt_ge_cases j nt) as [H|H].
    + rewrite (colmean_nth nt) by auto. rewrite (nth_error_nth' _ 0) by now rewrite seq_length. now rewrite seq_nth.
    + rewrite (proj2 (nth_error_None (seq 0 nt) j)) by now rewrite seq_length. cbn [option_map].
      apply nth_error_None. unfold colmean. rewrite map_length, colsum_length by now apply rect_ge. exact H.
  - intros E0. apply (wf_nonempty _ _ _ Wl). pose proof (wf_lengths _ _ _ Wl) as L. rewrite E0 in L. now apply length_zero_iff_nil.
Qed.

End Prediction.
