(** Sharper forms of some theorems, added after testing the statements against wrong programs. *)
From Coq Require Import Reals Lra Lia ZArith.
From Verif Require Import Base Num ModelCommon ModelTree ModelBoost Spec SpecTree SpecScore Lib ProofData
  ProofTree ProofTree3 ProofScore ProofBoost ProofBoost2 XR SpecExact SpecClass ProofClassRun.

Section Any.
Context {O : NumOps} (LW : NumLaws O).

(** C25: the AMG tree, with the choice of the largest entry described by its effect. *)
Theorem amg_is_regression_largest d cfg kind :
  standard cfg ->
  exists largest : list F -> F * nat,
    (forall o, first_largest o (snd (largest o)) /\
       (nth_error o (snd (largest o)) = Some (fst (largest o)) \/
        fst (largest o) = fninf /\ forall y, In y o -> fltb fninf y = false)) /\
    amg_boost_tree_new d cfg (leaf_output_calculator_new kind) =
    (t <- regression_tree_new d cfg;;
     tree_mapM (fun l => x <- unwrap (rl_data l);; o <- leaf_output_calculator_new kind x;;
       Ok (mkAL (Some (fst (largest o))) (Some (snd (largest o))))) t).
Proof.
  intros Hs. exists find_max_value_and_index_from_vector. split; [|now apply amg_is_regression].
  intros o. split; [now apply argmax_first_largest|].
  pose proof (argmax_vector LW o) as H. destruct (find_max_value_and_index_from_vector o) as [m c]. cbn [fst snd].
  destruct H as [(x & H1 & -> & _)|(_ & -> & H)]; auto.
Qed.

(** C42: predictions add the reconstructed vectors. *)
Theorem amg_prediction_reconstructs (m : amg_boost_model) row (outs : list (list F)) :
  Forall2 (fun t o => exists l, find_leaf_node_for_data row t = Ok l /\
             construct_approximate_leaf_output l (length (m_initial_guess m)) = Ok o) (m_trees m) outs ->
  exists p, amg_boost_raw m row = Ok p /\ length p = length (m_initial_guess m) /\
    forall j x, nth_error (m_initial_guess m) j = Some x ->
      nth_error p j = Some (fold_left (fun s o => fadd s (fmul (m_learning_rate m) (nth j o f0))) outs x).
Proof.
  intros H. unfold amg_boost_raw. rewrite amg_predict_instance_raw.
  rewrite (raw_outs (amg_out (length (m_initial_guess m))) _ _ _ _ outs).
  - apply sum_outputs. apply Forall_forall. intros o Ho.
    assert (exists t l, find_leaf_node_for_data row t = Ok l /\ construct_approximate_leaf_output l (length (m_initial_guess m)) = Ok o)
      as (t & l & _ & E).
    { clear -H Ho. induction H as [|t o' ts os (l & H1 & H2) H IH]; [destruct Ho|]. destruct Ho as [->|Ho]; eauto. }
    unfold construct_approximate_leaf_output in E.
    destruct (al_max l) as [mv|]; cbn [unwrap bind] in E; [|discriminate]. destruct (al_class l) as [c|]; cbn [unwrap bind] in E; [|discriminate].
    unfold upd in E. destruct (Nat.ltb _ _) in E; [|discriminate]. inversion E. rewrite length_list_set, repeat_length. lia.
  - eapply Forall2_impl; [|exact H]. intros t o (l & H1 & H2). unfold amg_out. rewrite H1. exact H2.
Qed.

End Any.

Local Open Scope R_scope.

(** C40: the class and value an AMG leaf stores, in exact arithmetic. *)
Theorem amg_leaf_outputs_largest nc nt (d : @dataset xr_ops) cfg n lr (m : @amg_boost_model xr_ops) k :
  (2 <= nt)%nat -> (Z.of_nat nt <= 2 ^ 53)%Z -> wf_dataset nc nt d -> one_hot_labels nt d ->
  amg_boost_train d cfg n (Fin lr) = Ok m -> (k < n)%nat ->
  exists scores r t, mapM (amg_boost_raw (first_trees k m)) (feature_rows d) = Ok scores /\
    differences (labels d) (map softmax scores) = map (map Fin) r /\ nth_error (m_trees m) k = Some t /\
    (forall l, In l (leaves t) -> exists group c, group <> [] /\ incl group r /\
       (forall j, (j < nt)%nat -> 0 < curvature (target j group)) /\ (c < nt)%nat /\ al_class l = Some c /\
       al_max l = Some (Fin (nth c (class_output nt group) 0))) /\
    (forall row, (nc <= length row)%nat -> exists group c,
       map snd (samples_like row t (mkDS (feature_rows d) (map (map Fin) r) (feature_columns d))) = map (map Fin) group /\
       find_leaf_node_for_data row t = Ok (mkAL (Some (Fin (nth c (class_output nt group) 0))) (Some c)) /\
       (c < nt)%nat /\
       forall j, (j < nt)%nat -> nth j (class_output nt group) 0 <= nth c (class_output nt group) 0 /\
         ((j < c)%nat -> nth j (class_output nt group) 0 < nth c (class_output nt group) 0)).
Proof.
  intros Hk Hz W HO E Hkn. destruct (amg_leaf_outputs nc nt d cfg n lr m k Hk Hz W HO E Hkn) as (ss & r & t & H1 & H2 & H3 & H4 & H5).
  exists ss, r, t. split; auto. split; auto. split; auto. split; auto. intros row Hrow.
  destruct (H5 row Hrow) as (group & c & Hg & Hf & Hm). exists group, c. split; auto. split; auto.
  pose proof (argmax_vector xr_laws (map Fin (class_output nt group))) as A.
  assert (Len : length (class_output nt group) = nt) by (unfold class_output; now rewrite map_length, seq_length).
  change (@find_max_value_and_index_from_vector xr_ops (map Fin (class_output nt group)))
    with (@find_max_value_and_index_from_vector xr_ops (map Fin (class_output nt group))) in A.
  unfold F, xr_ops in *. rewrite Hm in A. destruct A as [(x & A1 & _ & _ & A2)|(_ & A1 & _)]; [|cbn in A1; discriminate A1].
  rewrite nth_error_map in A1. destruct (nth_error (class_output nt group) c) as [y|] eqn:Ey; cbn in A1; [|discriminate A1].
  assert (Hc : (c < nt)%nat) by (rewrite <- Len; apply nth_error_Some; congruence). split; auto.
  inversion A1; subst x. rewrite (nth_error_nth _ _ 0 Ey). intros j Hj.
  destruct (nth_error (class_output nt group) j) as [z|] eqn:Ez; [|apply nth_error_None in Ez; lia].
  rewrite (nth_error_nth _ _ 0 Ez). destruct (A2 j (Fin z)) as [A3 A4]; [now rewrite nth_error_map, Ez|].
  change (xltb (Fin y) (Fin z) = false) in A3. change ((j < c)%nat -> xltb (Fin z) (Fin y) = true \/ ~ xleb (Fin z) (Fin z) = true) in A4. split.
  - destruct (Rle_or_lt z y) as [?|Hlt]; auto. apply xltb_Fin in Hlt. congruence.
  - intros Hjc. destruct (A4 Hjc) as [A5|A5]; [now apply xltb_Fin|]. exfalso. apply A5. apply xleb_Fin. lra.
Qed.
