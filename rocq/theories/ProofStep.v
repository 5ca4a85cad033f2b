(** A model's answers change only at training values (C63). *)
From Verif Require Import Base Num ModelCommon ModelTree ModelBoost Lib Spec SpecTree SpecScore SpecStep ProofData ProofSort
  ProofSplit ProofSplit2 ProofTree ProofTree2 ProofTree3 ProofScore ProofBoost.

Section Step.
Context {O : NumOps} (LW : NumLaws O).

Definition asks_training (nc : nat) (rows : list (list F)) (q : question) : Prop :=
  N.to_nat (q_column q) < nc /\ split_value rows (N.to_nat (q_column q)) (q_value q).

Lemma split_value_incl rows rows' j v : incl rows rows' -> split_value rows j v -> split_value rows' j v.
Proof.
  intros H ((r & Hr & E) & m & (r' & Hr' & E') & Hl). split; [exists r; auto|]. exists m. split; auto. exists r'. auto.
Qed.

Lemma sub_rows nc nt d x (p : list F * list F -> bool) :
  wf_dataset nc nt x -> samples x = filter p (samples d) -> incl (feature_rows x) (feature_rows d).
Proof.
  intros W E r Hr. rewrite <- (map_fst_combine (feature_rows x) (labels x)) in Hr by (symmetry; apply (wf_lengths _ _ _ W)).
  fold (samples x) in Hr. rewrite E in Hr. apply in_map_iff in Hr as ([r' l'] & <- & Hr). apply filter_In in Hr as [Hr _].
  now apply in_combine_l in Hr.
Qed.

Lemma built_asks_training {L} (mk : dataset -> res L) cfg nc nt level d t :
  standard cfg -> tc_number_of_classes cfg = N.of_nat nt ->
  built mk cfg level d t -> wf_dataset nc nt d -> Forall (asks_training nc (feature_rows d)) (asked t).
Proof.
  intros Hs Hk B. induction B as [level d s l Es Est El|level d s fd td t f Es Est Ep Bt IHt Bf IHf]; intros W; [constructor|].
  destruct (partition_wf nc nt d _ fd td W Ep) as (Hq & Wf & Wt & St & Sf).
  change (Forall (asks_training nc (feature_rows d)) (bs_question s :: asked t ++ asked f)).
  constructor; [|apply Forall_app; split].
  - rewrite Hs, Hk in Es. change (find_best_split d (N.of_nat nt) = Ok s) in Es.
    destruct (split_usable LW nc nt d W) as (b & Eb & _ & _ & Hu). rewrite Es in Eb. injection Eb as <-.
    assert (Hg : feqb (bs_gain s) f0 = false) by (unfold stop_here in Est; now apply orb_false_iff in Est as [Est _]).
    destruct (Hu Hg) as (_ & Hc & (i & r & Hr & Hv) & (i' & r' & m & Hr' & Hm & Hl)).
    split; [exact Hc|]. split; [exists r; eauto using nth_error_In|]. exists m. split; auto. exists r'. eauto using nth_error_In.
  - eapply Forall_impl; [|exact (IHt Wt)]. intros q [H1 H2]. split; auto. eapply split_value_incl; [|exact H2]. eapply sub_rows; eauto.
  - eapply Forall_impl; [|exact (IHf Wf)]. intros q [H1 H2]. split; auto. eapply split_value_incl; [|exact H2]. eapply sub_rows; eauto.
Qed.

Lemma lookup_indistinct {L} nc rows (t : tree_node L) x y :
  proper t -> Forall (asks_training nc rows) (asked t) -> indistinct nc rows x y ->
  find_leaf_node_for_data x t = find_leaf_node_for_data y t.
Proof.
  intros Pt Ha (Hx & Hy & H). induction Pt as [q l|q t f Ht IHt Hf IHf]; [reflexivity|].
  change (asked (TreeNode L q (Some t) (Some f) None)) with (q :: asked t ++ asked f) in Ha.
  inversion Ha as [|? ? [Hq Hv] Ha']; subst. apply Forall_app in Ha' as [Hat Haf].
  cbn. rewrite !solve_Ok by lia. cbn [bind].
  replace (answers q x) with (answers q y).
  - destruct (answers q y); auto.
  - unfold answers. destruct (lt_nth x _ (Nat.lt_le_trans _ _ _ Hq Hx)) as (a & Ea).
    destruct (lt_nth y _ (Nat.lt_le_trans _ _ _ Hq Hy)) as (b & Eb). rewrite Ea, Eb. symmetry. eapply H; eauto.
Qed.

Section Trees.
Context (nc nt : nat) (d : dataset) (cfg : tree_config).
Hypotheses (W : wf_dataset nc nt d) (Hs : standard cfg) (Hk : tc_number_of_classes cfg = N.of_nat nt).

Theorem regression_asks t : regression_tree_new d cfg = Ok t ->
  proper t /\ Forall (asks_training nc (feature_rows d)) (asked t).
Proof.
  rewrite regression_tree_new_eq. intros E. apply build_with_built in E. split; [eapply built_proper; eauto|].
  eapply built_asks_training; eauto.
Qed.
Theorem grad_boost_asks calc t : grad_boost_tree_new d cfg calc = Ok t ->
  proper t /\ Forall (asks_training nc (feature_rows d)) (asked t).
Proof.
  rewrite grad_boost_tree_new_eq. intros E. apply build_with_built in E. split; [eapply built_proper; eauto|].
  eapply built_asks_training; eauto.
Qed.
Theorem amg_asks calc t : amg_boost_tree_new d cfg calc = Ok t ->
  proper t /\ Forall (asks_training nc (feature_rows d)) (asked t).
Proof.
  rewrite amg_boost_tree_new_eq. intros E. apply build_with_built in E. split; [eapply built_proper; eauto|].
  eapply built_asks_training; eauto.
Qed.
End Trees.

Theorem questions nc nt d cfg calc :
  wf_dataset nc nt d -> standard cfg -> tc_number_of_classes cfg = N.of_nat nt ->
  (forall t, regression_tree_new d cfg = Ok t ->
     Forall (fun q => N.to_nat (q_column q) < nc /\ split_value (feature_rows d) (N.to_nat (q_column q)) (q_value q)) (asked t)) /\
  (forall t, grad_boost_tree_new d cfg calc = Ok t ->
     Forall (fun q => N.to_nat (q_column q) < nc /\ split_value (feature_rows d) (N.to_nat (q_column q)) (q_value q)) (asked t)) /\
  (forall t, amg_boost_tree_new d cfg calc = Ok t ->
     Forall (fun q => N.to_nat (q_column q) < nc /\ split_value (feature_rows d) (N.to_nat (q_column q)) (q_value q)) (asked t)).
Proof.
  intros W Hs Hk. repeat split; intros t E.
  - exact (proj2 (regression_asks nc nt d cfg W Hs Hk t E)).
  - exact (proj2 (grad_boost_asks nc nt d cfg W Hs Hk calc t E)).
  - exact (proj2 (amg_asks nc nt d cfg W Hs Hk calc t E)).
Qed.

Theorem tree_answers nc nt d cfg calc x y :
  wf_dataset nc nt d -> standard cfg -> tc_number_of_classes cfg = N.of_nat nt -> indistinct nc (feature_rows d) x y ->
  (forall t, regression_tree_new d cfg = Ok t -> find_leaf_node_for_data x t = find_leaf_node_for_data y t) /\
  (forall t, grad_boost_tree_new d cfg calc = Ok t -> find_leaf_node_for_data x t = find_leaf_node_for_data y t) /\
  (forall t, amg_boost_tree_new d cfg calc = Ok t -> find_leaf_node_for_data x t = find_leaf_node_for_data y t).
Proof.
  intros W Hs Hk H. repeat split; intros t E.
  - destruct (regression_asks nc nt d cfg W Hs Hk t E) as [P A]. exact (lookup_indistinct nc _ t x y P A H).
  - destruct (grad_boost_asks nc nt d cfg W Hs Hk calc t E) as [P A]. exact (lookup_indistinct nc _ t x y P A H).
  - destruct (amg_asks nc nt d cfg W Hs Hk calc t E) as [P A]. exact (lookup_indistinct nc _ t x y P A H).
Qed.

Lemma raw_same {L} (out : list F -> tree_node L -> res (list F)) lr g x y ts :
  Forall (fun t => out x t = out y t) ts -> raw out lr g x ts = raw out lr g y ts.
Proof.
  intros H. unfold raw. f_equal. apply mapM_ext. intros t Ht. rewrite Forall_forall in H. now rewrite (H t Ht).
Qed.

Lemma residual_wf nc nt d (kind : list F -> list F) preds :
  (forall s, length (kind s) = length s) ->
  wf_dataset nc nt d -> Forall2 (fun y s => length y = length s) (labels d) preds ->
  wf_dataset nc nt (mkDS (feature_rows d) (differences (labels d) (map kind preds)) (feature_columns d)).
Proof.
  intros Hkind W H. pose proof (Forall2_length _ _ _ H) as HL.
  destruct (differences_rect nt (labels d) (map kind preds)) as [D1 D2].
  - now rewrite map_length.
  - exact (wf_labels _ _ _ W).
  - pose proof (wf_labels _ _ _ W) as R. apply Forall_map. revert R. clear -H Hkind.
    induction H as [|y s ys ss E _ IH]; intros R; inversion R; subst; constructor; auto. now rewrite Hkind.
  - apply with_labels_wf; auto. rewrite D1. exact (wf_lengths _ _ _ W).
Qed.

Section Ensembles.
Context (nc nt : nat) (d : dataset) (cfg : tree_config) (n : nat) (lr : F).
Hypotheses (W : wf_dataset nc nt d) (Hs : standard cfg) (Hk : tc_number_of_classes cfg = N.of_nat nt).

Theorem regression_boost_asks m : regression_boost_train d cfg n lr = Ok m ->
  Forall (fun t => proper t /\ Forall (asks_training nc (feature_rows d)) (asked t)) (m_trees m).
Proof.
  intros E. apply Forall_forall. intros t Ht. apply In_nth_error in Ht as (k & Ht).
  assert (Hn : k < n).
  { pose proof E as E0. apply boosting_loop_Ok in E0 as (_ & _ & td & E3). rewrite <- (iter_length _ _ _ _ _ _ _ E3).
    apply nth_error_Some. congruence. }
  destruct (regression_stage d cfg n lr m k (wf_lengths _ _ _ W) E Hn) as (preds & t' & _ & HF & Ht' & Eb).
  rewrite Ht in Ht'. injection Ht' as <-. rewrite <- (map_id preds) in Eb.
  exact (grad_boost_asks nc nt _ cfg (residual_wf nc nt d (fun s => s) preds (fun _ => eq_refl) W HF) Hs Hk _ t Eb).
Qed.

Theorem multi_class_boost_asks m : multi_class_boost_train d cfg n lr = Ok m ->
  Forall (fun t => proper t /\ Forall (asks_training nc (feature_rows d)) (asked t)) (m_trees m).
Proof.
  intros E. apply Forall_forall. intros t Ht. apply In_nth_error in Ht as (k & Ht).
  assert (Hn : k < n).
  { pose proof E as E0. apply boosting_loop_Ok in E0 as (_ & _ & td & E3). rewrite <- (iter_length _ _ _ _ _ _ _ E3).
    apply nth_error_Some. congruence. }
  destruct (multi_class_stage d cfg n lr m k (wf_lengths _ _ _ W) E Hn) as (preds & t' & _ & HF & Ht' & Eb).
  rewrite Ht in Ht'. injection Ht' as <-.
  exact (grad_boost_asks nc nt _ cfg (residual_wf nc nt d softmax preds softmax_length W HF) Hs Hk _ t Eb).
Qed.

Theorem amg_boost_asks m : amg_boost_train d cfg n lr = Ok m ->
  Forall (fun t => proper t /\ Forall (asks_training nc (feature_rows d)) (asked t)) (m_trees m).
Proof.
  intros E. apply Forall_forall. intros t Ht. apply In_nth_error in Ht as (k & Ht).
  assert (Hn : k < n).
  { pose proof E as E0. apply boosting_loop_Ok in E0 as (_ & _ & td & E3). rewrite <- (iter_length _ _ _ _ _ _ _ E3).
    apply nth_error_Some. congruence. }
  destruct (amg_stage d cfg n lr m k (wf_lengths _ _ _ W) E Hn) as (preds & t' & _ & HF & Ht' & Eb).
  rewrite Ht in Ht'. injection Ht' as <-.
  exact (amg_asks nc nt _ cfg (residual_wf nc nt d softmax preds softmax_length W HF) Hs Hk _ t Eb).
Qed.

Theorem ensemble_answers x y : indistinct nc (feature_rows d) x y ->
  (forall m, regression_boost_train d cfg n lr = Ok m -> regression_boost_predict m x = regression_boost_predict m y) /\
  (forall m, multi_class_boost_train d cfg n lr = Ok m -> multi_class_boost_predict m x = multi_class_boost_predict m y) /\
  (forall m, amg_boost_train d cfg n lr = Ok m -> amg_boost_predict m x = amg_boost_predict m y).
Proof.
  intros H. repeat split; intros m E.
  - unfold regression_boost_predict. rewrite !predict_instance_raw. apply raw_same.
    eapply Forall_impl; [|exact (regression_boost_asks m E)]. intros t [P A]. unfold gb_out. now rewrite (lookup_indistinct nc _ t x y P A H).
  - unfold multi_class_boost_predict, multi_class_boost_raw. rewrite !predict_instance_raw. f_equal. apply raw_same.
    eapply Forall_impl; [|exact (multi_class_boost_asks m E)]. intros t [P A]. unfold gb_out. now rewrite (lookup_indistinct nc _ t x y P A H).
  - unfold amg_boost_predict, amg_boost_raw. rewrite !amg_predict_instance_raw. f_equal. apply raw_same.
    eapply Forall_impl; [|exact (amg_boost_asks m E)]. intros t [P A]. unfold amg_out. now rewrite (lookup_indistinct nc _ t x y P A H).
Qed.
End Ensembles.

(** When rows are indistinct: features may differ only where both are NaN or at most the smallest training value, or
    both at least the largest. *)
Theorem out_of_range nc rows x y :
  length x = length y -> nc <= length x ->
  (forall j a b, j < nc -> nth_error x j = Some a -> nth_error y j = Some b ->
     a = b \/
     (forall v, training_value rows j v -> fltb v a = false /\ fltb v b = false) \/
     (forall v, training_value rows j v -> fleb v a = true /\ fleb v b = true)) ->
  indistinct nc rows x y.
Proof.
  intros HL Hx H. split; [exact Hx|]. split; [lia|]. intros j v a b Hj (Hv & m & Hm & Hl) Ea Eb.
  destruct (H j a b Hj Ea Eb) as [->|[Hb|Ht]]; [reflexivity| |].
  - assert (K : forall c, fltb m c = false -> fleb v c = false).
    { intros c Hc. destruct (fleb v c) eqn:E; auto. rewrite (fltb_fleb _ LW) in *.
      apply andb_true_iff in Hl as [L1 L2]. apply negb_true_iff in L2.
      rewrite (fleb_trans _ LW _ _ _ L1 E) in Hc. cbn in Hc. apply negb_false_iff in Hc.
      rewrite (fleb_trans _ LW _ _ _ E Hc) in L2. discriminate. }
    destruct (Hb m Hm) as [H1 H2]. now rewrite (K a H1), (K b H2).
  - destruct (Ht v Hv) as [H1 H2]. now rewrite H1, H2.
Qed.
End Step.
