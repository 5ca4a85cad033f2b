(** Training runs of the classification ensembles in exact arithmetic (C40, C43). *)
From Coq Require Import Reals Lra Lia ZArith.
From Verif Require Import Base Num ModelCommon ModelTree ModelBoost Spec SpecTree SpecScore SpecFit Lib ProofData ProofSort
  ProofTree ProofTree3 ProofScore ProofScore2 ProofBoost ProofBoost2 XR SpecExact SpecError SpecClass ProofReal ProofSplitExact
  ProofSplitExact2 ProofTreeExact ProofScoreExact ProofLeaf ProofBoostExact ProofClassExact.
Local Open Scope R_scope.

Definition finite_for {L} (out : list xr -> tree_node L -> res (list xr)) (k : nat) (row : list xr) (t : tree_node L) : Prop :=
  exists o, out row t = Ok (map Fin o) /\ length o = k.

Lemma raw_finite_for {L} (out : list xr -> tree_node L -> res (list xr)) k lr g row ts :
  length g = k -> Forall (finite_for out k row) ts ->
  exists s, @raw xr_ops L out (Fin lr) (map Fin g) row ts = Ok (map Fin s) /\ length s = k.
Proof.
  intros Hg. induction ts as [|t ts IH] using rev_ind; intros H.
  - exists g. auto.
  - apply Forall_app in H as [H1 H2]. inversion H2 as [|? ? (o & Eo & Lo) _]; subst.
    destruct (IH H1) as (s & Es & Ls). exists (vstep lr s o). split; [|rewrite vstep_length; congruence].
    etransitivity; [apply (@raw_snoc xr_ops _ out (Fin lr) (map Fin g) row ts t (map Fin s) (map Fin o) Es Eo)|].
    + rewrite !map_length. lia.
    + f_equal. apply step_Fin.
Qed.

Lemma scores_finite {L} (out : list xr -> tree_node L -> res (list xr)) k lr g (rows : list (list xr)) ts :
  length g = k -> (forall row, In row rows -> Forall (finite_for out k row) ts) ->
  exists ss, mapM (fun row => @raw xr_ops L out (Fin lr) (map Fin g) row ts) rows = Ok (map (map Fin) ss) /\
    rectangular k ss /\ length ss = length rows.
Proof.
  intros Hg H. induction rows as [|row rows IH]; [exists []; repeat split; constructor|].
  destruct IH as (ss & E & Hr & HL); [intros; apply H; now right|].
  destruct (raw_finite_for out k lr g row ts Hg (H row (or_introl eq_refl))) as (s & Es & Ls).
  exists (s :: ss). cbn [mapM]. rewrite Es. cbn [bind]. rewrite E. split; [reflexivity|]. split; [constructor; auto|cbn; lia].
Qed.

(** The data a classification stage fits. *)
Definition fitted (d : @dataset xr_ops) (scores : list (list xr)) : @dataset xr_ops :=
  mkDS (feature_rows d) (differences (labels d) (map softmax scores)) (feature_columns d).

Lemma fitted_ok nc nt d ss : (2 <= nt)%nat -> wf_dataset nc nt d -> one_hot_labels nt d ->
  rectangular nt ss -> length ss = length (feature_rows d) ->
  exists r, labels (fitted d (map (map Fin) ss)) = map (map Fin) r /\
    wf_dataset nc nt (fitted d (map (map Fin) ss)) /\
    real_labels (rl (fitted d (map (map Fin) ss))) (fitted d (map (map Fin) ss)) /\
    residual_labels nt (fitted d (map (map Fin) ss)) /\ rl (fitted d (map (map Fin) ss)) = r.
Proof.
  intros Hk W HO Rs HL. destruct (one_hot_labels_real nt d HO) as (cs & El & Hcs).
  exists (map2 vsub (map (hot nt) cs) (map rsoft ss)).
  assert (E : map (@softmax xr_ops) (map (map Fin) ss) = map (map Fin) (map rsoft ss)) by (apply (softmax_rows nt); auto; lia).
  assert (Rr : rectangular nt (map rsoft ss)).
  { unfold rectangular in *. rewrite Forall_map. eapply Forall_impl; [|exact Rs]. intros a Ha. now rewrite rsoft_length. }
  pose proof (xr_len nc nt d _ W El) as HLc. rewrite map_length in HLc.
  destruct (residual_data nc nt d (map (hot nt) cs) (map rsoft ss) W El) as [W2 L2]; auto.
  { rewrite !map_length. congruence. }
  unfold fitted. rewrite E. split; [exact L2|]. split; [exact W2|]. split; [now rewrite (real_rl _ _ L2)|].
  split; [|exact (real_rl _ _ L2)].
  unfold residual_labels. rewrite (real_rl _ _ L2). apply residual_rows; auto. congruence.
Qed.

(** What a leaf of a tree fitted to residual vectors holds. *)
Definition class_leaf (nt : nat) (group : list (list R)) : Prop :=
  group <> [] /\ forall j, (j < nt)%nat -> 0 < curvature (target j group).

Lemma class_leaf_ok nc nt (x : @dataset xr_ops) : (2 <= nt)%nat -> wf_dataset nc nt x -> real_labels (rl x) x -> residual_labels nt x ->
  class_leaf nt (rl x).
Proof.
  intros Hk W Hl Hr. destruct (real_rect nc nt x (rl x) W Hl) as [_ Hne]. split; auto. intros j Hj. apply curvature_pos.
  - intros H. apply map_eq_nil in H. contradiction.
  - apply (target_residual nt); auto.
Qed.

Lemma mk_gb_class nc nt (x : @dataset xr_ops) l : (2 <= nt)%nat -> wf_dataset nc nt x -> real_labels (rl x) x -> residual_labels nt x ->
  mk_gb (leaf_output_calculator_new MultiClassClassification) x = Ok l -> l = mkGL (Some (map Fin (class_output nt (rl x)))).
Proof.
  intros Hk W Hl Hr. unfold mk_gb. rewrite (class_calc_Fin nc nt x) by (auto; lia). cbn [bind]. intros E. now injection E as <-.
Qed.

Lemma mk_amg_class nc nt (x : @dataset xr_ops) l : (2 <= nt)%nat -> wf_dataset nc nt x -> real_labels (rl x) x -> residual_labels nt x ->
  mk_amg (leaf_output_calculator_new MultiClassClassification) x = Ok l ->
  exists c, (c < nt)%nat /\ l = mkAL (Some (Fin (nth c (class_output nt (rl x)) 0))) (Some c) /\
    @find_max_value_and_index_from_vector xr_ops (map Fin (class_output nt (rl x))) = (Fin (nth c (class_output nt (rl x)) 0), c).
Proof.
  intros Hk W Hl Hr. unfold mk_amg. rewrite (class_calc_Fin nc nt x) by (auto; lia). cbn [bind]. unfold amg_leaf_of.
  destruct (max_index_Fin (class_output nt (rl x))) as (c & Hc & E).
  { intros H. apply (f_equal (@length R)) in H. rewrite class_output_length in H. cbn in H. lia. }
  rewrite class_output_length in Hc. xr. rewrite E. intros H. injection H as <-. exists c. auto.
Qed.

Lemma sub_class nc nt (d x : @dataset xr_ops) :
  wf_dataset nc nt d -> wf_dataset nc nt x -> incl (samples x) (samples d) -> real_labels (rl d) d -> residual_labels nt d ->
  real_labels (rl x) x /\ residual_labels nt x.
Proof. intros W Wx Hi Hl Hr. split; [exact (finite_sub _ _ _ _ W Wx Hi Hl)|exact (residual_sub _ _ _ _ W Wx Hi Hr)]. Qed.

Lemma gb_class_out nc nt (d : @dataset xr_ops) cfg level t row :
  (2 <= nt)%nat -> wf_dataset nc nt d -> real_labels (rl d) d -> residual_labels nt d ->
  built (mk_gb (leaf_output_calculator_new MultiClassClassification)) cfg level d t -> (nc <= length row)%nat ->
  exists x, find_leaf_node_for_data row t = Ok (mkGL (Some (map Fin (class_output nt (rl x))))) /\ class_leaf nt (rl x) /\
    samples x = samples_like row t d /\ wf_dataset nc nt x /\ real_labels (rl x) x.
Proof.
  intros Hk W Hl Hr B Hrow. destruct (built_lookup_mk _ _ _ _ _ _ _ row B W Hrow) as (x & l & Ef & Em & Es & Wx).
  assert (Hi : incl (samples x) (samples d)) by (rewrite Es; apply filter_incl).
  destruct (sub_class nc nt d x) as [Lx Rx]; auto.
  apply (mk_gb_class nc nt) in Em; auto. subst. exists x. split; auto. split; [|auto]. eapply class_leaf_ok; eauto.
Qed.

Lemma amg_class_out nc nt (d : @dataset xr_ops) cfg level t row :
  (2 <= nt)%nat -> wf_dataset nc nt d -> real_labels (rl d) d -> residual_labels nt d ->
  built (mk_amg (leaf_output_calculator_new MultiClassClassification)) cfg level d t -> (nc <= length row)%nat ->
  exists x c, (c < nt)%nat /\ find_leaf_node_for_data row t = Ok (mkAL (Some (Fin (nth c (class_output nt (rl x)) 0))) (Some c)) /\
    @find_max_value_and_index_from_vector xr_ops (map Fin (class_output nt (rl x))) = (Fin (nth c (class_output nt (rl x)) 0), c) /\
    class_leaf nt (rl x) /\ samples x = samples_like row t d /\ wf_dataset nc nt x /\ real_labels (rl x) x.
Proof.
  intros Hk W Hl Hr B Hrow. destruct (built_lookup_mk _ _ _ _ _ _ _ row B W Hrow) as (x & l & Ef & Em & Es & Wx).
  assert (Hi : incl (samples x) (samples d)) by (rewrite Es; apply filter_incl).
  destruct (sub_class nc nt d x) as [Lx Rx]; auto.
  apply (mk_amg_class nc nt) in Em as (c & Hc & -> & Ei); auto. exists x, c. split; auto. split; auto. split; auto. split; [|auto]. eapply class_leaf_ok; eauto.
Qed.

Lemma gb_class_leaves nc nt (d : @dataset xr_ops) cfg level t :
  (2 <= nt)%nat -> wf_dataset nc nt d -> real_labels (rl d) d -> residual_labels nt d ->
  built (mk_gb (leaf_output_calculator_new MultiClassClassification)) cfg level d t ->
  Forall (fun l => exists group, incl group (rl d) /\ class_leaf nt group /\ gl_output l = Some (map Fin (class_output nt group))) (leaves t).
Proof.
  intros Hk W Hl Hr B. eapply Forall_impl; [|exact (built_leaves_sub _ _ _ _ _ _ _ B W)].
  intros l (x & Wx & Hi & Em). destruct (sub_class nc nt d x) as [Lx Rx]; auto.
  apply (mk_gb_class nc nt) in Em; auto. subst. exists (rl x). split; [|split; [eapply class_leaf_ok; eauto|reflexivity]].
  unfold rl. intros v Hv. apply in_map_iff in Hv as (y & <- & Hy). apply in_map.
  rewrite <- (samples_snd _ _ _ Wx) in Hy. rewrite <- (samples_snd _ _ _ W). apply in_map_iff in Hy as (p & <- & Hp). apply in_map. auto.
Qed.

Lemma amg_class_leaves nc nt (d : @dataset xr_ops) cfg level t :
  (2 <= nt)%nat -> wf_dataset nc nt d -> real_labels (rl d) d -> residual_labels nt d ->
  built (mk_amg (leaf_output_calculator_new MultiClassClassification)) cfg level d t ->
  Forall (fun l => exists group c, incl group (rl d) /\ class_leaf nt group /\ (c < nt)%nat /\
    al_max l = Some (Fin (nth c (class_output nt group) 0)) /\ al_class l = Some c) (leaves t).
Proof.
  intros Hk W Hl Hr B. eapply Forall_impl; [|exact (built_leaves_sub _ _ _ _ _ _ _ B W)].
  intros l (x & Wx & Hi & Em). destruct (sub_class nc nt d x) as [Lx Rx]; auto.
  apply (mk_amg_class nc nt) in Em as (c & Hc & -> & _); auto. exists (rl x), c. split; [|split; [eapply class_leaf_ok; eauto|auto]].
  unfold rl. intros v Hv. apply in_map_iff in Hv as (y & <- & Hy). apply in_map.
  rewrite <- (samples_snd _ _ _ Wx) in Hy. rewrite <- (samples_snd _ _ _ W). apply in_map_iff in Hy as (p & <- & Hp). apply in_map. auto.
Qed.

(* ------------------------------------------------------------------ *)
(** ** Runs *)

Definition even (k : nat) : list R := repeat (1 / INR k) k.

Lemma guess_even nt (d : @dataset xr_ops) ty g :
  (0 < nt)%nat -> ty <> RegressionBoost -> rectangular nt (labels d) -> (Z.of_nat nt <= 2 ^ 53)%Z ->
  determine_initial_guess (mkTD d (labels d) (length (labels d))) ty = Ok g -> g = map Fin (even nt).
Proof.
  intros H0 Hty R Hz E. apply (guess_classes xr_laws nt) in E; auto. subst g. unfold even. rewrite map_repeat'. f_equal.
  apply xdiv_Fin. apply not_0_INR. lia.
Qed.

Lemma even_length k : length (even k) = k. Proof. apply repeat_length. Qed.

Lemma multi_guess nc nt d cfg n lr m :
  (0 < nt)%nat -> (Z.of_nat nt <= 2 ^ 53)%Z -> wf_dataset nc nt d -> multi_class_boost_train d cfg n lr = Ok m ->
  m_initial_guess m = map Fin (even nt) /\ m_learning_rate m = lr /\ length (m_trees m) = n.
Proof.
  intros H0 Hz W E. destruct (multi_class_shape xr_laws nt d cfg n lr m (wf_labels _ _ _ W) Hz E) as (A & B & _).
  split; auto. apply boosting_loop_Ok in E as (G & _). apply (guess_even nt) in G; auto; try discriminate. exact (wf_labels _ _ _ W).
Qed.

Lemma amg_guess nc nt d cfg n lr m :
  (0 < nt)%nat -> (Z.of_nat nt <= 2 ^ 53)%Z -> wf_dataset nc nt d -> amg_boost_train d cfg n lr = Ok m ->
  m_initial_guess m = map Fin (even nt) /\ m_learning_rate m = lr /\ length (m_trees m) = n.
Proof.
  intros H0 Hz W E. destruct (amg_shape xr_laws nt d cfg n lr m (wf_labels _ _ _ W) Hz E) as (A & B & _).
  split; auto. apply boosting_loop_Ok in E as (G & _). apply (guess_even nt) in G; auto; try discriminate. exact (wf_labels _ _ _ W).
Qed.

Section Raw.
Context {O : NumOps}.
Lemma multi_raw (m : multi_class_boost_model) k row :
  multi_class_boost_raw (first_trees k m) row = raw gb_out (m_learning_rate m) (m_initial_guess m) row (firstn k (m_trees m)).
Proof. unfold multi_class_boost_raw. now rewrite predict_instance_raw. Qed.

Lemma amg_raw (m : amg_boost_model) k row :
  amg_boost_raw (first_trees k m) row =
  raw (amg_out (length (m_initial_guess m))) (m_learning_rate m) (m_initial_guess m) row (firstn k (m_trees m)).
Proof. unfold amg_boost_raw. now rewrite amg_predict_instance_raw. Qed.

Lemma multi_scores (m : multi_class_boost_model) k rows g lr ss scores :
  m_initial_guess m = g -> m_learning_rate m = lr -> mapM (fun row => raw gb_out lr g row (firstn k (m_trees m))) rows = Ok ss ->
  mapM (multi_class_boost_raw (first_trees k m)) rows = Ok scores -> scores = ss.
Proof.
  intros <- <- E1 E2. rewrite (mapM_ext _ (fun row => raw gb_out (m_learning_rate m) (m_initial_guess m) row (firstn k (m_trees m)))) in E2.
  - congruence. - intros. apply multi_raw.
Qed.

Lemma amg_scores (m : amg_boost_model) k rows g lr nt ss scores :
  m_initial_guess m = g -> m_learning_rate m = lr -> length g = nt ->
  mapM (fun row => raw (amg_out nt) lr g row (firstn k (m_trees m))) rows = Ok ss ->
  mapM (amg_boost_raw (first_trees k m)) rows = Ok scores -> scores = ss.
Proof.
  intros <- <- <- E1 E2.
  rewrite (mapM_ext _ (fun row => raw (amg_out (length (m_initial_guess m))) (m_learning_rate m) (m_initial_guess m) row (firstn k (m_trees m)))) in E2.
  - congruence. - intros. apply amg_raw.
Qed.
End Raw.

Theorem multi_run nc nt d cfg n lr m :
  (2 <= nt)%nat -> (Z.of_nat nt <= 2 ^ 53)%Z -> wf_dataset nc nt d -> one_hot_labels nt d ->
  multi_class_boost_train d cfg n (Fin lr) = Ok m ->
  forall k, (k <= n)%nat -> forall row, (nc <= length row)%nat -> Forall (finite_for (@gb_out xr_ops) nt row) (firstn k (m_trees m)).
Proof.
  intros Hk Hz W HO E. destruct (multi_guess nc nt d cfg n (Fin lr) m) as (Hg & Hlr & HT); auto; [lia|].
  induction k as [|k IH]; intros Hkn row Hrow; [constructor|].
  destruct (multi_class_stage d cfg n (Fin lr) m k (wf_lengths _ _ _ W) E Hkn) as (scores & t & Es & _ & Ht & Eb).
  destruct (scores_finite (@gb_out xr_ops) nt lr (even nt) (feature_rows d) (firstn k (m_trees m)) (even_length nt)) as (ss & Ess & Rss & Lss).
  { intros row' Hin. apply IH; [lia|]. eapply row_long; eauto. }
  pose proof (@multi_scores xr_ops m k (feature_rows d) _ _ _ _ Hg Hlr Ess Es) as ->.
  destruct (fitted_ok nc nt d ss Hk W HO Rss Lss) as (r & _ & Wr & Lr & Rr & _).
  rewrite grad_boost_tree_new_eq in Eb. apply build_with_built in Eb.
  destruct (gb_class_out nc nt _ _ _ _ row Hk Wr Lr Rr Eb Hrow) as (x & Ef & _).
  rewrite (firstn_snoc _ _ _ Ht). apply Forall_app. split; [apply IH; auto; lia|]. constructor; [|constructor].
  exists (class_output nt (rl x)). split; [|apply class_output_length]. unfold gb_out. rewrite Ef. reflexivity.
Qed.

Theorem amg_run nc nt d cfg n lr m :
  (2 <= nt)%nat -> (Z.of_nat nt <= 2 ^ 53)%Z -> wf_dataset nc nt d -> one_hot_labels nt d ->
  amg_boost_train d cfg n (Fin lr) = Ok m ->
  forall k, (k <= n)%nat -> forall row, (nc <= length row)%nat -> Forall (finite_for (@amg_out xr_ops nt) nt row) (firstn k (m_trees m)).
Proof.
  intros Hk Hz W HO E. destruct (amg_guess nc nt d cfg n (Fin lr) m) as (Hg & Hlr & HT); auto; [lia|].
  induction k as [|k IH]; intros Hkn row Hrow; [constructor|].
  destruct (amg_stage d cfg n (Fin lr) m k (wf_lengths _ _ _ W) E Hkn) as (scores & t & Es & _ & Ht & Eb).
  destruct (scores_finite (@amg_out xr_ops nt) nt lr (even nt) (feature_rows d) (firstn k (m_trees m)) (even_length nt)) as (ss & Ess & Rss & Lss).
  { intros row' Hin. apply IH; [lia|]. eapply row_long; eauto. }
  pose proof (@amg_scores xr_ops m k (feature_rows d) _ _ nt _ _ Hg Hlr ltac:(rewrite map_length; apply even_length) Ess Es) as ->.
  destruct (fitted_ok nc nt d ss Hk W HO Rss Lss) as (r & _ & Wr & Lr & Rr & _).
  rewrite amg_boost_tree_new_eq in Eb. apply build_with_built in Eb.
  destruct (amg_class_out nc nt _ _ _ _ row Hk Wr Lr Rr Eb Hrow) as (x & c & Hc & Ef & _).
  rewrite (firstn_snoc _ _ _ Ht). apply Forall_app. split; [apply IH; auto; lia|]. constructor; [|constructor].
  exists (approx nt c (nth c (class_output nt (rl x)) 0)). split; [|apply approx_length].
  unfold amg_out. rewrite Ef. cbn [bind]. now apply construct_Fin.
Qed.

(** Stage [k] of a run, in exact arithmetic. *)
Theorem multi_stage_exact nc nt d cfg n lr m k :
  (2 <= nt)%nat -> (Z.of_nat nt <= 2 ^ 53)%Z -> wf_dataset nc nt d -> one_hot_labels nt d ->
  multi_class_boost_train d cfg n (Fin lr) = Ok m -> (k < n)%nat ->
  exists ss t, mapM (multi_class_boost_raw (first_trees k m)) (feature_rows d) = Ok (map (map Fin) ss) /\
    nth_error (m_trees m) k = Some t /\ rectangular nt ss /\ length ss = length (feature_rows d) /\
    built (mk_gb (leaf_output_calculator_new MultiClassClassification)) cfg 0 (fitted d (map (map Fin) ss)) t.
Proof.
  intros Hk Hz W HO E Hkn. destruct (multi_guess nc nt d cfg n (Fin lr) m) as (Hg & Hlr & HT); auto; [lia|].
  destruct (multi_class_stage d cfg n (Fin lr) m k (wf_lengths _ _ _ W) E Hkn) as (scores & t & Es & _ & Ht & Eb).
  destruct (scores_finite (@gb_out xr_ops) nt lr (even nt) (feature_rows d) (firstn k (m_trees m)) (even_length nt)) as (ss & Ess & Rss & Lss).
  { intros row' Hin. eapply multi_run; eauto; [lia|]. eapply row_long; eauto. }
  exists ss, t.
  pose proof (@multi_scores xr_ops m k (feature_rows d) _ _ _ _ Hg Hlr Ess Es) as ->.
  rewrite grad_boost_tree_new_eq in Eb. apply build_with_built in Eb. auto.
Qed.

Theorem amg_stage_exact nc nt d cfg n lr m k :
  (2 <= nt)%nat -> (Z.of_nat nt <= 2 ^ 53)%Z -> wf_dataset nc nt d -> one_hot_labels nt d ->
  amg_boost_train d cfg n (Fin lr) = Ok m -> (k < n)%nat ->
  exists ss t, mapM (amg_boost_raw (first_trees k m)) (feature_rows d) = Ok (map (map Fin) ss) /\
    nth_error (m_trees m) k = Some t /\ rectangular nt ss /\ length ss = length (feature_rows d) /\
    built (mk_amg (leaf_output_calculator_new MultiClassClassification)) cfg 0 (fitted d (map (map Fin) ss)) t.
Proof.
  intros Hk Hz W HO E Hkn. destruct (amg_guess nc nt d cfg n (Fin lr) m) as (Hg & Hlr & HT); auto; [lia|].
  destruct (amg_stage d cfg n (Fin lr) m k (wf_lengths _ _ _ W) E Hkn) as (scores & t & Es & _ & Ht & Eb).
  destruct (scores_finite (@amg_out xr_ops nt) nt lr (even nt) (feature_rows d) (firstn k (m_trees m)) (even_length nt)) as (ss & Ess & Rss & Lss).
  { intros row' Hin. eapply amg_run; eauto; [lia|]. eapply row_long; eauto. }
  exists ss, t.
  pose proof (@amg_scores xr_ops m k (feature_rows d) _ _ nt _ _ Hg Hlr ltac:(rewrite map_length; apply even_length) Ess Es) as ->.
  rewrite amg_boost_tree_new_eq in Eb. apply build_with_built in Eb. auto.
Qed.

(** The residuals each tree of a run is fitted to (C39). *)
Lemma stage_residuals nc nt d (ss : list (list R)) :
  (2 <= nt)%nat -> wf_dataset nc nt d -> one_hot_labels nt d -> rectangular nt ss -> (length ss = length (feature_rows d))%nat ->
  exists r, differences (labels d) (map softmax (map (map Fin) ss)) = map (map Fin) r /\ length r = length ss /\
    (forall v, In v r -> (length v = nt)%nat /\ (forall x, In x v -> -1 < x < 1) /\ Rsum v = 0).
Proof.
  intros Hk W HO Rs Ls.
  destruct (residuals_exact nt (@mkTD xr_ops d (map (map Fin) ss) (length (labels d))) ss Hk HO eq_refl Rs eq_refl) as (r & E & Lr & H1 & H2).
  { cbn [td_data]. rewrite Ls. symmetry. exact (wf_lengths _ _ _ W). }
  exists r. apply (@calculate_residuals_multi_class_eq xr_ops) in E as [_ E]; cbn [td_size td_data td_labels] in *; auto.
  2:{ rewrite map_length, Ls. symmetry. exact (wf_lengths _ _ _ W). }
  split; [now symmetry|]. split; auto. intros v Hv. split; [|now apply H2].
  apply In_nth_error in Hv as (i & Hi).
  assert (Hl : (i < length r)%nat) by (apply nth_error_Some; congruence).
  destruct (nth_error (labels d) i) as [y|] eqn:Ey.
  - destruct (nth_error ss i) as [s|] eqn:Esx; [exact (proj1 (H1 i y s v Ey Esx Hi))|]. apply nth_error_None in Esx. lia.
  - apply nth_error_None in Ey. rewrite (wf_lengths _ _ _ W) in Ey. lia.
Qed.

Theorem multi_residuals nc nt d cfg n lr m k :
  (2 <= nt)%nat -> (Z.of_nat nt <= 2 ^ 53)%Z -> wf_dataset nc nt d -> one_hot_labels nt d ->
  multi_class_boost_train d cfg n (Fin lr) = Ok m -> (k < n)%nat ->
  exists scores r, mapM (multi_class_boost_raw (first_trees k m)) (feature_rows d) = Ok scores /\
    differences (labels d) (map softmax scores) = map (map Fin) r /\ length r = length (feature_rows d) /\
    (forall v, In v r -> (length v = nt)%nat /\ (forall x, In x v -> -1 < x < 1) /\ Rsum v = 0).
Proof.
  intros Hk Hz W HO E Hkn. destruct (multi_stage_exact nc nt d cfg n lr m k Hk Hz W HO E Hkn) as (ss & t & Es & _ & Rs & Ls & _).
  destruct (stage_residuals nc nt d ss Hk W HO Rs Ls) as (r & Er & Lr & H). exists (map (map Fin) ss), r. rewrite <- Ls. auto.
Qed.

Theorem amg_residuals nc nt d cfg n lr m k :
  (2 <= nt)%nat -> (Z.of_nat nt <= 2 ^ 53)%Z -> wf_dataset nc nt d -> one_hot_labels nt d ->
  amg_boost_train d cfg n (Fin lr) = Ok m -> (k < n)%nat ->
  exists scores r, mapM (amg_boost_raw (first_trees k m)) (feature_rows d) = Ok scores /\
    differences (labels d) (map softmax scores) = map (map Fin) r /\ length r = length (feature_rows d) /\
    (forall v, In v r -> (length v = nt)%nat /\ (forall x, In x v -> -1 < x < 1) /\ Rsum v = 0).
Proof.
  intros Hk Hz W HO E Hkn. destruct (amg_stage_exact nc nt d cfg n lr m k Hk Hz W HO E Hkn) as (ss & t & Es & _ & Rs & Ls & _).
  destruct (stage_residuals nc nt d ss Hk W HO Rs Ls) as (r & Er & Lr & H). exists (map (map Fin) ss), r. rewrite <- Ls. auto.
Qed.

(** C40. *)
Theorem multi_leaf_outputs nc nt d cfg n lr m k :
  (2 <= nt)%nat -> (Z.of_nat nt <= 2 ^ 53)%Z -> wf_dataset nc nt d -> one_hot_labels nt d ->
  multi_class_boost_train d cfg n (Fin lr) = Ok m -> (k < n)%nat ->
  exists scores r t, mapM (multi_class_boost_raw (first_trees k m)) (feature_rows d) = Ok scores /\
    differences (labels d) (map softmax scores) = map (map Fin) r /\ nth_error (m_trees m) k = Some t /\
    (forall l, In l (leaves t) -> exists group, group <> [] /\ incl group r /\
       (forall j, (j < nt)%nat -> 0 < curvature (target j group)) /\ gl_output l = Some (map Fin (class_output nt group))) /\
    (forall row, (nc <= length row)%nat -> exists group,
       map snd (samples_like row t (mkDS (feature_rows d) (map (map Fin) r) (feature_columns d))) = map (map Fin) group /\
       find_leaf_node_for_data row t = Ok (mkGL (Some (map Fin (class_output nt group))))).
Proof.
  intros Hk Hz W HO E Hkn. destruct (multi_stage_exact nc nt d cfg n lr m k Hk Hz W HO E Hkn) as (ss & t & Es & Ht & Rs & Ls & B).
  destruct (fitted_ok nc nt d ss Hk W HO Rs Ls) as (r & Er & Wr & Lr & Rr & Erl).
  exists (map (map Fin) ss), r, t. split; auto. split; [exact Er|]. split; auto. split.
  - intros l Hin. pose proof (proj1 (Forall_forall _ _) (gb_class_leaves nc nt _ _ _ _ Hk Wr Lr Rr B) l Hin) as (group & Hi & [Hn Hc] & Eo).
    exists group. rewrite Erl in Hi. auto.
  - intros row Hrow. destruct (gb_class_out nc nt _ _ _ _ row Hk Wr Lr Rr B Hrow) as (x & Ef & _ & Sx & Wx & Lx).
    exists (rl x). split; auto.
    transitivity (map snd (samples x)); [|rewrite (samples_snd _ _ _ Wx); exact Lx].
    rewrite Sx. f_equal. unfold samples_like, fitted. cbn [feature_rows labels feature_columns] in *.
    unfold fitted in Er. cbn [labels] in Er. xr. rewrite Er. reflexivity.
Qed.

Theorem amg_leaf_outputs nc nt d cfg n lr m k :
  (2 <= nt)%nat -> (Z.of_nat nt <= 2 ^ 53)%Z -> wf_dataset nc nt d -> one_hot_labels nt d ->
  amg_boost_train d cfg n (Fin lr) = Ok m -> (k < n)%nat ->
  exists scores r t, mapM (amg_boost_raw (first_trees k m)) (feature_rows d) = Ok scores /\
    differences (labels d) (map softmax scores) = map (map Fin) r /\ nth_error (m_trees m) k = Some t /\
    (forall l, In l (leaves t) -> exists group c, group <> [] /\ incl group r /\
       (forall j, (j < nt)%nat -> 0 < curvature (target j group)) /\ (c < nt)%nat /\ al_class l = Some c /\
       al_max l = Some (Fin (nth c (class_output nt group) 0))) /\
    (forall row, (nc <= length row)%nat -> exists group c,
       map snd (samples_like row t (mkDS (feature_rows d) (map (map Fin) r) (feature_columns d))) = map (map Fin) group /\
       find_leaf_node_for_data row t = Ok (mkAL (Some (Fin (nth c (class_output nt group) 0))) (Some c)) /\
       @find_max_value_and_index_from_vector xr_ops (map Fin (class_output nt group)) = (Fin (nth c (class_output nt group) 0), c)).
Proof.
  intros Hk Hz W HO E Hkn. destruct (amg_stage_exact nc nt d cfg n lr m k Hk Hz W HO E Hkn) as (ss & t & Es & Ht & Rs & Ls & B).
  destruct (fitted_ok nc nt d ss Hk W HO Rs Ls) as (r & Er & Wr & Lr & Rr & Erl).
  exists (map (map Fin) ss), r, t. split; auto. split; [exact Er|]. split; auto. split.
  - intros l Hin. pose proof (proj1 (Forall_forall _ _) (amg_class_leaves nc nt _ _ _ _ Hk Wr Lr Rr B) l Hin) as (group & c & Hi & [Hn Hc] & H1 & H2 & H3).
    exists group, c. rewrite Erl in Hi. auto 8.
  - intros row Hrow. destruct (amg_class_out nc nt _ _ _ _ row Hk Wr Lr Rr B Hrow) as (x & c & Hc & Ef & Em & _ & Sx & Wx & Lx).
    exists (rl x), c. split; auto.
    transitivity (map snd (samples x)); [|rewrite (samples_snd _ _ _ Wx); exact Lx].
    rewrite Sx. f_equal. unfold samples_like, fitted. cbn [feature_rows labels feature_columns] in *.
    unfold fitted in Er. cbn [labels] in Er. xr. rewrite Er. reflexivity.
Qed.

(* ------------------------------------------------------------------ *)
(** ** One class: every leaf output is NaN *)

Definition zero_or_nan (x : xr) : Prop := x = Fin 0 \/ x = XNaN.

Lemma xis0_0 : xis0 (Fin 0) = true.
Proof. unfold xis0. destruct (Req_EM_T 0 0); congruence. Qed.

Lemma softmax_one (x : xr) : @softmax xr_ops [x] = [Fin 1] \/ @softmax xr_ops [x] = [XNaN].
Proof.
  destruct x as [r| | |]; [left|right|right|right].
  - change [Fin r] with (map Fin [r]). etransitivity; [apply (softmax_Fin [r]); discriminate|]. unfold rsoft. cbn.
    pose proof (exp_pos r). do 2 f_equal. field. lra.
  - transitivity [xmul PInf (Fin 0)]; [reflexivity|]. cbn. destruct (Req_EM_T 0 0); [reflexivity|congruence].
  - transitivity [xmul (Fin 0) (xdiv (Fin 1) (Fin (0 + 0)))]; [reflexivity|]. rewrite Rplus_0_l. cbn.
    destruct (Req_EM_T 0 0); [|congruence]. destruct (Req_EM_T 1 0); [reflexivity|]. unfold signed_inf, xnonneg.
    destruct (Rle_dec 0 1); [|lra]. cbn. destruct (Req_EM_T 0 0); [reflexivity|congruence].
  - reflexivity.
Qed.

Definition zn_vector (v : list xr) : Prop := exists x, v = [x] /\ zero_or_nan x.

Lemma zn_add a b : zero_or_nan a -> zero_or_nan b -> zero_or_nan (xadd a b).
Proof. intros [->| ->] [->| ->]; unfold zero_or_nan; cbn; auto. left. f_equal. lra. Qed.

Lemma zn_colsum vv : Forall zn_vector vv -> zn_vector (@colsum xr_ops 1 vv).
Proof.
  intros H. unfold colsum. assert (H0 : zn_vector (repeat (Fin 0) 1)) by (exists (Fin 0); split; [reflexivity|now left]). revert H0.
  change (repeat (@f0 xr_ops) 1) with (repeat (Fin 0) 1). generalize (repeat (Fin 0) 1).
  induction H as [|v vv (x & -> & Hx) H IH]; intros acc Ha; [exact Ha|]. destruct Ha as (a & -> & Ha). cbn. apply IH.
  exists (xadd a x). split; [reflexivity|now apply zn_add].
Qed.

Lemma zn_dterm x : zero_or_nan x -> zero_or_nan (@dterm xr_ops x).
Proof. intros [->| ->]; [left|now right]. cbn. rewrite Rabs_R0. f_equal. lra. Qed.

Lemma zn_div a b : zero_or_nan a -> zero_or_nan b -> xdiv a b = XNaN.
Proof. intros [->| ->] [->| ->]; cbn; auto. destruct (Req_EM_T 0 0); [reflexivity|congruence]. Qed.

Lemma class_calc_nan nc (x : @dataset xr_ops) : wf_dataset nc 1 x -> Forall zn_vector (labels x) ->
  leaf_output_calculator_new MultiClassClassification x = Ok [XNaN].
Proof.
  intros W H. rewrite (class_calc_eq nc 1 x W). f_equal.
  destruct (zn_colsum _ H) as (a & Ea & Ha).
  assert (H' : Forall zn_vector (map (map (@dterm xr_ops)) (labels x))).
  { rewrite Forall_map. eapply Forall_impl; [|exact H]. intros v (y & -> & Hy). exists (@dterm xr_ops y). split; [reflexivity|now apply zn_dterm]. }
  destruct (zn_colsum _ H') as (b & Eb & Hb). xr. rewrite Ea, Eb. cbn [map2 map].
  transitivity [xmul (xdiv a b) (@fdiv xr_ops (@fsub xr_ops (f_of_nat 1) f1) (f_of_nat 1))]; [reflexivity|].
  rewrite (zn_div a b Ha Hb). reflexivity.
Qed.

Lemma one_class_residuals (d : @dataset xr_ops) scores : one_hot_labels 1 d -> Forall2 (fun y s => length y = length s) (labels d) scores ->
  Forall zn_vector (differences (labels d) (map softmax scores)).
Proof.
  unfold one_hot_labels, differences. xr. generalize (labels d). intros ls H HF. revert H.
  induction HF as [|y s ls scores Hy HF IH]; intros H; cbn [map combine]; [constructor|]. inversion H as [|? ? (c & Hc) H']; subst.
  constructor; [|now apply IH]. apply one_hot_Fin in Hc as [Hc ->]. rewrite map_length, hot_length in Hy.
  destruct s as [|x [|? ?]]; try discriminate. assert (N.to_nat c = 0%nat) as -> by lia.
  assert (E : map Fin (hot 1 0) = [Fin 1]) by reflexivity. cbn [fst snd]. rewrite E.
  destruct (softmax_one x) as [->| ->]; cbn; eexists; split; try reflexivity; [left|now right]. cbn. f_equal. lra.
Qed.

Lemma zn_sub nc (d x : @dataset xr_ops) : wf_dataset nc 1 d -> wf_dataset nc 1 x -> incl (samples x) (samples d) ->
  Forall zn_vector (labels d) -> Forall zn_vector (labels x).
Proof.
  intros W Wx Hi H. rewrite Forall_forall in *. intros v Hv. apply H. rewrite <- (samples_snd _ _ _ Wx) in Hv.
  rewrite <- (samples_snd _ _ _ W). apply in_map_iff in Hv as (p & <- & Hp). apply in_map. auto.
Qed.

Theorem multi_one_class nc d cfg n lr m t l :
  wf_dataset nc 1 d -> one_hot_labels 1 d -> multi_class_boost_train d cfg n lr = Ok m ->
  In t (m_trees m) -> In l (leaves t) -> gl_output l = Some [XNaN].
Proof.
  intros W HO E Ht Hl. apply In_nth_error in Ht as (k & Hk).
  destruct (multi_class_shape xr_laws 1 d cfg n lr m (wf_labels _ _ _ W) ltac:(lia) E) as (HT & _).
  assert (Hkn : (k < n)%nat) by (rewrite <- HT; apply nth_error_Some; congruence).
  destruct (multi_class_stage d cfg n lr m k (wf_lengths _ _ _ W) E Hkn) as (scores & t' & _ & HF & Ht' & Eb).
  rewrite Hk in Ht'. injection Ht' as <-. pose proof (one_class_residuals d scores HO HF) as Hz.
  rewrite grad_boost_tree_new_eq in Eb. apply build_with_built in Eb.
  assert (Wr : wf_dataset nc 1 (mkDS (feature_rows d) (differences (labels d) (map softmax scores)) (feature_columns d))).
  { apply (with_labels_wf nc 1 d _ W).
    - unfold differences. rewrite map_length, combine_length, map_length. rewrite <- (Forall2_length _ _ _ HF). rewrite (wf_lengths _ _ _ W). apply Nat.min_id.
    - unfold rectangular. eapply Forall_impl; [|exact Hz]. intros v (x & -> & _). reflexivity. }
  destruct (proj1 (Forall_forall _ _) (built_leaves_sub _ _ _ _ _ _ _ Eb Wr) l Hl) as (x & Wx & Hi & Em).
  unfold mk_gb in Em. rewrite (class_calc_nan nc x Wx (zn_sub nc _ x Wr Wx Hi Hz)) in Em. cbn [bind] in Em. now injection Em as <-.
Qed.

(** With one class an AMG leaf finds no entry above minus infinity. *)
Theorem amg_one_class nc d cfg n lr m t l :
  wf_dataset nc 1 d -> one_hot_labels 1 d -> amg_boost_train d cfg n lr = Ok m ->
  In t (m_trees m) -> In l (leaves t) ->
  exists x, wf_dataset nc 1 x /\ incl (feature_rows x) (feature_rows d) /\
    leaf_output_calculator_new MultiClassClassification x = Ok [XNaN] /\ al_max l = Some NInf /\ al_class l = Some 0%nat.
Proof.
  intros W HO E Ht Hl. apply In_nth_error in Ht as (k & Hk).
  destruct (amg_shape xr_laws 1 d cfg n lr m (wf_labels _ _ _ W) ltac:(lia) E) as (HT & _).
  assert (Hkn : (k < n)%nat) by (rewrite <- HT; apply nth_error_Some; congruence).
  destruct (amg_stage d cfg n lr m k (wf_lengths _ _ _ W) E Hkn) as (scores & t' & _ & HF & Ht' & Eb).
  rewrite Hk in Ht'. injection Ht' as <-. pose proof (one_class_residuals d scores HO HF) as Hz.
  rewrite amg_boost_tree_new_eq in Eb. apply build_with_built in Eb.
  assert (Wr : wf_dataset nc 1 (mkDS (feature_rows d) (differences (labels d) (map softmax scores)) (feature_columns d))).
  { apply (with_labels_wf nc 1 d _ W).
    - unfold differences. rewrite map_length, combine_length, map_length. rewrite <- (Forall2_length _ _ _ HF). rewrite (wf_lengths _ _ _ W). apply Nat.min_id.
    - unfold rectangular. eapply Forall_impl; [|exact Hz]. intros v (x & -> & _). reflexivity. }
  destruct (proj1 (Forall_forall _ _) (built_leaves_sub _ _ _ _ _ _ _ Eb Wr) l Hl) as (x & Wx & Hi & Em).
  pose proof (class_calc_nan nc x Wx (zn_sub nc _ x Wr Wx Hi Hz)) as Ec.
  unfold mk_amg in Em. rewrite Ec in Em. cbn in Em. injection Em as <-. exists x. split; auto. split; auto.
  intros row Hr. destruct (row_sample _ _ _ _ Wx Hr) as (y & Hy). apply Hi in Hy. exact (sample_row _ _ _ Hy).
Qed.

(* ------------------------------------------------------------------ *)
(** ** Two classes (C43) *)

Section Zip.
Context {O : NumOps}.

(** Two trees built from the same data with different leaf makers ask the same questions. *)
Lemma built_same_questions {L L'} (mk : dataset -> res L) (mk' : dataset -> res L') cfg level d t t' :
  built mk cfg level d t -> built mk' cfg level d t' -> tree_map (fun _ => tt) t = tree_map (fun _ => tt) t'.
Proof.
  intros B. revert t'. induction B as [level d s l Es Est El|level d s fd td t f Es Est Ep Bt IHt Bf IHf]; intros t' B'.
  - destruct (built_leaf_inv _ _ _ _ _ _ B' Es Est) as (l' & El' & ->). reflexivity.
  - destruct (built_node_inv _ _ _ _ _ _ _ _ B' Es Est Ep) as (a & b & Ba & Bb & ->).
    cbn. now rewrite (IHt _ Ba), (IHf _ Bb).
Qed.

Lemma zip_any {L L'} (mk : dataset -> res L) (mk' : dataset -> res L') cfg nc nt level d t t' row :
  built mk cfg level d t -> built mk' cfg level d t' -> wf_dataset nc nt d ->
  (find_leaf_node_for_data row t = Panic /\ find_leaf_node_for_data row t' = Panic) \/
  exists ld l l', find_leaf_node_for_data row t = Ok l /\ mk ld = Ok l /\
    find_leaf_node_for_data row t' = Ok l' /\ mk' ld = Ok l' /\ incl (samples ld) (samples d) /\ wf_dataset nc nt ld.
Proof.
  intros B. revert t'. induction B as [level d s l Es Est El|level d s fd td t f Es Est Ep Bt IHt Bf IHf]; intros t' B' W.
  - destruct (built_leaf_inv _ _ _ _ _ _ B' Es Est) as (l' & El' & ->).
    right. exists d, l, l'. split; [reflexivity|]. split; auto. split; [reflexivity|]. split; auto. split; auto. apply incl_refl.
  - destruct (built_node_inv _ _ _ _ _ _ _ _ B' Es Est Ep) as (a & b & Ba & Bb & ->).
    destruct (partition_wf nc nt d _ fd td W Ep) as (Hq & Wf & Wt & St & Sf).
    cbn [node_new find_leaf_node_for_data].
    assert (Hs : solve (bs_question s) row = Panic \/ exists v, solve (bs_question s) row = Ok v).
    { unfold solve, idxN, idx; destruct (_ <? _)%N; [|left; reflexivity]; match goal with |- context [nth_error row ?i] => destruct (nth_error row i) end; cbn [bind]; [right; eexists; reflexivity|left; reflexivity]. }
    destruct Hs as [->|([|] & ->)]; cbn [bind]; [left; auto| |].
    + destruct (IHt _ Ba Wt) as [[H1 H2]|(ld & l & l' & E & El & E' & El' & Hi & Hw)]; [left; auto|right].
      exists ld, l, l'. split; auto. split; auto. split; auto. split; auto. split; auto. eapply incl_tran; [exact Hi|]. rewrite St. apply filter_incl.
    + destruct (IHf _ Bb Wf) as [[H1 H2]|(ld & l & l' & E & El & E' & El' & Hi & Hw)]; [left; auto|right].
      exists ld, l, l'. split; auto. split; auto. split; auto. split; auto. split; auto. eapply incl_tran; [exact Hi|]. rewrite Sf. apply filter_incl.
Qed.

Lemma raw_same {L L'} (out : list F -> tree_node L -> res (list F)) (out' : list F -> tree_node L' -> res (list F)) lr g row ts ts' :
  Forall2 (fun t t' => out row t = out' row t') ts ts' -> raw out lr g row ts = raw out' lr g row ts'.
Proof.
  intros H. unfold raw. assert (E : mapM (fun t => o <- out row t;; Ok (weighted lr o)) ts = mapM (fun t => o <- out' row t;; Ok (weighted lr o)) ts').
  { induction H as [|t t' ts ts' Ho H IH]; [reflexivity|]. cbn [mapM]. now rewrite Ho, IH. }
  now rewrite E.
Qed.
End Zip.

Lemma two_target group : Forall (residual_vector 2) group -> target 1 group = map Ropp (target 0 group).
Proof.
  intros H. unfold target. rewrite map_map. apply map_ext_in. intros v Hv.
  destruct (proj1 (Forall_forall _ _) H v Hv) as (L & _ & S). destruct v as [|a [|b [|? ?]]]; try discriminate.
  cbn in S |- *. lra.
Qed.

Lemma Rsum_opp l : Rsum (map Ropp l) = - Rsum l.
Proof. induction l as [|x l IH]; cbn [map]; [cbn; lra|]. rewrite !Rsum_cons, IH. lra. Qed.

Lemma curvature_opp l : curvature (map Ropp l) = curvature l.
Proof. unfold curvature. rewrite map_map. f_equal. apply map_ext. intros x. now rewrite Rabs_Ropp. Qed.

Lemma two_output group : Forall (residual_vector 2) group -> exists a, class_output 2 group = [a; - a].
Proof.
  intros H. unfold class_output. cbn [seq map]. rewrite (two_target group H), Rsum_opp, curvature_opp.
  eexists. f_equal. f_equal. unfold Rdiv. ring.
Qed.

Lemma approx_two a c : (c < 2)%nat -> approx 2 c (nth c [a; - a] 0) = [a; - a].
Proof.
  intros H. unfold approx. cbn [seq map]. replace (INR 2 - 1) with 1 by (cbn; lra).
  destruct c as [|[|c]]; [| |lia]; cbn; f_equal; try (f_equal); field.
Qed.

Lemma two_out nc (d : @dataset xr_ops) cfg gt at_ row :
  wf_dataset nc 2 d -> real_labels (rl d) d -> residual_labels 2 d ->
  built (mk_gb (leaf_output_calculator_new MultiClassClassification)) cfg 0 d gt ->
  built (mk_amg (leaf_output_calculator_new MultiClassClassification)) cfg 0 d at_ ->
  @gb_out xr_ops row gt = @amg_out xr_ops 2 row at_.
Proof.
  intros W Hl Hr Bg Ba. unfold gb_out, amg_out.
  destruct (zip_any _ _ _ _ _ _ _ _ _ row Bg Ba W) as [[-> ->]|(x & l & l' & E1 & E2 & E3 & E4 & Hi & Wx)]; [reflexivity|].
  destruct (sub_class nc 2 d x) as [Lx Rx]; auto.
  apply (mk_gb_class nc 2) in E2; auto. apply (mk_amg_class nc 2) in E4 as (c & Hc & -> & _); auto. subst l.
  rewrite E1, E3. cbn [bind gl_output unwrap]. etransitivity; [|symmetry; apply construct_Fin; auto].
  destruct (two_output (rl x) Rx) as (a & ->). now rewrite approx_two.
Qed.

Lemma map_Fin_inj2 (a b : list (list R)) : map (map Fin) a = map (map Fin) b -> a = b.
Proof.
  intros H. apply (f_equal (map (map xval))) in H. rewrite !map_map in H.
  rewrite !(map_ext (fun x => map xval (map Fin x)) (fun x => x)) in H by (intros; apply map_xval_Fin). now rewrite !map_id in H.
Qed.

Lemma two_raw (m : @multi_class_boost_model xr_ops) (m' : @amg_boost_model xr_ops) k row :
  m_initial_guess m = m_initial_guess m' -> m_learning_rate m = m_learning_rate m' -> length (m_initial_guess m') = 2%nat ->
  Forall2 (fun t t' => tree_map (fun _ => tt) t = tree_map (fun _ => tt) t' /\ forall row, @gb_out xr_ops row t = @amg_out xr_ops 2 row t')
      (firstn k (m_trees m)) (firstn k (m_trees m')) ->
  multi_class_boost_raw (first_trees k m) row = amg_boost_raw (first_trees k m') row.
Proof.
  intros Hg Hlr HL H. rewrite multi_raw, amg_raw, Hg, Hlr, HL. apply raw_same. eapply Forall2_impl; [|exact H]. intros t t' [_ E]. apply E.
Qed.

Theorem two_class_trees nc d cfg n lr m m' :
  wf_dataset nc 2 d -> one_hot_labels 2 d ->
  multi_class_boost_train d cfg n (Fin lr) = Ok m -> amg_boost_train d cfg n (Fin lr) = Ok m' ->
  forall k, (k <= n)%nat ->
    Forall2 (fun t t' => tree_map (fun _ => tt) t = tree_map (fun _ => tt) t' /\ forall row, @gb_out xr_ops row t = @amg_out xr_ops 2 row t')
      (firstn k (m_trees m)) (firstn k (m_trees m')).
Proof.
  intros W HO E E'.
  destruct (multi_guess nc 2 d cfg n (Fin lr) m) as (Hg & Hlr & HT); auto; try lia.
  destruct (amg_guess nc 2 d cfg n (Fin lr) m') as (Hg' & Hlr' & HT'); auto; try lia.
  induction k as [|k IH]; intros Hk; [constructor|]. specialize (IH ltac:(lia)).
  destruct (multi_stage_exact nc 2 d cfg n lr m k) as (ss & t & Es & Ht & Rs & Ls & B); auto; try lia.
  destruct (amg_stage_exact nc 2 d cfg n lr m' k) as (ss' & t' & Es' & Ht' & Rs' & Ls' & B'); auto; try lia.
  assert (ss' = ss) as ->.
  { apply map_Fin_inj2. rewrite (mapM_ext _ (amg_boost_raw (first_trees k m'))) in Es.
    - xr. rewrite Es' in Es. now injection Es.
    - intros row _. apply two_raw; auto.
      + rewrite Hg, Hg'. reflexivity. + rewrite Hlr, Hlr'. reflexivity. + rewrite Hg'. rewrite map_length. reflexivity. }
  rewrite (firstn_snoc _ _ _ Ht), (firstn_snoc _ _ _ Ht'). apply Forall2_app; auto. constructor; [|constructor].
  destruct (fitted_ok nc 2 d ss ltac:(lia) W HO Rs Ls) as (r & Er & Wr & Lr & Rr & Erl).
  split; [eapply built_same_questions; eauto|]. intros row. eapply two_out; eauto.
Qed.

Lemma first_all {O : NumOps} {L} (m : model L) n : length (m_trees m) = n -> first_trees n m = m.
Proof. intros <-. destruct m. unfold first_trees. cbn. now rewrite firstn_all. Qed.

Theorem two_classes nc d cfg n lr m m' :
  wf_dataset nc 2 d -> one_hot_labels 2 d ->
  multi_class_boost_train d cfg n (Fin lr) = Ok m -> amg_boost_train d cfg n (Fin lr) = Ok m' ->
  Forall2 (fun t t' => tree_map (fun _ => tt) t = tree_map (fun _ => tt) t') (m_trees m) (m_trees m') /\
  (forall row, multi_class_boost_raw m row = amg_boost_raw m' row) /\
  (forall row, multi_class_boost_predict m row = amg_boost_predict m' row) /\
  (forall test, multi_class_boost_score m test = amg_boost_score m' test).
Proof.
  intros W HO E E'.
  destruct (multi_guess nc 2 d cfg n (Fin lr) m) as (Hg & Hlr & HT); auto; try lia.
  destruct (amg_guess nc 2 d cfg n (Fin lr) m') as (Hg' & Hlr' & HT'); auto; try lia.
  pose proof (two_class_trees nc d cfg n lr m m' W HO E E' n ltac:(lia)) as H.
  assert (HR : forall row, multi_class_boost_raw m row = amg_boost_raw m' row).
  { intros row. rewrite <- (first_all m n HT), <- (first_all m' n HT'). apply two_raw; auto.
    + rewrite Hg, Hg'. reflexivity. + rewrite Hlr, Hlr'. reflexivity. + rewrite Hg'. rewrite map_length. reflexivity. }
  assert (HP : forall row, multi_class_boost_predict m row = amg_boost_predict m' row).
  { intros row. unfold multi_class_boost_predict, amg_boost_predict. now rewrite HR. }
  split; [|split; [exact HR|split; [exact HP|]]].
  - rewrite <- HT in H at 1. rewrite <- HT' in H. rewrite !firstn_all in H. eapply Forall2_impl; [|exact H]. now intros t t' [A _].
  - intros test. unfold multi_class_boost_score, amg_boost_score, multi_class_boost_all_predictions, amg_boost_all_predictions.
    rewrite !all_predictions_eq. rewrite (mapM_ext _ (amg_boost_predict m')); auto.
Qed.
