(** Ensembles trained on reordered feature columns (C100). *)
From Coq Require Import Permutation Lia.
From Verif Require Import Base Num ModelCommon ModelTree ModelBoost Lib Spec SpecTree SpecScore SpecColumns SpecColumnsBoost
  ProofData ProofTree ProofBoost ProofLeaf ProofScore ProofColumns.

Section ColumnsBoost.
Context {O : NumOps} (LW : NumLaws O).
Context (Hpos : forall x y, fltb f0 x = true -> feqb x y = true -> x = y).
Context (order : list nat) (nc : nat) (Ho : column_order nc order).

Lemma gb_out_reorder t t' row o : same_but_columns order eq t t' -> length row = nc -> gb_out row t = Ok o -> gb_out (reorder_row order row) t' = Ok o.
Proof.
  unfold gb_out. intros S Lr H. apply bind_Ok in H as (l & E & H). destruct (lookup_reorder order nc Ho eq t t' row S Lr l E) as (l' & -> & <-). exact H.
Qed.
Lemma amg_out_reorder k t t' row o : same_but_columns order eq t t' -> length row = nc -> amg_out k row t = Ok o -> amg_out k (reorder_row order row) t' = Ok o.
Proof.
  unfold amg_out. intros S Lr H. apply bind_Ok in H as (l & E & H). destruct (lookup_reorder order nc Ho eq t t' row S Lr l E) as (l' & -> & <-). exact H.
Qed.

Section Generic.
Context {L : Type} (out : list F -> tree_node L -> res (list F)).
Context (Hout : forall t t' row o, same_but_columns order eq t t' -> length row = nc -> out row t = Ok o -> out (reorder_row order row) t' = Ok o).

Lemma raw_reorder lr g row ts ts' s : Forall2 (same_but_columns order eq) ts ts' -> length row = nc ->
  raw out lr g row ts = Ok s -> raw out lr g (reorder_row order row) ts' = Ok s.
Proof.
  intros S Lr. unfold raw. intros H. apply bind_Ok in H as (outs & E & H). apply bind_Ok. exists outs. split; auto. clear H.
  apply mapM_Forall2 in E. apply mapM_Forall2. revert outs E. induction S as [|t t' ts ts' St S IH]; intros outs E; inversion E as [|? o ? outs' E1 E2 Ea Eb]; constructor; auto.
  apply bind_Ok in E1 as (w & Ew & E1). now rewrite (Hout _ _ _ _ St Lr Ew).
Qed.

Lemma rows_reorder (f f' : list F -> res (list F)) rows ss : rectangular nc rows ->
  (forall row s, length row = nc -> f row = Ok s -> f' (reorder_row order row) = Ok s) ->
  mapM f rows = Ok ss -> mapM f' (map (reorder_row order) rows) = Ok ss.
Proof.
  intros R Hf E. apply mapM_Forall2 in E. apply mapM_Forall2. induction E as [|row s rows ss E1 E IH]; [constructor|].
  inversion R as [|? ? R1 R2 Ea]. cbn [map]. constructor; auto.
Qed.

Lemma stages_reorder (pr : model L -> list F -> res (list F)) (target : list F -> list F) (fit : dataset -> res (tree_node L)) nt d n (m m' : model L) :
  wf_dataset nc nt d -> (forall s, length (target s) = length s) ->
  (forall k row, k <= n -> pr (first_trees k m) row = raw out (m_learning_rate m) (m_initial_guess m) row (firstn k (m_trees m))) ->
  (forall k row, k <= n -> pr (first_trees k m') row = raw out (m_learning_rate m') (m_initial_guess m') row (firstn k (m_trees m'))) ->
  m_initial_guess m' = m_initial_guess m -> m_learning_rate m' = m_learning_rate m ->
  length (m_trees m) = n -> length (m_trees m') = n ->
  (forall k, k < n -> exists ss t, mapM (pr (first_trees k m)) (feature_rows d) = Ok ss /\ Forall2 (fun y s => length y = length s) (labels d) ss /\
     nth_error (m_trees m) k = Some t /\ fit (mkDS (feature_rows d) (differences (labels d) (map target ss)) (feature_columns d)) = Ok t) ->
  (forall k, k < n -> exists ss t, mapM (pr (first_trees k m')) (feature_rows (reorder order d)) = Ok ss /\
     nth_error (m_trees m') k = Some t /\
     fit (mkDS (feature_rows (reorder order d)) (differences (labels (reorder order d)) (map target ss)) (feature_columns (reorder order d))) = Ok t) ->
  (forall x t, wf_dataset nc nt x -> fit x = Ok t -> decisive nc nt x t -> exists t', fit (reorder order x) = Ok t' /\ same_but_columns order eq t t') ->
  decisive_stages pr target nc nt d m ->
  same_ensemble_but_columns order m m'.
Proof.
  intros W Ht Hr Hr' Hg Hl L1 L2 HS HS' Hfit D. split; [|auto].
  assert (K : forall k, k <= n -> Forall2 (same_but_columns order eq) (firstn k (m_trees m)) (firstn k (m_trees m'))).
  { induction k as [|k IH]; intros Hk; [constructor|]. specialize (IH ltac:(lia)).
    destruct (HS k ltac:(lia)) as (ss & t & E1 & E2 & E3 & E4). destruct (HS' k ltac:(lia)) as (ss' & t' & E1' & E3' & E4').
    assert (ss' = ss) as ->.
    { pose proof (rows_reorder (pr (first_trees k m)) (pr (first_trees k m')) _ ss (wf_rows _ _ _ W)) as Q.
      cbn [reorder feature_rows] in E1'. rewrite Q in E1'; [now injection E1'| |exact E1].
      intros row s Lr E. rewrite Hr in E by lia. rewrite Hr', Hg, Hl by lia. now apply (raw_reorder _ _ _ _ _ _ IH Lr). }
    assert (Wr : wf_dataset nc nt (mkDS (feature_rows d) (differences (labels d) (map target ss)) (feature_columns d))).
    { destruct (differences_rect nt (labels d) (map target ss)) as [Q1 Q2].
      - rewrite map_length. exact (Forall2_length _ _ _ E2).
      - apply W.
      - pose proof (wf_labels _ _ _ W) as R. unfold rectangular in *. clear -R E2 Ht. induction E2; cbn; constructor; inversion R; subst; auto. now rewrite Ht.
      - apply (with_labels_wf nc nt d); auto. rewrite Q1. apply (wf_lengths _ _ _ W). }
    destruct (Hfit _ t Wr E4 (D k t ss E3 E1)) as (t'' & E5 & S).
    assert (t'' = t') as -> by (change (fit (reorder order (mkDS (feature_rows d) (differences (labels d) (map target ss)) (feature_columns d))) = Ok t') in E4'; congruence).
    rewrite (firstn_snoc _ _ _ E3), (firstn_snoc _ _ _ E3'). apply Forall2_app; auto. }
  specialize (K n (le_n _)). rewrite <- L1 in K at 1. rewrite <- L2 in K. now rewrite !firstn_all in K.
Qed.
End Generic.

Lemma score_rows (f f' : list F -> res (list F)) test ps : rectangular nc (feature_rows test) ->
  (forall row s, length row = nc -> f row = Ok s -> f' (reorder_row order row) = Ok s) ->
  calculate_all_predictions f test = Ok ps -> calculate_all_predictions f' (reorder order test) = Ok ps.
Proof. rewrite !all_predictions_eq. intros R H E. exact (rows_reorder f f' _ _ R H E). Qed.

Section Ensembles.
Context (nt : nat) (d : dataset) (cfg : tree_config) (n : nat) (lr : F).
Hypotheses (W : wf_dataset nc nt d) (Hs : standard cfg) (Hk : tc_number_of_classes cfg = N.of_nat nt) (Hnt : (Z.of_nat nt <= 2 ^ 53)%Z).

Lemma guesses {L} ty (exec : executor L) m m' : boosting_loop d cfg n lr ty exec = Ok m -> boosting_loop (reorder order d) cfg n lr ty exec = Ok m' ->
  m_initial_guess m' = m_initial_guess m /\ m_learning_rate m' = m_learning_rate m.
Proof.
  intros E E'. apply boosting_loop_Ok in E as (E1 & E2 & _). apply boosting_loop_Ok in E' as (E1' & E2' & _). split; [|congruence].
  assert (Q : determine_initial_guess (mkTD d (labels d) (length (labels d))) ty = Ok (m_initial_guess m')) by exact E1'. congruence.
Qed.

Theorem regression_boost_reorder m m' : regression_boost_train d cfg n lr = Ok m -> regression_boost_train (reorder order d) cfg n lr = Ok m' ->
  decisive_stages regression_boost_predict (fun s => s) nc nt d m ->
  same_ensemble_but_columns order m m' /\
  (forall row p, length row = nc -> regression_boost_predict m row = Ok p -> regression_boost_predict m' (reorder_row order row) = Ok p) /\
  (forall test e, rectangular nc (feature_rows test) -> regression_boost_score m test = Ok e -> regression_boost_score m' (reorder order test) = Ok e).
Proof.
  intros E E' D. pose proof (wf_lengths _ _ _ W) as HL. pose proof (reorder_wf order nc Ho nt d W) as W'.
  destruct (guesses _ _ _ _ E E') as [Hg Hl].
  destruct (regression_shape nt d cfg n lr m (wf_labels _ _ _ W) E) as (L1 & _). destruct (regression_shape nt _ cfg n lr m' (wf_labels _ _ _ W') E') as (L2 & _).
  assert (S : same_ensemble_but_columns order m m').
  { eapply (stages_reorder gb_out gb_out_reorder regression_boost_predict (fun s => s)) with (d := d) (nt := nt) (n := n) (fit := fun x => grad_boost_tree_new x cfg (leaf_output_calculator_new Regression)); eauto.
    - intros. apply predict_instance_raw.
    - intros. apply predict_instance_raw.
    - intros k Hk'. destruct (regression_stage d cfg n lr m k HL E Hk') as (ps & t & Q). exists ps, t. unfold regression_boost_all_predictions in Q. rewrite all_predictions_eq in Q. rewrite map_id. exact Q.
    - intros k Hk'. destruct (regression_stage _ cfg n lr m' k (wf_lengths _ _ _ W') E' Hk') as (ps & t & Q). exists ps, t. unfold regression_boost_all_predictions in Q. rewrite all_predictions_eq in Q. rewrite map_id. tauto.
    - intros x t Wx Ex Dx. exact (grad_boost_reorder LW Hpos order nc Ho nt x cfg Wx Hs Hk Regression t Ex Dx). }
  assert (Q : forall row p, length row = nc -> regression_boost_predict m row = Ok p -> regression_boost_predict m' (reorder_row order row) = Ok p).
  { intros row p Lr. unfold regression_boost_predict. rewrite !predict_instance_raw, Hg, Hl. exact (raw_reorder gb_out gb_out_reorder _ _ _ _ _ _ (proj1 S) Lr). }
  split; [exact S|]. split; [exact Q|]. intros test e R H. unfold regression_boost_score, regression_boost_all_predictions in *.
  apply bind_Ok in H as (ps & H1 & H2). rewrite (score_rows _ _ test ps R Q H1). exact H2.
Qed.

Theorem multi_class_boost_reorder m m' : multi_class_boost_train d cfg n lr = Ok m -> multi_class_boost_train (reorder order d) cfg n lr = Ok m' ->
  decisive_stages multi_class_boost_raw softmax nc nt d m ->
  same_ensemble_but_columns order m m' /\
  (forall row p, length row = nc -> multi_class_boost_predict m row = Ok p -> multi_class_boost_predict m' (reorder_row order row) = Ok p) /\
  (forall test e, rectangular nc (feature_rows test) -> multi_class_boost_score m test = Ok e -> multi_class_boost_score m' (reorder order test) = Ok e).
Proof.
  intros E E' D. pose proof (wf_lengths _ _ _ W) as HL. pose proof (reorder_wf order nc Ho nt d W) as W'.
  destruct (guesses _ _ _ _ E E') as [Hg Hl].
  destruct (multi_class_shape LW nt d cfg n lr m (wf_labels _ _ _ W) Hnt E) as (L1 & _). destruct (multi_class_shape LW nt _ cfg n lr m' (wf_labels _ _ _ W') Hnt E') as (L2 & _).
  assert (S : same_ensemble_but_columns order m m').
  { eapply (stages_reorder gb_out gb_out_reorder multi_class_boost_raw softmax) with (d := d) (nt := nt) (n := n) (fit := fun x => grad_boost_tree_new x cfg (leaf_output_calculator_new MultiClassClassification)); eauto.
    - apply softmax_length.
    - intros. apply predict_instance_raw.
    - intros. apply predict_instance_raw.
    - intros k Hk'. exact (multi_class_stage d cfg n lr m k HL E Hk').
    - intros k Hk'. destruct (multi_class_stage _ cfg n lr m' k (wf_lengths _ _ _ W') E' Hk') as (ps & t & Q). exists ps, t. tauto.
    - intros x t Wx Ex Dx. exact (grad_boost_reorder LW Hpos order nc Ho nt x cfg Wx Hs Hk _ t Ex Dx). }
  assert (Q : forall row p, length row = nc -> multi_class_boost_predict m row = Ok p -> multi_class_boost_predict m' (reorder_row order row) = Ok p).
  { intros row p Lr. unfold multi_class_boost_predict, multi_class_boost_raw. rewrite !predict_instance_raw, Hg, Hl. intros H. apply bind_Ok in H as (s & H1 & H2).
    rewrite (raw_reorder gb_out gb_out_reorder _ _ _ _ _ _ (proj1 S) Lr H1). exact H2. }
  split; [exact S|]. split; [exact Q|]. intros test e R H. unfold multi_class_boost_score, multi_class_boost_all_predictions in *.
  apply bind_Ok in H as (ps & H1 & H2). rewrite (score_rows _ _ test ps R Q H1). exact H2.
Qed.

Theorem amg_boost_reorder m m' : amg_boost_train d cfg n lr = Ok m -> amg_boost_train (reorder order d) cfg n lr = Ok m' ->
  decisive_stages amg_boost_raw softmax nc nt d m ->
  same_ensemble_but_columns order m m' /\
  (forall row p, length row = nc -> amg_boost_predict m row = Ok p -> amg_boost_predict m' (reorder_row order row) = Ok p) /\
  (forall test e, rectangular nc (feature_rows test) -> amg_boost_score m test = Ok e -> amg_boost_score m' (reorder order test) = Ok e).
Proof.
  intros E E' D. pose proof (wf_lengths _ _ _ W) as HL. pose proof (reorder_wf order nc Ho nt d W) as W'.
  destruct (guesses _ _ _ _ E E') as [Hg Hl].
  destruct (amg_shape LW nt d cfg n lr m (wf_labels _ _ _ W) Hnt E) as (L1 & _). destruct (amg_shape LW nt _ cfg n lr m' (wf_labels _ _ _ W') Hnt E') as (L2 & _).
  set (c := length (m_initial_guess m)).
  assert (S : same_ensemble_but_columns order m m').
  { eapply (stages_reorder (amg_out c) (amg_out_reorder c) amg_boost_raw softmax) with (d := d) (nt := nt) (n := n) (fit := fun x => amg_boost_tree_new x cfg (leaf_output_calculator_new MultiClassClassification)); eauto.
    - apply softmax_length.
    - intros. apply amg_predict_instance_raw.
    - intros. unfold c. rewrite <- Hg. apply amg_predict_instance_raw.
    - intros k Hk'. exact (amg_stage d cfg n lr m k HL E Hk').
    - intros k Hk'. destruct (amg_stage _ cfg n lr m' k (wf_lengths _ _ _ W') E' Hk') as (ps & t & Q). exists ps, t. tauto.
    - intros x t Wx Ex Dx. exact (amg_reorder LW Hpos order nc Ho nt x cfg Wx Hs Hk _ t Ex Dx). }
  assert (Q : forall row p, length row = nc -> amg_boost_predict m row = Ok p -> amg_boost_predict m' (reorder_row order row) = Ok p).
  { intros row p Lr. unfold amg_boost_predict, amg_boost_raw. rewrite !amg_predict_instance_raw, Hg, Hl. fold c. intros H. apply bind_Ok in H as (s & H1 & H2).
    rewrite (raw_reorder (amg_out c) (amg_out_reorder c) _ _ _ _ _ _ (proj1 S) Lr H1). exact H2. }
  split; [exact S|]. split; [exact Q|]. intros test e R H. unfold amg_boost_score, amg_boost_all_predictions in *.
  apply bind_Ok in H as (ps & H1 & H2). rewrite (score_rows _ _ test ps R Q H1). exact H2.
Qed.
(** Training on the reordered columns succeeds. *)
Theorem regression_boost_reordered m : regression_boost_train d cfg n lr = Ok m ->
  decisive_stages regression_boost_predict (fun s => s) nc nt d m ->
  exists m', regression_boost_train (reorder order d) cfg n lr = Ok m' /\ same_ensemble_but_columns order m m' /\
  (forall row p, length row = nc -> regression_boost_predict m row = Ok p -> regression_boost_predict m' (reorder_row order row) = Ok p) /\
  (forall test e, rectangular nc (feature_rows test) -> regression_boost_score m test = Ok e -> regression_boost_score m' (reorder order test) = Ok e).
Proof.
  intros E D. pose proof (reorder_wf order nc Ho nt d W) as W'.
  destruct (regression_train_total LW nc nt (reorder order d) cfg n lr W' Hs Hk Hnt) as (m' & E' & _). exists m'. split; [exact E'|]. exact (regression_boost_reorder m m' E E' D).
Qed.

Theorem multi_class_boost_reordered m : multi_class_boost_train d cfg n lr = Ok m ->
  decisive_stages multi_class_boost_raw softmax nc nt d m ->
  exists m', multi_class_boost_train (reorder order d) cfg n lr = Ok m' /\ same_ensemble_but_columns order m m' /\
  (forall row p, length row = nc -> multi_class_boost_predict m row = Ok p -> multi_class_boost_predict m' (reorder_row order row) = Ok p) /\
  (forall test e, rectangular nc (feature_rows test) -> multi_class_boost_score m test = Ok e -> multi_class_boost_score m' (reorder order test) = Ok e).
Proof.
  intros E D. pose proof (reorder_wf order nc Ho nt d W) as W'.
  destruct (multi_class_train_total LW nc nt (reorder order d) cfg n lr W' Hs Hk Hnt) as (m' & E' & _). exists m'. split; [exact E'|]. exact (multi_class_boost_reorder m m' E E' D).
Qed.

Theorem amg_boost_reordered m : 0 < nt -> amg_boost_train d cfg n lr = Ok m ->
  decisive_stages amg_boost_raw softmax nc nt d m ->
  exists m', amg_boost_train (reorder order d) cfg n lr = Ok m' /\ same_ensemble_but_columns order m m' /\
  (forall row p, length row = nc -> amg_boost_predict m row = Ok p -> amg_boost_predict m' (reorder_row order row) = Ok p) /\
  (forall test e, rectangular nc (feature_rows test) -> amg_boost_score m test = Ok e -> amg_boost_score m' (reorder order test) = Ok e).
Proof.
  intros Hp E D. pose proof (reorder_wf order nc Ho nt d W) as W'.
  destruct (amg_train_total LW nc nt (reorder order d) cfg n lr W' Hp Hs Hk Hnt) as (m' & E' & _). exists m'. split; [exact E'|]. exact (amg_boost_reorder m m' E E' D).
Qed.

End Ensembles.
End ColumnsBoost.
