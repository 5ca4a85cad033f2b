(** Ensembles trained on transformed features (C101). *)
From Coq Require Import Lia.
From Verif Require Import Base Num ModelCommon ModelTree ModelBoost Lib Spec SpecTree SpecScore SpecTransformBoost
  ProofData ProofTree ProofTree3 ProofTransform ProofBoost ProofLeaf ProofScore.

Section TransformBoost.
Context {O : NumOps} (LW : NumLaws O).
Context (D : nat -> F -> Prop) (phi : nat -> F -> F) (Hphi : increasing_on D phi) (nc : nat).

(** Trees that send a row and its transform to the same leaf. *)
Definition alike {L} (t t' : tree_node L) : Prop := same_but_thresholds phi t t' /\
  forall row, row_in D row -> nc <= length row -> find_leaf_node_for_data (transform_row phi row) t' = find_leaf_node_for_data row t.

Lemma mapM_alike {L} (g : regression_leaf -> res L) t t' : (forall x, g (mkRL (Some (transform phi x))) = g (mkRL (Some x))) -> transformed phi t t' ->
  forall u, tree_mapM g t = Ok u -> exists u', tree_mapM g t' = Ok u' /\ same_but_thresholds phi u u'.
Proof.
  intros Hg. induction 1 as [q q' d|c v t f t' f' Ht IHt Hf IHf]; intros u E.
  - unfold leaf_node in *. cbn [tree_mapM] in *. rewrite Hg. destruct (g (mkRL (Some d))) as [l| |]; cbn [bind] in *; try discriminate. injection E as <-.
    eexists. split; [reflexivity|]. exact (sbt_leaf phi q q' l).
  - unfold node_new in *. cbn [tree_mapM bind] in *. apply bind_Ok in E as (a & Ea & E). apply bind_Ok in Ea as (t1 & Et & Ea). injection Ea as <-.
    apply bind_Ok in E as (b & Eb & E). apply bind_Ok in Eb as (f1 & Ef & Eb). injection Eb as <-. injection E as <-.
    destruct (IHt _ Et) as (t2 & -> & St). destruct (IHf _ Ef) as (f2 & -> & Sf). cbn [bind]. eexists. split; [reflexivity|].
    exact (sbt_node phi c v t1 f1 t2 f2 St Sf).
Qed.

Lemma mapM_lookup {L} (g : regression_leaf -> res L) t : proper t -> forall u row l, tree_mapM g t = Ok u -> find_leaf_node_for_data row t = Ok l ->
  find_leaf_node_for_data row u = g l.
Proof.
  induction 1 as [q l0|q t f Ht IHt Hf IHf]; intros u row l E El.
  - cbn [tree_mapM] in E. apply bind_Ok in E as (a & Ea & E). apply bind_Ok in Ea as (y & Ey & Ea). injection Ea as <-. cbn [bind] in E. injection E as <-.
    cbn in *. injection El as <-. now rewrite Ey.
  - cbn [tree_mapM bind] in E. apply bind_Ok in E as (a & Ea & E). apply bind_Ok in Ea as (t1 & Et & Ea). injection Ea as <-.
    apply bind_Ok in E as (b & Eb & E). apply bind_Ok in Eb as (f1 & Ef & Eb). injection Eb as <-. injection E as <-.
    cbn in *. destruct (solve q row) as [[]| |]; cbn [bind] in *; try discriminate; [exact (IHt _ row _ Et El)|exact (IHf _ row _ Ef El)].
Qed.

Section Fit.
Context (nt : nat) (x : dataset) (cfg : tree_config).
Hypotheses (W : wf_dataset nc nt x) (Hin : Forall (row_in D) (feature_rows x)) (Hs : standard cfg) (Hk : tc_number_of_classes cfg = N.of_nat nt).

Lemma fit_alike {L} (g : regression_leaf -> res L) (new : dataset -> res (tree_node L)) t :
  (forall y, g (mkRL (Some (transform phi y))) = g (mkRL (Some y))) ->
  (forall y, new y = (t <- regression_tree_new y cfg;; tree_mapM g t)) ->
  new x = Ok t -> exists t', new (transform phi x) = Ok t' /\ alike t t'.
Proof.
  intros Hg Hn E. rewrite Hn in E. apply bind_Ok in E as (rt & Er & E).
  destruct (transform_tree LW D phi nc nt x cfg rt Hphi W Hin Hs Hk Er) as (rt' & Er' & T & Hl & _).
  destruct (mapM_alike g rt rt' Hg T t E) as (t' & E' & S). exists t'. split; [now rewrite Hn, Er'|]. split; [exact S|].
  intros row Hr Hlen. destruct (Hl row Hr Hlen) as (ld & E1 & E2).
  destruct (trees_proper x cfg (leaf_output_calculator_new Regression)) as (P1 & _). destruct (trees_proper (transform phi x) cfg (leaf_output_calculator_new Regression)) as (P2 & _).
  rewrite (mapM_lookup g rt (P1 rt Er) t row _ E E1), (mapM_lookup g rt' (P2 rt' Er') t' _ _ E' E2). apply Hg.
Qed.

Lemma gb_alike kind t : grad_boost_tree_new x cfg (leaf_output_calculator_new kind) = Ok t ->
  exists t', grad_boost_tree_new (transform phi x) cfg (leaf_output_calculator_new kind) = Ok t' /\ alike t t'.
Proof. apply (fit_alike _ (fun y => grad_boost_tree_new y cfg (leaf_output_calculator_new kind))) with (2 := fun y => grad_boost_is_regression y cfg kind Hs). intros y. destruct kind; reflexivity. Qed.

Lemma amg_alike kind t : amg_boost_tree_new x cfg (leaf_output_calculator_new kind) = Ok t ->
  exists t', amg_boost_tree_new (transform phi x) cfg (leaf_output_calculator_new kind) = Ok t' /\ alike t t'.
Proof. apply (fit_alike _ (fun y => amg_boost_tree_new y cfg (leaf_output_calculator_new kind))) with (2 := fun y => amg_is_regression y cfg kind Hs). intros y. destruct kind; reflexivity. Qed.
End Fit.

Definition inside (row : list F) : Prop := row_in D row /\ nc <= length row.

Section Generic.
Context {L : Type} (out : list F -> tree_node L -> res (list F)).
Context (Hout : forall t t' row, alike t t' -> inside row -> out (transform_row phi row) t' = out row t).

Lemma raw_alike lr g row ts ts' : Forall2 alike ts ts' -> inside row -> raw out lr g (transform_row phi row) ts' = raw out lr g row ts.
Proof.
  intros S Hr. unfold raw. f_equal. induction S as [|t t' ts ts' St S IH]; [reflexivity|]. cbn [mapM]. now rewrite (Hout _ _ _ St Hr), IH.
Qed.

Lemma stages_alike (pr : model L -> list F -> res (list F)) (target : list F -> list F) (fit : dataset -> res (tree_node L)) nt d n (m m' : model L) :
  wf_dataset nc nt d -> Forall (row_in D) (feature_rows d) -> (forall s, length (target s) = length s) ->
  (forall k row, pr (first_trees k m) row = raw out (m_learning_rate m) (m_initial_guess m) row (firstn k (m_trees m))) ->
  (forall k row, pr (first_trees k m') row = raw out (m_learning_rate m') (m_initial_guess m') row (firstn k (m_trees m'))) ->
  m_initial_guess m' = m_initial_guess m -> m_learning_rate m' = m_learning_rate m ->
  length (m_trees m) = n -> length (m_trees m') = n ->
  (forall k, k < n -> exists ss t, mapM (pr (first_trees k m)) (feature_rows d) = Ok ss /\ Forall2 (fun y s => length y = length s) (labels d) ss /\
     nth_error (m_trees m) k = Some t /\ fit (mkDS (feature_rows d) (differences (labels d) (map target ss)) (feature_columns d)) = Ok t) ->
  (forall k, k < n -> exists ss t, mapM (pr (first_trees k m')) (feature_rows (transform phi d)) = Ok ss /\
     nth_error (m_trees m') k = Some t /\
     fit (mkDS (feature_rows (transform phi d)) (differences (labels (transform phi d)) (map target ss)) (feature_columns (transform phi d))) = Ok t) ->
  (forall x t, wf_dataset nc nt x -> Forall (row_in D) (feature_rows x) -> fit x = Ok t -> exists t', fit (transform phi x) = Ok t' /\ alike t t') ->
  Forall2 alike (m_trees m) (m_trees m').
Proof.
  intros W Hin Ht Hr Hr' Hg Hl L1 L2 HS HS' Hfit.
  assert (K : forall k, k <= n -> Forall2 alike (firstn k (m_trees m)) (firstn k (m_trees m'))).
  { induction k as [|k IH]; intros Hk; [constructor|]. specialize (IH ltac:(lia)).
    destruct (HS k ltac:(lia)) as (ss & t & E1 & E2 & E3 & E4). destruct (HS' k ltac:(lia)) as (ss' & t' & E1' & E3' & E4').
    assert (ss' = ss) as ->.
    { assert (Q : mapM (pr (first_trees k m')) (feature_rows (transform phi d)) = mapM (pr (first_trees k m)) (feature_rows d)).
      { cbn [transform feature_rows]. pose proof (wf_rows _ _ _ W) as R. unfold rectangular in R. clear -Hin R Hr Hr' Hg Hl IH Hout.
        induction (feature_rows d) as [|row rows IHr]; [reflexivity|]. inversion Hin as [|? ? H1 H2 Q1]. inversion R as [|? ? R1 R2 Q2]. cbn [map mapM].
        rewrite (IHr H2 R2), Hr', Hr, Hg, Hl, (raw_alike _ _ row _ _ IH); [reflexivity|]. split; [assumption|lia]. }
      congruence. }
    assert (Wr : wf_dataset nc nt (mkDS (feature_rows d) (differences (labels d) (map target ss)) (feature_columns d))).
    { destruct (differences_rect nt (labels d) (map target ss)) as [Q1 Q2].
      - rewrite map_length. exact (Forall2_length _ _ _ E2).
      - apply W.
      - pose proof (wf_labels _ _ _ W) as R. unfold rectangular in *. clear -R E2 Ht. induction E2; cbn; constructor; inversion R; subst; auto. now rewrite Ht.
      - apply (with_labels_wf nc nt d); auto. rewrite Q1. apply (wf_lengths _ _ _ W). }
    destruct (Hfit _ t Wr Hin E4) as (t'' & E5 & S).
    assert (t'' = t') as -> by (change (fit (transform phi (mkDS (feature_rows d) (differences (labels d) (map target ss)) (feature_columns d))) = Ok t') in E4'; congruence).
    rewrite (firstn_snoc _ _ _ E3), (firstn_snoc _ _ _ E3'). apply Forall2_app; auto. }
  specialize (K n (le_n _)). rewrite <- L1 in K at 1. rewrite <- L2 in K. now rewrite !firstn_all in K.
Qed.
End Generic.

Lemma gb_out_alike t t' row : alike t t' -> inside row -> gb_out (transform_row phi row) t' = gb_out row t.
Proof. intros [_ H] [H1 H2]. unfold gb_out. now rewrite H. Qed.
Lemma amg_out_alike k t t' row : alike t t' -> inside row -> amg_out k (transform_row phi row) t' = amg_out k row t.
Proof. intros [_ H] [H1 H2]. unfold amg_out. now rewrite H. Qed.

Lemma all_alike (f f' : list F -> res (list F)) test : Forall (row_in D) (feature_rows test) -> Forall (fun r => nc <= length r) (feature_rows test) ->
  (forall row, inside row -> f' (transform_row phi row) = f row) ->
  calculate_all_predictions f' (transform phi test) = calculate_all_predictions f test.
Proof.
  rewrite !all_predictions_eq. cbn [transform feature_rows]. intros H1 H2 H. induction (feature_rows test) as [|row rows IH]; [reflexivity|].
  inversion H1 as [|? ? A1 A2 Q1]. inversion H2 as [|? ? B1 B2 Q2]. cbn [map mapM]. rewrite (IH A2 B2), H; [reflexivity|]. split; assumption.
Qed.

Lemma same_of_alike {L} (m m' : model L) : Forall2 alike (m_trees m) (m_trees m') -> m_initial_guess m' = m_initial_guess m -> m_learning_rate m' = m_learning_rate m ->
  same_ensemble_but_thresholds phi m m'.
Proof. intros H Hg Hl. split; [|auto]. eapply Forall2_impl; [|exact H]. intros t t' [S _]. exact S. Qed.

Section Ensembles.
Context (nt : nat) (d : dataset) (cfg : tree_config) (n : nat) (lr : F).
Hypotheses (W : wf_dataset nc nt d) (Hin : Forall (row_in D) (feature_rows d)) (Hs : standard cfg) (Hk : tc_number_of_classes cfg = N.of_nat nt) (Hnt : (Z.of_nat nt <= 2 ^ 53)%Z).

Lemma guesses_alike {L} ty (exec : executor L) m m' : boosting_loop d cfg n lr ty exec = Ok m -> boosting_loop (transform phi d) cfg n lr ty exec = Ok m' ->
  m_initial_guess m' = m_initial_guess m /\ m_learning_rate m' = m_learning_rate m.
Proof.
  intros E E'. apply boosting_loop_Ok in E as (E1 & E2 & _). apply boosting_loop_Ok in E' as (E1' & E2' & _). split; [|congruence].
  assert (Q : determine_initial_guess (mkTD d (labels d) (length (labels d))) ty = Ok (m_initial_guess m')) by exact E1'. congruence.
Qed.

Let W' : wf_dataset nc nt (transform phi d) := transform_wf D phi Hphi nc nt d W Hin.

Theorem regression_boost_transform m : regression_boost_train d cfg n lr = Ok m ->
  exists m', regression_boost_train (transform phi d) cfg n lr = Ok m' /\ same_ensemble_but_thresholds phi m m' /\
  (forall row, row_in D row -> nc <= length row -> regression_boost_predict m' (transform_row phi row) = regression_boost_predict m row) /\
  (forall test, Forall (row_in D) (feature_rows test) -> Forall (fun r => nc <= length r) (feature_rows test) ->
     regression_boost_score m' (transform phi test) = regression_boost_score m test).
Proof.
  intros E. destruct (regression_train_total LW nc nt (transform phi d) cfg n lr W' Hs Hk Hnt) as (m' & E' & _). exists m'. split; [exact E'|].
  destruct (guesses_alike _ _ _ _ E E') as [Hg Hl].
  destruct (regression_shape nt d cfg n lr m (wf_labels _ _ _ W) E) as (L1 & _). destruct (regression_shape nt _ cfg n lr m' (wf_labels _ _ _ W') E') as (L2 & _).
  assert (S : Forall2 alike (m_trees m) (m_trees m')).
  { eapply (stages_alike gb_out gb_out_alike regression_boost_predict (fun s => s)) with (d := d) (nt := nt) (n := n) (fit := fun x => grad_boost_tree_new x cfg (leaf_output_calculator_new Regression)); eauto.
    - intros. apply predict_instance_raw.
    - intros. apply predict_instance_raw.
    - intros k Hk'. destruct (regression_stage d cfg n lr m k (wf_lengths _ _ _ W) E Hk') as (ps & t & Q). exists ps, t. unfold regression_boost_all_predictions in Q. rewrite all_predictions_eq in Q. rewrite map_id. exact Q.
    - intros k Hk'. destruct (regression_stage _ cfg n lr m' k (wf_lengths _ _ _ W') E' Hk') as (ps & t & Q). exists ps, t. unfold regression_boost_all_predictions in Q. rewrite all_predictions_eq in Q. rewrite map_id. tauto.
    - intros x t Wx Dx Ex. exact (gb_alike nt x cfg Wx Dx Hs Hk _ t Ex). }
  assert (Q : forall row, inside row -> regression_boost_predict m' (transform_row phi row) = regression_boost_predict m row).
  { intros row Hr. unfold regression_boost_predict. rewrite !predict_instance_raw, Hg, Hl. exact (raw_alike gb_out gb_out_alike _ _ _ _ _ S Hr). }
  split; [now apply same_of_alike|]. split; [intros row H1 H2; apply Q; now split|]. intros test H1 H2. unfold regression_boost_score, regression_boost_all_predictions.
  now rewrite (all_alike _ _ test H1 H2 Q).
Qed.

Theorem multi_class_boost_transform m : multi_class_boost_train d cfg n lr = Ok m ->
  exists m', multi_class_boost_train (transform phi d) cfg n lr = Ok m' /\ same_ensemble_but_thresholds phi m m' /\
  (forall row, row_in D row -> nc <= length row -> multi_class_boost_predict m' (transform_row phi row) = multi_class_boost_predict m row) /\
  (forall test, Forall (row_in D) (feature_rows test) -> Forall (fun r => nc <= length r) (feature_rows test) ->
     multi_class_boost_score m' (transform phi test) = multi_class_boost_score m test).
Proof.
  intros E. destruct (multi_class_train_total LW nc nt (transform phi d) cfg n lr W' Hs Hk Hnt) as (m' & E' & _). exists m'. split; [exact E'|].
  destruct (guesses_alike _ _ _ _ E E') as [Hg Hl].
  destruct (multi_class_shape LW nt d cfg n lr m (wf_labels _ _ _ W) Hnt E) as (L1 & _). destruct (multi_class_shape LW nt _ cfg n lr m' (wf_labels _ _ _ W') Hnt E') as (L2 & _).
  assert (S : Forall2 alike (m_trees m) (m_trees m')).
  { eapply (stages_alike gb_out gb_out_alike multi_class_boost_raw softmax) with (d := d) (nt := nt) (n := n) (fit := fun x => grad_boost_tree_new x cfg (leaf_output_calculator_new MultiClassClassification)); eauto.
    - apply softmax_length.
    - intros. apply predict_instance_raw.
    - intros. apply predict_instance_raw.
    - intros k Hk'. exact (multi_class_stage d cfg n lr m k (wf_lengths _ _ _ W) E Hk').
    - intros k Hk'. destruct (multi_class_stage _ cfg n lr m' k (wf_lengths _ _ _ W') E' Hk') as (ps & t & Q). exists ps, t. tauto.
    - intros x t Wx Dx Ex. exact (gb_alike nt x cfg Wx Dx Hs Hk _ t Ex). }
  assert (Q : forall row, inside row -> multi_class_boost_predict m' (transform_row phi row) = multi_class_boost_predict m row).
  { intros row Hr. unfold multi_class_boost_predict, multi_class_boost_raw. now rewrite !predict_instance_raw, Hg, Hl, (raw_alike gb_out gb_out_alike _ _ _ _ _ S Hr). }
  split; [now apply same_of_alike|]. split; [intros row H1 H2; apply Q; now split|]. intros test H1 H2. unfold multi_class_boost_score, multi_class_boost_all_predictions.
  now rewrite (all_alike _ _ test H1 H2 Q).
Qed.

Theorem amg_boost_transform m : 0 < nt -> amg_boost_train d cfg n lr = Ok m ->
  exists m', amg_boost_train (transform phi d) cfg n lr = Ok m' /\ same_ensemble_but_thresholds phi m m' /\
  (forall row, row_in D row -> nc <= length row -> amg_boost_predict m' (transform_row phi row) = amg_boost_predict m row) /\
  (forall test, Forall (row_in D) (feature_rows test) -> Forall (fun r => nc <= length r) (feature_rows test) ->
     amg_boost_score m' (transform phi test) = amg_boost_score m test).
Proof.
  intros Hp E. destruct (amg_train_total LW nc nt (transform phi d) cfg n lr W' Hp Hs Hk Hnt) as (m' & E' & _). exists m'. split; [exact E'|].
  destruct (guesses_alike _ _ _ _ E E') as [Hg Hl].
  destruct (amg_shape LW nt d cfg n lr m (wf_labels _ _ _ W) Hnt E) as (L1 & _). destruct (amg_shape LW nt _ cfg n lr m' (wf_labels _ _ _ W') Hnt E') as (L2 & _).
  set (c := length (m_initial_guess m)).
  assert (S : Forall2 alike (m_trees m) (m_trees m')).
  { eapply (stages_alike (amg_out c) (amg_out_alike c) amg_boost_raw softmax) with (d := d) (nt := nt) (n := n) (fit := fun x => amg_boost_tree_new x cfg (leaf_output_calculator_new MultiClassClassification)); eauto.
    - apply softmax_length.
    - intros. apply amg_predict_instance_raw.
    - intros. unfold c. rewrite <- Hg. apply amg_predict_instance_raw.
    - intros k Hk'. exact (amg_stage d cfg n lr m k (wf_lengths _ _ _ W) E Hk').
    - intros k Hk'. destruct (amg_stage _ cfg n lr m' k (wf_lengths _ _ _ W') E' Hk') as (ps & t & Q). exists ps, t. tauto.
    - intros x t Wx Dx Ex. exact (amg_alike nt x cfg Wx Dx Hs Hk _ t Ex). }
  assert (Q : forall row, inside row -> amg_boost_predict m' (transform_row phi row) = amg_boost_predict m row).
  { intros row Hr. unfold amg_boost_predict, amg_boost_raw. rewrite !amg_predict_instance_raw, Hg, Hl. fold c. now rewrite (raw_alike (amg_out c) (amg_out_alike c) _ _ _ _ _ S Hr). }
  split; [now apply same_of_alike|]. split; [intros row H1 H2; apply Q; now split|]. intros test H1 H2. unfold amg_boost_score, amg_boost_all_predictions.
  now rewrite (all_alike _ _ test H1 H2 Q).
Qed.
End Ensembles.
End TransformBoost.
