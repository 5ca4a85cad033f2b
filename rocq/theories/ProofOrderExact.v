(** Row order in exact arithmetic (C61). *)
From Coq Require Import Reals Lra Lia ZArith Permutation.
From Verif Require Import Base Num ModelCommon ModelTree ModelBoost Spec SpecTree SpecScore SpecFit SpecOrder Lib ProofData ProofSort
  ProofTree ProofTree3 ProofScore ProofScore2 ProofBoost ProofBoost2 XR SpecExact SpecError SpecClass ProofReal ProofSplitExact
  ProofSplitExact2 ProofTreeExact ProofScoreExact ProofLeaf ProofBoostExact ProofClassExact ProofClassRun ProofOrder.
Local Open Scope R_scope.

(** ** Sums do not depend on the order *)

Lemma xadd_comm a b : xadd a b = xadd b a.
Proof. destruct a, b; cbn; auto. f_equal. ring. Qed.

Lemma xadd_assoc a b c : xadd (xadd a b) c = xadd a (xadd b c).
Proof. destruct a, b, c; cbn; auto. f_equal. ring. Qed.

Lemma map2_xadd_swap (a x y : list xr) : map2 xadd (map2 xadd a x) y = map2 xadd (map2 xadd a y) x.
Proof.
  revert x y. induction a as [|u a IH]; intros [|v x] [|w y]; cbn; auto. f_equal; auto.
  rewrite !xadd_assoc. f_equal. apply xadd_comm.
Qed.

Lemma colsum_perm k (v v' : list (list xr)) : Permutation v v' -> @colsum xr_ops k v = @colsum xr_ops k v'.
Proof.
  intros H. unfold colsum. generalize (repeat (@f0 xr_ops) k). induction H as [|x l l' H IH|x y l|l l' l'' H1 IH1 H2 IH2]; intros acc; cbn; auto.
  - f_equal. apply map2_xadd_swap.
  - now rewrite IH1.
Qed.

Lemma colmean_perm k (v v' : list (list xr)) : Permutation v v' -> @colmean xr_ops k v = @colmean xr_ops k v'.
Proof. intros H. pose proof (Permutation_length H) as HL. unfold colmean. rewrite (colsum_perm k v v' H). xr. now rewrite HL. Qed.

Lemma labels_perm nc nt (d d' : @dataset xr_ops) : wf_dataset nc nt d -> wf_dataset nc nt d' ->
  Permutation (samples d) (samples d') -> Permutation (labels d) (labels d').
Proof. intros W W' H. rewrite <- (samples_snd nc nt d W), <- (samples_snd nc nt d' W'). now apply Permutation_map. Qed.

Lemma calculator_perm kind nc nt (x x' : @dataset xr_ops) o : wf_dataset nc nt x -> wf_dataset nc nt x' ->
  Permutation (samples x) (samples x') ->
  leaf_output_calculator_new kind x = Ok o -> leaf_output_calculator_new kind x' = Ok o.
Proof.
  intros W W' HP. pose proof (labels_perm nc nt x x' W W' HP) as HL. destruct kind.
  - cbn [leaf_output_calculator_new]. unfold calculate_leaf_output_squared_loss.
    assert (Hne : forall y : @dataset xr_ops, wf_dataset nc nt y -> labels y <> []).
    { intros y Wy H. pose proof (wf_nonempty _ _ _ Wy). pose proof (wf_lengths _ _ _ Wy) as L. rewrite H in L.
      destruct (feature_rows y); [congruence|discriminate]. }
    rewrite (calculate_average_f64_vector_eq nt (labels x)) by (auto; exact (wf_labels _ _ _ W)).
    rewrite (calculate_average_f64_vector_eq nt (labels x')) by (auto; exact (wf_labels _ _ _ W')).
    intros E. rewrite <- E. f_equal. symmetry. now apply colmean_perm.
  - rewrite (class_calc_eq nc nt x W), (class_calc_eq nc nt x' W'). intros E. rewrite <- E.
    pose proof (colsum_perm nt _ _ HL) as E1. pose proof (colsum_perm nt _ _ (Permutation_map (map (@dterm xr_ops)) HL)) as E2.
    f_equal. f_equal. apply (f_equal2 (map2 (@fdiv xr_ops))); symmetry; assumption.
Qed.

(** ** The data condition and its sub-samples *)

Definition agreeing (d : @dataset xr_ops) : Prop := real_labels (rl d) d /\ ties_agree d.

Lemma samples_fst nc nt (d : @dataset xr_ops) : wf_dataset nc nt d -> map fst (samples d) = feature_rows d.
Proof. intros W. apply map_fst_combine. now rewrite (wf_lengths _ _ _ W). Qed.

Lemma ties_agree_sub nc nt (d x : @dataset xr_ops) : wf_dataset nc nt d -> wf_dataset nc nt x ->
  incl (samples x) (samples d) -> ties_agree d -> ties_agree x.
Proof.
  intros W Wx Hi H j ri li ri' li' v m rm H1 H2 H3 H4 H5 H6 H7.
  apply (H j ri li ri' li' v m rm); auto.
  rewrite <- (samples_fst nc nt x Wx) in H5. apply in_map_iff in H5 as (p & <- & Hp).
  rewrite <- (samples_fst nc nt d W). apply in_map. auto.
Qed.

Lemma agreeing_sub nc nt (d x : @dataset xr_ops) : wf_dataset nc nt d -> wf_dataset nc nt x -> incl (samples x) (samples d) ->
  (length (samples x) <= length (samples d))%nat -> agreeing d -> agreeing x.
Proof.
  intros W Wx Hi _ [A B]. split; [exact (finite_sub nc nt d x W Wx Hi A)|exact (ties_agree_sub nc nt d x W Wx Hi B)].
Qed.

Lemma agreeing_split nc nt (d d' : @dataset xr_ops) : wf_dataset nc nt d -> wf_dataset nc nt d' -> agreeing d ->
  Permutation (samples d) (samples d') -> find_best_split d' (N.of_nat nt) = find_best_split d (N.of_nat nt).
Proof. intros W W' [A B] HP. exact (row_order_irrelevant nc nt d d' (rl d) W W' A B HP). Qed.

Lemma real_agreeing (d : @dataset xr_ops) ls : real_labels ls d -> ties_agree d -> agreeing d.
Proof. intros H T. split; auto. now rewrite (real_rl ls d H). Qed.

(** ** Trees *)

Theorem exact_regression_order nc nt d d' ls cfg t t' :
  wf_dataset nc nt d -> wf_dataset nc nt d' -> real_labels ls d -> ties_agree d -> Permutation (samples d) (samples d') ->
  standard cfg -> tc_number_of_classes cfg = N.of_nat nt ->
  regression_tree_new d cfg = Ok t -> regression_tree_new d' cfg = Ok t' -> same_questions same_samples t t'.
Proof.
  intros W W' Hl Ht HP Hs Hk. eapply (regression_order agreeing agreeing_sub agreeing_split nc nt d d' cfg); eauto.
  now apply (real_agreeing d ls).
Qed.

Theorem exact_regression_answers nc nt d d' ls cfg t t' :
  wf_dataset nc nt d -> wf_dataset nc nt d' -> real_labels ls d -> ties_agree d -> Permutation (samples d) (samples d') ->
  standard cfg -> tc_number_of_classes cfg = N.of_nat nt ->
  regression_tree_new d cfg = Ok t -> regression_tree_new d' cfg = Ok t' ->
  (forall row, predict_class row t' = predict_class row t) /\
  (forall test, calculate_accuracy test t' = calculate_accuracy test t) /\
  (forall test, calculate_overall_mean_squared_error test t' = calculate_overall_mean_squared_error test t).
Proof.
  intros W W' Hl Ht HP Hs Hk. eapply (regression_answers agreeing agreeing_sub agreeing_split nc nt d d' cfg); eauto.
  - now apply (real_agreeing d ls).
  - intros x x' Wx Wx' _ Px. symmetry. apply colmean_perm. exact (labels_perm nc nt x x' Wx Wx' Px).
Qed.

Theorem exact_grad_boost_order kind nc nt d d' ls cfg :
  wf_dataset nc nt d -> wf_dataset nc nt d' -> real_labels ls d -> ties_agree d -> Permutation (samples d) (samples d') ->
  standard cfg -> tc_number_of_classes cfg = N.of_nat nt ->
  grad_boost_tree_new d' cfg (leaf_output_calculator_new kind) = grad_boost_tree_new d cfg (leaf_output_calculator_new kind).
Proof.
  intros W W' Hl Ht HP Hs Hk. eapply (grad_boost_order xr_laws agreeing agreeing_sub agreeing_split nc nt d d' cfg); eauto.
  - now apply (real_agreeing d ls).
  - intros. eapply calculator_perm; [| | |eassumption]; eauto.
Qed.

Theorem exact_amg_order kind nc nt d d' ls cfg :
  wf_dataset nc nt d -> wf_dataset nc nt d' -> real_labels ls d -> ties_agree d -> Permutation (samples d) (samples d') ->
  standard cfg -> tc_number_of_classes cfg = N.of_nat nt ->
  amg_boost_tree_new d' cfg (leaf_output_calculator_new kind) = amg_boost_tree_new d cfg (leaf_output_calculator_new kind).
Proof.
  intros W W' Hl Ht HP Hs Hk. eapply (amg_order xr_laws agreeing agreeing_sub agreeing_split nc nt d d' cfg); eauto.
  - now apply (real_agreeing d ls).
  - intros. eapply calculator_perm; [| | |eassumption]; eauto.
Qed.

(** ** Residual data sets of a run *)

Definition value_of {A} (dflt : A) (r : res A) : A := match r with Ok a => a | _ => dflt end.

Lemma mapM_values {A B} (f : A -> res B) dflt l r : mapM f l = Ok r -> r = map (fun a => value_of dflt (f a)) l.
Proof.
  revert r. induction l as [|a l IH]; cbn; intros r E; [now injection E as <-|].
  destruct (f a) as [b| |] eqn:Ea; try discriminate. cbn in E. apply bind_Ok in E as (r0 & E0 & E). injection E as <-.
  cbn. f_equal. auto.
Qed.

Lemma residual_samples (f : list xr -> res (list xr)) (g : list xr -> list xr) (d : @dataset xr_ops) scores :
  mapM f (feature_rows d) = Ok scores ->
  samples (mkDS (feature_rows d) (differences (labels d) (map g scores)) (feature_columns d)) =
  map (fun p => (fst p, map (fun q => xsub (fst q) (snd q)) (combine (snd p) (g (value_of [] (f (fst p))))))) (samples d).
Proof.
  intros E. rewrite (mapM_values f [] _ _ E). clear E. unfold samples, differences. cbn [feature_rows labels].
  generalize (labels d) as ls. induction (feature_rows d) as [|r rows IH]; intros [|y ls]; cbn; try reflexivity. f_equal; try reflexivity. apply IH.
Qed.

Lemma residual_perm (f : list xr -> res (list xr)) (g : list xr -> list xr) (d d' : @dataset xr_ops) scores scores' :
  mapM f (feature_rows d) = Ok scores -> mapM f (feature_rows d') = Ok scores' ->
  Permutation (samples d) (samples d') ->
  Permutation (samples (mkDS (feature_rows d) (differences (labels d) (map g scores)) (feature_columns d)))
              (samples (mkDS (feature_rows d') (differences (labels d') (map g scores')) (feature_columns d'))).
Proof. intros E E' HP. rewrite (residual_samples f g d _ E), (residual_samples f g d' _ E'). now apply Permutation_map. Qed.

Lemma distinct_ties (d : @dataset xr_ops) L : distinct_above_minimum d -> ties_agree (mkDS (feature_rows d) L (feature_columns d)).
Proof.
  intros H j ri li ri' li' v m rm H1 H2 H3 H4 H5 H6 H7. unfold samples in H1, H2. cbn [feature_rows labels] in *.
  apply In_nth_error in H1 as (i & Ei). apply In_nth_error in H2 as (i' & Ei').
  assert (A : forall i r l, nth_error (combine (feature_rows d) L) i = Some (r, l) ->
    nth_error (feature_rows d) i = Some r /\ nth_error L i = Some l).
  { clear. generalize (feature_rows d) as a. intros a. revert L. induction a as [|x a IH]; intros [|y L] [|i] r l E; cbn in *; try discriminate.
    - injection E as -> ->. auto.
    - apply IH; auto. }
  destruct (Nat.eq_dec i i') as [->|Hne]; [congruence|].
  apply A in Ei as [Ei _]. apply A in Ei' as [Ei' _].
  exfalso. exact (H j i i' ri ri' v v m rm Ei Ei' H3 H4 Hne H5 H6 H7 eq_refl).
Qed.

Lemma real_perm nc nt (d d' : @dataset xr_ops) ls : wf_dataset nc nt d -> wf_dataset nc nt d' -> real_labels ls d ->
  Permutation (samples d) (samples d') -> exists ls', real_labels ls' d' /\ Permutation ls ls'.
Proof.
  intros W W' Hl HP. pose proof (labels_perm nc nt d d' W W' HP) as H. rewrite Hl in H.
  apply Permutation_sym, Permutation_map_inv in H as (ls' & E & HP'). exists ls'. auto.
Qed.

Lemma one_hot_perm nc nt (d d' : @dataset xr_ops) : wf_dataset nc nt d -> wf_dataset nc nt d' ->
  Permutation (samples d) (samples d') -> one_hot_labels nt d -> one_hot_labels nt d'.
Proof.
  intros W W' HP H. pose proof (labels_perm nc nt d d' W W' HP) as HL. unfold one_hot_labels in *.
  rewrite Forall_forall in *. intros y Hy. apply H. eapply Permutation_in; [symmetry; exact HL|exact Hy].
Qed.

Lemma first_eq {L} (m m' : @model xr_ops L) k : m_initial_guess m = m_initial_guess m' -> m_learning_rate m = m_learning_rate m' ->
  firstn k (m_trees m) = firstn k (m_trees m') -> first_trees k m = first_trees k m'.
Proof. unfold first_trees. congruence. Qed.

Lemma model_eq {L} (m m' : @model xr_ops L) n : m_initial_guess m = m_initial_guess m' -> m_learning_rate m = m_learning_rate m' ->
  length (m_trees m) = n -> length (m_trees m') = n -> firstn n (m_trees m) = firstn n (m_trees m') -> m = m'.
Proof.
  intros A B C D E. rewrite <- C in E at 1. rewrite <- D in E. rewrite !firstn_all in E. destruct m, m'. cbn in *. congruence.
Qed.

Theorem exact_regression_boost_order nc nt d d' ls cfg n lr :
  wf_dataset nc nt d -> wf_dataset nc nt d' -> real_labels ls d -> distinct_above_minimum d ->
  Permutation (samples d) (samples d') -> standard cfg -> tc_number_of_classes cfg = N.of_nat nt -> (Z.of_nat nt <= 2 ^ 53)%Z ->
  regression_boost_train d' cfg n (Fin lr) = regression_boost_train d cfg n (Fin lr).
Proof.
  intros W W' Hl Hd HP Hs Hk Hz.
  destruct (regression_train_total xr_laws nc nt d cfg n (Fin lr) W Hs Hk Hz) as (m & E & _).
  destruct (regression_train_total xr_laws nc nt d' cfg n (Fin lr) W' Hs Hk Hz) as (m' & E' & _).
  etransitivity; [exact E'|symmetry; etransitivity; [exact E|]]. f_equal.
  destruct (real_perm nc nt d d' ls W W' Hl HP) as (ls' & Hl' & HPl).
  destruct (guess_real _ _ _ _ _ _ _ _ W Hl E) as (Hg & Hr & HT). destruct (guess_real _ _ _ _ _ _ _ _ W' Hl' E') as (Hg' & Hr' & HT').
  assert (Eg : m_initial_guess m = m_initial_guess m').
  { apply boosting_loop_Ok in E as (G & _). apply boosting_loop_Ok in E' as (G' & _).
    apply (guess_regression nt) in G; [|now intros H; apply (proj2 (real_rect _ _ _ _ W Hl)); unfold real_labels in Hl; rewrite H in Hl; symmetry in Hl; apply map_eq_nil in Hl|exact (wf_labels _ _ _ W)].
    apply (guess_regression nt) in G'; [|now intros H; apply (proj2 (real_rect _ _ _ _ W' Hl')); unfold real_labels in Hl'; rewrite H in Hl'; symmetry in Hl'; apply map_eq_nil in Hl'|exact (wf_labels _ _ _ W')].
    rewrite G, G'. apply colmean_perm. exact (labels_perm nc nt d d' W W' HP). }
  apply (model_eq m m' n); auto; [congruence|].
  assert (St : forall k, (k <= n)%nat -> firstn k (m_trees m) = firstn k (m_trees m')).
  { induction k as [|k IH]; intros Hkn; [reflexivity|]. specialize (IH ltac:(lia)).
    assert (Step : forall dd ll mm, wf_dataset nc nt dd -> real_labels ll dd -> regression_boost_train dd cfg n (Fin lr) = Ok mm ->
      exists ps t, mapM (regression_boost_predict (first_trees k mm)) (feature_rows dd) = Ok (map (map Fin) ps) /\
        nth_error (m_trees mm) k = Some t /\ rectangular nt ps /\ length ps = length ll /\
        grad_boost_tree_new (mkDS (feature_rows dd) (differences (labels dd) (map (map Fin) ps)) (feature_columns dd)) cfg
          (leaf_output_calculator_new Regression) = Ok t).
    { clear -Hkn. intros d ls m W Hl E. destruct (guess_real _ _ _ _ _ _ _ _ W Hl E) as (Hg & Hlr & HT).
      destruct (regression_stage d cfg n (Fin lr) m k (wf_lengths _ _ _ W) E ltac:(lia)) as (preds & t & Ep & _ & Ht & Eb).
      destruct (predictions_real nt (first_trees k m) (means nt ls) lr (feature_rows d)) as (ps & HP); auto.
      { apply means_length. }
      { intros row' Hin. eapply trained_finite; eauto; [lia|]. eapply row_long; eauto. }
      unfold regression_boost_all_predictions in Ep. rewrite all_predictions_eq in Ep.
      pose proof (Forall2_real nt _ _ ps preds HP Ep) as ->.
      exists ps, t. split; [exact Ep|]. split; [exact Ht|]. split; [exact (Forall2_rect _ _ _ _ HP)|]. split; [|exact Eb].
      rewrite <- (Forall2_length _ _ _ HP). eapply xr_len; eauto. }
    destruct (Step d ls m W Hl E) as (ps & t & Ep & Ht & Rp & Lp & Et).
    destruct (Step d' ls' m' W' Hl' E') as (ps' & t' & Ep' & Ht' & Rp' & Lp' & Et').
    assert (Ef : first_trees k m' = first_trees k m) by (apply first_eq; congruence).
    rewrite Ef in Ep'.
    assert (HPr : Permutation (samples (mkDS (feature_rows d) (differences (labels d) (map (map Fin) ps)) (feature_columns d)))
                    (samples (mkDS (feature_rows d') (differences (labels d') (map (map Fin) ps')) (feature_columns d')))).
    { pose proof (residual_perm _ (fun s => s) d d' _ _ Ep Ep' HP) as H. rewrite !map_id in H. exact H. }
    destruct (residual_data nc nt d ls ps W Hl Lp Rp) as [Wr Hlr0].
    destruct (residual_data nc nt d' ls' ps' W' Hl' Lp' Rp') as [Wr' _].
    pose proof (exact_grad_boost_order Regression nc nt _ _ _ cfg Wr Wr' Hlr0 (distinct_ties d _ Hd) HPr Hs Hk) as HE.
    assert (t' = t) as ->. { assert (Ok t' = Ok t) as H; [|now injection H]. etransitivity; [symmetry; exact Et'|]. etransitivity; [exact HE|exact Et]. }
    rewrite (firstn_snoc _ _ _ Ht), (firstn_snoc _ _ _ Ht'). now rewrite IH. }
  now apply St.
Qed.

Lemma fitted_order {L} (mk : dataset -> res L) nc nt d d' cfg ss ss' t t' :
  (forall x x' l l', wf_dataset nc nt x -> wf_dataset nc nt x' -> Permutation (samples x) (samples x') ->
     mk x = Ok l -> mk x' = Ok l' -> l = l') ->
  (2 <= nt)%nat -> wf_dataset nc nt d -> wf_dataset nc nt d' -> one_hot_labels nt d -> one_hot_labels nt d' ->
  distinct_above_minimum d -> standard cfg -> tc_number_of_classes cfg = N.of_nat nt ->
  rectangular nt ss -> length ss = length (feature_rows d) -> rectangular nt ss' -> length ss' = length (feature_rows d') ->
  Permutation (samples (fitted d (map (map Fin) ss))) (samples (fitted d' (map (map Fin) ss'))) ->
  built mk cfg 0 (fitted d (map (map Fin) ss)) t -> built mk cfg 0 (fitted d' (map (map Fin) ss')) t' -> t = t'.
Proof.
  intros Hmk H2 W W' HO HO' Hd Hs Hk Rs Ls Rs' Ls' HP B B'.
  destruct (fitted_ok nc nt d ss H2 W HO Rs Ls) as (r & _ & Wr & Lr & _).
  destruct (fitted_ok nc nt d' ss' H2 W' HO' Rs' Ls') as (r' & _ & Wr' & _).
  apply same_questions_eq. eapply (built_order agreeing agreeing_sub agreeing_split mk eq cfg nc nt); eauto.
  split; auto. apply (distinct_ties d _ Hd).
Qed.

Section Class.
Context (nc nt : nat) (d d' : @dataset xr_ops) (cfg : tree_config) (n : nat) (lr : R).
Hypotheses (W : wf_dataset nc nt d) (W' : wf_dataset nc nt d') (H2 : (2 <= nt)%nat) (HO : one_hot_labels nt d)
  (Hd : distinct_above_minimum d) (HP : Permutation (samples d) (samples d')) (Hs : standard cfg)
  (Hk : tc_number_of_classes cfg = N.of_nat nt) (Hz : (Z.of_nat nt <= 2 ^ 53)%Z).

Theorem exact_multi_class_order : multi_class_boost_train d' cfg n (Fin lr) = multi_class_boost_train d cfg n (Fin lr).
Proof.
  destruct (multi_class_train_total xr_laws nc nt d cfg n (Fin lr) W Hs Hk Hz) as (m & E & _).
  destruct (multi_class_train_total xr_laws nc nt d' cfg n (Fin lr) W' Hs Hk Hz) as (m' & E' & _).
  etransitivity; [exact E'|symmetry; etransitivity; [exact E|]]. f_equal.
  pose proof (one_hot_perm nc nt d d' W W' HP HO) as HO'.
  destruct (multi_guess nc nt d cfg n (Fin lr) m) as (Hg & Hr & HT); auto; [lia|].
  destruct (multi_guess nc nt d' cfg n (Fin lr) m') as (Hg' & Hr' & HT'); auto; [lia|].
  apply (model_eq m m' n); auto; try congruence.
  assert (St : forall k, (k <= n)%nat -> firstn k (m_trees m) = firstn k (m_trees m')); [|now apply St].
  induction k as [|k IH]; intros Hkn; [reflexivity|]. specialize (IH ltac:(lia)).
  destruct (multi_stage_exact nc nt d cfg n lr m k) as (ss & t & Es & Ht & Rs & Ls & B); auto.
  destruct (multi_stage_exact nc nt d' cfg n lr m' k) as (ss' & t' & Es' & Ht' & Rs' & Ls' & B'); auto.
  assert (Ef : first_trees k m' = first_trees k m) by (apply first_eq; congruence).
  rewrite Ef in Es'. pose proof (residual_perm _ (@softmax xr_ops) d d' _ _ Es Es' HP) as HPr.
  assert (t = t') as <-.
  { eapply (fitted_order (mk_gb (leaf_output_calculator_new MultiClassClassification)) nc nt d d' cfg ss ss'); eauto.
    intros x x' l l' Wx Wx' Px El El'. unfold mk_gb in *.
    apply bind_Ok in El as (o & Eo & El). apply bind_Ok in El' as (o' & Eo' & El').
    pose proof (calculator_perm _ nc nt x x' o Wx Wx' Px Eo). congruence. }
  rewrite (firstn_snoc _ _ _ Ht), (firstn_snoc _ _ _ Ht'). now rewrite IH.
Qed.

Theorem exact_amg_boost_order : amg_boost_train d' cfg n (Fin lr) = amg_boost_train d cfg n (Fin lr).
Proof.
  destruct (amg_train_total xr_laws nc nt d cfg n (Fin lr) W ltac:(lia) Hs Hk Hz) as (m & E & _).
  destruct (amg_train_total xr_laws nc nt d' cfg n (Fin lr) W' ltac:(lia) Hs Hk Hz) as (m' & E' & _).
  etransitivity; [exact E'|symmetry; etransitivity; [exact E|]]. f_equal.
  pose proof (one_hot_perm nc nt d d' W W' HP HO) as HO'.
  destruct (amg_guess nc nt d cfg n (Fin lr) m) as (Hg & Hr & HT); auto; [lia|].
  destruct (amg_guess nc nt d' cfg n (Fin lr) m') as (Hg' & Hr' & HT'); auto; [lia|].
  apply (model_eq m m' n); auto; try congruence.
  assert (St : forall k, (k <= n)%nat -> firstn k (m_trees m) = firstn k (m_trees m')); [|now apply St].
  induction k as [|k IH]; intros Hkn; [reflexivity|]. specialize (IH ltac:(lia)).
  destruct (amg_stage_exact nc nt d cfg n lr m k) as (ss & t & Es & Ht & Rs & Ls & B); auto.
  destruct (amg_stage_exact nc nt d' cfg n lr m' k) as (ss' & t' & Es' & Ht' & Rs' & Ls' & B'); auto.
  assert (Ef : first_trees k m' = first_trees k m) by (apply first_eq; congruence).
  rewrite Ef in Es'. pose proof (residual_perm _ (@softmax xr_ops) d d' _ _ Es Es' HP) as HPr.
  assert (t = t') as <-.
  { eapply (fitted_order (mk_amg (leaf_output_calculator_new MultiClassClassification)) nc nt d d' cfg ss ss'); eauto.
    intros x x' l l' Wx Wx' Px El El'. unfold mk_amg in *.
    apply bind_Ok in El as (o & Eo & El). apply bind_Ok in El' as (o' & Eo' & El').
    pose proof (calculator_perm _ nc nt x x' o Wx Wx' Px Eo). congruence. }
  rewrite (firstn_snoc _ _ _ Ht), (firstn_snoc _ _ _ Ht'). now rewrite IH.
Qed.
End Class.
