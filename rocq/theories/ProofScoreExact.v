(** Scores in exact arithmetic (C32, C47). *)
From Coq Require Import Reals Lra Lia Permutation.
From Verif Require Import Base Num ModelCommon ModelTree ModelBoost Spec SpecTree SpecScore SpecFit Lib ProofData
  ProofTree ProofScore ProofScore2 ProofBoost ProofBoost2 XR SpecExact SpecError ProofReal ProofSplitExact ProofSplitExact2 ProofTreeExact.
Local Open Scope R_scope.

Lemma row_error_err k a b : row_error k a b = row_err k a b.
Proof. unfold row_error, row_err, mean. now rewrite map_length, seq_length. Qed.

Lemma row_err_sym k a b : row_err k a b = row_err k b a.
Proof. unfold row_err. f_equal. apply Rsum_map_ext. intros j _. ring. Qed.

Lemma slices_Fin k a b : (0 < k)%nat -> length a = k -> length b = k ->
  @mean_sum_of_squared_differences_between_f64_slices xr_ops (map Fin a) (map Fin b) = Ok (Fin (row_err k a b)).
Proof.
  intros Hk La Lb. rewrite squared_slices by (rewrite !map_length; lia). f_equal.
  rewrite sq_diffs_Fin by lia. rewrite map_length, La.
  etransitivity; [apply (f_equal2 xdiv); [|reflexivity]|].
  { exact (fold_xadd_Fin _ 0). }
  etransitivity; [apply xdiv_Fin; apply not_0_INR; lia|]. f_equal. unfold row_err. f_equal. lra.
Qed.

Lemma row_err_nonneg k a b : (0 < k)%nat -> 0 <= row_err k a b.
Proof.
  intros Hk. unfold row_err. apply Rmult_le_pos.
  - apply Rsum_nonneg. intros x Hx. apply in_map_iff in Hx as (j & <- & _). apply Rle_0_sqr.
  - left. apply Rinv_0_lt_compat. apply lt_0_INR. lia.
Qed.

Lemma div_zero a b : 0 < b -> a / b = 0 -> a = 0.
Proof. intros Hb H. unfold Rdiv in H. apply Rmult_integral in H as [H|H]; auto. apply Rinv_neq_0_compat in H; [contradiction|lra]. Qed.

Lemma row_err_zero k a b : (0 < k)%nat -> length a = k -> length b = k -> (row_err k a b = 0 <-> a = b).
Proof.
  intros Hk La Lb. split.
  - intros H. apply div_zero in H; [|apply lt_0_INR; lia].
    assert (Hnn : forall x, In x (map (fun j => (nth j a 0 - nth j b 0) * (nth j a 0 - nth j b 0)) (seq 0 k)) -> 0 <= x).
    { intros x Hx. apply in_map_iff in Hx as (j & <- & _). apply Rle_0_sqr. }
    assert (H0 := Rsum_zero_all _ Hnn H).
    apply (nth_ext _ _ 0 0); [lia|]. intros j Hj.
    assert (E : (nth j a 0 - nth j b 0) * (nth j a 0 - nth j b 0) = 0).
    { apply H0. apply in_map_iff. exists j. split; auto. apply in_seq. lia. }
    apply sq_zero in E. lra.
  - intros ->. unfold row_err. rewrite (Rsum_map_ext _ (fun _ => 0)) by (intros; ring). rewrite Rsum_map_const. unfold Rdiv. ring.
Qed.

Lemma mse_nonneg k ps ls : (0 < k)%nat -> 0 <= mean_squared_error k ps ls.
Proof.
  intros Hk. unfold mean_squared_error, mean. destruct (combine ps ls) as [|p l] eqn:E; [cbn; lra|]. rewrite <- E.
  apply Rmult_le_pos.
  - apply Rsum_nonneg. intros x Hx. apply in_map_iff in Hx as (q & <- & _). rewrite row_error_err. now apply row_err_nonneg.
  - left. apply Rinv_0_lt_compat. rewrite map_length. apply INR_pos. rewrite E. discriminate.
Qed.

Lemma mse_zero k (ps ls : list (list R)) : (0 < k)%nat -> length ps = length ls -> rectangular k ps -> rectangular k ls ->
  (mean_squared_error k ps ls = 0 <-> ps = ls).
Proof.
  intros Hk HL Rp Rl. destruct ls as [|l0 ls0] eqn:El.
  { destruct ps; [|discriminate]. cbn. split; [reflexivity|]. intros _. unfold mean_squared_error, mean, Rdiv. cbn. ring. }
  rewrite <- El in *. assert (Hne : ls <> []) by (rewrite El; discriminate). clear El. split.
  - intros H. unfold mean_squared_error, mean in H. apply div_zero in H.
    2:{ rewrite map_length. apply INR_pos. destruct ps, ls; cbn in *; try discriminate; congruence. }
    assert (Hnn : forall x, In x (map (fun p => row_error k (fst p) (snd p)) (combine ps ls)) -> 0 <= x).
    { intros x Hx. apply in_map_iff in Hx as (q & <- & _). rewrite row_error_err. now apply row_err_nonneg. }
    assert (H0 := Rsum_zero_all _ Hnn H). clear Hnn.
    clear H Hne. revert ls HL Rl H0. induction ps as [|p ps IH]; intros [|l ls] HL Rl H0; try discriminate; auto.
    inversion Rp; inversion Rl; subst. f_equal.
    + apply (row_err_zero (length p)); auto. rewrite <- row_error_err. apply H0. now left.
    + apply IH; auto. intros x Hx. apply H0. now right.
  - intros ->. unfold mean_squared_error, mean.
    rewrite (Rsum_map_ext _ (fun _ => 0)).
    + rewrite Rsum_map_const. unfold Rdiv. ring.
    + intros [a b] Hin. rewrite row_error_err. apply row_err_zero; auto.
      * apply in_combine_l in Hin. exact (proj1 (Forall_forall _ _) Rl _ Hin).
      * apply in_combine_r in Hin. exact (proj1 (Forall_forall _ _) Rl _ Hin).
      * clear -Hin. cbn. induction ls as [|x ls IH]; [destruct Hin|]. destruct Hin as [E|Hin]; [congruence|auto].
Qed.

(** Sum of exact errors over pairs, then the division. *)
Lemma scores_Fin k (ps ls : list (list R)) : ls <> [] -> length ps = length ls ->
  xdiv (fold_left xadd (map (fun p => Fin (row_err k (fst p) (snd p))) (combine ps ls)) (Fin 0)) (Fin (INR (length ls))) =
  Fin (mean_squared_error k ps ls).
Proof.
  intros Hne HL. rewrite <- (map_map (fun p => row_err k (fst p) (snd p)) Fin). rewrite fold_xadd_Fin.
  rewrite xdiv_Fin by (apply nonempty_INR; exact Hne). f_equal. unfold mean_squared_error, mean.
  rewrite map_length, combine_length, HL, Nat.min_id. f_equal. rewrite Rplus_0_l. apply Rsum_map_ext. intros. symmetry. apply row_error_err.
Qed.

Lemma tree_score_exact nt (t : tree_node regression_leaf) (test : @dataset xr_ops) (ls ps : list (list R)) :
  (0 < nt)%nat -> real_labels ls test -> ls <> [] -> rectangular nt ls ->
  Forall2 (fun row p => tree_prediction row t = Ok (map Fin p) /\ length p = nt) (feature_rows test) ps ->
  length (feature_rows test) = length ls ->
  calculate_overall_mean_squared_error test t = Ok (Fin (mean_squared_error nt ps ls)).
Proof.
  intros Hk Hl Hne Hr HP HL. rewrite tree_mse_eq by (rewrite Hl, map_length; lia).
  assert (E : mapM (tree_row_error t) (samples test) = Ok (map (fun p => Fin (row_err nt (fst p) (snd p))) (combine ps ls))).
  { unfold samples. rewrite Hl. clear Hl Hne. revert ls Hr HL. induction HP as [|row p rows ps [Ep Lp] HP IH]; intros [|l ls] Hr HL; try discriminate; [reflexivity|].
    cbn [map combine mapM]. injection HL as HL. inversion Hr; subst. rewrite (tree_row_error_prediction t row (map Fin l)).
    etransitivity; [apply (f_equal2 bind); [apply (f_equal2 bind); [exact Ep|reflexivity]|reflexivity]|]. cbn [bind].
    etransitivity; [apply (f_equal2 bind); [apply (squared_Fin (length p)); auto; lia|reflexivity]|]. cbn [bind].
    rewrite IH by auto. reflexivity. }
  rewrite E. cbn [bind]. f_equal. rewrite HL. apply scores_Fin; auto.
  apply Forall2_length in HP. congruence.
Qed.

Theorem tree_score_spec nt (t : tree_node regression_leaf) (test : @dataset xr_ops) (ls ps : list (list R)) :
  (0 < nt)%nat -> real_labels ls test -> ls <> [] -> rectangular nt ls -> length (feature_rows test) = length ls ->
  Forall2 (fun row p => tree_prediction row t = Ok (map Fin p) /\ length p = nt) (feature_rows test) ps ->
  exists e, calculate_overall_mean_squared_error test t = Ok (Fin e) /\
    e = mean_squared_error nt ps ls /\ 0 <= e /\ (e = 0 <-> ps = ls).
Proof.
  intros Hk Hl Hne Hr HL HP. exists (mean_squared_error nt ps ls). split; [now apply tree_score_exact|]. split; auto.
  split; [now apply mse_nonneg|]. apply mse_zero; auto.
  - apply Forall2_length in HP. congruence.
  - clear -HP. induction HP as [|? ? ? ? [_ H]]; constructor; auto.
Qed.

Lemma score_loop_any {O : NumOps} (ls ps : list (list F)) : length ps = length ls ->
  calculate_mean_squared_error ls ps =
  (es <- mapM (fun p => mean_sum_of_squared_differences_between_f64_slices (fst p) (snd p)) (combine ls ps);;
   Ok (fdiv (fold_left fadd es f0) (f_of_nat (length ls)))).
Proof.
  intros HL. unfold calculate_mean_squared_error.
  rewrite (for_range_two ls ps (fun te l p => e <- mean_sum_of_squared_differences_between_f64_slices l p;; Ok (fadd te e)) f0) by lia.
  rewrite (foldM_sum (fun p => mean_sum_of_squared_differences_between_f64_slices (fst p) (snd p))). rewrite bind_assoc. reflexivity.
Qed.

Lemma score_loop (ls ps : list (list xr)) : length ps = length ls ->
  @calculate_mean_squared_error xr_ops ls ps =
  (es <- mapM (fun p => @mean_sum_of_squared_differences_between_f64_slices xr_ops (fst p) (snd p)) (combine ls ps);;
   Ok (xdiv (fold_left xadd es (Fin 0)) (Fin (INR (length ls))))).
Proof. exact (score_loop_any ls ps). Qed.

Lemma boost_score_exact nt (m : @regression_boost_model xr_ops) (test : @dataset xr_ops) (ls ps : list (list R)) :
  (0 < nt)%nat -> real_labels ls test -> ls <> [] -> rectangular nt ls ->
  Forall2 (fun row p => regression_boost_predict m row = Ok (map Fin p) /\ length p = nt) (feature_rows test) ps ->
  length (feature_rows test) = length ls ->
  regression_boost_score m test = Ok (Fin (mean_squared_error nt ps ls)).
Proof.
  intros Hk Hl Hne Hr HP HL. unfold regression_boost_score, regression_boost_all_predictions.
  assert (E : calculate_all_predictions (regression_boost_predict m) test = Ok (map (map Fin) ps)).
  { apply (proj2 (@pointwise xr_ops (regression_boost_predict m) test (map (map Fin) ps))). clear -HP. induction HP as [|? ? ? ? [H _]]; constructor; auto. }
  rewrite E. cbn [bind]. rewrite Hl. pose proof (Forall2_length _ _ _ HP) as HL2.
  etransitivity; [apply score_loop; rewrite !map_length; congruence|].
  assert (G : mapM (fun p => @mean_sum_of_squared_differences_between_f64_slices xr_ops (fst p) (snd p)) (combine (map (map Fin) ls) (map (map Fin) ps)) =
          Ok (map (fun p => Fin (row_err nt (fst p) (snd p))) (combine ps ls))).
  { assert (Rp : rectangular nt ps) by (clear -HP; induction HP as [|? ? ? ? [_ H]]; constructor; auto).
    assert (HL3 : length ps = length ls) by congruence. clear -Hk Hr Rp HL3.
    revert ps Rp HL3. induction Hr as [|l ls Hl Hr IH]; intros [|p ps] Rp HL; try discriminate; [reflexivity|].
    cbn [map combine mapM fst snd]. injection HL as HL. inversion Rp; subst.
    etransitivity; [apply (f_equal2 bind); [apply (slices_Fin (length l)); auto|reflexivity]|]. cbn [bind].
    etransitivity; [apply (f_equal2 bind); [apply IH; auto|reflexivity]|]. cbn [bind]. rewrite row_err_sym. reflexivity. }
  etransitivity; [apply (f_equal2 bind); [exact G|reflexivity]|]. cbn [bind]. f_equal. rewrite map_length. apply scores_Fin; auto. congruence.
Qed.

Theorem boost_score_spec nt (m : @regression_boost_model xr_ops) (test : @dataset xr_ops) (ls ps : list (list R)) :
  (0 < nt)%nat -> real_labels ls test -> ls <> [] -> rectangular nt ls -> length (feature_rows test) = length ls ->
  Forall2 (fun row p => regression_boost_predict m row = Ok (map Fin p) /\ length p = nt) (feature_rows test) ps ->
  exists e, regression_boost_score m test = Ok (Fin e) /\
    e = mean_squared_error nt ps ls /\ 0 <= e /\ (e = 0 <-> ps = ls).
Proof.
  intros Hk Hl Hne Hr HL HP. exists (mean_squared_error nt ps ls). split; [now apply boost_score_exact|]. split; auto.
  split; [now apply mse_nonneg|]. apply mse_zero; auto.
  - apply Forall2_length in HP. congruence.
  - clear -HP. induction HP as [|? ? ? ? [_ H]]; constructor; auto.
Qed.

(* ------------------------------------------------------------------ *)
(** ** Test order *)

Lemma xadd_comm a b : xadd a b = xadd b a.
Proof. destruct a, b; cbn; try reflexivity. f_equal. ring. Qed.
Lemma xadd_assoc a b c : xadd (xadd a b) c = xadd a (xadd b c).
Proof. destruct a, b, c; cbn; try reflexivity. f_equal. ring. Qed.

Lemma fold_xadd_perm a b : Permutation a b -> forall s, fold_left xadd a s = fold_left xadd b s.
Proof.
  induction 1 as [| |x y l|]; intros s; cbn [fold_left]; auto.
  - f_equal. rewrite !xadd_assoc. f_equal. apply xadd_comm.
  - congruence.
Qed.

Lemma mapM_perm {A B} (f : A -> res B) (a b : list A) es :
  Permutation a b -> mapM f a = Ok es -> exists es', mapM f b = Ok es' /\ Permutation es es'.
Proof.
  intros H. revert es. induction H as [|x l l' H IH|x y l|l l' l'' H1 IH1 H2 IH2]; intros es E.
  - exists es. auto.
  - cbn [mapM] in *. apply bind_Ok in E as (e & E1 & E). apply bind_Ok in E as (es0 & E2 & E). injection E as <-.
    destruct (IH _ E2) as (es' & E' & P). exists (e :: es'). rewrite E1. cbn [bind]. rewrite E'. auto.
  - cbn [mapM] in *. apply bind_Ok in E as (e1 & E1 & E). apply bind_Ok in E as (es0 & E2 & E). injection E as <-.
    apply bind_Ok in E2 as (e2 & E2 & E). apply bind_Ok in E as (es1 & E3 & E). injection E as <-.
    exists (e2 :: e1 :: es1). rewrite E2. cbn [bind]. rewrite E1. cbn [bind]. rewrite E3. cbn [bind]. split; [reflexivity|constructor].
  - destruct (IH1 _ E) as (es1 & F1 & P1). destruct (IH2 _ F1) as (es2 & F2 & P2). exists es2. split; auto. eapply perm_trans; eauto.
Qed.

Theorem tree_score_perm (t : tree_node regression_leaf) (test test' : @dataset xr_ops) (e : xr) :
  length (feature_rows test) = length (labels test) -> length (feature_rows test') = length (labels test') ->
  Permutation (samples test) (samples test') ->
  calculate_overall_mean_squared_error test t = Ok e -> calculate_overall_mean_squared_error test' t = Ok e.
Proof.
  intros H1 H2 HP. rewrite !tree_mse_eq by lia. intros E. apply bind_Ok in E as (es & E & E2). injection E2 as <-.
  destruct (mapM_perm _ _ _ _ HP E) as (es' & E' & P). rewrite E'. cbn [bind]. f_equal.
  apply Permutation_length in HP. unfold samples in HP. rewrite !combine_length in HP. xr.
  apply (f_equal2 xdiv); [symmetry; now apply fold_xadd_perm|]. apply (f_equal (fun n => Fin (INR n))). lia.
Qed.

Lemma boost_score_samples (m : @regression_boost_model xr_ops) (test : @dataset xr_ops) (e : xr) :
  length (feature_rows test) = length (labels test) ->
  (regression_boost_score m test = Ok e <->
   exists es, mapM (fun p => v <- regression_boost_predict m (fst p);; mean_sum_of_squared_differences_between_f64_slices (snd p) v) (samples test) = Ok es /\
     e = xdiv (fold_left xadd es (Fin 0)) (Fin (INR (length (labels test))))).
Proof.
  intros HL. unfold regression_boost_score, regression_boost_all_predictions. rewrite all_predictions_eq.
  assert (G : forall (rows labs : list (list xr)), length rows = length labs ->
    forall es, (exists ps, mapM (regression_boost_predict m) rows = Ok ps /\
       mapM (fun p => @mean_sum_of_squared_differences_between_f64_slices xr_ops (fst p) (snd p)) (combine labs ps) = Ok es) <->
    mapM (fun p => v <- regression_boost_predict m (fst p);; mean_sum_of_squared_differences_between_f64_slices (snd p) v) (combine rows labs) = Ok es).
  { clear. induction rows as [|r rows IH]; intros [|l labs] HL es; try discriminate.
    - cbn. split.
      + intros (ps & E & E'). injection E as <-. exact E'.
      + intros E. exists []. auto.
    - injection HL as HL. cbn [combine mapM fst snd]. split.
      + intros (ps & E & E'). apply bind_Ok in E as (v & E1 & E). apply bind_Ok in E as (vs & E2 & E). injection E as <-.
        cbn [combine mapM fst snd] in E'. apply bind_Ok in E' as (x & E3 & E'). apply bind_Ok in E' as (xs & E4 & E'). injection E' as <-.
        rewrite E1. cbn [bind]. rewrite E3. cbn [bind].
        rewrite (proj1 (IH labs HL xs)) by (exists vs; auto). reflexivity.
      + intros E. apply bind_Ok in E as (x & E1 & E). apply bind_Ok in E1 as (v & E0 & E1). apply bind_Ok in E as (xs & E2 & E). injection E as <-.
        apply (proj2 (IH labs HL xs)) in E2 as (vs & E3 & E4). exists (v :: vs). rewrite E0. cbn [bind]. rewrite E3. cbn [bind].
        split; [reflexivity|]. cbn [combine mapM fst snd]. rewrite E1. cbn [bind]. rewrite E4. reflexivity. }
  unfold samples. split.
  - intros E. apply bind_Ok in E as (ps & E & E'). pose proof (mapM_length _ _ _ E) as L.
    rewrite score_loop in E' by (etransitivity; [exact L|exact HL]). apply bind_Ok in E' as (es & E1 & E2). injection E2 as <-.
    exists es. split; auto. apply (proj1 (G _ _ HL es)). exists ps. auto.
  - intros (es & E & ->). apply (proj2 (G _ _ HL es)) in E as (ps & E1 & E2). rewrite E1. cbn [bind].
    pose proof (mapM_length _ _ _ E1) as L. rewrite score_loop by (etransitivity; [exact L|exact HL]). etransitivity; [apply (f_equal2 bind); [exact E2|reflexivity]|]. reflexivity.
Qed.

Theorem boost_score_perm (m : @regression_boost_model xr_ops) (test test' : @dataset xr_ops) (e : xr) :
  length (feature_rows test) = length (labels test) -> length (feature_rows test') = length (labels test') ->
  Permutation (samples test) (samples test') ->
  regression_boost_score m test = Ok e -> regression_boost_score m test' = Ok e.
Proof.
  intros H1 H2 HP E. apply (boost_score_samples m test e H1) in E as (es & E & ->). apply (boost_score_samples m test' _ H2).
  destruct (mapM_perm _ _ _ _ HP E) as (es' & E' & P). exists es'. split; auto.
  apply Permutation_length in HP. unfold samples in HP. rewrite !combine_length in HP. xr.
  apply (f_equal2 xdiv); [now apply fold_xadd_perm|]. apply (f_equal (fun n => Fin (INR n))). lia.
Qed.
