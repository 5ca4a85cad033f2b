(** Regression boosting in exact arithmetic (C32 trained models, C38, C49). *)
From Coq Require Import Reals Lra Lia Permutation.
From Verif Require Import Base Num ModelCommon ModelTree ModelBoost Spec SpecTree SpecScore SpecFit Lib ProofData ProofSort
  ProofTree ProofTree3 ProofScore ProofScore2 ProofBoost ProofBoost2 XR SpecExact SpecError ProofReal ProofSplitExact
  ProofSplitExact2 ProofTreeExact ProofScoreExact ProofLeaf.
Local Open Scope R_scope.

(* ------------------------------------------------------------------ *)
(** ** Vectors of reals *)

Definition vsub (a b : list R) : list R := map2 Rminus a b.
(** One boosting step: [s + lr * o]. *)
Definition vstep (lr : R) (s o : list R) : list R := map2 (fun x y => x + lr * y) s o.

Lemma nth_map2 (f : R -> R -> R) a b j : (j < length a)%nat -> (j < length b)%nat -> nth j (map2 f a b) 0 = f (nth j a 0) (nth j b 0).
Proof.
  revert b j. induction a as [|x a IH]; intros [|y b] j Ha Hb; cbn in *; try lia. destruct j; auto. apply IH; lia.
Qed.

Lemma sub_Fin a b : map (fun q => xsub (fst q) (snd q)) (combine (map Fin a) (map Fin b)) = map Fin (vsub a b).
Proof. unfold vsub. revert b; induction a as [|x a IH]; intros [|y b]; cbn; auto. f_equal. apply IH. Qed.

Lemma differences_Fin ls ps : @differences xr_ops (map (map Fin) ls) (map (map Fin) ps) = map (map Fin) (map2 vsub ls ps).
Proof.
  unfold differences. revert ps; induction ls as [|l ls IH]; intros [|p ps]; cbn [map combine map2]; auto.
  f_equal; [apply sub_Fin|apply IH].
Qed.

Lemma step_Fin lr s o : map2 xadd (map Fin s) (@weighted xr_ops (Fin lr) (map Fin o)) = map Fin (vstep lr s o).
Proof. unfold vstep, weighted. revert o; induction s as [|x s IH]; intros [|y o]; cbn; auto. f_equal. apply IH. Qed.

Lemma vstep_length lr s o : length o = length s -> length (vstep lr s o) = length s.
Proof. intros H. unfold vstep. rewrite map2_length. lia. Qed.

(** Predictions of a list of trees with finite outputs. *)
Definition finite_out (k : nat) (row : list xr) (t : tree_node (@grad_boost_leaf xr_ops)) : Prop :=
  exists o, @gb_out xr_ops row t = Ok (map Fin o) /\ length o = k.

Lemma raw_finite k lr g row ts :
  length g = k -> Forall (finite_out k row) ts ->
  exists s, @raw xr_ops _ gb_out (Fin lr) (map Fin g) row ts = Ok (map Fin s) /\ length s = k.
Proof.
  intros Hg. induction ts as [|t ts IH] using rev_ind; intros H.
  - exists g. auto.
  - apply Forall_app in H as [H1 H2]. inversion H2 as [|? ? (o & Eo & Lo) _]; subst.
    destruct (IH H1) as (s & Es & Ls). exists (vstep lr s o). split; [|rewrite vstep_length; congruence].
    etransitivity; [apply (@raw_snoc xr_ops _ gb_out (Fin lr) (map Fin g) row ts t (map Fin s) (map Fin o) Es Eo)|].
    + rewrite !map_length. lia.
    + f_equal. apply step_Fin.
Qed.

(* ------------------------------------------------------------------ *)
(** ** Trained models have finite outputs *)

Lemma mk_gb_regression nc nt d l : wf_dataset nc nt d -> real_labels (rl d) d ->
  mk_gb (leaf_output_calculator_new Regression) d = Ok l -> l = mkGL (Some (map Fin (means nt (rl d)))).
Proof.
  intros W Hl. destruct (real_rect nc nt d (rl d) W Hl) as [Hr Hne]. unfold mk_gb. cbn [leaf_output_calculator_new].
  unfold calculate_leaf_output_squared_loss. rewrite (calculate_average_f64_vector_eq nt).
  - cbn [bind]. intros E. injection E as <-. do 2 f_equal.
    etransitivity; [apply (f_equal (colmean nt)); exact Hl|]. now apply colmean_Fin.
  - intros E. unfold rl in Hne. rewrite E in Hne. now apply Hne.
  - apply (wf_labels _ _ _ W).
Qed.

Lemma regression_leaf_out cfg nc nt level d t row :
  built (mk_gb (leaf_output_calculator_new Regression)) cfg level d t ->
  wf_dataset nc nt d -> real_labels (rl d) d -> (nc <= length row)%nat ->
  exists ld, @gb_out xr_ops row t = Ok (map Fin (means nt (rl ld))) /\
    samples ld = samples_like row t d /\ wf_dataset nc nt ld /\ real_labels (rl ld) ld.
Proof.
  intros B W Hl Hr. destruct (built_lookup_mk _ _ _ _ _ _ _ row B W Hr) as (ld & l & Ef & Em & Es & Wl).
  assert (Hi : incl (samples ld) (samples d)) by (rewrite Es; apply filter_incl).
  pose proof (finite_sub _ _ _ _ W Wl Hi Hl) as Hld. exists ld. split; auto.
  apply (mk_gb_regression nc nt ld l Wl Hld) in Em as ->. unfold gb_out. rewrite Ef. reflexivity.
Qed.

Lemma regression_tree_finite nc nt d ls cfg t row :
  wf_dataset nc nt d -> real_labels ls d -> grad_boost_tree_new d cfg (leaf_output_calculator_new Regression) = Ok t ->
  (nc <= length row)%nat -> finite_out nt row t.
Proof.
  intros W Hl E Hr. rewrite grad_boost_tree_new_eq in E. apply build_with_built in E.
  rewrite <- (real_rl _ _ Hl) in Hl. destruct (regression_leaf_out _ _ _ _ _ _ row E W Hl Hr) as (ld & Eo & _).
  exists (means nt (rl ld)). split; auto. apply means_length.
Qed.

Lemma predictions_real nt (m : @regression_boost_model xr_ops) g lr (rows : list (list xr)) :
  m_initial_guess m = map Fin g -> m_learning_rate m = Fin lr -> length g = nt ->
  (forall row, In row rows -> Forall (finite_out nt row) (m_trees m)) ->
  exists ps, Forall2 (fun row p => regression_boost_predict m row = Ok (map Fin p) /\ length p = nt) rows ps.
Proof.
  intros Hg Hlr Lg H. induction rows as [|row rows IH]; [now exists []|].
  destruct IH as (ps & IH); [intros; apply H; now right|].
  destruct (raw_finite nt lr g row (m_trees m) Lg (H row (or_introl eq_refl))) as (p & Ep & Lp).
  exists (p :: ps). constructor; auto. split; auto. unfold regression_boost_predict. rewrite predict_instance_raw, Hg, Hlr. exact Ep.
Qed.

Lemma Forall2_real nt (f : list xr -> res (list xr)) rows (ps : list (list R)) qs :
  Forall2 (fun row p => f row = Ok (map Fin p) /\ length p = nt) rows ps -> mapM f rows = Ok qs -> qs = map (map Fin) ps.
Proof.
  intros H. revert qs. induction H as [|row p rows ps [E _] H IH]; intros qs Eq; [now injection Eq as <-|].
  cbn [mapM] in Eq. rewrite E in Eq. cbn [bind] in Eq. apply bind_Ok in Eq as (qs0 & E2 & Eq). injection Eq as <-. cbn. f_equal. now apply IH.
Qed.

Lemma Forall2_rect {A} nt (f : A -> list R -> Prop) rows (ps : list (list R)) :
  Forall2 (fun row p => f row p /\ length p = nt) rows ps -> rectangular nt ps.
Proof. induction 1 as [|? ? ? ? [_ H]]; constructor; auto. Qed.

Lemma vsub_rect nt ls ps : length ps = length ls -> rectangular nt ls -> rectangular nt ps ->
  rectangular nt (map2 vsub ls ps) /\ length (map2 vsub ls ps) = length ls.
Proof.
  intros HL R1. revert ps HL. induction R1 as [|l ls Hl R1 IH]; intros [|p ps] HL R2; try discriminate; cbn; [repeat constructor|].
  inversion R2; subst. destruct (IH ps) as [A B]; auto. split; [constructor; auto|lia].
  unfold vsub. rewrite map2_length. lia.
Qed.

(** The data a stage fits: real residuals. *)
Lemma residual_data nc nt d ls ps :
  wf_dataset nc nt d -> real_labels ls d -> length ps = length ls -> rectangular nt ps ->
  wf_dataset nc nt (mkDS (feature_rows d) (differences (labels d) (map (map Fin) ps)) (feature_columns d)) /\
  real_labels (map2 vsub ls ps) (mkDS (feature_rows d) (differences (labels d) (map (map Fin) ps)) (feature_columns d)).
Proof.
  intros W Hl HL Rp. destruct (real_rect nc nt d ls W Hl) as [Rl Hne].
  assert (E : differences (labels d) (map (map Fin) ps) = map (map Fin) (map2 vsub ls ps)).
  { etransitivity; [|apply differences_Fin]. apply (f_equal2 (@differences xr_ops)); [exact Hl|reflexivity]. }
  split; [|exact E].
  destruct (vsub_rect nt ls ps HL Rl Rp) as [A B].
  assert (L0 : length (labels d) = length ls) by (unfold real_labels in Hl; rewrite Hl; now rewrite map_length).
  apply (with_labels_wf nc nt d _ W); rewrite E.
  - rewrite map_length. rewrite <- (wf_lengths _ _ _ W). etransitivity; [exact B|symmetry; exact L0].
  - unfold rectangular in *. rewrite Forall_map. eapply Forall_impl; [|exact A]. intros a Ha. rewrite map_length. exact Ha.
Qed.

Lemma xr_len nc nt (d : @dataset xr_ops) ls : wf_dataset nc nt d -> real_labels ls d -> length (feature_rows d) = length ls.
Proof.
  intros W Hl. rewrite <- (wf_lengths _ _ _ W). unfold real_labels in Hl. rewrite Hl. apply map_length.
Qed.

Lemma row_long nc nt (d : @dataset xr_ops) row : wf_dataset nc nt d -> In row (feature_rows d) -> (nc <= length row)%nat.
Proof. exact (ProofLeaf.row_long nc nt d row). Qed.

Lemma guess_real nc nt d ls cfg n lr m :
  wf_dataset nc nt d -> real_labels ls d -> regression_boost_train d cfg n lr = Ok m ->
  m_initial_guess m = map Fin (means nt ls) /\ m_learning_rate m = lr /\ length (m_trees m) = n.
Proof.
  intros W Hl E. destruct (regression_shape nt d cfg n lr m (wf_labels _ _ _ W) E) as (A & B & _).
  split; auto. apply boosting_loop_Ok in E as (G & _). destruct (real_rect nc nt d ls W Hl) as [Hr Hne].
  apply (guess_regression nt) in G.
  - rewrite G. etransitivity; [apply (f_equal (colmean nt)); exact Hl|]. now apply colmean_Fin.
  - intros H. apply Hne. unfold real_labels in Hl. rewrite H in Hl. symmetry in Hl. now apply map_eq_nil in Hl.
  - apply (wf_labels _ _ _ W).
Qed.

Theorem trained_finite nc nt d ls cfg n lr m :
  wf_dataset nc nt d -> real_labels ls d -> regression_boost_train d cfg n (Fin lr) = Ok m ->
  forall k, (k <= n)%nat -> forall row, (nc <= length row)%nat -> Forall (finite_out nt row) (firstn k (m_trees m)).
Proof.
  intros W Hl E. destruct (guess_real _ _ _ _ _ _ _ _ W Hl E) as (Hg & Hlr & HT).
  induction k as [|k IH]; intros Hk row Hr; [constructor|].
  destruct (regression_stage d cfg n (Fin lr) m k (wf_lengths _ _ _ W) E Hk) as (preds & t & Ep & Hs & Ht & Eb).
  destruct (predictions_real nt (first_trees k m) (means nt ls) lr (feature_rows d)) as (ps & HP); auto.
  { apply means_length. }
  { intros row' Hin. apply (IH ltac:(lia)). eapply row_long; eauto. }
  unfold regression_boost_all_predictions in Ep. rewrite all_predictions_eq in Ep.
  apply (Forall2_real nt _ _ ps) in Ep; auto. subst preds.
  assert (HL : length ps = length ls) by (rewrite <- (Forall2_length _ _ _ HP); eapply xr_len; eauto).
  destruct (residual_data nc nt d ls ps W Hl HL (Forall2_rect _ _ _ _ HP)) as [Wr Hr'].
  pose proof (regression_tree_finite nc nt _ _ cfg t row Wr Hr' Eb Hr) as Hf.
  rewrite (firstn_snoc _ _ _ Ht).
  apply Forall_app. split; [|constructor; auto]. apply IH; auto. lia.
Qed.

Theorem trained_predictions nc nt d ls cfg n lr m (rows : list (list xr)) :
  wf_dataset nc nt d -> real_labels ls d -> regression_boost_train d cfg n (Fin lr) = Ok m ->
  (forall row, In row rows -> (nc <= length row)%nat) ->
  exists ps, Forall2 (fun row p => regression_boost_predict m row = Ok (map Fin p) /\ length p = nt) rows ps.
Proof.
  intros W Hl E HR. destruct (guess_real _ _ _ _ _ _ _ _ W Hl E) as (Hg & Hlr & HT).
  apply (predictions_real nt m (means nt ls) lr); auto. { apply means_length. }
  intros row Hin. rewrite <- (firstn_all (m_trees m)), HT. eapply trained_finite; eauto.
Qed.

(* ------------------------------------------------------------------ *)
(** ** Boosting never increases the training error (C38) *)

Definition rout (t : tree_node (@grad_boost_leaf xr_ops)) (row : list xr) : list R :=
  match @gb_out xr_ops row t with Ok o => map xval o | _ => [] end.

Lemma rout_eq t row o : @gb_out xr_ops row t = Ok (map Fin o) -> rout t row = o.
Proof. unfold rout. intros ->. apply map_xval_Fin. Qed.

Definition sq (k : nat) (lr : R) (o r : list R) : R :=
  Rsum (map (fun j => (nth j r 0 - lr * nth j o 0) * (nth j r 0 - lr * nth j o 0)) (seq 0 k)).

Lemma sq_means k lr ls : ls <> [] -> 0 <= lr <= 2 ->
  Rsum (map (sq k lr (means k ls)) ls) <= Rsum (map (sq k 0 []) ls).
Proof.
  intros Hne Hlr. unfold sq.
  rewrite (Rsum_swap (fun l j => (nth j l 0 - lr * nth j (means k ls) 0) * (nth j l 0 - lr * nth j (means k ls) 0)) ls (seq 0 k)).
  rewrite (Rsum_swap (fun l j => (nth j l 0 - 0 * nth j [] 0) * (nth j l 0 - 0 * nth j [] 0)) ls (seq 0 k)).
  apply Rsum_map_le. intros j Hj. apply in_seq in Hj.
  assert (Em : nth j (means k ls) 0 = mean (target j ls)).
  { unfold means. rewrite (nth_indep _ 0 (mean (target 0 ls))) by (rewrite map_length, seq_length; lia).
    rewrite (map_nth (fun j => mean (target j ls))), seq_nth by lia. reflexivity. }
  rewrite Em. set (m := mean (target j ls)).
  assert (H1 : Rsum (map (fun a => (nth j a 0 - lr * m) * (nth j a 0 - lr * m)) ls) = dev (lr * m) (target j ls)).
  { unfold dev, target. now rewrite map_map. }
  assert (H2 : Rsum (map (fun a => (nth j a 0 - 0 * nth j [] 0) * (nth j a 0 - 0 * nth j [] 0)) ls) = sumsq (target j ls)).
  { unfold sumsq, target. rewrite map_map. apply Rsum_map_ext. intros. ring. }
  rewrite H1, H2, dev_expand.
  assert (Hn : target j ls <> []) by (intros H; apply map_eq_nil in H; contradiction).
  pose proof (mean_sum _ Hn) as Hs. fold m in Hs. rewrite <- Hs.
  pose proof (pos_INR (length (target j ls))) as Hp. pose proof (Rle_0_sqr m) as Hm. unfold Rsqr in Hm.
  assert (0 <= INR (length (target j ls)) * (m * m) * (lr * (2 - lr))).
  { apply Rmult_le_pos; [apply Rmult_le_pos; auto|apply Rmult_le_pos; lra]. }
  lra.
Qed.

Lemma Rsum_filter {A} (f : A -> R) (p : A -> bool) l :
  Rsum (map f l) = Rsum (map f (filter p l)) + Rsum (map f (filter (fun x => negb (p x)) l)).
Proof.
  induction l as [|x l IH]; [cbn; lra|]. cbn [map filter]. rewrite Rsum_cons, IH.
  destruct (p x); cbn [negb map]; rewrite Rsum_cons; lra.
Qed.

Lemma boosted_fit cfg nc nt level d t lr :
  built (mk_gb (leaf_output_calculator_new Regression)) cfg level d t -> wf_dataset nc nt d -> real_labels (rl d) d -> 0 <= lr <= 2 ->
  Rsum (map (fun p => sq nt lr (rout t (fst p)) (snd p)) (rs d)) <= Rsum (map (fun p => sq nt 0 [] (snd p)) (rs d)).
Proof.
  intros B. induction B as [level d s l Es Est El|level d s fd td t f Es Est Ep Bt IHt Bf IHf]; intros W Hl Hlr.
  - apply (mk_gb_regression nc nt d l W Hl) in El as ->. destruct (real_rect nc nt d (rl d) W Hl) as [_ Hne].
    pose proof (sq_means nt lr (rl d) Hne Hlr) as H. pose proof (rs_snd nc nt d W) as Er.
    assert (E1 : Rsum (map (fun p => sq nt lr (rout (leaf_node (bs_question s) (mkGL (O := xr_ops) (Some (map Fin (means nt (rl d)))))) (fst p)) (snd p)) (rs d))
               = Rsum (map (sq nt lr (means nt (rl d))) (map snd (rs d)))).
    { rewrite map_map. apply Rsum_map_ext. intros p _. rewrite (rout_eq _ _ (means nt (rl d))); reflexivity. }
    assert (E2 : Rsum (map (fun p : list xr * list R => sq nt 0 [] (snd p)) (rs d)) = Rsum (map (sq nt 0 []) (map snd (rs d)))).
    { now rewrite map_map. }
    rewrite E1, E2. rewrite Er. exact H.
  - destruct (sub_true _ _ _ _ _ _ W Ep Hl) as (Wf & Wt & Lf & Lt & Et & Ef & Hq).
    specialize (IHt Wt Lt Hlr). specialize (IHf Wf Lf Hlr). rewrite Et in IHt. rewrite Ef in IHf.
    rewrite (Rsum_filter (fun p : list xr * list R => sq nt 0 [] (snd p)) (fun p => answers (bs_question s) (fst p)) (rs d)).
    rewrite (Rsum_filter _ (fun p => answers (bs_question s) (fst p)) (rs d)).
    assert (Hroute : forall row, In row (map fst (rs d)) ->
      rout (node_new (bs_question s) t f) row = if answers (bs_question s) row then rout t row else rout f row).
    { intros row Hin. unfold rs in Hin. rewrite map_map in Hin. apply in_map_iff in Hin as ([r lab] & <- & Hin).
      apply in_combine_l in Hin. cbn. unfold rout, gb_out. cbn [node_new find_leaf_node_for_data].
      rewrite solve_Ok by (pose proof (row_long _ _ _ _ W Hin); xr; lia). cbn [bind]. destruct (answers (bs_question s) r); reflexivity. }
    assert (A1 : forall p, In p (filter (fun p => answers (bs_question s) (fst p)) (rs d)) -> rout (node_new (bs_question s) t f) (fst p) = rout t (fst p)).
    { intros p Hin. apply filter_In in Hin as [Hin Ha]. rewrite Hroute by (apply in_map; auto). now rewrite Ha. }
    assert (A2 : forall p, In p (filter (fun p => negb (answers (bs_question s) (fst p))) (rs d)) -> rout (node_new (bs_question s) t f) (fst p) = rout f (fst p)).
    { intros p Hin. apply filter_In in Hin as [Hin Ha]. apply negb_true_iff in Ha. rewrite Hroute by (apply in_map; auto). now rewrite Ha. }
    apply Rplus_le_compat.
    + eapply Rle_trans; [|exact IHt]. right. apply Rsum_map_ext. intros p Hp. now rewrite A1.
    + eapply Rle_trans; [|exact IHf]. right. apply Rsum_map_ext. intros p Hp. now rewrite A2.
Qed.

(** The predictions after one more stage. *)
Lemma next_prediction nt d cfg n lr m k t row p o :
  regression_boost_train d cfg n (Fin lr) = Ok m -> m_learning_rate m = Fin lr ->
  nth_error (m_trees m) k = Some t ->
  @regression_boost_predict xr_ops (first_trees k m) row = Ok (map Fin p) -> length p = nt ->
  @gb_out xr_ops row t = Ok (map Fin o) -> length o = nt ->
  @regression_boost_predict xr_ops (first_trees (S k) m) row = Ok (map Fin (vstep lr p o)).
Proof.
  intros E Hlr Ht Hp Lp Ho Lo. unfold regression_boost_predict in *. rewrite predict_instance_raw in *.
  cbn [first_trees m_trees m_initial_guess m_learning_rate] in *. rewrite (firstn_snoc _ _ _ Ht). rewrite Hlr in *.
  etransitivity; [apply (@raw_snoc xr_ops _ gb_out (Fin lr) (m_initial_guess m) row (firstn k (m_trees m)) t (map Fin p) (map Fin o) Hp Ho)|].
  - rewrite !map_length. lia.
  - f_equal. apply step_Fin.
Qed.

Lemma row_err_step nt lr l p o : length l = nt -> length p = nt -> length o = nt ->
  row_err nt (vstep lr p o) l = sq nt lr o (vsub l p) / INR nt.
Proof.
  intros Hl Hp Ho. unfold row_err, sq. f_equal. apply Rsum_map_ext. intros j Hj. apply in_seq in Hj.
  unfold vstep, vsub. rewrite !nth_map2 by lia. ring.
Qed.

Lemma row_err_now nt l p : length l = nt -> length p = nt ->
  row_err nt p l = sq nt 0 [] (vsub l p) / INR nt.
Proof.
  intros Hl Hp. unfold row_err, sq. f_equal. apply Rsum_map_ext. intros j Hj. apply in_seq in Hj.
  unfold vsub. rewrite !nth_map2 by lia. ring.
Qed.

(** Everything about stage [n] of a run of [n + 1] iterations. *)
Lemma last_stage nc nt d ls cfg n lr m m' :
  wf_dataset nc nt d -> real_labels ls d -> (0 < nt)%nat ->
  regression_boost_train d cfg n (Fin lr) = Ok m -> regression_boost_train d cfg (S n) (Fin lr) = Ok m' ->
  exists ps t rd,
    length ps = length ls /\ rectangular nt ps /\
    rd = mkDS (feature_rows d) (map (map Fin) (map2 vsub ls ps)) (feature_columns d) /\
    wf_dataset nc nt rd /\ real_labels (map2 vsub ls ps) rd /\
    Forall2 (fun row p => regression_boost_predict m row = Ok (map Fin p) /\ length p = nt) (feature_rows d) ps /\
    grad_boost_tree_new rd cfg (leaf_output_calculator_new Regression) = Ok t /\
    (forall row, (nc <= length row)%nat -> @gb_out xr_ops row t = Ok (map Fin (rout t row)) /\ length (rout t row) = nt) /\
    regression_boost_score m d = Ok (Fin (Rsum (map (fun p => sq nt 0 [] (snd p)) (combine (feature_rows d) (map2 vsub ls ps))) / INR nt / INR (length ls))) /\
    regression_boost_score m' d = Ok (Fin (Rsum (map (fun p => sq nt lr (rout t (fst p)) (snd p)) (combine (feature_rows d) (map2 vsub ls ps))) / INR nt / INR (length ls))).
Proof.
  intros W Hl Hk E E'. destruct (real_rect nc nt d ls W Hl) as [Rl Hne]. pose proof (xr_len _ _ _ _ W Hl) as HLr.
  destruct (guess_real _ _ _ _ _ _ _ _ W Hl E') as (Hg & Hlr & HT).
  assert (Em : m = first_trees n m').
  { pose proof (regression_prefix d cfg (S n) n (Fin lr) m' ltac:(lia) E') as Ep. rewrite Ep in E. now injection E. }
  destruct (regression_stage d cfg (S n) (Fin lr) m' n (wf_lengths _ _ _ W) E' ltac:(lia)) as (preds & t & Ep & Hs & Ht & Eb).
  destruct (trained_predictions nc nt d ls cfg n lr m (feature_rows d) W Hl E) as (ps & HP).
  { intros row Hin. eapply row_long; eauto. }
  assert (Epreds : preds = map (map Fin) ps).
  { unfold regression_boost_all_predictions in Ep. rewrite all_predictions_eq, <- Em in Ep. now apply (Forall2_real nt _ _ ps) in Ep. }
  subst preds. pose proof (Forall2_rect _ _ _ _ HP) as Rp.
  assert (HL : length ps = length ls) by (rewrite <- (Forall2_length _ _ _ HP); exact HLr).
  destruct (residual_data nc nt d ls ps W Hl HL Rp) as [Wr Hr'].
  assert (ED : differences (labels d) (map (map Fin) ps) = map (map Fin) (map2 vsub ls ps)) by exact Hr'.
  rewrite ED in *.
  assert (Hout : forall row, (nc <= length row)%nat -> @gb_out xr_ops row t = Ok (map Fin (rout t row)) /\ length (rout t row) = nt).
  { intros row Hrow. destruct (regression_tree_finite nc nt _ _ cfg t row Wr Hr' Eb Hrow) as (o & Eo & Lo).
    now rewrite (rout_eq _ _ _ Eo). }
  exists ps, t, (mkDS (feature_rows d) (map (map Fin) (map2 vsub ls ps)) (feature_columns d)).
  split; [exact HL|]. split; [exact Rp|]. split; [reflexivity|]. split; [exact Wr|]. split; [exact Hr'|]. split; [exact HP|]. split; [exact Eb|].
  split; [exact Hout|].
  split.
  - rewrite (boost_score_exact nt m d ls ps Hk Hl Hne Rl HP HLr). do 2 f_equal.
    unfold mean_squared_error, mean. rewrite map_length, combine_length, HL, Nat.min_id. f_equal.
    clear -HL HLr Rl Rp. unfold Rdiv. rewrite Rmult_comm, <- Rsum_map_mult.
    revert ps ls HL HLr Rl Rp. xr. generalize (feature_rows d). induction l as [|row rows IH]; intros [|p ps] [|l ls] HL HLr Rl Rp; try discriminate; [reflexivity|].
    injection HL as HL. injection HLr as HLr. inversion Rl; inversion Rp; subst. cbn [combine map map2 fst snd]. rewrite !Rsum_cons.
    rewrite (IH ps ls) by auto. f_equal. rewrite row_error_err, row_err_now by auto. unfold Rdiv. ring.
  - subst m. assert (HP' : Forall2 (fun row p => regression_boost_predict m' row = Ok (map Fin p) /\ length p = nt) (feature_rows d)
                    (map2 (fun row p => vstep lr p (rout t row)) (feature_rows d) ps)).
    { assert (Hrows : forall row, In row (feature_rows d) -> (nc <= length row)%nat) by (intros; eapply row_long; eauto).
      assert (Em' : m' = first_trees (S n) m').
      { unfold first_trees. rewrite <- HT, firstn_all. now destruct m'. }
      revert HP Hrows. generalize (feature_rows d). clear -Ht Hlr Em' Hout E'.
      intros rows HP. induction HP as [|row p rows ps [A B] HP IH]; intros Hrows; cbn [map2]; constructor.
      - destruct (Hout row) as [Ho Lo]; [apply Hrows; now left|]. split.
        + rewrite Em'. eapply next_prediction; eauto.
        + rewrite vstep_length; congruence.
      - apply IH. intros; apply Hrows; now right. }
    rewrite (boost_score_exact nt m' d ls _ Hk Hl Hne Rl HP' HLr). do 2 f_equal.
    unfold mean_squared_error, mean. rewrite map_length, combine_length, map2_length.
    match goal with |- _ / INR ?a = _ / INR ?b => assert (EL : a = b) by (xr; lia); rewrite EL end. f_equal. clear EL.
    assert (Hrows : forall row, In row (feature_rows d) -> length (rout t row) = nt).
    { intros row Hin. apply Hout. eapply row_long; eauto. }
    clear -HL HLr Rl Rp Hrows. unfold Rdiv. rewrite Rmult_comm, <- Rsum_map_mult.
    revert ps ls HL HLr Rl Rp Hrows. xr. generalize (feature_rows d). induction l as [|row rows IH]; intros [|p ps] [|l ls] HL HLr Rl Rp Hrows; try discriminate; [reflexivity|].
    injection HL as HL. injection HLr as HLr. inversion Rl; inversion Rp; subst. cbn [combine map map2 fst snd]. rewrite !Rsum_cons.
    rewrite (IH ps ls) by (auto; intros; apply Hrows; now right).
    f_equal. rewrite row_error_err, row_err_step; auto. unfold Rdiv. { ring. } apply Hrows. now left.
Qed.

Theorem boosting_no_worse nc nt (d : @dataset xr_ops) ls cfg n lr m m' :
  wf_dataset nc nt d -> real_labels ls d -> (0 < nt)%nat -> 0 <= lr <= 2 ->
  regression_boost_train d cfg n (Fin lr) = Ok m -> regression_boost_train d cfg (S n) (Fin lr) = Ok m' ->
  exists e e', regression_boost_score m d = Ok (Fin e) /\ regression_boost_score m' d = Ok (Fin e') /\ e' <= e.
Proof.
  intros W Hl Hk Hlr E E'.
  destruct (last_stage nc nt d ls cfg n lr m m' W Hl Hk E E') as (ps & t & rd & HL & Rp & Erd & Wr & Hr & _ & Eb & Hout & S1 & S2).
  eexists _, _. split; [exact S1|]. split; [exact S2|].
  rewrite grad_boost_tree_new_eq in Eb. apply build_with_built in Eb. pose proof (real_rl _ _ Hr) as Erl. rewrite <- Erl in Hr.
  pose proof (boosted_fit _ _ _ _ _ _ lr Eb Wr Hr Hlr) as H.
  assert (Ers : rs rd = combine (feature_rows d) (map2 vsub ls ps)).
  { rewrite Erd. unfold rs, samples. cbn [feature_rows labels]. generalize (map2 vsub ls ps). xr. generalize (feature_rows d). clear.
    induction l as [|r rows IH]; intros [|x l]; cbn; auto. unfold rp at 1. cbn. rewrite map_xval_Fin. f_equal. apply IH. }
  rewrite Ers in H. unfold Rdiv. apply Rmult_le_compat_r.
  { destruct (real_rect nc nt d ls W Hl) as [_ Hne]. left. apply Rinv_0_lt_compat. now apply INR_pos. }
  apply Rmult_le_compat_r. { left. apply Rinv_0_lt_compat. apply lt_0_INR. lia. }
  exact H.
Qed.

(* ------------------------------------------------------------------ *)
(** ** Learning rate zero (C49) *)

Lemma vstep_zero s o : length o = length s -> vstep 0 s o = s.
Proof.
  unfold vstep. revert o; induction s as [|x s IH]; intros [|y o] H; try discriminate; cbn; auto. f_equal; [ring|]. apply IH. now injection H.
Qed.

Lemma raw_zero k g row ts : length g = k -> Forall (finite_out k row) ts ->
  @raw xr_ops _ gb_out (Fin 0) (map Fin g) row ts = Ok (map Fin g).
Proof.
  intros Hg. induction ts as [|t ts IH] using rev_ind; intros H; [reflexivity|].
  apply Forall_app in H as [H1 H2]. inversion H2 as [|? ? (o & Eo & Lo) _]; subst.
  etransitivity; [apply (@raw_snoc xr_ops _ gb_out (Fin 0) (map Fin g) row ts t (map Fin g) (map Fin o) (IH H1) Eo)|].
  - rewrite !map_length. lia.
  - f_equal. rewrite step_Fin, vstep_zero; auto.
Qed.

Theorem zero_learning_rate nc nt (d : @dataset xr_ops) ls cfg n m (row : list xr) :
  wf_dataset nc nt d -> real_labels ls d -> regression_boost_train d cfg n (Fin 0) = Ok m -> (nc <= length row)%nat ->
  regression_boost_predict m row = Ok (m_initial_guess m) /\ m_initial_guess m = map (fun j => Fin (mean (target j ls))) (seq 0 nt).
Proof.
  intros W Hl E Hr. destruct (guess_real _ _ _ _ _ _ _ _ W Hl E) as (Hg & Hlr & HT). split.
  - unfold regression_boost_predict. rewrite predict_instance_raw, Hg, Hlr.
    apply (raw_zero nt); [apply means_length|]. rewrite <- (firstn_all (m_trees m)), HT. eapply trained_finite; eauto.
  - rewrite Hg. unfold means. now rewrite map_map.
Qed.

(* ------------------------------------------------------------------ *)
(** ** Deep trees: each stage scales the error by (1 - lr)^2 *)

Lemma gb_is_mean nc nt (rd : @dataset xr_ops) cfg t rt row :
  wf_dataset nc nt rd -> real_labels (rl rd) rd ->
  grad_boost_tree_new rd cfg (leaf_output_calculator_new Regression) = Ok t -> regression_tree_new rd cfg = Ok rt ->
  (nc <= length row)%nat -> @gb_out xr_ops row t = tree_prediction row rt.
Proof.
  intros W Hl E E' Hr. rewrite grad_boost_tree_new_eq in E. apply build_with_built in E.
  rewrite regression_tree_new_eq in E'. apply build_with_built in E'.
  destruct (zip_lookup _ _ _ _ _ _ _ _ _ row E E' W Hr) as (ld & l & l' & F1 & M1 & F2 & M2 & Es & Wl).
  assert (Hi : incl (samples ld) (samples rd)) by (rewrite Es; apply filter_incl).
  pose proof (finite_sub _ _ _ _ W Wl Hi Hl) as Hld.
  apply (mk_gb_regression nc nt ld l Wl Hld) in M1 as ->. injection M2 as <-.
  unfold gb_out, tree_prediction. rewrite F1, F2. cbn [bind unwrap gl_output rl_data].
  symmetry. exact (leaf_prediction nc nt ld Wl Hld).
Qed.

Lemma residuals_consistent (d rd : @dataset xr_ops) ls ps (f : list xr -> list R) :
  real_labels ls d -> consistent d -> length (feature_rows d) = length ls -> ps = map f (feature_rows d) ->
  rd = mkDS (feature_rows d) (map (map Fin) (map2 vsub ls ps)) (feature_columns d) -> consistent rd.
Proof.
  intros Hl HC HL -> ->. unfold consistent, samples. cbn [feature_rows labels].
  assert (G : forall (rows : list (list xr)) (ls : list (list R)) row l, length rows = length ls ->
    In (row, l) (combine rows (map (map Fin) (map2 vsub ls (map f rows)))) ->
    exists y, In (row, map Fin y) (combine rows (map (map Fin) ls)) /\ l = map Fin (vsub y (f row))).
  { clear. induction rows as [|r rows IH]; intros [|y ls] row l HL Hin; try discriminate; [destruct Hin|].
    cbn [map map2 combine] in Hin. destruct Hin as [E|Hin].
    - injection E as <- <-. exists y. split; [now left|reflexivity].
    - injection HL as HL. destruct (IH ls row l HL Hin) as (y' & A & B). exists y'. split; [now right|auto]. }
  intros row l l' H H'. xr. apply G in H as (y & A & ->); auto. apply G in H' as (y' & A' & ->); auto.
  assert (Ey : map Fin y = map Fin y').
  { apply (HC row); unfold samples; rewrite Hl; auto. }
  apply (f_equal (map xval)) in Ey. rewrite !map_xval_Fin in Ey. now subst.
Qed.

Theorem deep_boosting nc nt (d : @dataset xr_ops) ls cfg n lr m m' :
  wf_dataset nc nt d -> real_labels ls d -> (0 < nt)%nat -> consistent d -> standard cfg -> tc_number_of_classes cfg = N.of_nat nt ->
  (N.of_nat (length (feature_rows d)) <= tc_max_levels cfg + 1)%N ->
  regression_boost_train d cfg n (Fin lr) = Ok m -> regression_boost_train d cfg (S n) (Fin lr) = Ok m' ->
  exists e, regression_boost_score m d = Ok (Fin e) /\ regression_boost_score m' d = Ok (Fin ((1 - lr) * (1 - lr) * e)).
Proof.
  intros W Hl Hk HC Hs Hc Hd E E'.
  destruct (last_stage nc nt d ls cfg n lr m m' W Hl Hk E E') as (ps & t & rd & HL & Rp & Erd & Wr & Hr & HP & Eb & Hout & S1 & S2).
  eexists. split; [exact S1|]. rewrite S2. do 2 f_equal.
  pose proof (xr_len _ _ _ _ W Hl) as HLr. destruct (real_rect nc nt d ls W Hl) as [Rl Hne].
  assert (Hcr : consistent rd).
  { apply (residuals_consistent d rd ls ps (fun row => match regression_boost_predict m row with Ok p => map xval p | _ => [] end)); auto.
    clear -HP. revert HP. xr. induction 1 as [|row p rows ps [A _] HP IH]; cbn [map]; auto. rewrite A, map_xval_Fin. now f_equal. }
  assert (Hfit : forall p, In p (combine (feature_rows d) (map2 vsub ls ps)) -> rout t (fst p) = snd p /\ length (snd p) = nt).
  { rewrite (grad_boost_is_regression rd cfg Regression Hs) in Eb. pose proof Eb as Eb0. apply bind_Ok in Eb0 as (rt & Ert & _).
    rewrite <- (grad_boost_is_regression rd cfg Regression Hs) in Eb.
    intros [row r] Hin. cbn [fst snd].
    assert (Hin' : In (row, map Fin r) (samples rd)).
    { rewrite Erd. unfold samples. cbn [feature_rows labels]. clear -Hin. xr. revert Hin. generalize (feature_rows d) (map2 vsub ls ps).
      induction l as [|x l IH]; intros [|y l0] Hin; try destruct Hin; cbn; [left; congruence|right; auto]. }
    assert (Hrow : (nc <= length row)%nat) by (apply (row_long nc nt d row W); apply in_combine_l in Hin; exact Hin).
    pose proof (deep_tree_fits nc nt rd _ cfg rt row (map Fin r) Wr Hr Hcr Hs Hc Ert) as Hp.
    assert (Hp' : tree_prediction row rt = Ok (map Fin r)).
    { apply Hp; auto. rewrite Erd. exact Hd. }
    rewrite <- (real_rl _ _ Hr) in Hr. rewrite <- (gb_is_mean nc nt rd cfg t rt row Wr Hr Eb Ert Hrow) in Hp'.
    split; [now apply rout_eq|]. rewrite <- (rout_eq _ _ _ Hp'). now apply Hout. }
  rewrite (Rsum_map_ext _ (fun p => (1 - lr) * (1 - lr) * sq nt 0 [] (snd p))).
  - rewrite Rsum_map_mult. unfold Rdiv. rewrite !Rmult_assoc. reflexivity.
  - intros p Hp. destruct (Hfit p Hp) as [Ef Lp]. transitivity (sq nt lr (snd p) (snd p)); [apply (f_equal (fun o => sq nt lr o (snd p))); exact Ef|]. unfold sq. rewrite <- Rsum_map_mult. apply Rsum_map_ext. intros j _. ring.
Qed.
