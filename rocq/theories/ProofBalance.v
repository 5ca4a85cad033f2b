(** Training predictions balance the training labels, in exact arithmetic (C65). *)
From Coq Require Import Reals Lra Permutation Sorted.
From Verif Require Import Base Num ModelCommon ModelTree ModelBoost Lib XR Spec SpecTree SpecExact SpecScore SpecFit ProofReal ProofData ProofSort
  ProofSplit ProofSplit2 ProofTree ProofTree3 ProofScore ProofSplitExact ProofSplitExact2 ProofTreeExact ProofBoost ProofBoost2 ProofLeaf ProofBoostExact.
Local Open Scope R_scope.

Lemma mean_nth j ls : ls <> [] -> forall k, (j < k)%nat -> nth j (means k ls) 0 = mean (target j ls).
Proof.
  intros Hne k Hj. unfold means. rewrite (nth_indep _ 0 (mean (target 0 ls))) by (rewrite map_length, seq_length; lia).
  rewrite (map_nth (fun j => mean (target j ls))). now rewrite seq_nth by lia.
Qed.

Section Balance.
Context {L : Type} (nc nt : nat) (mk : @dataset xr_ops -> res L) (val : L -> list R).
Hypothesis mk_val : forall d l, wf_dataset nc nt d -> real_labels (rl d) d -> mk d = Ok l -> val l = means nt (rl d).

Definition looked_up (t : tree_node L) (row : list xr) : list R :=
  match @find_leaf_node_for_data xr_ops L row t with Ok l => val l | _ => [] end.

Lemma balanced cfg level d t (f : R -> R) j :
  built mk cfg level d t -> wf_dataset nc nt d -> real_labels (rl d) d -> (j < nt)%nat ->
  Rsum (map (fun p => f (nth j (looked_up t (fst p)) 0) * (nth j (looked_up t (fst p)) 0 - nth j (snd p) 0)) (rs d)) = 0.
Proof.
  intros B. induction B as [level d s l Es Est El|level d s fd td t fn Es Est Ep Bt IHt Bf IHf]; intros W Hl Hj.
  - pose proof (mk_val _ _ W Hl El) as Hv. destruct (real_rect nc nt d (rl d) W Hl) as [_ Hne].
    change (looked_up (leaf_node (bs_question s) l)) with (fun _ : list xr => val l). rewrite Hv, mean_nth by auto.
    transitivity (Rsum (map (fun y => f (mean (target j (rl d))) * (mean (target j (rl d)) - nth j y 0)) (map snd (rs d)))).
    { rewrite map_map. reflexivity. }
    rewrite (rs_snd nc nt d W). rewrite Rsum_map_mult.
    assert (E : Rsum (map (fun y => mean (target j (rl d)) - nth j y 0) (rl d)) = 0); [|rewrite E; ring].
    unfold Rminus. rewrite (Rsum_map_plus (fun _ => mean (target j (rl d))) (fun y => - nth j y 0)).
    rewrite Rsum_map_const.
    rewrite (Rsum_map_ext _ (fun y => -1 * nth j y 0)) by (intros; ring). rewrite Rsum_map_mult.
    assert (Hnt : target j (rl d) <> []) by (unfold target; destruct (rl d); [congruence|discriminate]).
    pose proof (mean_sum (target j (rl d)) Hnt) as M. rewrite target_length in M. fold (target j (rl d)). lra.
  - destruct (sub_true _ _ _ _ _ _ W Ep Hl) as (Wf & Wt & Lf & Lt & Et & Ef & Hq).
    specialize (IHt Wt Lt Hj). specialize (IHf Wf Lf Hj). rewrite Et in IHt. rewrite Ef in IHf.
    rewrite (Rsum_filter _ (fun p => answers (bs_question s) (fst p)) (rs d)).
    assert (Hroute : forall p, In p (rs d) ->
      looked_up (node_new (bs_question s) t fn) (fst p) = if answers (bs_question s) (fst p) then looked_up t (fst p) else looked_up fn (fst p)).
    { intros p Hin. unfold rs in Hin. apply in_map_iff in Hin as ([r lab] & <- & Hin).
      apply in_combine_l in Hin. cbn [rp fst]. unfold looked_up. cbn [node_new find_leaf_node_for_data].
      rewrite solve_Ok by (pose proof (ProofBoostExact.row_long _ _ _ _ W Hin); xr; lia). cbn [bind]. destruct (answers (bs_question s) r); reflexivity. }
    transitivity (0 + 0); [f_equal|ring].
    + etransitivity; [|exact IHt]. apply Rsum_map_ext. intros p Hp. apply filter_In in Hp as [Hp Ha]. xr; cbv beta in Ha; rewrite (Hroute p Hp), Ha; reflexivity.
    + etransitivity; [|exact IHf]. apply Rsum_map_ext. intros p Hp. apply filter_In in Hp as [Hp Ha]. apply negb_true_iff in Ha. xr; cbv beta in Ha; rewrite (Hroute p Hp), Ha; reflexivity.
Qed.

End Balance.

(* ------------------------------------------------------------------ *)
(** ** Regression trees *)

Definition rl_val (nt : nat) (l : @regression_leaf xr_ops) : list R :=
  match rl_data l with Some d => means nt (rl d) | None => [] end.

Lemma mk_reg_val nc nt (d : @dataset xr_ops) l : wf_dataset nc nt d -> real_labels (rl d) d -> mk_reg d = Ok l -> rl_val nt l = means nt (rl d).
Proof. intros _ _ E. injection E as <-. reflexivity. Qed.

Lemma looked_up_prediction nc nt cfg level d t row :
  built mk_reg cfg level d t -> wf_dataset nc nt d -> real_labels (rl d) d -> (nc <= length row)%nat ->
  tree_prediction row t = Ok (map Fin (looked_up (rl_val nt) t row)) /\ length (looked_up (rl_val nt) t row) = nt.
Proof.
  intros B W Hl Hr. destruct (built_lookup_mk _ _ _ _ _ _ _ row B W Hr) as (ld & l & Ef & Em & Es & Wl).
  assert (Hi : incl (samples ld) (samples d)) by (rewrite Es; apply filter_incl).
  pose proof (finite_sub _ _ _ _ W Wl Hi Hl) as Hld.
  injection Em as <-. unfold tree_prediction, looked_up. xr. rewrite Ef. cbn [bind unwrap rl_data rl_val].
  rewrite (leaf_prediction nc nt ld Wl Hld). split; [reflexivity|apply means_length].
Qed.

Lemma err_tree_looked_up cfg nc nt level d t row l :
  built mk_reg cfg level d t -> wf_dataset nc nt d -> real_labels (rl d) d -> (nc <= length row)%nat ->
  err_tree nt t (row, l) = row_err nt (looked_up (rl_val nt) t row) l.
Proof.
  intros B W Hl Hr. revert W Hl. induction B as [level d s lf Es Est El|level d s fd td t fn Es Est Ep Bt IHt Bf IHf]; intros W Hl.
  - injection El as <-. reflexivity.
  - destruct (sub_true _ _ _ _ _ _ W Ep Hl) as (Wf & Wt & Lf & Lt & _ & _ & Hq).
    specialize (IHt Wt Lt). specialize (IHf Wf Lf).
    unfold looked_up in *. cbn [node_new find_leaf_node_for_data err_tree fst]. rewrite solve_Ok by (xr; lia). cbn [bind].
    destruct (answers (bs_question s) row); assumption.
Qed.

Lemma mapM_all {A B} (f : A -> res B) g l : (forall x, In x l -> f x = Ok (g x)) -> mapM f l = Ok (map g l).
Proof.
  induction l as [|x l IH]; intros H; [reflexivity|]. cbn [mapM map]. rewrite (H x (or_introl eq_refl)). cbn [bind].
  rewrite IH; auto. intros; apply H; now right.
Qed.

Lemma rs_fst nc nt d : wf_dataset nc nt d -> map fst (rs d) = feature_rows d.
Proof.
  intros W. unfold rs. rewrite map_map. cbn [rp fst]. change (fun x : list xr * list xr => fst (rp x)) with (@fst (list xr) (list xr)).
  apply map_fst_combine. symmetry. exact (wf_lengths _ _ _ W).
Qed.

(** Variance of predictions [ps] that balance [ls]: what is left is the squared error. *)
Lemma explained (S : list (list R * list R)) j :
  S <> [] ->
  (forall f : R -> R, Rsum (map (fun p => f (nth j (fst p) 0) * (nth j (fst p) 0 - nth j (snd p) 0)) S) = 0) ->
  mean (target j (map fst S)) = mean (target j (map snd S)) /\
  Rsum (map (fun p => (nth j (fst p) 0 - nth j (snd p) 0) * (nth j (fst p) 0 - nth j (snd p) 0)) S) =
  INR (length S) * (variance (target j (map snd S)) - variance (target j (map fst S))).
Proof.
  intros Hne H.
  assert (Hn : INR (length S) <> 0) by (apply not_0_INR; destruct S; [congruence|discriminate]).
  assert (Em : mean (target j (map fst S)) = mean (target j (map snd S))).
  { unfold mean. rewrite !target_length, !map_length. f_equal. unfold target. rewrite !map_map.
    specialize (H (fun _ => 1)). cbv beta in H.
    rewrite (Rsum_map_ext _ (fun p => nth j (fst p) 0 + -1 * nth j (snd p) 0)) in H by (intros; ring).
    rewrite Rsum_map_plus, Rsum_map_mult in H. lra. }
  split; auto. unfold variance. rewrite Em. set (mu := mean (target j (map snd S))). rewrite !target_length, !map_length.
  replace (INR (length S) * _) with
    (Rsum (map (fun x => (x - mu) * (x - mu)) (target j (map snd S))) - Rsum (map (fun x => (x - mu) * (x - mu)) (target j (map fst S)))) by (field; auto).
  unfold target. rewrite !map_map.
  pose proof (H (fun x => -2 * (x - mu))) as G. cbv beta in G.
  set (a := fun p : list R * list R => (nth j (fst p) 0 - nth j (snd p) 0) * (nth j (fst p) 0 - nth j (snd p) 0)).
  set (b := fun p : list R * list R => (nth j (snd p) 0 - mu) * (nth j (snd p) 0 - mu)).
  set (c := fun p : list R * list R => (nth j (fst p) 0 - mu) * (nth j (fst p) 0 - mu)).
  assert (E : Rsum (map b S) = Rsum (map a S) + Rsum (map c S) +
    Rsum (map (fun p => -2 * (nth j (fst p) 0 - mu) * (nth j (fst p) 0 - nth j (snd p) 0)) S)).
  { rewrite <- !Rsum_map_plus. apply Rsum_map_ext. intros p _. unfold a, b, c. ring. }
  rewrite G in E. lra.
Qed.

Theorem tree_balance nc nt (d : @dataset xr_ops) ls cfg t :
  wf_dataset nc nt d -> real_labels ls d -> regression_tree_new d cfg = Ok t ->
  exists ps, mapM (fun row => tree_prediction row t) (feature_rows d) = Ok (map (map Fin) ps) /\ rectangular nt ps /\
    (forall j, (j < nt)%nat -> mean (target j ps) = mean (target j ls)) /\
    ((0 < nt)%nat -> calculate_overall_mean_squared_error d t = Ok (Fin ((total_variance nt ls - total_variance nt ps) / INR nt))).
Proof.
  intros W Hl E. pose proof (real_rl _ _ Hl) as Erl. rewrite <- Erl in Hl |- *. clear ls Erl. rewrite regression_tree_new_eq in E. apply build_with_built in E.
  set (g := looked_up (rl_val nt) t).
  assert (Hrows : forall row, In row (feature_rows d) -> (nc <= length row)%nat) by (intros; eapply ProofBoostExact.row_long; eauto).
  set (S := map (fun p => (g (fst p), snd p)) (rs d)).
  assert (E1 : map fst S = map g (feature_rows d)).
  { unfold S. rewrite map_map. cbn [fst]. etransitivity; [|apply (f_equal (map g)); exact (rs_fst nc nt d W)]. now rewrite map_map. }
  assert (E2 : map snd S = rl d).
  { unfold S. rewrite map_map. cbn [snd]. exact (rs_snd nc nt d W). }
  assert (Hne : S <> []).
  { intros H. rewrite H in E2. destruct (real_rect nc nt d (rl d) W Hl) as [_ Hne]. now rewrite <- E2 in Hne. }
  assert (Hb : forall j, (j < nt)%nat -> forall f : R -> R,
    Rsum (map (fun p => f (nth j (fst p) 0) * (nth j (fst p) 0 - nth j (snd p) 0)) S) = 0).
  { intros j Hj f. unfold S. rewrite map_map. cbn [fst snd].
    exact (balanced nc nt mk_reg (rl_val nt) (mk_reg_val nc nt) cfg _ d t f j E W Hl Hj). }
  exists (map g (feature_rows d)). split; [|split; [|split]].
  - rewrite map_map. apply mapM_all. intros row Hin. now apply (looked_up_prediction nc nt cfg _ d t row E W Hl (Hrows row Hin)).
  - unfold rectangular. rewrite Forall_map, Forall_forall. intros row Hin. now apply (looked_up_prediction nc nt cfg _ d t row E W Hl (Hrows row Hin)).
  - intros j Hj. rewrite <- E1, <- E2. apply explained; auto.
  - intros Hk. rewrite (training_error_exact _ _ _ _ _ _ E W Hl Hk). do 2 f_equal. rewrite <- E1, <- E2.
    assert (EL : length (feature_rows d) = length S).
    { unfold S, rs. rewrite !map_length. unfold samples. rewrite combine_length. pose proof (wf_lengths _ _ _ W). xr. lia. }
    xr. rewrite EL.
    assert (Hn : INR (length S) <> 0) by (apply not_0_INR; destruct S; [congruence|discriminate]).
    assert (Hk' : INR nt <> 0) by (apply not_0_INR; lia).
    unfold total_variance.
    replace (Rsum (map (fun t0 => variance (target t0 (map snd S))) (seq 0 nt)) - Rsum (map (fun t0 => variance (target t0 (map fst S))) (seq 0 nt)))
      with (Rsum (map (fun j => variance (target j (map snd S)) - variance (target j (map fst S))) (seq 0 nt))).
    2:{ unfold Rminus. rewrite Rsum_map_plus. f_equal. rewrite (Rsum_map_ext (fun x => - variance (target x (map fst S))) (fun x => -1 * variance (target x (map fst S)))) by (intros; ring).
        rewrite Rsum_map_mult. ring. }
    apply Rmult_eq_reg_l with (INR (length S)); auto. field_simplify; auto.
    transitivity (INR (length S) * Rsum (map (fun j => variance (target j (map snd S)) - variance (target j (map fst S))) (seq 0 nt)) / INR nt); [|field; auto].
    rewrite <- Rsum_map_mult.
    rewrite (Rsum_map_ext _ (fun j => Rsum (map (fun p => (nth j (fst p) 0 - nth j (snd p) 0) * (nth j (fst p) 0 - nth j (snd p) 0)) S))).
    2:{ intros j Hj. apply in_seq in Hj. symmetry. apply explained; auto. apply Hb. lia. }
    rewrite <- (Rsum_swap (fun p j => (nth j (fst p) 0 - nth j (snd p) 0) * (nth j (fst p) 0 - nth j (snd p) 0)) S (seq 0 nt)).
    unfold Rdiv. rewrite Rmult_comm, <- Rsum_map_mult. unfold sum_err, S. rewrite map_map. apply Rsum_map_ext.
    intros [row l] Hp. cbn [fst snd].
    rewrite (err_tree_looked_up cfg nc nt _ d t row l E W Hl).
    2:{ apply Hrows. rewrite <- (rs_fst nc nt d W). change row with (fst (row, l)). now apply in_map. }
    unfold row_err, g. field. auto.
Qed.

(* ------------------------------------------------------------------ *)
(** ** Ensembles *)

Definition gl_val (l : @grad_boost_leaf xr_ops) : list R := match gl_output l with Some o => map xval o | None => [] end.

Lemma mk_gb_val nc nt (d : @dataset xr_ops) l : wf_dataset nc nt d -> real_labels (rl d) d ->
  mk_gb (leaf_output_calculator_new Regression) d = Ok l -> gl_val l = means nt (rl d).
Proof. intros W Hl E. apply (mk_gb_regression nc nt d l W Hl) in E as ->. unfold gl_val. cbn [gl_output]. apply map_xval_Fin. Qed.

Lemma looked_up_out nc nt cfg level d t row :
  built (mk_gb (leaf_output_calculator_new Regression)) cfg level d t -> wf_dataset nc nt d -> real_labels (rl d) d -> (nc <= length row)%nat ->
  @gb_out xr_ops row t = Ok (map Fin (looked_up gl_val t row)) /\ length (looked_up gl_val t row) = nt.
Proof.
  intros B W Hl Hr. destruct (built_lookup_mk _ _ _ _ _ _ _ row B W Hr) as (ld & l & Ef & Em & Es & Wl).
  assert (Hi : incl (samples ld) (samples d)) by (rewrite Es; apply filter_incl).
  pose proof (finite_sub _ _ _ _ W Wl Hi Hl) as Hld.
  pose proof (mk_gb_regression nc nt ld l Wl Hld Em) as ->.
  unfold gb_out, looked_up. xr. rewrite Ef. cbn [bind unwrap gl_output gl_val]. rewrite map_xval_Fin.
  split; [reflexivity|apply means_length].
Qed.

Lemma Forall2_mapM {A B} (P : B -> Prop) (h : B -> list xr) (f : A -> res (list xr)) rows ps :
  Forall2 (fun row p => f row = Ok (h p) /\ P p) rows ps -> mapM f rows = Ok (map h ps).
Proof. induction 1 as [|row p rows ps [E _] H IH]; [reflexivity|]. cbn [mapM map]. rewrite E. cbn [bind]. now rewrite IH. Qed.

Theorem ensemble_balance nc nt (d : @dataset xr_ops) ls cfg n lr m :
  wf_dataset nc nt d -> real_labels ls d -> regression_boost_train d cfg n (Fin lr) = Ok m ->
  exists ps, mapM (regression_boost_predict m) (feature_rows d) = Ok (map (map Fin) ps) /\ rectangular nt ps /\
    forall j, (j < nt)%nat -> mean (target j ps) = mean (target j ls).
Proof.
  intros W Hl E. destruct (guess_real _ _ _ _ _ _ _ _ W Hl E) as (Hg & Hlr & HT). pose proof (xr_len _ _ _ _ W Hl) as HLr.
  destruct (real_rect nc nt d ls W Hl) as [Rl Hne].
  assert (Hrows : forall row, In row (feature_rows d) -> (nc <= length row)%nat) by (intros; eapply ProofBoostExact.row_long; eauto).
  assert (G : forall k, (k <= n)%nat -> exists ps,
    Forall2 (fun row p => regression_boost_predict (first_trees k m) row = Ok (map Fin p) /\ length p = nt) (feature_rows d) ps /\
    forall j, (j < nt)%nat -> Rsum (target j ps) = Rsum (target j ls)).
  { induction k as [|k IH]; intros Hk.
    - exists (map (fun _ => means nt ls) (feature_rows d)). split.
      + generalize (feature_rows d). intros rows. clear -Hg. induction rows as [|row rows IH]; [constructor|]. cbn [map]. constructor; auto. split; [|apply means_length].
        unfold regression_boost_predict. rewrite predict_instance_raw. cbn [first_trees m_trees m_initial_guess m_learning_rate firstn]. rewrite Hg. reflexivity.
      + intros j Hj. unfold target at 1. rewrite map_map, mean_nth by auto. rewrite Rsum_map_const. xr. rewrite HLr.
        assert (Hnt : target j ls <> []) by (unfold target; destruct ls; [congruence|discriminate]).
        pose proof (mean_sum (target j ls) Hnt) as M. rewrite target_length in M. exact M.
    - destruct (IH ltac:(lia)) as (ps & HP & HM).
      destruct (regression_stage d cfg n (Fin lr) m k (wf_lengths _ _ _ W) E Hk) as (preds & t & Ep & Hs & Ht & Eb).
      unfold regression_boost_all_predictions in Ep. rewrite all_predictions_eq in Ep.
      apply (Forall2_real nt _ _ ps) in Ep; auto. subst preds.
      assert (HL : length ps = length ls) by (rewrite <- (Forall2_length _ _ _ HP); exact HLr).
      pose proof (Forall2_rect _ _ _ _ HP) as Rp.
      destruct (residual_data nc nt d ls ps W Hl HL Rp) as [Wr Hr'].
      rewrite grad_boost_tree_new_eq in Eb. apply build_with_built in Eb. pose proof (real_rl _ _ Hr') as Erl. rewrite <- Erl in Hr'.
      exists (map2 (fun row p => vstep lr p (looked_up gl_val t row)) (feature_rows d) ps). split.
      + assert (Hout : forall row, In row (feature_rows d) -> @gb_out xr_ops row t = Ok (map Fin (looked_up gl_val t row)) /\ length (looked_up gl_val t row) = nt).
        { intros row Hin. eapply looked_up_out; eauto. }
        revert HP Hout. generalize (feature_rows d). clear -Ht Hlr E.
        intros rows HP. induction HP as [|row p rows ps [A B] HP IH]; intros Hout; cbn [map2]; constructor.
        * destruct (Hout row (or_introl eq_refl)) as [Ho Lo]. split; [eapply next_prediction; eauto|]. rewrite vstep_length; congruence.
        * apply IH. intros; apply Hout; now right.
      + intros j Hj. rewrite <- (HM j Hj).
        pose proof (balanced nc nt _ gl_val (mk_gb_val nc nt) cfg _ _ t (fun _ => 1) j Eb Wr Hr' Hj) as Bal.
        assert (Ers : rs (mkDS (O := xr_ops) (feature_rows d) (differences (labels d) (map (map Fin) ps)) (feature_columns d)) =
                      combine (feature_rows d) (map2 vsub ls ps)).
        { transitivity (combine (map fst (rs (mkDS (O := xr_ops) (feature_rows d) (differences (labels d) (map (map Fin) ps)) (feature_columns d))))
                                (map snd (rs (mkDS (O := xr_ops) (feature_rows d) (differences (labels d) (map (map Fin) ps)) (feature_columns d))))).
          { clear. generalize (rs (mkDS (O := xr_ops) (feature_rows d) (differences (labels d) (map (map Fin) ps)) (feature_columns d))).
            induction l as [|[a b] l IH]; [reflexivity|]. cbn. now rewrite <- IH. }
          rewrite (rs_fst nc nt _ Wr), (rs_snd nc nt _ Wr), Erl. reflexivity. }
        rewrite Ers in Bal.
        assert (Lout : forall row, In row (feature_rows d) -> length (looked_up gl_val t row) = nt).
        { intros row Hin. eapply looked_up_out; eauto. }
        pose proof (HM j Hj) as HMj.
        assert (K : Rsum (target j (map2 (fun row p => vstep lr p (looked_up gl_val t row)) (feature_rows d) ps)) =
          Rsum (target j ps) + lr * (Rsum (map (fun p => 1 * (nth j (looked_up gl_val t (fst p)) 0 - nth j (snd p) 0)) (combine (feature_rows d) (map2 vsub ls ps)))
            + (Rsum (target j ls) - Rsum (target j ps)))).
        { clear -HL HLr Rl Rp Lout Hj. revert ps ls HL HLr Rl Rp Lout. xr. generalize (feature_rows d).
          induction l as [|row rows IH]; intros [|p ps] [|l ls] HL HLr Rl Rp Lout; try discriminate; [cbn; ring|].
          injection HL as HL. injection HLr as HLr. inversion Rl; inversion Rp; subst. cbn [combine map map2 fst snd target]. rewrite !Rsum_cons.
          fold (target j ls). fold (target j ps). fold (target j (map2 (fun row p => vstep lr p (looked_up gl_val t row)) rows ps)).
          rewrite (IH ps ls) by (auto; intros; apply Lout; now right).
          pose proof (Lout row (or_introl eq_refl)) as Lr.
          assert (Hv : nth j (vsub l p) 0 = nth j l 0 - nth j p 0) by (apply nth_map2; lia). unfold vstep at 1. rewrite nth_map2, Hv by lia. ring. }
        rewrite K. cbv beta in Bal. rewrite Bal, HMj. ring. }
  destruct (G n (le_n n)) as (ps & HP & HM).
  assert (Em : first_trees n m = m) by (unfold first_trees; rewrite <- HT, firstn_all; now destruct m). rewrite Em in HP.
  exists ps. split; [eapply Forall2_mapM; exact HP|]. split; [exact (Forall2_rect _ _ _ _ HP)|].
  intros j Hj. unfold mean. rewrite (HM j Hj), !target_length. f_equal. f_equal. rewrite <- (Forall2_length _ _ _ HP). exact HLr.
Qed.
