(** Training on data of consistent shape panics exactly if it is empty or has a NaN feature among several rows (C64). *)
From Flocq Require Import IEEE754.BinarySingleNaN.
From Verif Require Import Base Num ModelCommon ModelTree ModelBoost Lib Spec SpecTree SpecScore SpecPanic F64 ProofData ProofSort
  ProofSplit ProofSplit2 ProofTree ProofTree2 ProofTree3 ProofScore ProofBoost.

Section Panic.
Context {O : NumOps} (LW : NumLaws O).

Lemma rect_wf nc nt d : rect_dataset nc nt d -> feature_rows d <> [] -> Forall (Forall is_num) (feature_rows d) -> wf_dataset nc nt d.
Proof. intros [] H1 H2. constructor; auto. Qed.

Lemma empty_split k d : feature_rows d = [] -> labels d = [] -> find_best_split d (N.of_nat k) = Panic.
Proof.
  intros E El. unfold find_best_split. rewrite Nat2N.id, E, El.
  destruct (get_multi_target_label_metrics_eq k []) as [Em Hm]; [constructor|]. rewrite Em. cbn [bind].
  unfold get_total_variance_sum. rewrite calculate_variance_vector_eq by auto. reflexivity.
Qed.


Lemma Forall2_In_l {A B} (R : A -> B -> Prop) l l' x : Forall2 R l l' -> In x l -> exists y, In y l' /\ R x y.
Proof.
  induction 1 as [|a b l l' H _ IH]; intros []; [subst; exists b; cbn; auto|].
  destruct IH as (y & Hy & Hr); auto. exists y. cbn. auto.
Qed.

Lemma split_columns_sort d k b col :
  find_best_split d k = Ok b -> In col (feature_columns d) -> get_sorted_feature_tuple_vector col <> Panic.
Proof.
  unfold find_best_split. intros E Hin Hp. apply bind_Ok in E as (m & _ & E). apply bind_Ok in E as (tv & _ & E).
  apply bind_Ok in E as (r0 & _ & E). apply bind_Ok in E as (rs & Er & _).
  apply mapM_Forall2 in Er. destruct (Forall2_In_l _ _ _ _ Er Hin) as (y & _ & Hy).
  unfold determine_best_threshold in Hy. rewrite Hp in Hy. discriminate.
Qed.

Lemma nan_split nc nt d k :
  rect_dataset nc nt d -> 2 <= length (feature_rows d) -> ~ Forall (Forall is_num) (feature_rows d) ->
  find_best_split d k = Panic.
Proof.
  intros R H2 Hn. destruct (find_best_split d k) as [b| |] eqn:E; [|reflexivity|now apply find_best_split_fuel in E].
  exfalso. apply Hn. apply Forall_forall. intros row Hrow. apply Forall_forall. intros x Hx.
  apply In_nth_error in Hrow as (i & Hi). apply In_nth_error in Hx as (j & Hj).
  destruct (rd_columns _ _ _ R) as [Lc Ht].
  assert (Hjc : j < nc).
  { assert (j < length row) by (apply nth_error_Some; congruence). pose proof (rd_rows _ _ _ R) as Rr.
    unfold rectangular in Rr. rewrite Forall_forall in Rr. rewrite <- (Rr row); auto. eapply nth_error_In; eauto. }
  destruct (lt_nth (feature_columns d) j) as (col & Ec); [lia|]. destruct (Ht _ _ Ec) as [Ll Hc].
  pose proof (split_columns_sort d k b col E (nth_error_In _ _ Ec)) as Hs.
  destruct (fleb x x) eqn:Ex; [exact Ex|]. exfalso. apply Hs. apply (get_sorted_Panic LW). split; [lia|].
  apply Exists_exists. exists x. split; [|unfold is_num; congruence].
  destruct (Hc _ _ Hi) as [_ Hci]. eapply nth_error_In with (n := i). congruence.
Qed.

Lemma build_panics {L} (mk : dataset -> res L) cfg d fuel level :
  standard cfg -> fuel <> 0 -> find_best_split d (tc_number_of_classes cfg) = Panic -> build_with mk fuel d cfg level = Panic.
Proof.
  intros Hs Hf E. destruct fuel; [congruence|]. simpl. rewrite Hs.
  change (split_finder_new Variance d) with (find_best_split d). now rewrite E.
Qed.

Lemma untrainable_split nc nt d :
  rect_dataset nc nt d -> ~ trainable d -> find_best_split d (N.of_nat nt) = Panic.
Proof.
  intros R H. destruct (feature_rows d) as [|r rows] eqn:E.
  - apply empty_split; auto. pose proof (rd_lengths _ _ _ R) as HL. rewrite E in HL. now destruct (labels d).
  - apply (nan_split nc nt); auto.
    + rewrite E. destruct rows; [|cbn; lia]. exfalso. apply H. unfold trainable. rewrite E. split; [congruence|now left].
    + intros Hn. apply H. unfold trainable. split; [congruence|now right].
Qed.

Theorem untrainable_panics nc nt d cfg calc :
  rect_dataset nc nt d -> ~ trainable d -> standard cfg -> tc_number_of_classes cfg = N.of_nat nt ->
  regression_tree_new d cfg = Panic /\ grad_boost_tree_new d cfg calc = Panic /\ amg_boost_tree_new d cfg calc = Panic.
Proof.
  intros R H Hs Hk. pose proof (untrainable_split nc nt d R H) as E. rewrite <- Hk in E.
  rewrite regression_tree_new_eq, grad_boost_tree_new_eq, amg_boost_tree_new_eq.
  repeat split; apply build_panics; auto; unfold fuel_for; lia.
Qed.

(* ------------------------------------------------------------------ *)
(** ** Ensembles, given that trees are total *)

Lemma rect_labels nc nt d r : rect_dataset nc nt d -> length r = length (feature_rows d) -> rectangular nt r ->
  rect_dataset nc nt (with_labels d r).
Proof. intros [] H1 H2. constructor; auto. Qed.

Lemma iterations_total' {L} (out : list F -> tree_node L -> res (list F)) (kind : list F -> list F)
    residuals fit update lr nc nt d g :
  rect_dataset nc nt d -> length g = nt -> (forall s, length (kind s) = length s) ->
  (forall td, td_size td = length (labels (td_data td)) -> length (td_labels td) = length (labels (td_data td)) ->
     Forall2 (fun y s => length y = length s) (labels (td_data td)) (td_labels td) ->
     residuals td = Ok (differences (labels (td_data td)) (map kind (td_labels td)))) ->
  (forall r, rect_dataset nc nt (with_labels d r) -> exists t, fit (with_labels d r) = Ok t /\ good out nc nt t) ->
  (forall td td' t, td_data td = d -> length (td_labels td) = length (feature_rows d) -> td_size td = length (td_labels td) ->
     Forall (fun s => length s = nt) (td_labels td) -> additive_update out lr td td' t -> update td t = Ok td') ->
  forall n, exists td ts, boosting_iterations residuals fit update (start d g) n = Ok (td, ts).
Proof.
  intros W Hg Hkind Hres Hfit Hupd n.
  pose proof (rd_lengths _ _ _ W) as HL.
  destruct (iter_total residuals fit update (start d g)
    (fun td ts => state_is out lr d g td ts)) with (n := n) as (td & ts & E & _).
  - now apply start_state.
  - intros td ts HI. destruct (state_lengths _ _ _ _ _ _ HL HI) as (A & B & C & D).
    pose proof HI as (D1 & D2 & D3 & D4).
    assert (D4' : rectangular nt (td_labels td)) by (unfold rectangular; rewrite <- Hg; exact D4).
    assert (Rl : rectangular nt (labels (td_data td))) by (rewrite D1; apply W).
    destruct (differences_rect nt (labels (td_data td)) (map kind (td_labels td))) as [Q1 Q2]; auto.
    { now rewrite map_length. }
    { apply Forall_forall. intros x Hx. apply in_map_iff in Hx as (s & <- & Hs). rewrite Hkind.
      unfold rectangular in D4'. rewrite Forall_forall in D4'. auto. }
    assert (Wr : rect_dataset nc nt (with_labels d (differences (labels (td_data td)) (map kind (td_labels td))))).
    { apply rect_labels; auto. rewrite Q1, D1. exact HL. }
    destruct (Hfit _ Wr) as (t & Et & Gt).
    destruct (additive_exists out lr td t nt) as (td' & Hadd); auto.
    { now rewrite D1. }
    { intros row Hin. apply Gt. rewrite D1 in Hin. pose proof (rd_rows _ _ _ W) as Rr. unfold rectangular in Rr.
      rewrite Forall_forall in Rr. rewrite (Rr _ Hin). lia. }
    exists (differences (labels (td_data td)) (map kind (td_labels td))), t, td'.
    split; [apply Hres; auto; eapply lengths_match; eauto|]. split; [rewrite D1 in Et |- *; exact Et|].
    split; [apply Hupd; auto|]. eapply state_step; eauto.
  - exists td, ts. auto.
Qed.

(** The first guess of data of consistent shape. *)
Lemma guess_rect nc nt d ty : rect_dataset nc nt d -> feature_rows d <> [] -> (Z.of_nat nt <= 2 ^ 53)%Z ->
  exists g, determine_initial_guess (mkTD d (labels d) (length (labels d))) ty = Ok g /\ length g = nt.
Proof.
  intros R NE Hn.
  pose (d0 := mkDS (repeat (repeat f0 nc) (length (feature_rows d))) (labels d) (repeat (repeat f0 (length (feature_rows d))) nc)).
  assert (W0 : wf_dataset nc nt d0).
  { unfold d0. constructor; cbn [feature_rows labels feature_columns].
    - destruct (feature_rows d); [congruence|discriminate].
    - rewrite repeat_length. apply (rd_lengths _ _ _ R).
    - apply Forall_forall. intros r Hr. apply repeat_spec in Hr. subst. apply repeat_length.
    - apply (rd_labels _ _ _ R).
    - split; [apply repeat_length|]. intros j col Ec. pose proof (nth_error_In _ _ Ec) as Hin. apply repeat_spec in Hin. subst col.
      rewrite !repeat_length. split; auto. intros i row Er. pose proof (nth_error_In _ _ Er) as Hin. apply repeat_spec in Hin. subst row.
      assert (i < length (feature_rows d)) by (rewrite <- (repeat_length (repeat f0 nc) (length (feature_rows d))); apply nth_error_Some; congruence).
      assert (j < nc) by (rewrite <- (repeat_length (repeat f0 (length (feature_rows d))) nc); apply nth_error_Some; congruence).
      rewrite repeat_length. split; auto. rewrite !nth_error_repeat by auto. reflexivity.
    - apply Forall_forall. intros r Hr. apply repeat_spec in Hr. subst. apply Forall_forall. intros x Hx. apply repeat_spec in Hx. subst.
      apply (f0_num _ LW).
    - apply (rd_u32 _ _ _ R). }
  destruct (guess_total LW nc nt d0 ty W0 Hn) as (g & E & Lg). exists g. auto.
Qed.

Lemma loop_panics {L} d cfg n lr ty (exec : executor L) :
  (forall g, determine_initial_guess (mkTD d (labels d) (length (labels d))) ty = Ok g -> exec (start d g) n cfg lr = Panic) ->
  determine_initial_guess (mkTD d (labels d) (length (labels d))) ty <> OutOfFuel ->
  boosting_loop d cfg n lr ty exec = Panic.
Proof.
  intros H Hf. unfold boosting_loop. cbn [td_labels td_data td_size].
  destruct (determine_initial_guess _ _) as [g| |] eqn:E; [|reflexivity|congruence]. cbn [bind].
  rewrite initial_update. cbn [bind]. fold (start d g). now rewrite (H g eq_refl).
Qed.

Lemma guess_fuel td ty : determine_initial_guess td ty <> OutOfFuel.
Proof.
  unfold determine_initial_guess. apply bind_fuel; [apply idx_fuel|]. intros l0 _. destruct ty; try discriminate. apply avg_fuel.
Qed.

Lemma first_stage_panics {L} residuals (fit : dataset -> res (tree_node L)) update td n :
  0 < n -> residuals td <> OutOfFuel -> (forall r, residuals td = Ok r -> fit (with_labels (td_data td) r) = Panic) ->
  boosting_iterations residuals fit update td n = Panic.
Proof.
  intros Hn Hr Hf. induction n as [|n IH]; [lia|]. destruct n as [|n].
  - unfold boosting_iterations, for_range. cbn. destruct (residuals td) as [r| |]; [|reflexivity|congruence]. cbn [bind]. now rewrite (Hf r eq_refl).
  - replace (S (S n)) with (S n + 1) by lia. rewrite iter_S, IH by lia. reflexivity.
Qed.
End Panic.

(* ------------------------------------------------------------------ *)
(** ** One row, in binary64 *)

Section One.
Context (P : platform).
Local Existing Instance f64_ops.

Lemma plus_nan_l (y : f64) : @fadd (f64_ops P) B754_nan y = B754_nan.
Proof. now destruct y. Qed.
Lemma plus_nan_r (x : f64) : @fadd (f64_ops P) x B754_nan = B754_nan.
Proof. now destruct x. Qed.
Lemma mult_nan_r (x : f64) : @fmul (f64_ops P) x B754_nan = B754_nan.
Proof. now destruct x. Qed.
Lemma fold_nan (l : list f64) : fold_left (@fadd (f64_ops P)) l B754_nan = B754_nan.
Proof. induction l as [|y l IH]; [reflexivity|]. cbn [fold_left]. now rewrite plus_nan_l. Qed.

Lemma empty_left_loss k (r : tracker) : lm_ok (S k) (tr_m r) -> ploss (zero_tracker (S k)) r = B754_nan.
Proof.
  intros (L1 & L2 & L3). unfold ploss, zero_tracker. cbn [tr_n tr_m].
  unfold pvar at 1. cbn [lm_mean lm_sumsq repeat map2].
  replace (@calculate_variance (f64_ops P) (fmul f0 f0) f0 f0) with (B754_nan : @F (f64_ops P)) by (vm_compute; reflexivity).
  unfold pvar. destruct (lm_mean (tr_m r)) as [|a ms]; [discriminate|]. destruct (lm_sumsq (tr_m r)) as [|q qs]; [discriminate|].
  cbn [map2]. unfold fsum. cbn [fold_left]. rewrite mult_nan_r, plus_nan_l, plus_nan_r. apply fold_nan.
Qed.

Lemma one_row_gain k (l : list (@F (f64_ops P))) (x : @F (f64_ops P)) : length l = k ->
  fltb f0 (fsub (ptotal_variance k [l]) (bt_loss (pcolumn k [l] [(x, l)]))) = false.
Proof.
  intros Hl. assert (Hr : rectangular k [l]) by (repeat constructor; auto).
  destruct (get_multi_target_label_metrics_eq k [l] Hr) as [_ Hm].
  unfold pcolumn, pscan. cbn [fold_left pstep sc_best sc_left sc_right fst snd bt_loss].
  destruct (feqb x x) eqn:Ex; cbn [negb]; [apply (fsub_inf _ (f64_laws P))|].
  destruct k as [|k].
  - destruct l; [|discriminate]. unfold ploss, ptotal_variance, pvar, ptotal, pmetrics. cbn [tr_m zero_tracker lm_mean lm_sumsq repeat map2].
    unfold fsum. cbn [colsum colsumsq fold_left map map2 repeat].
    cbn. destruct (p_sum_from_negative_zero P); reflexivity.
  - rewrite empty_left_loss by exact Hm. cbn [bt_loss].
    replace (@fltb (f64_ops P) B754_nan finf) with false by reflexivity. cbn [bt_loss]. apply (fsub_inf _ (f64_laws P)).
Qed.

Lemma one_row_split nc nt d : rect_dataset nc nt d -> length (feature_rows d) = 1 ->
  find_best_split d (N.of_nat nt) = Ok no_split.
Proof.
  intros R H1. pose proof (rd_lengths _ _ _ R) as HL. pose proof (rd_labels _ _ _ R) as Rl. pose proof (rd_rows _ _ _ R) as Rr.
  destruct (rd_columns _ _ _ R) as [Lc Ht].
  unfold find_best_split. rewrite Nat2N.id.
  destruct (get_multi_target_label_metrics_eq nt (labels d) Rl) as [Em Hm]. rewrite Em. cbn [bind].
  unfold get_total_variance_sum. rewrite calculate_variance_vector_eq by auto. cbn [bind].
  destruct (feature_rows d) as [|row [|]] eqn:Er; try discriminate. destruct (labels d) as [|l [|]] eqn:El; try discriminate.
  cbn [idx nth_error bind]. pose proof (Forall_inv Rr) as Hrow. pose proof (Forall_inv Rl) as Hl. cbn beta in Hrow, Hl.
  rewrite (mapM_pure _ (fun col => pcolumn nt [l] (map (fun x => (x, l)) col))).
  2:{ intros col Hin. apply In_nth_error in Hin as (j & Ej). destruct (Ht _ _ Ej) as [Lcol _]. 
      destruct col as [|x [|]]; try discriminate. unfold determine_best_threshold.
      change (get_sorted_feature_tuple_vector [x]) with (@Ok (list (@F (f64_ops P) * nat)) [(x, 0)]). cbn [bind].
      rewrite determine_best_threshold_new_eq; [reflexivity|discriminate|exact Hm|].
      constructor; [|constructor]. exists l. split; [reflexivity|]. lia. }
  cbn [bind]. rewrite map_length, Lc, Hrow, Nat.eqb_refl.
  pose (rs := map (fun col => pcolumn nt [l] (map (fun x => (x, l)) col)) (feature_columns d)).
  assert (Lrs : length rs = nc) by (unfold rs; now rewrite map_length). fold rs. rewrite <- Lrs at 1.
  rewrite select_best_column_eq. f_equal.
  destruct (pselect_spec (f64_laws P) (ptotal_variance nt [l]) rs) as [[E _]|(i & r & Hi & Eb & Hpos & _)]; [exact E|].
  exfalso. rewrite Eb in Hpos. cbn [bs_gain] in Hpos. unfold rs in Hi. rewrite nth_error_map in Hi.
  destruct (nth_error (feature_columns d) i) as [col|] eqn:Ec; [|discriminate]. injection Hi as <-.
  destruct (Ht _ _ Ec) as [Lcol _]. destruct col as [|x [|]]; try discriminate. cbn [map] in Hpos.
  pose proof (one_row_gain nt l x Hl) as H0. exact (Bool.diff_true_false (eq_trans (eq_sym Hpos) H0)).
Qed.

Lemma one_row_built {L} (mk : dataset -> res L) cfg nc nt d l : standard cfg -> tc_number_of_classes cfg = N.of_nat nt ->
  rect_dataset nc nt d -> length (feature_rows d) = 1 -> mk d = Ok l ->
  build_with mk (fuel_for d) d cfg 0 = Ok (leaf_node (Question 0 f0) l).
Proof.
  intros Hs Hk R H1 El. apply built_build_with; [|unfold fuel_for; lia].
  change (Question 0 f0) with (bs_question no_split). apply built_leaf.
  - rewrite Hs, Hk. exact (one_row_split nc nt d R H1).
  - reflexivity.
  - exact El.
Qed.

Lemma one_row_calc nc nt d kind : rect_dataset nc nt d -> length (feature_rows d) = 1 ->
  exists o, leaf_output_calculator_new kind d = Ok o /\ length o = nt.
Proof.
  intros R H1. pose (d0 := mkDS [repeat f0 nc] (labels d) (repeat [f0] nc)).
  assert (W0 : wf_dataset nc nt d0).
  { unfold d0. constructor; cbn [feature_rows labels feature_columns].
    - discriminate.
    - rewrite (rd_lengths _ _ _ R). exact H1.
    - constructor; [apply repeat_length|constructor].
    - apply (rd_labels _ _ _ R).
    - split; [apply repeat_length|]. intros j col Ec. pose proof (nth_error_In _ _ Ec) as Hin. apply repeat_spec in Hin. subst col.
      split; [reflexivity|]. assert (j < nc) by (rewrite <- (repeat_length [@f0 (f64_ops P)] nc); apply nth_error_Some; congruence).
      intros [|[|i]] row Er; try discriminate. injection Er as <-. rewrite repeat_length. split; auto. now rewrite nth_error_repeat.
    - constructor; [|constructor]. apply Forall_forall. intros x Hx. apply repeat_spec in Hx. subst. apply (f0_num _ (f64_laws P)).
    - apply (rd_u32 _ _ _ R). }
  destruct (calc_total nc nt kind d0 W0) as (o & E & Lo). exists o. split; [|exact Lo]. rewrite <- E. now destruct kind.
Qed.

Lemma grad_boost_trainable nc nt d cfg kind : standard cfg -> tc_number_of_classes cfg = N.of_nat nt ->
  rect_dataset nc nt d -> trainable d ->
  exists t, grad_boost_tree_new d cfg (leaf_output_calculator_new kind) = Ok t /\ good gb_out nc nt t.
Proof.
  intros Hs Hk R (NE & [H1|Hn]).
  - destruct (one_row_calc nc nt d kind R H1) as (o & Eo & Lo). eexists. split.
    + rewrite grad_boost_tree_new_eq. apply (one_row_built _ cfg nc nt d (mkGL (Some o))); auto. unfold mk_gb. now rewrite Eo.
    + intros row _. exists o. auto.
  - pose proof (rect_wf nc nt d R NE Hn) as W. destruct (grad_boost_total (f64_laws P) nc nt d cfg kind W Hs Hk) as (t & Et).
    exists t. split; auto. intros row Hr. eapply gb_tree_outputs; eauto.
Qed.

Lemma amg_trainable nc nt d cfg kind : standard cfg -> tc_number_of_classes cfg = N.of_nat nt ->
  rect_dataset nc nt d -> trainable d ->
  exists t, amg_boost_tree_new d cfg (leaf_output_calculator_new kind) = Ok t /\ (0 < nt -> good (amg_out nt) nc nt t).
Proof.
  intros Hs Hk R (NE & [H1|Hn]).
  - destruct (one_row_calc nc nt d kind R H1) as (o & Eo & Lo). eexists. split.
    + rewrite amg_boost_tree_new_eq. apply (one_row_built _ cfg nc nt d (amg_leaf_of o)); auto. unfold mk_amg. now rewrite Eo.
    + intros Hpos row _. unfold amg_out.
      change (find_leaf_node_for_data row (leaf_node (Question 0 f0) (amg_leaf_of o))) with (Ok (amg_leaf_of o)). cbn [bind].
      unfold construct_approximate_leaf_output, amg_leaf_of. pose proof (argmax_bound (f64_laws P) o) as Hb.
      destruct (find_max_value_and_index_from_vector o) as [m c]. cbn [snd al_max al_class unwrap bind] in *.
      rewrite upd_lt; [|rewrite repeat_length, <- Lo; apply Hb; destruct o; cbn in *; [lia|congruence]].
      eexists. split; [reflexivity|]. now rewrite length_list_set, repeat_length.
  - pose proof (rect_wf nc nt d R NE Hn) as W. destruct (amg_total (f64_laws P) nc nt d cfg kind W Hs Hk) as (t & Et).
    exists t. split; auto. intros Hp row Hr. eapply (amg_tree_outputs (f64_laws P)); eauto.
Qed.

Theorem trees_panic_exactly nc nt d cfg kind :
  rect_dataset nc nt d -> standard cfg -> tc_number_of_classes cfg = N.of_nat nt ->
  succeeds_exactly_if (trainable d) (regression_tree_new d cfg) /\
  succeeds_exactly_if (trainable d) (grad_boost_tree_new d cfg (leaf_output_calculator_new kind)) /\
  succeeds_exactly_if (trainable d) (amg_boost_tree_new d cfg (leaf_output_calculator_new kind)).
Proof.
  intros R Hs Hk.
  pose proof (fun H => untrainable_panics (f64_laws P) nc nt d cfg (leaf_output_calculator_new kind) R H Hs Hk) as HP.
  split; [|split]; (split; [intros H|intros H; apply HP; exact H]).
  - destruct H as (NE & [H1|Hn]).
    + eexists. rewrite regression_tree_new_eq. apply (one_row_built _ cfg nc nt d (mkRL (Some d))); auto.
    + exact (regression_total (f64_laws P) nc nt d cfg (rect_wf nc nt d R NE Hn) Hs Hk).
  - destruct (grad_boost_trainable nc nt d cfg kind Hs Hk R H) as (t & Et & _). eauto.
  - destruct (amg_trainable nc nt d cfg kind Hs Hk R H) as (t & Et & _). eauto.
Qed.

Lemma trainable_labels d r : trainable d <-> trainable (with_labels d r).
Proof. reflexivity. Qed.

Section Ensembles.
Context (nc nt : nat) (d : @dataset (f64_ops P)) (cfg : tree_config) (n : nat) (lr : @F (f64_ops P)).
Hypotheses (R : rect_dataset nc nt d) (Hs : standard cfg) (Hk : tc_number_of_classes cfg = N.of_nat nt)
  (Hnt : (Z.of_nat nt <= 2 ^ 53)%Z).

Lemma residuals_start (residuals : training_data -> res (list (list (@F (f64_ops P))))) (kind : list (@F (f64_ops P)) -> list (@F (f64_ops P))) g :
  (forall td r, td_size td = length (labels (td_data td)) -> length (td_labels td) = length (labels (td_data td)) ->
    (residuals td = Ok r <-> Forall2 (fun y s => length y = length s) (labels (td_data td)) (td_labels td) /\
     r = differences (labels (td_data td)) (map kind (td_labels td)))) ->
  (forall s, length (kind s) = length s) ->
  length g = nt -> exists r, residuals (start d g) = Ok r /\ rect_dataset nc nt (with_labels d r).
Proof.
  intros Hr Hkind Hg. exists (differences (labels d) (map kind (repeat g (length (labels d))))). split.
  - apply (Hr (start d g)); cbn [start td_size td_labels td_data]; [reflexivity|now rewrite repeat_length|]. split; [|reflexivity].
    apply (lengths_match nt); [now rewrite repeat_length|apply (rd_labels _ _ _ R)|].
    apply Forall_forall. intros s Hin. apply repeat_spec in Hin. now subst.
  - destruct (differences_rect nt (labels d) (map kind (repeat g (length (labels d))))) as [Q1 Q2].
    + now rewrite map_length, repeat_length.
    + apply (rd_labels _ _ _ R).
    + apply Forall_forall. intros x Hx. apply in_map_iff in Hx as (s & <- & Hin). apply repeat_spec in Hin. subst s. now rewrite Hkind.
    + apply rect_labels; auto. rewrite Q1. apply (rd_lengths _ _ _ R).
Qed.

Lemma no_rows_no_guess ty : feature_rows d = [] -> determine_initial_guess (mkTD d (labels d) (length (labels d))) ty = Panic.
Proof.
  intros E. pose proof (rd_lengths _ _ _ R) as HL. rewrite E in HL. destruct (labels d) eqn:El; [|discriminate].
  unfold determine_initial_guess. reflexivity.
Qed.

Lemma ensemble_panics {L} ty (exec : executor L) (residuals : training_data -> res (list (list F))) kind fit update :
  (forall td m, exec td m cfg lr = boosting_iterations residuals fit update td m) ->
  (forall td r, td_size td = length (labels (td_data td)) -> length (td_labels td) = length (labels (td_data td)) ->
    (residuals td = Ok r <-> Forall2 (fun y s => length y = length s) (labels (td_data td)) (td_labels td) /\
     r = differences (labels (td_data td)) (map kind (td_labels td)))) ->
  (forall s, length (kind s) = length s) ->
  (forall x, rect_dataset nc nt x -> ~ trainable x -> fit x = Panic) ->
  ~ (trainable d \/ n = 0 /\ feature_rows d <> []) -> boosting_loop d cfg n lr ty exec = Panic.
Proof.
  intros Hx Hr Hkind Hf H. apply loop_panics; [|apply guess_fuel]. intros g Eg.
  destruct (feature_rows d) eqn:Er.
  - rewrite no_rows_no_guess in Eg by exact Er. discriminate.
  - assert (NE : feature_rows d <> []) by congruence. rewrite <- Er in *.
    destruct (guess_rect (f64_laws P) nc nt d ty R NE Hnt) as (g' & Eg' & Lg). rewrite Eg in Eg'. injection Eg' as <-.
    rewrite Hx. destruct (residuals_start residuals kind g Hr Hkind Lg) as (r & E & Rr).
    apply first_stage_panics.
    + destruct n; [exfalso; apply H; right; split; [reflexivity|exact NE]|lia].
    + congruence.
    + intros r' E'. rewrite E in E'. injection E' as <-. apply Hf; [exact Rr|]. intros T. apply H. left. exact T.
Qed.

Lemma zero_iterations {L} ty (exec : executor L) residuals fit update :
  (forall td m, exec td m cfg lr = boosting_iterations residuals fit update td m) ->
  n = 0 -> feature_rows d <> [] -> exists m, boosting_loop d cfg n lr ty exec = Ok m.
Proof.
  intros Hx -> NE. destruct (guess_rect (f64_laws P) nc nt d ty R NE Hnt) as (g & Eg & _).
  exists (mkModel [] g lr). apply boosting_loop_Ok. cbn [m_initial_guess m_learning_rate m_trees]. split; [exact Eg|]. split; [reflexivity|].
  exists (start d g). rewrite Hx. reflexivity.
Qed.

Theorem regression_ensemble_panics_exactly :
  succeeds_exactly_if (trainable d \/ n = 0 /\ feature_rows d <> []) (regression_boost_train d cfg n lr).
Proof.
  unfold regression_boost_train. split.
  - intros [T|[Hn NE]].
    + destruct (guess_rect (f64_laws P) nc nt d RegressionBoost R (proj1 T) Hnt) as (g & Eg & Lg).
      destruct (iterations_total' gb_out (fun s => s) calculate_residuals_regression
        (fun d => grad_boost_tree_new d cfg (leaf_output_calculator_new Regression))
        (fun td tree => update_dataset_labels td tree lr) lr nc nt d g) with (n := n) as (td & ts & E); auto.
      * intros td H1 H2 H3. rewrite map_id. now apply calculate_residuals_regression_eq.
      * intros r Rr. apply (grad_boost_trainable nc nt); auto.
      * intros td td' t H1 H2 H3 H4 H5. apply gb_update; auto. congruence.
      * exists (mkModel ts g lr). apply boosting_loop_Ok. cbn. split; auto. split; auto. exists td. exact E.
    + now apply (zero_iterations RegressionBoost _ _ _ _ (fun _ _ => eq_refl)).
  - apply (ensemble_panics RegressionBoost _ calculate_residuals_regression (fun s => s) _ _ (fun _ _ => eq_refl)); auto.
    + intros td r H1 H2. rewrite map_id. now apply calculate_residuals_regression_eq.
    + intros x Rx Hx. apply (untrainable_panics (f64_laws P) nc nt x cfg _ Rx Hx Hs Hk).
Qed.

Theorem multi_class_ensemble_panics_exactly :
  succeeds_exactly_if (trainable d \/ n = 0 /\ feature_rows d <> []) (multi_class_boost_train d cfg n lr).
Proof.
  unfold multi_class_boost_train. split.
  - intros [T|[Hn NE]].
    + destruct (guess_rect (f64_laws P) nc nt d MultiClassBoost R (proj1 T) Hnt) as (g & Eg & Lg).
      destruct (iterations_total' gb_out softmax calculate_residuals_multi_class
        (fun d => grad_boost_tree_new d cfg (leaf_output_calculator_new MultiClassClassification))
        (fun td tree => update_dataset_labels td tree lr) lr nc nt d g) with (n := n) as (td & ts & E); auto.
      * apply softmax_length.
      * intros td H1 H2 H3. now apply calculate_residuals_multi_class_eq.
      * intros r Rr. apply (grad_boost_trainable nc nt); auto.
      * intros td td' t H1 H2 H3 H4 H5. apply gb_update; auto. congruence.
      * exists (mkModel ts g lr). apply boosting_loop_Ok. cbn. split; auto. split; auto. exists td. exact E.
    + now apply (zero_iterations MultiClassBoost _ _ _ _ (fun _ _ => eq_refl)).
  - apply (ensemble_panics MultiClassBoost _ calculate_residuals_multi_class softmax _ _ (fun _ _ => eq_refl)); auto.
    + apply calculate_residuals_multi_class_eq.
    + apply softmax_length.
    + intros x Rx Hx. apply (untrainable_panics (f64_laws P) nc nt x cfg _ Rx Hx Hs Hk).
Qed.

Theorem amg_ensemble_panics_exactly : 0 < nt ->
  succeeds_exactly_if (trainable d \/ n = 0 /\ feature_rows d <> []) (amg_boost_train d cfg n lr).
Proof.
  intros Hpos. unfold amg_boost_train. split.
  - intros [T|[Hn NE]].
    + destruct (guess_rect (f64_laws P) nc nt d AMGBoost R (proj1 T) Hnt) as (g & Eg & Lg).
      destruct (iterations_total' (amg_out nt) softmax calculate_residuals_multi_class
        (fun d => amg_boost_tree_new d cfg (leaf_output_calculator_new MultiClassClassification))
        (fun td tree => amg_update_dataset_labels td tree lr) lr nc nt d g) with (n := n) as (td & ts & E); auto.
      * apply softmax_length.
      * intros td H1 H2 H3. now apply calculate_residuals_multi_class_eq.
      * intros r Rr. destruct (amg_trainable nc nt (with_labels d r) cfg MultiClassClassification Hs Hk Rr T) as (t & Et & Gt). eauto.
      * intros td td' t H1 H2 H3 H4 H5. apply (amg_update _ _ _ _ nt); auto; [congruence|].
        intros E0. destruct T as [NE _]. apply NE, length_zero_iff_nil. rewrite <- H2, E0. reflexivity.
      * exists (mkModel ts g lr). apply boosting_loop_Ok. cbn. split; auto. split; auto. exists td. exact E.
    + now apply (zero_iterations AMGBoost _ _ _ _ (fun _ _ => eq_refl)).
  - apply (ensemble_panics AMGBoost _ calculate_residuals_multi_class softmax _ _ (fun _ _ => eq_refl)); auto.
    + apply calculate_residuals_multi_class_eq.
    + apply softmax_length.
    + intros x Rx Hx. apply (untrainable_panics (f64_laws P) nc nt x cfg _ Rx Hx Hs Hk).
Qed.
End Ensembles.
End One.
