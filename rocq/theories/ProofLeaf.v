(** What the leaves of built trees hold, row by row. *)
From Coq Require Import Lia Permutation.
From Verif Require Import Base Num ModelCommon ModelTree ModelBoost Spec SpecTree SpecScore SpecFit Lib ProofData ProofSort
  ProofTree ProofTree3 ProofScore ProofScore2 ProofBoost ProofBoost2.
Local Open Scope nat_scope.

(* ------------------------------------------------------------------ *)
(** ** Looking a row up in two trees built from the same data *)

Section Lookup.
Context {O : NumOps}.

Lemma built_lookup_mk {L} (mk : dataset -> res L) cfg nc nt level d t row :
  built mk cfg level d t -> wf_dataset nc nt d -> (nc <= length row)%nat ->
  exists ld l, find_leaf_node_for_data row t = Ok l /\ mk ld = Ok l /\
    samples ld = samples_like row t d /\ wf_dataset nc nt ld.
Proof.
  induction 1 as [level d s l Es Est El|level d s fd td t f Es Est Ep Bt IHt Bf IHf]; intros W Hx.
  - exists d, l. split; [reflexivity|]. split; auto. split; auto. symmetry. apply filter_all. reflexivity.
  - destruct (partition_wf nc nt d _ fd td W Ep) as (Hq & Wf & Wt & St & Sf).
    unfold samples_like. simpl. rewrite solve_Ok by lia. simpl. destruct (answers (bs_question s) row) eqn:A.
    + destruct (IHt Wt Hx) as (ld & l & E & El & Hs & Hw). exists ld, l. split; [exact E|]. split; auto. split; auto.
      rewrite Hs. unfold samples_like. rewrite St, filter_filter.
      apply filter_ext_In. intros p _. destruct (answers (bs_question s) (fst p)); reflexivity.
    + destruct (IHf Wf Hx) as (ld & l & E & El & Hs & Hw). exists ld, l. split; [exact E|]. split; auto. split; auto.
      rewrite Hs. unfold samples_like. rewrite Sf, filter_filter.
      apply filter_ext_In. intros p _. destruct (answers (bs_question s) (fst p)); reflexivity.
Qed.

Lemma firstn_snoc {A} (l : list A) k x : nth_error l k = Some x -> firstn (S k) l = firstn k l ++ [x].
Proof. revert k; induction l as [|y l IH]; intros [|k] H; try discriminate; cbn in *; [now injection H as ->|]. f_equal. auto. Qed.

(** Inverting [built] in the two cases. *)
Lemma built_leaf_inv {L} (mk : dataset -> res L) cfg level d t s :
  built mk cfg level d t -> tc_split_finder cfg d (tc_number_of_classes cfg) = Ok s ->
  stop_here s level (tc_max_levels cfg) = true -> exists l, mk d = Ok l /\ t = leaf_node (bs_question s) l.
Proof. intros B E St. inversion B; subst; rewrite E in *; match goal with H : Ok _ = Ok _ |- _ => injection H as -> end; [eauto|congruence]. Qed.

Lemma built_node_inv {L} (mk : dataset -> res L) cfg level d t s fd td :
  built mk cfg level d t -> tc_split_finder cfg d (tc_number_of_classes cfg) = Ok s ->
  stop_here s level (tc_max_levels cfg) = false -> partition d (bs_question s) = Ok (fd, td) ->
  exists a b, built mk cfg (level + 1) td a /\ built mk cfg (level + 1) fd b /\ t = node_new (bs_question s) a b.
Proof.
  intros B E St Ep. inversion B; subst; rewrite E in *; match goal with H : Ok _ = Ok _ |- _ => injection H as -> end; [congruence|].
  match goal with H : partition _ _ = _ |- _ => rewrite Ep in H; injection H as -> -> end. eauto 6.
Qed.

Lemma zip_lookup {L L'} (mk : dataset -> res L) (mk' : dataset -> res L') cfg nc nt level d t t' row :
  built mk cfg level d t -> built mk' cfg level d t' -> wf_dataset nc nt d -> (nc <= length row)%nat ->
  exists ld l l', find_leaf_node_for_data row t = Ok l /\ mk ld = Ok l /\
    find_leaf_node_for_data row t' = Ok l' /\ mk' ld = Ok l' /\ samples ld = samples_like row t d /\ wf_dataset nc nt ld.
Proof.
  intros B. revert t'. induction B as [level d s l Es Est El|level d s fd td t f Es Est Ep Bt IHt Bf IHf]; intros t' B' W Hx.
  - destruct (built_leaf_inv _ _ _ _ _ _ B' Es Est) as (l' & El' & ->).
    exists d, l, l'. split; [reflexivity|]. split; auto. split; [reflexivity|]. split; auto. split; auto. symmetry. apply filter_all. reflexivity.
  - destruct (built_node_inv _ _ _ _ _ _ _ _ B' Es Est Ep) as (a & b & Ba & Bb & ->).
    destruct (partition_wf nc nt d _ fd td W Ep) as (Hq & Wf & Wt & St & Sf).
    unfold samples_like. simpl. rewrite solve_Ok by lia. simpl. destruct (answers (bs_question s) row) eqn:A.
    + destruct (IHt _ Ba Wt Hx) as (ld & l & l' & E & El & E' & El' & Hs & Hw). exists ld, l, l'.
      split; [exact E|]. split; auto. split; [exact E'|]. split; auto. split; auto.
      rewrite Hs. unfold samples_like. rewrite St, filter_filter.
      apply filter_ext_In. intros p _. destruct (answers (bs_question s) (fst p)); reflexivity.
    + destruct (IHf _ Bb Wf Hx) as (ld & l & l' & E & El & E' & El' & Hs & Hw). exists ld, l, l'.
      split; [exact E|]. split; auto. split; [exact E'|]. split; auto. split; auto.
      rewrite Hs. unfold samples_like. rewrite Sf, filter_filter.
      apply filter_ext_In. intros p _. destruct (answers (bs_question s) (fst p)); reflexivity.
Qed.

End Lookup.

(* ------------------------------------------------------------------ *)
(** ** Leaf outputs *)

Section Denominator.
Context {O : NumOps}.

Lemma filter_sub {A} (f : A -> bool) l : incl (filter f l) l.
Proof. intros x Hx. now apply filter_In in Hx. Qed.

Definition dterm (x : F) : F := fmul (fabs x) (fsub f1 (fabs x)).

Lemma denominator_eq k vv : vv <> [] -> rectangular k vv ->
  calculate_denominator_term_for_leaf_output vv = Ok (colsum k (map (map dterm) vv)).
Proof.
  intros Hne Hr. unfold calculate_denominator_term_for_leaf_output. 
  assert (E : exists v, idx vv 0 = Ok v /\ length v = k).
  { destruct vv as [|v ws]; [congruence|]. exists v. split; [reflexivity|]. now inversion Hr. }
  destruct E as (v & -> & Lv). cbn [bind]. rewrite Lv. clear Hne Lv.
  unfold colsum. assert (Hz : length (repeat f0 k) = k) by apply repeat_length. revert Hz. generalize (repeat f0 k).
  induction Hr as [|l ls Hl Hr IH]; intros acc Hacc; cbn [foldM map fold_left]; [reflexivity|].
  unfold add_f64_slices_as_vector at 1. rewrite zip_with_eq by now rewrite map_length, Hl. cbn [bind].
  apply IH. rewrite map2_length, map_length. lia.
Qed.

Lemma class_calc_eq nc nt d : wf_dataset nc nt d ->
  leaf_output_calculator_new MultiClassClassification d =
  Ok (map (fun e => fmul e (fdiv (fsub (f_of_nat nt) f1) (f_of_nat nt)))
          (map2 fdiv (colsum nt (labels d)) (colsum nt (map (map dterm) (labels d))))).
Proof.
  intros W. pose proof (wf_labels _ _ _ W) as Hl. pose proof (wf_lengths _ _ _ W) as HL.
  assert (Hne : labels d <> []).
  { pose proof (wf_nonempty _ _ _ W). destruct (labels d); [|discriminate]. destruct (feature_rows d); [congruence|discriminate]. }
  cbn [leaf_output_calculator_new]. unfold calculate_leaf_output_multi_class_loss.
  rewrite (sum_of_f64_vectors_eq nt) by auto. cbn [bind]. rewrite (denominator_eq nt) by auto. cbn [bind].
  unfold divide_f64_slices_as_vector. rewrite zip_with_eq.
  - cbn [bind]. destruct (labels d) as [|l0 ls] eqn:E; [congruence|]. cbn [idx nth_error bind].
    assert (L0 : length l0 = nt) by now inversion Hl. now rewrite L0.
  - rewrite !colsum_length; auto; apply rect_ge; auto. unfold rectangular in *. rewrite Forall_map. eapply Forall_impl; [|exact Hl]. intros a Ha. now rewrite map_length.
Qed.

Lemma built_leaves_sub {L} (mk : dataset -> res L) cfg nc nt level d t :
  built mk cfg level d t -> wf_dataset nc nt d ->
  Forall (fun l => exists x, wf_dataset nc nt x /\ incl (samples x) (samples d) /\ mk x = Ok l) (leaves t).
Proof.
  intros H. induction H as [level d s l Es St El|level d s fd td t f Es St Ep Ht IHt Hf IHf]; intros W.
  - constructor; [|constructor]. exists d. split; auto. split; auto. apply incl_refl.
  - destruct (partition_wf _ _ _ _ _ _ W Ep) as (_ & Wf & Wt & St' & Sf').
    cbn. apply Forall_app. split.
    + eapply Forall_impl; [|exact (IHt Wt)]. intros l (x & A & B & C). exists x. split; auto. split; auto.
      eapply incl_tran; [exact B|]. rewrite St'. apply filter_sub.
    + eapply Forall_impl; [|exact (IHf Wf)]. intros l (x & A & B & C). exists x. split; auto. split; auto.
      eapply incl_tran; [exact B|]. rewrite Sf'. apply filter_sub.
Qed.

End Denominator.

(* ------------------------------------------------------------------ *)
(** ** Leaves of boosting trees *)

Section Leaves.
Context {O : NumOps} (LW : NumLaws O).

Lemma row_long nc nt (d : dataset) row : wf_dataset nc nt d -> In row (feature_rows d) -> nc <= length row.
Proof. intros W H. apply Nat.eq_le_incl. symmetry. exact (wf_row_length nc nt d row W H). Qed.

Lemma row_sample nc nt (d : dataset) row : wf_dataset nc nt d -> In row (feature_rows d) -> exists y, In (row, y) (samples d).
Proof.
  intros W Hin. unfold samples. pose proof (wf_lengths _ _ _ W) as HL. revert HL Hin. generalize (labels d).
  induction (feature_rows d) as [|a l IH]; intros [|y ys] HL Hin; cbn in *; try lia; try tauto.
  destruct Hin as [->|Hin]; [exists y; now left|]. destruct (IH ys) as (z & Hz); [lia|auto|]. exists z. now right.
Qed.

Lemma sample_row (d : dataset) row y : In (row, y) (samples d) -> In row (feature_rows d).
Proof. apply in_combine_l. Qed.

(** Every leaf is reached by some training row. *)
Lemma built_leaf_reached {L} (mk : dataset -> res L) cfg nc nt level d t l :
  built mk cfg level d t -> wf_dataset nc nt d -> In l (leaves t) ->
  exists row, In row (feature_rows d) /\ find_leaf_node_for_data row t = Ok l.
Proof.
  induction 1 as [level d s l' Es Est El|level d s fd td t f Es Est Ep Bt IHt Bf IHf]; intros W Hin.
  - destruct Hin as [<-|[]]. pose proof (wf_nonempty _ _ _ W) as Hne. destruct (feature_rows d) as [|row rows] eqn:E; [congruence|].
    exists row. split; [now left|reflexivity].
  - destruct (partition_wf nc nt d _ fd td W Ep) as (Hq & Wf & Wt & St & Sf). cbn in Hin. apply in_app_or in Hin as [Hin|Hin].
    + destruct (IHt Wt Hin) as (row & Hr & E). pose proof (row_long _ _ _ _ Wt Hr) as Hl.
      destruct (row_sample _ _ _ _ Wt Hr) as (y & Hy). rewrite St in Hy. apply filter_In in Hy as [Hy A]. cbn [fst] in A.
      exists row. split; [eapply sample_row; exact Hy|]. simpl. rewrite solve_Ok by lia. cbn [bind]. now rewrite A.
    + destruct (IHf Wf Hin) as (row & Hr & E). pose proof (row_long _ _ _ _ Wf Hr) as Hl.
      destruct (row_sample _ _ _ _ Wf Hr) as (y & Hy). rewrite Sf in Hy. apply filter_In in Hy as [Hy A]. cbn [fst] in A. apply negb_true_iff in A.
      exists row. split; [eapply sample_row; exact Hy|]. simpl. rewrite solve_Ok by lia. cbn [bind]. now rewrite A.
Qed.

Theorem gb_leaf_of_row nc nt d cfg kind t row :
  wf_dataset nc nt d -> grad_boost_tree_new d cfg (leaf_output_calculator_new kind) = Ok t -> nc <= length row ->
  exists x o, samples x = samples_like row t d /\ wf_dataset nc nt x /\ leaf_output_calculator_new kind x = Ok o /\ length o = nt /\
    find_leaf_node_for_data row t = Ok (mkGL (Some o)).
Proof.
  intros W E Hr. rewrite grad_boost_tree_new_eq in E. apply build_with_built in E.
  destruct (built_lookup_mk _ _ _ _ _ _ _ row E W Hr) as (x & l & Ef & Em & Sx & Wx).
  destruct (calc_total _ _ kind x Wx) as (o & Eo & Ho). unfold mk_gb in Em. rewrite Eo in Em. cbn [bind] in Em. injection Em as <-.
  exists x, o. auto.
Qed.

Theorem amg_leaf_of_row nc nt d cfg kind t row :
  0 < nt -> wf_dataset nc nt d -> amg_boost_tree_new d cfg (leaf_output_calculator_new kind) = Ok t -> nc <= length row ->
  exists x o m c, samples x = samples_like row t d /\ wf_dataset nc nt x /\ leaf_output_calculator_new kind x = Ok o /\ length o = nt /\
    find_leaf_node_for_data row t = Ok (mkAL (Some m) (Some c)) /\ c < nt /\ first_largest o c /\
    (nth_error o c = Some m /\ fltb fninf m = true \/ (m = fninf /\ forall y, In y o -> fltb fninf y = false)).
Proof.
  intros Hnt W E Hr. rewrite amg_boost_tree_new_eq in E. apply build_with_built in E.
  destruct (built_lookup_mk _ _ _ _ _ _ _ row E W Hr) as (x & l & Ef & Em & Sx & Wx).
  destruct (calc_total _ _ kind x Wx) as (o & Eo & Ho). unfold mk_amg in Em. rewrite Eo in Em. cbn [bind] in Em. injection Em as <-.
  unfold amg_leaf_of in Ef. pose proof (argmax_bound LW o) as Hb. pose proof (argmax_first_largest LW o) as Hf. pose proof (argmax_vector LW o) as Hv.
  destruct (find_max_value_and_index_from_vector o) as [m c]. cbn [snd] in *.
  exists x, o, m, c. do 5 (split; [auto|]). split; [|split; [exact Hf|]].
  - rewrite <- Ho. apply Hb. destruct o; simpl in *; [lia|congruence].
  - destruct Hv as [(y & H1 & -> & H2 & _)|(_ & H1 & H2)]; auto.
Qed.

Theorem gb_leaves_reached nc nt d cfg kind t l :
  wf_dataset nc nt d -> grad_boost_tree_new d cfg (leaf_output_calculator_new kind) = Ok t -> In l (leaves t) ->
  exists row, In row (feature_rows d) /\ find_leaf_node_for_data row t = Ok l.
Proof. intros W E. rewrite grad_boost_tree_new_eq in E. apply build_with_built in E. eapply built_leaf_reached; eauto. Qed.

Theorem amg_leaves_reached nc nt d cfg kind t l :
  wf_dataset nc nt d -> amg_boost_tree_new d cfg (leaf_output_calculator_new kind) = Ok t -> In l (leaves t) ->
  exists row, In row (feature_rows d) /\ find_leaf_node_for_data row t = Ok l.
Proof. intros W E. rewrite amg_boost_tree_new_eq in E. apply build_with_built in E. eapply built_leaf_reached; eauto. Qed.

Theorem regression_leaves_reached nc nt d cfg t l :
  wf_dataset nc nt d -> regression_tree_new d cfg = Ok t -> In l (leaves t) ->
  exists row, In row (feature_rows d) /\ find_leaf_node_for_data row t = Ok l.
Proof. intros W E. rewrite regression_tree_new_eq in E. apply build_with_built in E. eapply built_leaf_reached; eauto. Qed.

(** C42, for every leaf. *)
Theorem amg_leaf_values_reached nc nt d cfg kind t l :
  0 < nt -> wf_dataset nc nt d -> amg_boost_tree_new d cfg (leaf_output_calculator_new kind) = Ok t -> In l (leaves t) ->
  exists row x o m c, In row (feature_rows d) /\ find_leaf_node_for_data row t = Ok l /\
    samples x = samples_like row t d /\ wf_dataset nc nt x /\ leaf_output_calculator_new kind x = Ok o /\ length o = nt /\
    al_max l = Some m /\ al_class l = Some c /\ c < nt /\ first_largest o c /\
    (nth_error o c = Some m /\ fltb fninf m = true \/ (m = fninf /\ forall y, In y o -> fltb fninf y = false)).
Proof.
  intros Hnt W E Hin. destruct (amg_leaves_reached nc nt d cfg kind t l W E Hin) as (row & Hr & Ef).
  destruct (amg_leaf_of_row nc nt d cfg kind t row Hnt W E (row_long _ _ _ _ W Hr)) as (x & o & m & c & A & B & C & D & G & H).
  rewrite Ef in G. injection G as ->. exists row, x, o, m, c. cbn. auto 10.
Qed.

(** Training adds the learning rate times the reconstructed vector, the one predictions use. *)
Theorem amg_training_update (td td' : training_data) (t : tree_node amg_leaf) (lr : F) k :
  length (td_labels td) = length (feature_rows (td_data td)) -> td_size td = length (td_labels td) ->
  td_labels td <> [] -> rectangular k (td_labels td) ->
  amg_update_dataset_labels td t lr = Ok td' ->
  Forall2 (fun p s' => exists leaf o, find_leaf_node_for_data (fst p) t = Ok leaf /\ construct_approximate_leaf_output leaf k = Ok o /\
             s' = map (fun q => fadd (fst q) (fmul lr (snd q))) (combine (snd p) o))
    (combine (feature_rows (td_data td)) (td_labels td)) (td_labels td').
Proof.
  intros H1 H2 H3 H4 E. apply (amg_update td t lr td' k) in E as (_ & _ & E); auto.
  eapply Forall2_impl; [|exact E]. intros p s' (o & Eo & Lo & ->). unfold amg_out in Eo. apply bind_Ok in Eo as (leaf & E1 & E2).
  exists leaf, o. split; auto. split; auto. unfold weighted. rewrite map2_map_r. exact (map2_combine (fun x y => fadd x (fmul lr y)) (snd p) o).
Qed.


Lemma samples_labels nc nt (x : dataset) s : wf_dataset nc nt x -> samples x = s -> map snd s = labels x.
Proof. intros W <-. apply map_snd_combine. now rewrite (wf_lengths _ _ _ W). Qed.

Lemma by_position {A} (l : list A) (f : nat -> A) n : length l = n -> (forall j, j < n -> nth_error l j = Some (f j)) -> l = map f (seq 0 n).
Proof.
  intros L H. apply nth_error_ext. intros j. rewrite nth_error_map, nth_error_seq0. destruct (Nat.ltb_spec j n) as [Hj|Hj]; cbn; auto.
  apply nth_error_None. lia.
Qed.

Lemma regression_calc nc nt x : wf_dataset nc nt x ->
  leaf_output_calculator_new Regression x = Ok (map (average_of (labels x)) (seq 0 nt)).
Proof.
  intros W. destruct (calc_total _ _ Regression x W) as (o & Eo & Lo). rewrite Eo. f_equal.
  cbn [leaf_output_calculator_new] in Eo. unfold calculate_leaf_output_squared_loss in Eo.
  pose proof (wf_labels _ _ _ W) as R. rewrite (calculate_average_f64_vector_eq nt) in Eo; auto.
  - injection Eo as <-. apply by_position; auto. intros j Hj. now apply colmean_nth.
  - intros E0. apply (wf_nonempty _ _ _ W). pose proof (wf_lengths _ _ _ W) as L. rewrite E0 in L. now apply length_zero_iff_nil.
Qed.

Lemma class_calc nc nt x : wf_dataset nc nt x ->
  leaf_output_calculator_new MultiClassClassification x = Ok (map (class_output_of nt (labels x)) (seq 0 nt)).
Proof.
  intros W. destruct (calc_total _ _ MultiClassClassification x W) as (o & Eo & Lo). rewrite Eo. f_equal.
  rewrite (class_calc_eq nc nt x W) in Eo. injection Eo as <-. apply by_position; auto. intros j Hj.
  pose proof (wf_labels _ _ _ W) as R.
  assert (R' : rectangular nt (map (map dterm) (labels x))).
  { unfold rectangular in *. rewrite Forall_map. eapply Forall_impl; [|exact R]. intros a Ha. now rewrite map_length. }
  rewrite nth_error_map, nth_error_map2, !(colsum_nth nt) by (auto using rect_ge). cbn [option_map]. unfold class_output_of. do 4 f_equal.
  clear. induction (labels x) as [|a l IH]; cbn; auto. rewrite map_app, IH. f_equal. rewrite nth_error_map. now destruct (nth_error a j).
Qed.

Theorem gb_regression_leaf nc nt d cfg t row :
  wf_dataset nc nt d -> grad_boost_tree_new d cfg (leaf_output_calculator_new Regression) = Ok t -> nc <= length row ->
  find_leaf_node_for_data row t = Ok (mkGL (Some (map (average_of (map snd (samples_like row t d))) (seq 0 nt)))).
Proof.
  intros W E Hr. destruct (gb_leaf_of_row nc nt d cfg Regression t row W E Hr) as (x & o & Sx & Wx & Ec & _ & Ef).
  rewrite (regression_calc nc nt x Wx) in Ec. injection Ec as <-. now rewrite (samples_labels nc nt x _ Wx Sx).
Qed.

Theorem gb_class_leaf nc nt d cfg t row :
  wf_dataset nc nt d -> grad_boost_tree_new d cfg (leaf_output_calculator_new MultiClassClassification) = Ok t -> nc <= length row ->
  find_leaf_node_for_data row t = Ok (mkGL (Some (map (class_output_of nt (map snd (samples_like row t d))) (seq 0 nt)))).
Proof.
  intros W E Hr. destruct (gb_leaf_of_row nc nt d cfg MultiClassClassification t row W E Hr) as (x & o & Sx & Wx & Ec & _ & Ef).
  rewrite (class_calc nc nt x Wx) in Ec. injection Ec as <-. now rewrite (samples_labels nc nt x _ Wx Sx).
Qed.

Theorem amg_class_leaf nc nt d cfg t row :
  0 < nt -> wf_dataset nc nt d -> amg_boost_tree_new d cfg (leaf_output_calculator_new MultiClassClassification) = Ok t -> nc <= length row ->
  exists m c, find_leaf_node_for_data row t = Ok (mkAL (Some m) (Some c)) /\ c < nt /\
    first_largest (map (class_output_of nt (map snd (samples_like row t d))) (seq 0 nt)) c /\
    (m = class_output_of nt (map snd (samples_like row t d)) c /\ fltb fninf m = true \/
     (m = fninf /\ forall j, j < nt -> fltb fninf (class_output_of nt (map snd (samples_like row t d)) j) = false)).
Proof.
  intros Hnt W E Hr. destruct (amg_leaf_of_row nc nt d cfg MultiClassClassification t row Hnt W E Hr)
    as (x & o & m & c & Sx & Wx & Ec & _ & Ef & Hc & Hfl & Hm).
  rewrite (class_calc nc nt x Wx) in Ec. injection Ec as <-. rewrite (samples_labels nc nt x _ Wx Sx).
  exists m, c. split; auto. split; auto. split; auto. destruct Hm as [Hm|[-> Hm]].
  - left. destruct Hm as [Hm Hgt]. split; auto. rewrite nth_error_map, nth_error_seq0 in Hm. apply Nat.ltb_lt in Hc. rewrite Hc in Hm. cbn in Hm. congruence.
  - right. split; auto. intros j Hj. apply Hm. apply in_map. apply in_seq. lia.
Qed.

End Leaves.
