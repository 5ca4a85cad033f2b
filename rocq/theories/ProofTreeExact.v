(** Regression trees in exact arithmetic: predictions are means (C27), deeper trees fit no worse (C28),
    deep trees fit consistent data exactly (C29). *)
From Coq Require Import Reals Lra Permutation Sorted.
From Verif Require Import Base Num ModelCommon ModelTree Lib XR Spec SpecTree SpecExact SpecScore SpecFit ProofReal ProofData ProofSort
  ProofSplit ProofSplit2 ProofTree ProofTree3 ProofScore ProofSplitExact ProofSplitExact2.
Local Open Scope R_scope.

(* ------------------------------------------------------------------ *)
(** ** Real labels of a data set *)

Definition xval (x : xr) : R := match x with Fin r => r | _ => 0 end.
Definition rl (d : @dataset xr_ops) : list (list R) := map (map xval) (labels d).
Definition rp (p : list xr * list xr) : list xr * list R := (fst p, map xval (snd p)).
Definition rs (d : @dataset xr_ops) : list (list xr * list R) := map rp (samples d).

Lemma map_xval_Fin l : map xval (map Fin l) = l.
Proof. rewrite map_map. apply map_id. Qed.

Lemma real_rl ls d : real_labels ls d -> rl d = ls.
Proof.
  intros H. unfold rl. rewrite H, map_map. rewrite (map_ext _ (fun l => l)) by apply map_xval_Fin. apply map_id.
Qed.

Lemma samples_snd nc nt (d : @dataset xr_ops) : wf_dataset nc nt d -> map snd (samples d) = labels d.
Proof. intros W. apply map_snd_combine. now rewrite (wf_lengths _ _ _ W). Qed.

Lemma rs_snd nc nt d : wf_dataset nc nt d -> map snd (rs d) = rl d.
Proof.
  intros W. unfold rl. rewrite <- (samples_snd nc nt d W). unfold rs. rewrite map_map.
  exact (eq_sym (map_map snd (map xval) (samples d))).
Qed.

Definition finite_vector (l : list xr) : Prop := map Fin (map xval l) = l.

Lemma finite_iff nc nt d : wf_dataset nc nt d -> (real_labels (rl d) d <-> forall p, In p (samples d) -> finite_vector (snd p)).
Proof.
  intros W. unfold real_labels, rl. rewrite <- (samples_snd nc nt d W). rewrite !map_map. split.
  - intros H p Hp. unfold finite_vector. symmetry.
    assert (E : forall l : list (list xr * list xr), map snd l = map (fun x => map Fin (map xval (snd x))) l -> forall p, In p l -> snd p = map Fin (map xval (snd p))).
    { clear. induction l as [|x l IH]; intros E p []; injection E as E1 E2; subst; auto. }
    apply (E (samples d)); auto.
  - intros H. apply map_ext_in. intros p Hp. symmetry. apply H. exact Hp.
Qed.

Lemma finite_sub nc nt d d' : wf_dataset nc nt d -> wf_dataset nc nt d' -> incl (samples d') (samples d) ->
  real_labels (rl d) d -> real_labels (rl d') d'.
Proof.
  intros W W' Hi H. apply (finite_iff nc nt d' W'). intros p Hp. apply (proj1 (finite_iff nc nt d W) H). auto.
Qed.

Lemma filter_incl {A} (p : A -> bool) l : incl (filter p l) l.
Proof. intros x Hx. now apply filter_In in Hx. Qed.

Lemma rs_filter (p : list xr -> bool) (S : list (list xr * list xr)) :
  map rp (filter (fun x => p (fst x)) S) = filter (fun x => p (fst x)) (map rp S).
Proof. induction S as [|x S IH]; auto. cbn [map filter rp fst]. destruct (p (fst x)); cbn [map]; rewrite IH; reflexivity. Qed.

(* ------------------------------------------------------------------ *)
(** ** Means *)

Definition means (k : nat) (ls : list (list R)) : list R := map (fun j => mean (target j ls)) (seq 0 k).

Lemma colmean_Fin k ls : ls <> [] -> rectangular k ls -> @colmean xr_ops k (map (map Fin) ls) = map Fin (means k ls).
Proof.
  intros Hne Hr. unfold colmean. rewrite map_length.
  etransitivity; [apply f_equal; exact (colsum_Fin k ls Hr)|].
  etransitivity; [exact (map_div_Fin (INR (length ls)) (vs k ls) (nonempty_INR ls Hne))|].
  f_equal. unfold vs, means. rewrite map_map. apply map_ext. intros j. unfold mean. now rewrite target_length.
Qed.

Lemma leaf_prediction nc nt d : wf_dataset nc nt d -> real_labels (rl d) d ->
  calculate_average_label_vector (labels d) = Ok (map Fin (means nt (rl d))).
Proof.
  intros W H. destruct (real_rect nc nt d (rl d) W H) as [Hr Hne].
  rewrite (avg_label_eq nt).
  - f_equal. etransitivity; [apply f_equal; exact H|]. now apply colmean_Fin.
  - intros E. unfold rl in Hne. rewrite E in Hne. now apply Hne.
  - exact (wf_labels _ _ _ W).
Qed.

Lemma mean_bounds l lo hi : l <> [] -> (forall x, In x l -> lo <= x <= hi) -> lo <= mean l <= hi.
Proof.
  intros Hne H. pose proof (INR_pos l Hne) as Hp. pose proof (mean_sum l Hne) as Hm.
  assert (H1 : INR (length l) * lo <= Rsum l).
  { rewrite <- (Rsum_map_const lo l). rewrite <- (map_id l) at 2. apply Rsum_map_le. intros x Hx. now apply H. }
  assert (H2 : Rsum l <= INR (length l) * hi).
  { rewrite <- (Rsum_map_const hi l). rewrite <- (map_id l) at 1. apply Rsum_map_le. intros x Hx. now apply H. }
  rewrite <- Hm in H1, H2. split; eapply Rmult_le_reg_l; eauto.
Qed.

(** C27 *)
Theorem prediction_is_mean nc nt (d : @dataset xr_ops) ls cfg t (row : list xr) :
  wf_dataset nc nt d -> real_labels ls d -> regression_tree_new d cfg = Ok t -> (nc <= length row)%nat ->
  exists group : list (list R),
    group <> [] /\ map (map Fin) group = map snd (samples_like row t d) /\
    tree_prediction row t = Ok (map (fun j => Fin (mean (target j group))) (seq 0 nt)) /\
    forall j lo hi, (j < nt)%nat -> (forall l, In l ls -> lo <= nth j l 0 <= hi) -> lo <= mean (target j group) <= hi.
Proof.
  intros W Hl E Hr. pose proof (real_rl _ _ Hl) as Erl. rewrite <- Erl in Hl.
  rewrite regression_tree_new_eq in E. apply build_with_built in E.
  destruct (built_lookup cfg nc nt 0 d t row E W Hr) as (ld & Ef & Es & Wl).
  assert (Hi : incl (samples ld) (samples d)) by (rewrite Es; apply filter_incl).
  pose proof (finite_sub _ _ _ _ W Wl Hi Hl) as Hld. destruct (real_rect _ _ _ _ Wl Hld) as [Hrect Hne].
  exists (rl ld). split; auto. split; [|split].
  - etransitivity; [symmetry; exact Hld|]. rewrite <- (samples_snd _ _ _ Wl), Es. reflexivity.
  - unfold tree_prediction. rewrite Ef. cbn [bind unwrap rl_data]. rewrite (leaf_prediction nc nt ld Wl Hld).
    unfold means. now rewrite map_map.
  - intros j lo hi Hj Hb. apply mean_bounds.
    + intros H. apply map_eq_nil in H. contradiction.
    + intros x Hx. unfold target in Hx. apply in_map_iff in Hx as (l & <- & Hin). apply Hb.
      rewrite <- Erl. unfold rl in *. apply in_map_iff in Hin as (v & <- & Hv). apply in_map.
      rewrite <- (samples_snd _ _ _ Wl) in Hv. apply in_map_iff in Hv as (p & <- & Hp).
      rewrite <- (samples_snd _ _ _ W). apply in_map. auto.
Qed.

(* ------------------------------------------------------------------ *)
(** ** Training error *)

(** Mean over the targets of the squared differences. *)
Definition row_err (k : nat) (a b : list R) : R :=
  Rsum (map (fun j => (nth j a 0 - nth j b 0) * (nth j a 0 - nth j b 0)) (seq 0 k)) / INR k.

Lemma sq_diffs_Fin a b : length a = length b ->
  @sq_diffs xr_ops (map Fin a) (map Fin b) =
  map Fin (map (fun j => (nth j a 0 - nth j b 0) * (nth j a 0 - nth j b 0)) (seq 0 (length a))).
Proof.
  unfold sq_diffs. revert b. induction a as [|x a IH]; intros [|y b] L; try discriminate; [reflexivity|].
  cbn [map2 map length seq nth]. f_equal. injection L as L. rewrite (IH b L).
  rewrite <- seq_shift, !map_map. reflexivity.
Qed.

Lemma fold_xadd_Fin l a : fold_left xadd (map Fin l) (Fin a) = Fin (a + Rsum l).
Proof.
  revert a. induction l as [|x l IH]; intros a; [cbn; f_equal; lra|]. cbn [map fold_left xadd]. rewrite IH, Rsum_cons. f_equal. lra.
Qed.

Lemma squared_Fin k a b : (0 < k)%nat -> length a = k -> length b = k ->
  @mean_sum_of_squared_differences_between_vectors xr_ops (map Fin a) (map Fin b) = Ok (Fin (row_err k a b)).
Proof.
  intros Hk La Lb. rewrite squared_loop by (rewrite !map_length; lia). f_equal.
  rewrite sq_diffs_Fin by lia. rewrite map_length, La.
  etransitivity; [apply (f_equal2 xdiv); [|reflexivity]|].
  { exact (fold_xadd_Fin _ 0). }
  etransitivity; [apply xdiv_Fin; apply not_0_INR; lia|]. f_equal. unfold row_err. f_equal. lra.
Qed.

(** The error of one sample, following the tree. *)
Fixpoint err_tree (k : nat) (t : tree_node (@regression_leaf xr_ops)) (p : list xr * list R) : R :=
  match t with
  | TreeNode _ q (Some a) (Some b) _ => if answers q (fst p) then err_tree k a p else err_tree k b p
  | TreeNode _ _ _ _ (Some l) => match rl_data l with Some d => row_err k (means k (rl d)) (snd p) | None => 0 end
  | _ => 0
  end.

Definition sum_err k t (S : list (list xr * list R)) : R := Rsum (map (err_tree k t) S).

Lemma means_length k ls : length (means k ls) = k.
Proof. unfold means. now rewrite map_length, seq_length. Qed.

Lemma sub_true nc nt d q fd td : wf_dataset nc nt d -> partition d q = Ok (fd, td) -> real_labels (rl d) d ->
  wf_dataset nc nt fd /\ wf_dataset nc nt td /\ real_labels (rl fd) fd /\ real_labels (rl td) td /\
  rs td = filter (fun p => answers q (fst p)) (rs d) /\ rs fd = filter (fun p => negb (answers q (fst p))) (rs d) /\
  (N.to_nat (q_column q) < nc)%nat.
Proof.
  intros W Ep Hl. destruct (partition_wf nc nt d q fd td W Ep) as (Hq & Wf & Wt & St & Sf).
  split; [auto|]. split; [auto|]. split; [|split]; [| |split; [|split]]; auto.
  - apply (finite_sub nc nt d); auto. rewrite Sf. apply filter_incl.
  - apply (finite_sub nc nt d); auto. rewrite St. apply filter_incl.
  - unfold rs. rewrite St. apply (rs_filter (answers q)).
  - unfold rs. rewrite Sf. apply (rs_filter (fun r => negb (answers q r))).
Qed.

Lemma tree_row_error_exact cfg nc nt level d t row l :
  built mk_reg cfg level d t -> wf_dataset nc nt d -> real_labels (rl d) d -> (0 < nt)%nat -> (nc <= length row)%nat -> length l = nt ->
  tree_row_error t (row, map Fin l) = Ok (Fin (err_tree nt t (row, l))).
Proof.
  intros B. revert row l. induction B as [level d s lf Es Est El|level d s fd td t f Es Est Ep Bt IHt Bf IHf]; intros row l W Hl Hk Hr Ln.
  - injection El as <-. unfold tree_row_error. cbn [fst snd]. cbn [leaf_node find_leaf_node_for_data bind unwrap rl_data].
    cbn. rewrite (leaf_prediction nc nt d W Hl). cbn [bind]. apply squared_Fin; auto using means_length.
  - destruct (sub_true _ _ _ _ _ _ W Ep Hl) as (Wf & Wt & Lf & Lt & _ & _ & Hq).
    specialize (IHt row l Wt Lt Hk Hr Ln). specialize (IHf row l Wf Lf Hk Hr Ln).
    unfold tree_row_error in *. cbn [fst snd] in *. cbn [node_new find_leaf_node_for_data err_tree fst].
    rewrite solve_Ok by lia. cbn [bind]. destruct (answers (bs_question s) row); assumption.
Qed.

Lemma training_error_exact cfg nc nt level d t :
  built mk_reg cfg level d t -> wf_dataset nc nt d -> real_labels (rl d) d -> (0 < nt)%nat ->
  calculate_overall_mean_squared_error d t = Ok (Fin (sum_err nt t (rs d) / INR (length (feature_rows d)))).
Proof.
  intros B W Hl Hk. rewrite tree_mse_eq by (rewrite (wf_lengths _ _ _ W); auto).
  assert (E : mapM (tree_row_error t) (samples d) = Ok (map Fin (map (err_tree nt t) (rs d)))).
  { unfold rs. rewrite !map_map. pose proof (proj1 (finite_iff nc nt d W) Hl) as Hf.
    assert (G : forall S, incl S (samples d) -> mapM (tree_row_error t) S = Ok (map (fun x => Fin (err_tree nt t (rp x))) S)).
    { induction S as [|p S IH]; intros HS; [reflexivity|]. cbn [mapM map].
      assert (Hp : In p (samples d)) by (apply HS; now left). destruct p as [row lab].
      specialize (Hf _ Hp). unfold finite_vector in Hf. cbn [snd] in Hf.
      assert (Hrow : (nc <= length row)%nat).
      { pose proof (wf_rows _ _ _ W) as R0. unfold rectangular in R0. rewrite Forall_forall in R0. rewrite (R0 row); auto. now apply in_combine_l in Hp. }
      assert (Hlab : length (map xval lab) = nt).
      { rewrite map_length. pose proof (wf_labels _ _ _ W) as R0. unfold rectangular in R0. rewrite Forall_forall in R0. apply R0. now apply in_combine_r in Hp. }
      pose proof (tree_row_error_exact cfg nc nt level d t row (map xval lab) B W Hl Hk Hrow Hlab) as Ee. rewrite Hf in Ee.
      etransitivity; [apply (f_equal2 bind); [exact Ee|reflexivity]|]. cbn [bind]. rewrite IH by (intros x Hx; apply HS; now right). reflexivity. }
    apply G. apply incl_refl. }
  rewrite E. cbn [bind]. f_equal.
  etransitivity; [apply (f_equal2 xdiv); [exact (fold_xadd_Fin _ 0)|reflexivity]|].
  etransitivity; [apply xdiv_Fin; apply nonempty_INR; exact (wf_nonempty _ _ _ W)|]. f_equal. unfold sum_err. f_equal. lra.
Qed.

Lemma sum_err_leaf nc nt q d : wf_dataset nc nt d -> (0 < nt)%nat ->
  sum_err nt (leaf_node q (mkRL (Some d))) (rs d) = tsse nt (rl d) / INR nt.
Proof.
  intros W Hk. unfold sum_err, leaf_node. cbn [err_tree rl_data].
  transitivity (Rsum (map (fun l => row_err nt (means nt (rl d)) l) (rl d))).
  { etransitivity; [|apply (f_equal (fun L => Rsum (map (fun l => row_err nt (means nt (rl d)) l) L))); exact (rs_snd nc nt d W)].
    cbv beta. rewrite map_map. reflexivity. }
  unfold row_err. unfold Rdiv at 1.
  rewrite (map_ext _ (fun l => / INR nt * Rsum (map (fun j => (nth j (means nt (rl d)) 0 - nth j l 0) * (nth j (means nt (rl d)) 0 - nth j l 0)) (seq 0 nt))))
    by (intros; apply Rmult_comm).
  rewrite Rsum_map_mult. unfold Rdiv. rewrite Rmult_comm. f_equal.
  rewrite (Rsum_swap (fun l j => (nth j (means nt (rl d)) 0 - nth j l 0) * (nth j (means nt (rl d)) 0 - nth j l 0)) (rl d) (seq 0 nt)).
  unfold tsse. apply Rsum_map_ext. intros j Hj. apply in_seq in Hj.
  unfold sse, dev, target at 3. rewrite map_map. apply Rsum_map_ext. intros l _.
  unfold means. rewrite (nth_indep _ 0 (mean (target 0 (rl d)))) by (rewrite map_length, seq_length; lia).
  rewrite (map_nth (fun j => mean (target j (rl d)))), seq_nth by lia. simpl (0 + j)%nat. lra.
Qed.

Lemma sum_err_node nt q a b S :
  sum_err nt (node_new q a b) S =
  sum_err nt a (filter (fun p => answers q (fst p)) S) + sum_err nt b (filter (fun p => negb (answers q (fst p))) S).
Proof.
  unfold sum_err. induction S as [|p S IH]; [cbn; lra|].
  cbn [map filter]. rewrite Rsum_cons, IH. cbn [node_new err_tree].
  xr. destruct (answers q (fst p)); cbn [negb map]; rewrite Rsum_cons; lra.
Qed.

Lemma sum_err_bound cfg nc nt level d t :
  built mk_reg cfg level d t -> wf_dataset nc nt d -> real_labels (rl d) d -> (0 < nt)%nat ->
  sum_err nt t (rs d) <= tsse nt (rl d) / INR nt.
Proof.
  intros B. induction B as [level d s lf Es Est El|level d s fd td t f Es Est Ep Bt IHt Bf IHf]; intros W Hl Hk.
  - injection El as <-. rewrite (sum_err_leaf nc); auto. lra.
  - destruct (sub_true _ _ _ _ _ _ W Ep Hl) as (Wf & Wt & Lf & Lt & Et & Ef & Hq).
    rewrite sum_err_node, <- Et, <- Ef. specialize (IHt Wt Lt Hk). specialize (IHf Wf Lf Hk).
    assert (HP : Permutation (rl td ++ rl fd) (rl d)).
    { rewrite <- (rs_snd _ _ _ W), <- (rs_snd _ _ _ Wt), <- (rs_snd _ _ _ Wf), Et, Ef, <- map_app.
      apply Permutation_map. symmetry. apply (Permutation_filter_split (fun p => answers (bs_question s) (fst p))). }
    pose proof (tsse_split nt (rl td) (rl fd)) as Hs. rewrite (tsse_perm nt _ _ HP) in Hs.
    assert (Hp : 0 < / INR nt) by (apply Rinv_0_lt_compat, lt_0_INR; lia).
    unfold Rdiv in *. apply Rle_trans with ((tsse nt (rl td) + tsse nt (rl fd)) * / INR nt); [lra|].
    apply Rmult_le_compat_r; lra.
Qed.

Lemma sum_err_mono cfg nc nt m m' level d t t' :
  (m <= m')%N -> (level <= m)%N ->
  built mk_reg (with_levels m cfg) level d t -> built mk_reg (with_levels m' cfg) level d t' ->
  wf_dataset nc nt d -> real_labels (rl d) d -> (0 < nt)%nat ->
  sum_err nt t' (rs d) <= sum_err nt t (rs d).
Proof.
  intros Hm Hlev B. revert t' Hlev. remember (with_levels m cfg) as c eqn:Ec.
  induction B as [level d s lf Es Est El|level d s fd td t f Es Est Ep Bt IHt Bf IHf]; intros t' Hlev B' W Hl Hk.
  - injection El as <-. rewrite (sum_err_leaf nc) by auto. eapply sum_err_bound; eauto.
  - destruct (sub_true _ _ _ _ _ _ W Ep Hl) as (Wf & Wt & Lf & Lt & Et & Ef & Hq).
    rewrite Ec in Es, Est. cbn [with_levels tc_split_finder tc_number_of_classes tc_max_levels] in Es, Est.
    assert (Hlt : (level < m)%N).
    { unfold stop_here in Est. apply orb_false_iff in Est as [_ H]. apply N.eqb_neq in H. lia. }
    inversion B' as [level' d' s' lf' Es' Est' El'|level' d' s' fd' td' a b Es' Est' Ep' Ba Bb]; subst.
    + exfalso. cbn [with_levels tc_split_finder tc_number_of_classes tc_max_levels] in Es', Est'. rewrite Es in Es'. injection Es' as <-.
      unfold stop_here in *. apply orb_false_iff in Est as [Hg _]. rewrite Hg in Est'. cbn [orb] in Est'. apply N.eqb_eq in Est'. lia.
    + cbn [with_levels tc_split_finder tc_number_of_classes tc_max_levels] in Es', Est'. rewrite Es in Es'. injection Es' as <-.
      rewrite Ep in Ep'. injection Ep' as <- <-.
      rewrite !sum_err_node, <- Et, <- Ef.
      specialize (IHt a ltac:(lia) Ba Wt Lt Hk). specialize (IHf b ltac:(lia) Bb Wf Lf Hk). lra.
Qed.

(** C28 *)
Theorem deeper_fits_no_worse nc nt (d : @dataset xr_ops) ls cfg m m' t t' :
  wf_dataset nc nt d -> real_labels ls d -> (0 < nt)%nat -> (m <= m')%N ->
  regression_tree_new d (with_levels m cfg) = Ok t -> regression_tree_new d (with_levels m' cfg) = Ok t' ->
  exists e e', calculate_overall_mean_squared_error d t = Ok (Fin e) /\
               calculate_overall_mean_squared_error d t' = Ok (Fin e') /\ e' <= e.
Proof.
  intros W Hl Hk Hm E E'. rewrite <- (real_rl _ _ Hl) in Hl. rewrite regression_tree_new_eq in E, E'.
  apply build_with_built in E, E'.
  eexists; eexists. split; [eapply training_error_exact; eauto|]. split; [eapply training_error_exact; eauto|].
  apply Rmult_le_compat_r; [apply Rlt_le, Rinv_0_lt_compat, INR_pos, (wf_nonempty _ _ _ W)|].
  eapply sum_err_mono; eauto. lia.
Qed.

Theorem single_leaf_error nc nt (d : @dataset xr_ops) ls cfg t :
  wf_dataset nc nt d -> real_labels ls d -> (0 < nt)%nat ->
  regression_tree_new d (with_levels 0 cfg) = Ok t ->
  calculate_overall_mean_squared_error d t = Ok (Fin (total_variance nt ls / INR nt)).
Proof.
  intros W Hl Hk E. pose proof (real_rl _ _ Hl) as Erl. destruct (real_rect _ _ _ _ W Hl) as [_ Hne]. rewrite <- Erl in Hl.
  rewrite regression_tree_new_eq in E. apply build_with_built in E.
  rewrite (training_error_exact _ _ _ _ _ _ E W Hl Hk). do 2 f_equal.
  inversion E as [level d' s lf Es Est El|level d' s fd td a b Es Est Ep Ba Bb]; subst.
  - injection El as <-. rewrite (sum_err_leaf nc) by auto. rewrite total_variance_tsse by auto.
    pose proof (wf_lengths _ _ _ W) as L. rewrite <- L.
    replace (length (rl d)) with (length (labels d)) by (unfold rl; now rewrite map_length).
    assert (0 < INR (length (labels d))). { rewrite L. apply INR_pos, (wf_nonempty _ _ _ W). }
    assert (0 < INR nt) by (apply lt_0_INR; lia). field. lra.
  - cbn [with_levels tc_max_levels] in Est. rewrite stop_here_max in Est. discriminate.
Qed.

(* ------------------------------------------------------------------ *)
(** ** Consistent data *)

Lemma sq_zero x : x * x = 0 -> x = 0.
Proof. intros H. destruct (Rmult_integral _ _ H); auto. Qed.

(** No gain from a cut: both sides have the overall mean. *)
Lemma no_gain_means k a b t :
  a ++ b <> [] -> b <> [] -> (t < k)%nat ->
  total_variance k (a ++ b) - remaining_variance k a b <= 0 ->
  Rsum (target t b) = INR (length b) * mean (target t (a ++ b)).
Proof.
  intros Hne Hb Ht H. rewrite total_variance_tsse, remaining_tsse in H by auto.
  pose proof (INR_pos _ Hne) as Hp.
  assert (Hle : tsse k (a ++ b) <= tsse k a + tsse k b).
  { apply Rmult_le_reg_r with (/ INR (length (a ++ b))); [now apply Rinv_0_lt_compat|]. unfold Rdiv in H. lra. }
  set (f := fun j => sse (target j (a ++ b)) - (sse (target j a) + sse (target j b))).
  assert (Hf : forall j, f j = INR (length a) * ((mean (target j (a ++ b)) - mean (target j a)) * (mean (target j (a ++ b)) - mean (target j a)))
                             + INR (length b) * ((mean (target j (a ++ b)) - mean (target j b)) * (mean (target j (a ++ b)) - mean (target j b)))).
  { intros j. unfold f. unfold sse at 1. rewrite target_app, dev_app, !dev_mean, !target_length. lra. }
  assert (Hn : forall n x, 0 <= INR n * (x * x)).
  { intros n x. apply Rmult_le_pos; [apply pos_INR|apply Rle_0_sqr]. }
  assert (Hf0 : forall x, In x (map f (seq 0 k)) -> 0 <= x).
  { intros x Hx. apply in_map_iff in Hx as (j & <- & _). rewrite Hf.
    pose proof (Hn (length a) (mean (target j (a ++ b)) - mean (target j a))).
    pose proof (Hn (length b) (mean (target j (a ++ b)) - mean (target j b))). lra. }
  assert (Hs : Rsum (map f (seq 0 k)) = 0).
  { pose proof (Rsum_nonneg _ Hf0). unfold tsse in Hle. rewrite <- Rsum_map_plus in Hle.
    assert (E : Rsum (map f (seq 0 k)) + Rsum (map (fun x => sse (target x a) + sse (target x b)) (seq 0 k)) =
                Rsum (map (fun t => sse (target t (a ++ b))) (seq 0 k))).
    { rewrite <- Rsum_map_plus. apply Rsum_map_ext. intros j _. unfold f. lra. }
    lra. }
  assert (Ht0 : f t = 0). { apply (Rsum_zero_all _ Hf0 Hs). apply in_map. apply in_seq. lia. }
  rewrite Hf in Ht0.
  pose proof (Hn (length a) (mean (target t (a ++ b)) - mean (target t a))).
  pose proof (Hn (length b) (mean (target t (a ++ b)) - mean (target t b))).
  assert (Hz : INR (length b) * ((mean (target t (a ++ b)) - mean (target t b)) * (mean (target t (a ++ b)) - mean (target t b))) = 0) by lra.
  pose proof (INR_pos b Hb) as Hpb.
  apply Rmult_integral in Hz as [Hz|Hz]; [lra|]. apply sq_zero in Hz.
  rewrite <- (mean_sum (target t b)); [rewrite target_length; f_equal; lra|].
  intros E. apply map_eq_nil in E. contradiction.
Qed.

Lemma skipn_nth {A} (l : list A) i x : nth_error l i = Some x -> skipn i l = x :: skipn (S i) l.
Proof. revert i; induction l as [|y l IH]; intros [|i] H; try discriminate; cbn in *; [congruence|]. now apply IH. Qed.

(** Nothing to gain: every row above the minimum of some column has the mean label. *)
Lemma above_minimum_mean nc nt (d : @dataset xr_ops) ls b j (col : list xr) (r : list (xr * nat)) i v id (m : xr * nat) t :
  wf_dataset nc nt d -> real_labels ls d -> find_best_split d (N.of_nat nt) = Ok b -> bs_gain b = Fin 0 ->
  nth_error (feature_columns d) j = Some col -> sorted_version col r ->
  nth_error r i = Some (v, id) -> hd_error r = Some m -> xltb (fst m) v = true -> (t < nt)%nat ->
  nth t (nth id ls []) 0 = mean (target t ls).
Proof.
  intros W Hl E Eg Hc HS Hi Hm Hlt Ht.
  destruct (split_exact nc nt d ls b W Hl E) as (g & Eg' & Hmax & _). rewrite Eg in Eg'. injection Eg' as <-.
  assert (L : length col = length ls) by (eapply wf_col_length; eauto; eapply nth_error_In; eauto).
  set (M := labels_in_order ls r). pose proof (labels_in_order_perm ls col r HS L) as HP. fold M in HP.
  assert (LM : length M = length r) by apply map_length.
  assert (Hsum : forall i' v' id', nth_error r i' = Some (v', id') -> xltb (fst m) v' = true ->
    Rsum (target t (skipn i' M)) = INR (length (skipn i' M)) * mean (target t ls)).
  { intros i' v' id' Hi' Hlt'.
    assert (Hlen : (i' < length M)%nat) by (rewrite LM; apply nth_error_Some; congruence).
    assert (Hcons : considered d j r i' v') by (split; [eauto|]; exists id', m; auto).
    specialize (Hmax _ _ _ _ Hcons). unfold cut_gain in Hmax. fold M in Hmax.
    rewrite <- (firstn_skipn i' M) in Hmax at 1.
    rewrite (no_gain_means nt (firstn i' M) (skipn i' M) t); auto.
    - rewrite firstn_skipn. f_equal. apply mean_perm. apply Permutation_map. now symmetry.
    - rewrite firstn_skipn. intros E0. rewrite E0 in Hlen. simpl in Hlen. lia.
    - intros E0. apply (f_equal (@length _)) in E0. rewrite skipn_length in E0. simpl in E0. lia. }
  assert (HMi : nth_error M i = Some (nth id ls [])).
  { unfold M, labels_in_order. rewrite nth_error_map, Hi. reflexivity. }
  pose proof (Hsum i v id Hi Hlt) as H1. rewrite (skipn_nth M i _ HMi) in H1.
  cbn [target map length] in H1. rewrite Rsum_cons, S_INR in H1. fold (target t (skipn (S i) M)) in H1.
  assert (H2 : Rsum (target t (skipn (S i) M)) = INR (length (skipn (S i) M)) * mean (target t ls)).
  { destruct (nth_error r (S i)) as [[v' id']|] eqn:Hi'.
    - apply (Hsum (S i) v' id' Hi'). destruct HS as [_ HS].
      assert (Hle : xleb v v' = true).
      { assert (El : r = firstn (S i) r ++ skipn (S i) r) by now rewrite firstn_skipn.
        rewrite El in HS. change v with (fst (v, id)). change v' with (fst (v', id')). apply pair_lt_le.
        apply (StronglySorted_app_rel _ _ _ HS).
        - apply nth_error_In with i. transitivity (nth_error r i); [|exact Hi]. rewrite El at 2. symmetry. apply nth_error_app1.
          rewrite firstn_length. assert (S i < length r)%nat by (apply nth_error_Some; congruence). lia.
        - apply nth_error_In with 0%nat. rewrite nth_error_skipn_add. now rewrite Nat.add_0_r. }
      unfold xltb in *. apply andb_true_iff in Hlt as [A B]. apply negb_true_iff in B. apply andb_true_iff. split.
      + eapply xleb_trans; eauto.
      + apply negb_true_iff. destruct (xleb v' (fst m)) eqn:C; auto. rewrite (xleb_trans _ _ _ Hle C) in B. discriminate.
    - apply nth_error_None in Hi'. rewrite skipn_all2 by lia. simpl. lra. }
  rewrite H2 in H1. lra.
Qed.

(** Nothing to gain on consistent data: all labels are equal. *)
Lemma zero_gain_one_label nc nt (d : @dataset xr_ops) ls b :
  wf_dataset nc nt d -> real_labels ls d -> consistent d -> find_best_split d (N.of_nat nt) = Ok b -> bs_gain b = Fin 0 ->
  forall l, In l ls -> l = means nt ls.
Proof.
  intros W Hl HC E Eg. destruct (real_rect _ _ _ _ W Hl) as [Hrect Hne]. pose proof (xr_lens _ _ _ _ W Hl) as HL.
  assert (Hsamp : forall i row, nth_error (feature_rows d) i = Some row -> In (row, map Fin (nth i ls [])) (samples d)).
  { intros i row Hi. assert (Hlt : (i < length ls)%nat) by (rewrite <- HL; apply nth_error_Some; congruence).
    apply nth_error_In with i. unfold samples. rewrite nth_error_combine. xr. rewrite Hi, Hl, nth_error_map.
    now rewrite (nth_error_nth' ls [] Hlt). }
  (* a row either has the mean label or sits at the minimum of every column *)
  assert (Hcase : forall i row t, nth_error (feature_rows d) i = Some row -> (t < nt)%nat ->
    nth t (nth i ls []) 0 = mean (target t ls) \/
    forall j x i' row' x', nth_error row j = Some x -> nth_error (feature_rows d) i' = Some row' -> nth_error row' j = Some x' -> xleb x x' = true).
  { intros i row t Hi Ht. destruct (Req_dec (nth t (nth i ls []) 0) (mean (target t ls))) as [|Hneq]; [now left|]. right.
    intros j x i' row' x' Hx Hi' Hx'.
    pose proof (wf_rows _ _ _ W) as Rr. unfold rectangular in Rr. rewrite Forall_forall in Rr.
    assert (Hj : (j < nc)%nat). { rewrite <- (Rr row (nth_error_In _ _ Hi)). apply nth_error_Some. congruence. }
    destruct (wf_columns _ _ _ W) as [Lc Htr].
    destruct (nth_error (feature_columns d) j) as [col|] eqn:Hc; [|apply nth_error_None in Hc; lia].
    destruct (Htr _ _ Hc) as [Lcol Hent].
    destruct (get_sorted_Ok xr_laws col) as (r & _ & HS).
    { right. apply (wf_column_num nc nt d); auto. eapply nth_error_In; eauto. }
    assert (Hin : forall k rw y, nth_error (feature_rows d) k = Some rw -> nth_error rw j = Some y -> In (y, k) r).
    { intros k rw y Hk Hy. destruct HS as [HP _]. apply (Permutation_in _ (Permutation_sym HP)). unfold value_positions.
      apply nth_error_In with k. rewrite nth_error_combine. destruct (Hent _ _ Hk) as [_ Eq]. rewrite Eq, Hy.
      assert (Hlt : (k < length col)%nat) by (rewrite Lcol; apply nth_error_Some; congruence).
      rewrite (nth_error_nth' _ 0%nat) by now rewrite seq_length. now rewrite seq_nth. }
    destruct (hd_error r) as [m|] eqn:Hm; [|destruct r; [|discriminate]; destruct (Hin _ _ _ Hi Hx)].
    pose proof (Hin _ _ _ Hi Hx) as Hin1. apply In_nth_error in Hin1 as (p & Hp).
    pose proof (Hin _ _ _ Hi' Hx') as Hin2. apply In_nth_error in Hin2 as (p' & Hp').
    destruct (xltb (fst m) x) eqn:Hlt.
    - exfalso. apply Hneq. eapply (above_minimum_mean nc nt d ls b j col r p x i m t); eauto.
    - assert (Hnum : forall k rw y, nth_error (feature_rows d) k = Some rw -> nth_error rw j = Some y -> xleb y y = true).
      { intros k rw y Hk Hy. pose proof (wf_nonan _ _ _ W) as HN. rewrite Forall_forall in HN. specialize (HN _ (nth_error_In _ _ Hk)).
        rewrite Forall_forall in HN. exact (HN _ (nth_error_In _ _ Hy)). }
      assert (Hle : forall q y k, nth_error r q = Some (y, k) -> xleb y y = true -> xleb (fst m) y = true).
      { intros q y k Hq Hy. destruct (sorted_head_le r m q (y, k) (proj2 HS) Hm Hq) as [->|Hle]; [|exact Hle].
        destruct r; [discriminate|]. injection Hm as <-. injection Hq as ->. exact Hy. }
      pose proof (Hle _ _ _ Hp (Hnum _ _ _ Hi Hx)) as A. pose proof (Hle _ _ _ Hp' (Hnum _ _ _ Hi' Hx')) as B.
      unfold xltb in Hlt. rewrite A in Hlt. cbn [andb] in Hlt. apply negb_false_iff in Hlt. eapply xleb_trans; eauto. }
  assert (Hall : forall t, (t < nt)%nat -> forall i row, nth_error (feature_rows d) i = Some row -> nth t (nth i ls []) 0 = mean (target t ls)).
  { intros t Ht i row Hi. destruct (Hcase i row t Hi Ht) as [|Hmin]; [auto|].
    set (mu := mean (target t ls)). set (c := nth t (nth i ls []) 0 - mu).
    assert (Hterm : forall x, In x (map (fun l => nth t l 0 - mu) ls) -> x = 0 \/ x = c).
    { intros x Hx. apply in_map_iff in Hx as (l & <- & Hlin). apply In_nth_error in Hlin as (k & Hk).
      assert (Hklt : (k < length (feature_rows d))%nat) by (rewrite HL; apply nth_error_Some; congruence).
      destruct (nth_error (feature_rows d) k) as [rw|] eqn:Hrw; [|apply nth_error_None in Hrw; lia].
      assert (El : l = nth k ls []) by (symmetry; now apply nth_error_nth). subst l.
      destruct (Hcase k rw t Hrw Ht) as [He|Hmin']; [left; fold mu in He; lra|]. right.
      assert (Erow : rw = row).
      { pose proof (wf_rows _ _ _ W) as Rr. unfold rectangular in Rr. rewrite Forall_forall in Rr.
        apply nth_error_ext. intros j. destruct (nth_error rw j) as [x|] eqn:Ex.
        - destruct (nth_error row j) as [y|] eqn:Ey.
          + f_equal. apply xleb_antisym; [exact (Hmin' j x i row y Ex Hi Ey)|exact (Hmin j y k rw x Ey Hrw Ex)].
          + apply nth_error_None in Ey. assert (j < length rw)%nat by (apply nth_error_Some; congruence).
            rewrite (Rr rw (nth_error_In _ _ Hrw)) in *. rewrite (Rr row (nth_error_In _ _ Hi)) in *. lia.
        - destruct (nth_error row j) as [y|] eqn:Ey; auto.
          apply nth_error_None in Ex. assert (j < length row)%nat by (apply nth_error_Some; congruence).
          rewrite (Rr rw (nth_error_In _ _ Hrw)) in *. rewrite (Rr row (nth_error_In _ _ Hi)) in *. lia. }
      subst rw. pose proof (HC _ _ _ (Hsamp _ _ Hrw) (Hsamp _ _ Hi)) as Elab.
      apply (f_equal (map xval)) in Elab. rewrite !map_xval_Fin in Elab. unfold c. now rewrite Elab. }
    assert (Hsum : Rsum (map (fun l => nth t l 0 - mu) ls) = 0).
    { assert (E1 : Rsum (map (fun l => nth t l 0 - mu) ls) + Rsum (map (fun _ => mu) ls) = Rsum (target t ls)).
      { rewrite <- Rsum_map_plus. unfold target. apply Rsum_map_ext. intros; lra. }
      rewrite Rsum_map_const in E1.
      assert (E2 : INR (length ls) * mu = Rsum (target t ls)).
      { unfold mu. rewrite <- (target_length t ls). apply mean_sum. intros E0. apply map_eq_nil in E0. contradiction. }
      lra. }
    assert (Hilt : (i < length ls)%nat) by (rewrite <- HL; apply nth_error_Some; congruence).
    assert (Hc : In c (map (fun l => nth t l 0 - mu) ls)).
    { unfold c. apply (in_map (fun l => nth t l 0 - mu)). now apply nth_In. }
    assert (c = 0); [|unfold c in *; fold mu; lra].
    destruct (Rle_dec 0 c) as [Hpos|Hneg].
    - apply (Rsum_zero_all _ ltac:(intros x Hx; destruct (Hterm x Hx); lra) Hsum c Hc).
    - assert (Hopp : - c = 0); [|lra].
      apply (Rsum_zero_all (map (fun x => -1 * x) (map (fun l => nth t l 0 - mu) ls))).
      + intros x Hx. apply in_map_iff in Hx as (y & <- & Hy). destruct (Hterm y Hy); lra.
      + rewrite (Rsum_map_mult (-1) (fun x => x)), map_id, Hsum. lra.
      + replace (- c) with (-1 * c) by lra. now apply (in_map (fun x => -1 * x)). }
  intros l Hlin. apply In_nth_error in Hlin as (i & Hi).
  assert (Hlt : (i < length (feature_rows d))%nat) by (rewrite HL; apply nth_error_Some; congruence).
  destruct (nth_error (feature_rows d) i) as [row|] eqn:Hrow; [|apply nth_error_None in Hrow; lia].
  assert (El : l = nth i ls []) by (symmetry; now apply nth_error_nth).
  unfold rectangular in Hrect. rewrite Forall_forall in Hrect. pose proof (Hrect _ (nth_error_In _ _ Hi)) as Ll. cbv beta in Ll.
  rewrite <- (map_seq_nth l nt Ll). unfold means. apply map_ext_in. intros t Ht. apply in_seq in Ht. rewrite El. eapply Hall; eauto. lia.
Qed.

Lemma consistent_sub d d' : incl (samples d') (samples d) -> consistent d -> consistent (O := xr_ops) d'.
Proof. intros Hi H row l l' H1 H2. apply (H row); auto. Qed.

Lemma one_label_means k ls l : ls <> [] -> (forall x, In x ls -> x = l) -> length l = k -> means k ls = l.
Proof.
  intros Hne H L. rewrite <- (map_seq_nth l k L). unfold means. apply map_ext_in. intros t _.
  assert (Hb : nth t l 0 <= mean (target t ls) <= nth t l 0); [|lra].
  apply mean_bounds.
  - intros E. apply map_eq_nil in E. contradiction.
  - intros x Hx. unfold target in Hx. apply in_map_iff in Hx as (y & <- & Hy). rewrite (H y Hy). lra.
Qed.

Lemma one_row_one_label (d : @dataset xr_ops) nc nt : wf_dataset nc nt d -> (length (feature_rows d) <= 1)%nat ->
  forall l, In l (rl d) -> l = means nt (rl d).
Proof.
  intros W HL l Hin. pose proof (wf_lengths _ _ _ W) as L. symmetry. apply one_label_means.
  - intros E. rewrite E in Hin. destruct Hin.
  - intros x Hx. unfold rl in *. destruct (labels d) as [|a [|b ls]]; cbn [length] in L; [destruct Hin| |lia].
    cbn [map In] in *. destruct Hin as [<-|[]], Hx as [<-|[]]. reflexivity.
  - unfold rl in Hin. apply in_map_iff in Hin as (v & <- & Hv). rewrite map_length.
    pose proof (wf_labels _ _ _ W) as R0. unfold rectangular in R0. rewrite Forall_forall in R0. now apply R0.
Qed.

(** The leaf of any row holds one label, or lies at the depth limit. *)
Lemma leaf_one_label cfg nc nt level d t x :
  standard cfg -> tc_number_of_classes cfg = N.of_nat nt ->
  built mk_reg cfg level d t -> wf_dataset nc nt d -> real_labels (rl d) d -> consistent d -> (nc <= length x)%nat ->
  exists ld, find_leaf_node_for_data x t = Ok (mkRL (Some ld)) /\ wf_dataset nc nt ld /\ real_labels (rl ld) ld /\
    incl (samples ld) (samples d) /\
    (length (feature_rows ld) + length (path x t) <= length (feature_rows d))%nat /\
    ((forall l, In l (rl ld) -> l = means nt (rl ld)) \/ (level + N.of_nat (length (path x t)) = tc_max_levels cfg)%N).
Proof.
  intros Hs Hk B. induction B as [level d s lf Es Est El|level d s fd td t f Es Est Ep Bt IHt Bf IHf]; intros W Hl HC Hx.
  - injection El as <-. exists d. split; [reflexivity|]. split; [auto|]. split; [auto|]. split; [apply incl_refl|].
    split; [cbn; lia|]. rewrite Hs, Hk in Es. change (find_best_split d (N.of_nat nt) = Ok s) in Es.
    unfold stop_here in Est. apply orb_true_iff in Est as [Hg|Hg].
    + left. apply (zero_gain_one_label nc nt d (rl d) s W Hl HC Es). exact (xeqb_eq _ _ Hg).
    + right. apply N.eqb_eq in Hg. cbn. lia.
  - destruct (sub_true _ _ _ _ _ _ W Ep Hl) as (Wf & Wt & Lf & Lt & _ & _ & Hq).
    destruct (partition_wf nc nt d _ fd td W Ep) as (_ & _ & _ & St & Sf).
    destruct (partition_shrinks _ _ _ _ Ep) as [Nf Nt].
    assert (It : incl (samples td) (samples d)) by (rewrite St; apply filter_incl).
    assert (If : incl (samples fd) (samples d)) by (rewrite Sf; apply filter_incl).
    destruct (IHt Wt Lt (consistent_sub _ _ It HC) Hx) as (lt & Et & A1 & A2 & A3 & A4 & A5).
    destruct (IHf Wf Lf (consistent_sub _ _ If HC) Hx) as (lf & Ef & B1 & B2 & B3 & B4 & B5).
    cbn [node_new find_leaf_node_for_data path]. rewrite solve_Ok by lia. cbn [bind].
    destruct (answers (bs_question s) x); [exists lt|exists lf]; (split; [assumption|]); (split; [auto|]); (split; [auto|]);
      (split; [eauto using incl_tran|]); (split; [cbn [length]; lia|]).
    + destruct A5 as [A5|A5]; [now left|right; cbn [length]; lia].
    + destruct B5 as [B5|B5]; [now left|right; cbn [length]; lia].
Qed.

(** C29 *)
Theorem leaf_above_limit_has_one_label nc nt (d : @dataset xr_ops) ls cfg t (x : list xr) ld :
  wf_dataset nc nt d -> real_labels ls d -> consistent d -> standard cfg -> tc_number_of_classes cfg = N.of_nat nt ->
  regression_tree_new d cfg = Ok t -> (nc <= length x)%nat ->
  (N.of_nat (length (path x t)) < tc_max_levels cfg)%N ->
  find_leaf_node_for_data x t = Ok (mkRL (Some ld)) ->
  exists l, forall l', In l' (labels ld) -> l' = l.
Proof.
  intros W Hl HC Hs Hk E Hx Hlt Hf. rewrite <- (real_rl _ _ Hl) in Hl. rewrite regression_tree_new_eq in E. apply build_with_built in E.
  destruct (leaf_one_label cfg nc nt 0 d t x Hs Hk E W Hl HC Hx) as (ld' & Ef & Wl & Ll & _ & _ & [H|H]); [|lia].
  rewrite Hf in Ef. injection Ef as <-. exists (map Fin (means nt (rl ld))). intros l' Hin.
  rewrite <- (H (map xval l')).
  - symmetry. rewrite <- (samples_snd _ _ _ Wl) in Hin. apply in_map_iff in Hin as (p & <- & Hp).
    apply (proj1 (finite_iff _ _ _ Wl) Ll p Hp).
  - unfold rl. now apply in_map.
Qed.

Theorem deep_tree_fits nc nt (d : @dataset xr_ops) ls cfg t (row label : list xr) :
  wf_dataset nc nt d -> real_labels ls d -> consistent d -> standard cfg -> tc_number_of_classes cfg = N.of_nat nt ->
  regression_tree_new d cfg = Ok t -> (N.of_nat (length (feature_rows d)) <= tc_max_levels cfg + 1)%N ->
  In (row, label) (samples d) -> tree_prediction row t = Ok label.
Proof.
  intros W Hl HC Hs Hk E Hn Hin. rewrite <- (real_rl _ _ Hl) in Hl.
  destruct (training_row_in_its_leaf nc nt d cfg t row label W E Hin) as (ld0 & Ef0 & Hin0).
  rewrite regression_tree_new_eq in E. apply build_with_built in E.
  assert (Hx : (nc <= length row)%nat).
  { pose proof (wf_rows _ _ _ W) as R0. unfold rectangular in R0. rewrite Forall_forall in R0. apply Nat.eq_le_incl. symmetry. apply R0. now apply in_combine_l in Hin. }
  destruct (leaf_one_label cfg nc nt 0 d t row Hs Hk E W Hl HC Hx) as (ld & Ef & Wl & Ll & _ & Hlen & H).
  rewrite Ef0 in Ef. injection Ef as ->.
  assert (Hone : forall l, In l (rl ld) -> l = means nt (rl ld)).
  { destruct H as [H|H]; auto. apply (one_row_one_label ld nc nt Wl). lia. }
  unfold tree_prediction. rewrite Ef0. cbn [bind unwrap rl_data]. rewrite (leaf_prediction nc nt ld Wl Ll). f_equal.
  rewrite <- (Hone (map xval label)).
  - exact (proj1 (finite_iff _ _ _ Wl) Ll _ Hin0).
  - unfold rl. apply in_map. now apply in_combine_r in Hin0.
Qed.

Lemma tree_row_error_prediction (t : tree_node (@regression_leaf xr_ops)) row label :
  tree_row_error t (row, label) = (p <- tree_prediction row t;; mean_sum_of_squared_differences_between_vectors p label).
Proof.
  unfold tree_row_error, tree_prediction. cbn [fst snd]. destruct (find_leaf_node_for_data row t) as [l| |]; cbn [bind]; auto.
  destruct (unwrap (rl_data l)); reflexivity.
Qed.

Theorem deep_tree_zero_error nc nt (d : @dataset xr_ops) ls cfg t :
  wf_dataset nc nt d -> real_labels ls d -> consistent d -> (0 < nt)%nat -> standard cfg -> tc_number_of_classes cfg = N.of_nat nt ->
  regression_tree_new d cfg = Ok t -> (N.of_nat (length (feature_rows d)) <= tc_max_levels cfg + 1)%N ->
  calculate_overall_mean_squared_error d t = Ok (Fin 0).
Proof.
  intros W Hl HC Hk Hs Hc E Hn. pose proof (deep_tree_fits nc nt d ls cfg t) as Hfit.
  pose proof Hl as Hl0. rewrite <- (real_rl _ _ Hl) in Hl. pose proof E as E0. rewrite regression_tree_new_eq in E. apply build_with_built in E.
  rewrite (training_error_exact _ _ _ _ _ _ E W Hl Hk). do 2 f_equal.
  assert (Hz : sum_err nt t (rs d) = 0); [|rewrite Hz; unfold Rdiv; lra].
  unfold sum_err, rs. rewrite map_map. transitivity (Rsum (map (fun _ : list xr * list xr => 0) (samples d))); [|rewrite Rsum_map_const; lra].
  apply Rsum_map_ext. intros [row label] Hin. unfold rp. cbn [fst snd].
  assert (Hrow : (nc <= length row)%nat).
  { pose proof (wf_rows _ _ _ W) as R0. unfold rectangular in R0. rewrite Forall_forall in R0. apply Nat.eq_le_incl. symmetry. apply R0. now apply in_combine_l in Hin. }
  assert (Hlab : length (map xval label) = nt).
  { rewrite map_length. pose proof (wf_labels _ _ _ W) as R0. unfold rectangular in R0. rewrite Forall_forall in R0. apply R0. now apply in_combine_r in Hin. }
  pose proof (tree_row_error_exact cfg nc nt 0 d t row (map xval label) E W Hl Hk Hrow Hlab) as Ee.
  pose proof (proj1 (finite_iff _ _ _ W) Hl _ Hin) as Hf. unfold finite_vector in Hf. cbn [snd] in Hf. rewrite Hf in Ee.
  rewrite tree_row_error_prediction in Ee. rewrite (Hfit row label W Hl0 HC Hs Hc E0 Hn Hin) in Ee. cbn [bind] in Ee.
  rewrite <- Hf in Ee. rewrite (squared_Fin nt) in Ee by auto. rewrite map_xval_Fin in Ee. injection Ee as <-.
  unfold row_err. rewrite (map_ext _ (fun _ => 0)) by (intros; lra). rewrite Rsum_map_const. unfold Rdiv. lra.
Qed.
