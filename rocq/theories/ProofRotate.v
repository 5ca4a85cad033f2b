(** Maps of the target space that preserve shapes: same questions, mapped answers. *)
From Coq Require Import Reals Lra Lia Permutation Sorted.
From Verif Require Import Base Num ModelCommon ModelTree ModelBoost Spec SpecTree SpecScore SpecFit Lib ProofData ProofSort ProofSplit ProofSplit2
  ProofTree ProofTree3 ProofScore ProofScore2 ProofBoost ProofBoost2 XR SpecExact SpecError SpecAffine SpecRotate ProofReal ProofSplitExact
  ProofSplitExact2 ProofTreeExact ProofScoreExact ProofLeaf ProofBoostExact ProofClassRun ProofShift.
Local Open Scope R_scope.

(* ------------------------------------------------------------------ *)
(** ** Vectors *)

Lemma dot_nth k a l : length a = k -> length l = k -> dot a l = Rsum (map (fun i => nth i a 0 * nth i l 0) (seq 0 k)).
Proof.
  revert k l. induction a as [|x a IH]; intros [|k] [|y l] Ha Hl; try discriminate; [reflexivity|].
  unfold dot. cbn [combine map seq]. rewrite !Rsum_cons. cbn [fst snd nth]. f_equal. rewrite <- seq_shift, map_map. cbn [nth].
  apply (IH k); [now injection Ha|now injection Hl].
Qed.

Lemma dot_step k lr a g o : length a = k -> length g = k -> length o = k -> dot a (vstep lr g o) = dot a g + lr * dot a o.
Proof.
  intros Ha Hg Ho. assert (L : length (vstep lr g o) = k) by (rewrite vstep_length; lia).
  rewrite !(dot_nth k) by auto. rewrite <- Rsum_map_mult, <- Rsum_map_plus. apply Rsum_map_ext. intros i Hi. apply in_seq in Hi.
  unfold vstep. rewrite nth_map2 by lia. ring.
Qed.

Lemma dot_sub k a x y : length a = k -> length x = k -> length y = k -> dot a (vsub x y) = dot a x - dot a y.
Proof.
  intros Ha Hx Hy. assert (L : length (vsub x y) = k) by (unfold vsub; rewrite map2_length; lia).
  rewrite !(dot_nth k) by auto. unfold Rminus. 
  replace (- Rsum (map (fun i => nth i a 0 * nth i y 0) (seq 0 k))) with (-1 * Rsum (map (fun i => nth i a 0 * nth i y 0) (seq 0 k))) by ring.
  rewrite <- Rsum_map_mult, <- Rsum_map_plus. apply Rsum_map_ext. intros i Hi. apply in_seq in Hi.
  unfold vsub. rewrite nth_map2 by lia. ring.
Qed.

Lemma means_nth k ls i : (i < k)%nat -> nth i (means k ls) 0 = mean (target i ls).
Proof.
  intros H. unfold means. rewrite (nth_indep _ 0 (mean (target 0 ls))) by (rewrite map_length, seq_length; lia).
  rewrite (map_nth (fun j => mean (target j ls))), seq_nth by lia. reflexivity.
Qed.

Lemma dot_mean k a ls : length a = k -> rectangular k ls -> ls <> [] -> mean (map (dot a) ls) = dot a (means k ls).
Proof.
  intros Ha Hr Hne. rewrite (dot_nth k) by (auto; apply means_length). unfold mean at 1. rewrite map_length.
  pose proof (nonempty_INR ls Hne) as Hn.
  assert (E : Rsum (map (dot a) ls) = Rsum (map (fun l => Rsum (map (fun i => nth i a 0 * nth i l 0) (seq 0 k))) ls)).
  { apply Rsum_map_ext. intros l Hl. apply dot_nth; auto. exact (proj1 (Forall_forall _ _) Hr l Hl). }
  rewrite E, Rsum_swap. unfold Rdiv. rewrite Rmult_comm, <- Rsum_map_mult. apply Rsum_map_ext. intros i Hi. apply in_seq in Hi.
  rewrite means_nth by lia. unfold mean, target. rewrite map_length, Rsum_map_mult. unfold Rdiv. ring.
Qed.

Section Map.
Variables (nc nt nt' : nat) (w : R) (M : list (list R)).
Hypotheses (HM : keeps_shapes nt w M) (LM : length M = nt').

Let Hss : 0 < w := proj1 HM.

Lemma row_length j : (j < nt')%nat -> length (nth j M []) = nt.
Proof. intros H. pose proof HM as (_ & H2 & _). rewrite Forall_forall in H2. apply H2, nth_In. lia. Qed.

Lemma tr_length v l : length v = nt' -> length (transform M v l) = nt'.
Proof. intros H. unfold transform. rewrite map_length, combine_length. lia. Qed.

Lemma tr_nth v l j : length v = nt' -> (j < nt')%nat -> nth j (transform M v l) 0 = dot (nth j M []) l + nth j v 0.
Proof.
  intros Hv Hj. unfold transform. rewrite (nth_indep _ 0 ((fun p : list R * R => dot (fst p) l + snd p) ([], 0))) by (rewrite map_length, combine_length; lia).
  rewrite (map_nth (fun p : list R * R => dot (fst p) l + snd p)), combine_nth by lia. reflexivity.
Qed.

Lemma tr_rect v ls : length v = nt' -> rectangular nt' (map (transform M v) ls).
Proof. intros Hv. unfold rectangular. rewrite Forall_map. apply Forall_forall. intros l _. now apply tr_length. Qed.

Lemma tr_target v ls j : length v = nt' -> (j < nt')%nat ->
  target j (map (transform M v) ls) = map (fun x => 1 * x + nth j v 0) (map (dot (nth j M [])) ls).
Proof. intros Hv Hj. unfold target. rewrite !map_map. apply map_ext. intros l. rewrite tr_nth by auto. ring. Qed.

Lemma tr_total v ls : length v = nt' -> rectangular nt ls -> total_variance nt' (map (transform M v) ls) = w * total_variance nt ls.
Proof.
  intros Hv Hr. destruct ls as [|l0 ls0].
  { unfold total_variance. rewrite <- Rsum_map_mult. cbn [map]. unfold target, variance. cbn [map length]. rewrite !Rsum_map_const.
    unfold Rsum, Rdiv. cbn. ring. }
  set (ls := l0 :: ls0) in *. assert (Hne : ls <> []) by discriminate. set (m := means nt ls).
  assert (Lm : length m = nt) by apply means_length.
  unfold total_variance. 
  transitivity (Rsum (map (fun j => Rsum (map (fun l => dot (nth j M []) (vsub l m) * dot (nth j M []) (vsub l m)) ls) / INR (length ls)) (seq 0 nt'))).
  { apply Rsum_map_ext. intros j Hj. apply in_seq in Hj. rewrite tr_target by (auto; lia). rewrite variance_affine, Rmult_1_l, Rmult_1_l.
    unfold variance. rewrite (dot_mean nt) by (auto; apply row_length; lia). fold m. rewrite !map_map, map_length. f_equal. apply Rsum_map_ext. intros l Hl.
    pose proof (proj1 (Forall_forall _ _) Hr l Hl) as Ll. cbv beta in Ll. rewrite (dot_sub nt) by (auto; apply row_length; lia). reflexivity. }
  unfold Rdiv. 
  rewrite (Rsum_map_ext _ (fun j => / INR (length ls) * Rsum (map (fun l => dot (nth j M []) (vsub l m) * dot (nth j M []) (vsub l m)) ls))) by (intros; ring).
  rewrite Rsum_map_mult, Rsum_swap.
  rewrite (Rsum_map_ext _ (fun l => w * Rsum (map (fun i => (nth i l 0 - nth i m 0) * (nth i l 0 - nth i m 0)) (seq 0 nt)))).
  2:{ intros l Hl. pose proof (proj1 (Forall_forall _ _) Hr l Hl) as Ll. cbv beta in Ll.
      assert (Lv : length (vsub l m) = nt) by (unfold vsub; rewrite map2_length; lia).
      rewrite <- LM, <- (map_map (fun j => nth j M []) (fun a => dot a (vsub l m) * dot a (vsub l m))), map_nth_seq_all.
      pose proof HM as (_ & _ & H). rewrite H by auto. f_equal. rewrite <- (map_nth_seq_all (vsub l m) 0), Lv, map_map. apply Rsum_map_ext. intros i Hi. apply in_seq in Hi.
      unfold vsub. rewrite nth_map2 by lia. reflexivity. }
  rewrite Rsum_map_mult, Rsum_swap. rewrite <- Rmult_assoc, (Rmult_comm _ w), Rmult_assoc. f_equal. rewrite <- Rsum_map_mult.
  apply Rsum_map_ext. intros i Hi. apply in_seq in Hi. unfold variance, target. rewrite !map_map, map_length. unfold m. rewrite means_nth by lia. unfold Rdiv. rewrite Rmult_comm. reflexivity.
Qed.

Lemma tr_remaining v a b : length v = nt' -> rectangular nt a -> rectangular nt b ->
  remaining_variance nt' (map (transform M v) a) (map (transform M v) b) = w * remaining_variance nt a b.
Proof. intros Hv Ha Hb. unfold remaining_variance. rewrite !map_length, !tr_total by auto. ring. Qed.

Lemma tr_means v ls : length v = nt' -> rectangular nt ls -> ls <> [] -> means nt' (map (transform M v) ls) = transform M v (means nt ls).
Proof.
  intros Hv H Hne. apply (nth_ext _ _ 0 0); [rewrite means_length; symmetry; now apply tr_length|].
  rewrite means_length. intros j Hj. rewrite means_nth, tr_nth, tr_target by auto.
  rewrite mean_affine by (intros E; apply map_eq_nil in E; contradiction). rewrite (dot_mean nt) by (auto; now apply row_length). ring.
Qed.

Lemma tr_step lr v g o : length g = nt -> length o = nt -> length v = nt' ->
  vstep lr (transform M v g) (transform M (zeros nt') o) = transform M v (vstep lr g o).
Proof.
  intros Hg Ho Hv. assert (Hz := zeros_length nt'). apply (nth_ext _ _ 0 0); [rewrite vstep_length; rewrite !tr_length; auto|].
  intros j Hj. rewrite vstep_length in Hj by (rewrite !tr_length; auto). rewrite tr_length in Hj by auto. unfold vstep at 1.
  rewrite nth_map2 by (rewrite tr_length; auto). rewrite !tr_nth by auto. rewrite zeros_nth, (dot_step nt) by (auto; now apply row_length). ring.
Qed.

Lemma tr_sub v a b : length a = nt -> length b = nt -> length v = nt' ->
  vsub (transform M v a) (transform M v b) = transform M (zeros nt') (vsub a b).
Proof.
  intros Ha Hb Hv. assert (Hz := zeros_length nt').
  assert (L : length (vsub (transform M v a) (transform M v b)) = nt') by (unfold vsub; rewrite map2_length, !tr_length by auto; lia).
  apply (nth_ext _ _ 0 0); [now rewrite tr_length|]. rewrite L. intros j Hj. unfold vsub at 1. rewrite nth_map2 by (rewrite tr_length; auto).
  rewrite !tr_nth by auto. rewrite zeros_nth, (dot_sub nt) by (auto; now apply row_length). ring.
Qed.

(* ------------------------------------------------------------------ *)
(** ** The split finder *)

Lemma best_upto_tr v (a : list (xr * list R)) prev n b :
  length v = nt' -> rectangular nt (map snd a) ->
  best_upto nt a prev n b ->
  best_upto nt' (map (fun p => (fst p, transform M v (snd p))) a) prev n (scaled_threshold w b).
Proof.
  intros Hv Hr. set (a' := map (fun p => (fst p, transform M v (snd p))) a).
  assert (Hcut : forall i u, cut a prev i u <-> cut a' prev i u).
  { intros i u. unfold cut, a'. rewrite nth_error_map. split.
    - intros (l & E & H). rewrite E. exists (transform M v l). auto.
    - intros (l & E & H). destruct (nth_error a i) as [[u' l']|]; [|discriminate]. cbn in E. injection E as -> _. exists l'. auto. }
  assert (Hcost : forall i, cost nt' a' i = w * cost nt a i).
  { intros i. unfold cost, a'. rewrite map_map. cbn [snd]. rewrite <- (map_map snd (transform M v)). rewrite firstn_map, skipn_map.
    apply tr_remaining; auto; unfold rectangular in *.
    - rewrite <- (firstn_skipn i (map snd a)) in Hr. now apply Forall_app in Hr.
    - rewrite <- (firstn_skipn i (map snd a)) in Hr. now apply Forall_app in Hr. }
  intros [[-> N]|(i & u & Hi & Hc & -> & H1 & H2)].
  - left. split; [reflexivity|]. intros i u Hi Hc. apply (N i u); auto. now apply Hcut.
  - right. exists i, u. split; auto. split; [now apply Hcut|]. split; [unfold scaled_threshold; cbn; now rewrite Hcost|]. split.
    + intros j y Hj Hu. apply Hcut in Hu. rewrite !Hcost. apply Rmult_le_compat_l; [lra|eauto].
    + intros j y Hj Hu. apply Hcut in Hu. rewrite !Hcost. apply Rmult_lt_compat_l; [lra|eauto].
Qed.

Lemma ordered_tr v ls (col : list xr) (r : list (xr * nat)) : @sorted_version xr_ops col r -> length col = length ls ->
  ordered (map (transform M v) ls) r = map (fun p => (fst p, transform M v (snd p))) (ordered ls r).
Proof.
  intros [HP _] L. unfold ordered. rewrite map_map. apply map_ext_in. intros [x i] Hp. cbn [fst snd]. f_equal.
  assert (Hi : (i < length ls)%nat).
  { rewrite HP in Hp. unfold value_positions in Hp. apply in_combine_r in Hp. apply in_seq in Hp. destruct Hp as [_ Hp]. cbn in Hp. rewrite <- L. exact Hp. }
  rewrite (nth_indep _ [] (transform M v [])) by (now rewrite map_length). apply map_nth.
Qed.

Theorem split_tr (d d' : @dataset xr_ops) ls v b :
  wf_dataset nc nt d -> wf_dataset nc nt' d' -> feature_columns d' = feature_columns d ->
  real_labels ls d -> real_labels (map (transform M v) ls) d' -> length v = nt' ->
  find_best_split d (N.of_nat nt) = Ok b ->
  (exists g, bs_gain b = Fin g) /\ find_best_split d' (N.of_nat nt') = Ok (scaled_split w b).
Proof.
  intros W W' Ecols Hl Hl' Hv E. rewrite (find_best_split_eq xr_laws nc nt d W) in E. injection E as <-.
  rewrite (find_best_split_eq xr_laws nc nt' d' W').
  destruct (real_rect _ _ _ _ W Hl) as [Hr Hne]. destruct (real_rect _ _ _ _ W' Hl') as [Hr' Hne'].
  set (ts := map (@pcolumn xr_ops nt (labels d)) (dvls d)).
  assert (HT : Forall plain_threshold ts /\ map (@pcolumn xr_ops nt' (labels d')) (dvls d') = map (scaled_threshold w) ts).
  { unfold ts, dvls. rewrite Ecols. rewrite !map_map.
    assert (HC : forall col, In col (feature_columns d) ->
      plain_threshold (pcolumn nt (labels d) (vls_of (labels d) (the_sort col))) /\
      pcolumn nt' (labels d') (vls_of (labels d') (the_sort col)) = scaled_threshold w (pcolumn nt (labels d) (vls_of (labels d) (the_sort col)))).
    { intros col Hin. apply In_nth_error in Hin as (j & Ec). pose proof Ec as Ec'. rewrite <- Ecols in Ec'.
      assert (HS : sorted_version col (the_sort col)).
      { apply (the_sort_spec xr_laws). exact (wf_column_num nc nt d col W (nth_error_In _ _ Ec)). }
      assert (L : length col = length ls) by exact (wf_col_length nc nt d ls col W Hl (nth_error_In _ _ Ec)).
      assert (L' : length col = length (map (transform M v) ls)) by now rewrite map_length.
      destruct (considered_cut nc nt d ls j col _ W Hl Ec HS) as (m & Hm & Hnum & Hhd & _).
      destruct (considered_cut nc nt' d' _ j col _ W' Hl' Ec' HS) as (m' & Hm' & Hnum' & Hhd' & _).
      assert (m' = m) by congruence. subst m'.
      assert (HB := pcolumn_exact nt ls (ordered ls (the_sort col)) (fst m, nth (snd m) ls []) Hr Hne).
      rewrite ordered_labels in HB. specialize (HB (labels_in_order_perm ls col _ HS L) Hhd).
      assert (HB' := pcolumn_exact nt' (map (transform M v) ls) (ordered (map (transform M v) ls) (the_sort col)) (fst m, nth (snd m) (map (transform M v) ls) []) Hr' Hne').
      rewrite ordered_labels in HB'. specialize (HB' (labels_in_order_perm _ col _ HS L') Hhd').
      cbn [fst] in HB, HB'.
      assert (Hn : xeqb (fst m) (fst m) = true).
      { unfold xeqb. unfold is_num in Hnum. change (@fleb xr_ops) with xleb in Hnum. now rewrite Hnum. }
      specialize (HB Hn). specialize (HB' Hn).
      assert (E1 : pcolumn nt (labels d) (vls_of (labels d) (the_sort col)) = pcolumn nt (map (map Fin) ls) (map fin_row (ordered ls (the_sort col)))).
      { rewrite Hl. f_equal. apply vls_ordered. }
      assert (E2 : pcolumn nt' (labels d') (vls_of (labels d') (the_sort col)) =
                   pcolumn nt' (map (map Fin) (map (transform M v) ls)) (map fin_row (ordered (map (transform M v) ls) (the_sort col)))).
      { rewrite Hl'. f_equal. apply vls_ordered. }
      rewrite E1, E2. split; [eapply best_upto_plain; exact HB|].
      eapply best_upto_unique; [exact HB'|]. rewrite (ordered_tr v ls col) by auto. rewrite map_length. apply best_upto_tr; auto.
      rewrite ordered_labels. unfold rectangular in *. rewrite <- (labels_in_order_perm ls col _ HS L). exact Hr. }
    split; [rewrite Forall_map; apply Forall_forall; intros col Hin; now apply HC|].
    apply map_ext_in. intros col Hin. now apply HC. }
  destruct HT as [HT1 HT2]. unfold pfind. rewrite HT2. fold ts.
  assert (Etv : ptotal_variance nt (labels d) = Fin (total_variance nt ls)).
  { unfold real_labels in Hl. rewrite Hl. now apply ptotal_variance_exact. }
  assert (Etv' : ptotal_variance nt' (labels d') = Fin (w * total_variance nt ls)).
  { unfold real_labels in Hl'. rewrite Hl'. rewrite <- (tr_total v) by auto. now apply ptotal_variance_exact. }
  rewrite Etv, Etv'. destruct (pselect_scaled w (total_variance nt ls) ts Hss HT1) as [A B]. split; auto. now rewrite B.
Qed.

(* ------------------------------------------------------------------ *)
(** ** Trees *)

Definition turned (v : list R) (d d' : @dataset xr_ops) : Prop :=
  wf_dataset nc nt d /\ wf_dataset nc nt' d' /\ real_labels (rl d) d /\ real_labels (rl d') d' /\
  rs d' = map (fun p => (fst p, transform M v (snd p))) (rs d).

Lemma turned_rows v d d' : turned v d d' -> feature_rows d' = feature_rows d.
Proof.
  intros (W & W' & _ & _ & E). rewrite <- (rs_fst _ _ _ W), <- (rs_fst _ _ _ W'), E, map_map. reflexivity.
Qed.

Lemma turned_labels v d d' : turned v d d' -> rl d' = map (transform M v) (rl d).
Proof.
  intros (W & W' & _ & _ & E). rewrite <- (rs_snd _ _ _ W), <- (rs_snd _ _ _ W'), E, !map_map. reflexivity.
Qed.

Lemma turned_columns v d d' : turned v d d' -> feature_columns d' = feature_columns d.
Proof.
  intros T. pose proof (turned_rows _ _ _ T) as Er. destruct T as (W & W' & _).
  apply nth_error_ext. intros j. pose proof (proj1 (wf_columns _ _ _ W)) as L. pose proof (proj1 (wf_columns _ _ _ W')) as L'.
  destruct (nth_error (feature_columns d) j) as [col|] eqn:Ec.
  - destruct (nth_error (feature_columns d') j) as [col'|] eqn:Ec'.
    + pose proof (column_is_map nc _ _ j col (wf_rows _ _ _ W) (wf_columns _ _ _ W) Ec) as E1.
      pose proof (column_is_map nc _ _ j col' (wf_rows _ _ _ W') (wf_columns _ _ _ W') Ec') as E2.
      xr. rewrite Er in E2. congruence.
    + apply nth_error_None in Ec'. assert (j < length (feature_columns d))%nat by (apply nth_error_Some; congruence). lia.
  - apply nth_error_None in Ec. apply nth_error_None. lia.
Qed.

Lemma filter_turned (p : list xr -> bool) v (l : list (list xr * list R)) :
  filter (fun x => p (fst x)) (map (fun p => (fst p, transform M v (snd p))) l) =
  map (fun p => (fst p, transform M v (snd p))) (filter (fun x => p (fst x)) l).
Proof. induction l as [|x l IH]; auto. cbn [map filter fst]. destruct (p (fst x)); cbn [map]; now rewrite IH. Qed.

Lemma turned_partition v d d' q fd td fd' td' : turned v d d' ->
  partition d q = Ok (fd, td) -> partition d' q = Ok (fd', td') ->
  turned v fd fd' /\ turned v td td'.
Proof.
  intros (W & W' & L & L' & E) P P'.
  destruct (sub_true _ _ _ _ _ _ W P L) as (Wf & Wt & Lf & Lt & Et & Ef & _).
  destruct (sub_true _ _ _ _ _ _ W' P' L') as (Wf' & Wt' & Lf' & Lt' & Et' & Ef' & _).
  split; (split; [auto|]; split; [auto|]; split; [auto|]; split; [auto|]).
  - rewrite Ef', Ef, E. apply (filter_turned (fun x => negb (answers q x))).
  - rewrite Et', Et, E. apply (filter_turned (fun x => answers q x)).
Qed.

(** Trees built from mapped data ask the same questions; every row reaches mapped leaf data. *)
Lemma built_turned {L L'} (mk : dataset -> res L) (mk' : dataset -> res L') v cfg level d d' t t' :
  standard cfg -> tc_number_of_classes cfg = N.of_nat nt -> length v = nt' ->
  built mk cfg level d t -> built mk' (for_targets nt' cfg) level d' t' -> turned v d d' ->
  tree_map (fun _ => tt) t' = tree_map (fun _ => tt) t /\
  forall row,
    (find_leaf_node_for_data row t = Panic /\ find_leaf_node_for_data row t' = Panic) \/
    exists x x' l l', find_leaf_node_for_data row t = Ok l /\ mk x = Ok l /\
      find_leaf_node_for_data row t' = Ok l' /\ mk' x' = Ok l' /\ turned v x x'.
Proof.
  intros St Hc Hv B. revert d' t'.
  assert (Fin' : forall d d' b, turned v d d' -> tc_split_finder cfg d (tc_number_of_classes cfg) = Ok b ->
    (exists g, bs_gain b = Fin g) /\ tc_split_finder (for_targets nt' cfg) d' (tc_number_of_classes (for_targets nt' cfg)) = Ok (scaled_split w b)).
  { intros x x' b T E. unfold for_targets. cbn [tc_split_finder tc_number_of_classes]. rewrite St, Hc in *. cbn [split_finder_new] in *.
    pose proof (turned_columns _ _ _ T) as Ec. pose proof (turned_labels _ _ _ T) as El.
    destruct T as (W & W' & L1 & L2 & _). rewrite El in L2. eapply (split_tr x x' (rl x) v); eauto. }
  induction B as [level d b l Es Est El|level d b fd td t f Es Est Ep Bt IHt Bf IHf]; intros d' t' B' T.
  - destruct (Fin' _ _ _ T Es) as ((g & Eg) & Es'). pose proof (scaled_stop w b level (tc_max_levels (for_targets nt' cfg)) g Hss Eg) as Est'.
    change (tc_max_levels (for_targets nt' cfg)) with (tc_max_levels cfg) in Est' at 2. rewrite Est in Est'. destruct (built_leaf_inv _ _ _ _ _ _ B' Es' Est') as (l' & El' & ->). split; [reflexivity|].
    intros row. right. exists d, d', l, l'. auto.
  - destruct (Fin' _ _ _ T Es) as ((g & Eg) & Es'). pose proof (scaled_stop w b level (tc_max_levels (for_targets nt' cfg)) g Hss Eg) as Est'.
    change (tc_max_levels (for_targets nt' cfg)) with (tc_max_levels cfg) in Est' at 2. rewrite Est in Est'. pose proof T as (W & W' & _).
    destruct (built_node_inv' _ _ _ _ _ _ B' Es' Est') as (fd' & td' & a & c & Ep' & Ba & Bc & ->). cbn [scaled_split bs_question] in Ep'.
    destruct (turned_partition _ _ _ _ _ _ _ _ T Ep Ep') as [Mf Mt].
    destruct (IHt _ _ Ba Mt) as [T1 T2]. destruct (IHf _ _ Bc Mf) as [F1 F2].
    split; [cbn; now rewrite T1, F1|]. intros row. cbn [node_new find_leaf_node_for_data scaled_split bs_question].
    assert (HS : solve (bs_question b) row = Panic \/ exists v, solve (bs_question b) row = Ok v).
    { unfold solve, idxN, idx; destruct (_ <? _)%N; [|left; reflexivity]; match goal with |- context [nth_error row ?i] => destruct (nth_error row i) end; cbn [bind]; [right; eexists; reflexivity|left; reflexivity]. }
    destruct HS as [->|([|] & ->)]; cbn [bind]; [left; auto|apply T2|apply F2].
Qed.


(* ------------------------------------------------------------------ *)
(** ** Regression trees *)

Lemma relabel_turned d ls v : wf_dataset nc nt d -> real_labels ls d -> length v = nt' ->
  turned v d (relabel d (map (transform M v) ls)).
Proof.
  intros W Hl Hv. destruct (real_rect _ _ _ _ W Hl) as [Hr _]. pose proof (xr_len nc nt d ls W Hl) as HL.
  assert (W' : wf_dataset nc nt' (relabel d (map (transform M v) ls))).
  { destruct W. constructor; cbn [relabel feature_rows labels feature_columns]; auto.
    - rewrite !map_length. symmetry. exact HL.
    - pose proof (tr_rect v ls Hv) as Ha. unfold rectangular in *. rewrite Forall_map. eapply Forall_impl; [|exact Ha]. intros a E. rewrite map_length. exact E. }
  assert (L' : real_labels (map (transform M v) ls) (relabel d (map (transform M v) ls))) by reflexivity.
  split; auto. split; auto. split; [rewrite (real_rl _ _ Hl); exact Hl|]. split; [rewrite (real_rl _ _ L'); exact L'|].
  unfold rs, samples, relabel. cbn [feature_rows labels]. xr. rewrite Hl. generalize (feature_rows d). intros rows. clear. revert rows.
  induction ls as [|l ls IH]; intros [|r rows]; cbn; auto. rewrite IH. unfold rp. cbn [fst snd]. now rewrite !map_xval_Fin.
Qed.

Theorem tree_tr d ls cfg v t t' :
  wf_dataset nc nt d -> real_labels ls d -> standard cfg -> tc_number_of_classes cfg = N.of_nat nt -> length v = nt' ->
  regression_tree_new d cfg = Ok t -> regression_tree_new (relabel d (map (transform M v) ls)) (for_targets nt' cfg) = Ok t' ->
  tree_map (fun _ => tt) t' = tree_map (fun _ => tt) t /\
  forall row, (tree_prediction row t = Panic /\ tree_prediction row t' = Panic) \/
    exists p, tree_prediction row t = Ok (map Fin p) /\ length p = nt /\ tree_prediction row t' = Ok (map Fin (transform M v p)).
Proof.
  intros W Hl Hst Hc Hv E E'. pose proof (relabel_turned d ls v W Hl Hv) as T.
  rewrite regression_tree_new_eq in E, E'. apply build_with_built in E. apply build_with_built in E'.
  destruct (built_turned _ _ v _ _ _ _ _ _ Hst Hc Hv E E' T) as [A B]. split; auto. intros row.
  unfold tree_prediction. destruct (B row) as [[-> ->]|(x & x' & l & l' & -> & E1 & -> & E2 & Mx)]; [left; auto|right].
  unfold mk_reg in E1, E2. cbn [bind] in *. injection E1 as <-. injection E2 as <-. cbn [rl_data unwrap bind].
  pose proof (turned_labels _ _ _ Mx) as Er. destruct Mx as (Wx & Wx' & Lx & Lx' & _).
  destruct (real_rect _ _ _ _ Wx Lx) as [Rx Nx].
  exists (means nt (rl x)). split; [exact (leaf_prediction nc nt x Wx Lx)|]. split; [apply means_length|].
  rewrite <- tr_means by auto. rewrite <- Er. exact (leaf_prediction nc nt' x' Wx' Lx').
Qed.

(* ------------------------------------------------------------------ *)
(** ** Regression boosting *)

(** Outputs of two trees related by a scale. *)
Definition turned_out (t t' : tree_node (@grad_boost_leaf xr_ops)) : Prop :=
  tree_map (fun _ => tt) t' = tree_map (fun _ => tt) t /\
  forall row, (@gb_out xr_ops row t = Panic /\ @gb_out xr_ops row t' = Panic) \/
    exists o, @gb_out xr_ops row t = Ok (map Fin o) /\ length o = nt /\ @gb_out xr_ops row t' = Ok (map Fin (transform M (zeros nt') o)).

Lemma fold_step_tr lr v (os : list (list R)) : length v = nt' -> forall g, length g = nt -> Forall (fun o => length o = nt) os ->
  fold_left (vstep lr) (map (transform M (zeros nt')) os) (transform M v g) = transform M v (fold_left (vstep lr) os g).
Proof.
  intros Hv. induction os as [|o os IH]; intros g Hg Ho; [auto|].
  pose proof (Forall_inv Ho) as Lo. pose proof (Forall_inv_tail Ho) as Ho'. cbv beta in Lo. cbn [map fold_left].
  rewrite tr_step by auto. apply IH; auto. rewrite vstep_length; congruence.
Qed.

Lemma raw_turned lr v g row ts ts' :
  length g = nt -> length v = nt' -> Forall2 turned_out ts ts' ->
  (@raw xr_ops _ gb_out (Fin lr) (map Fin g) row ts = Panic /\ @raw xr_ops _ gb_out (Fin lr) (map Fin (transform M v g)) row ts' = Panic) \/
  exists p, @raw xr_ops _ gb_out (Fin lr) (map Fin g) row ts = Ok (map Fin p) /\ length p = nt /\
    @raw xr_ops _ gb_out (Fin lr) (map Fin (transform M v g)) row ts' = Ok (map Fin (transform M v p)).
Proof.
  intros Hg Hv H.
  assert (D : (mapM (fun t => o <- @gb_out xr_ops row t;; Ok (weighted (Fin lr) o)) ts = Panic /\
               mapM (fun t => o <- @gb_out xr_ops row t;; Ok (weighted (Fin lr) o)) ts' = Panic) \/
              exists os, Forall2 (fun t o => @gb_out xr_ops row t = Ok (map Fin o)) ts os /\ Forall (fun o => length o = nt) os /\
                 Forall2 (fun t o => @gb_out xr_ops row t = Ok (map Fin o)) ts' (map (transform M (zeros nt')) os)).
  { induction H as [|t t' ts ts' [_ Ht] H IH]; [right; exists []; cbn; repeat split; constructor|].
    cbn [mapM]. destruct (Ht row) as [[-> ->]|(o & Eo & Lo & Eo')]; [left; auto|].
    destruct IH as [[E1 E2]|(os & A & B & C)].
    - left. rewrite Eo, Eo'. cbn [bind]. xr. rewrite E1, E2. auto.
    - right. exists (o :: os). cbn [map]. auto. }
  destruct D as [[E1 E2]|(os & A & B & C)].
  - left. unfold raw. rewrite E1, E2. auto.
  - right. exists (fold_left (vstep lr) os g). split; [now apply (raw_real nt)|]. split; [apply (fold_step_Fin nt lr os g Hg B)|].
    rewrite <- fold_step_tr by auto. apply (raw_real nt'); auto.
    + now apply tr_length.
    + rewrite Forall_map. apply Forall_forall. intros o _. apply tr_length, zeros_length.
Qed.

Lemma turned_tree d d' cfg t t' :
  standard cfg -> tc_number_of_classes cfg = N.of_nat nt -> turned (zeros nt') d d' ->
  grad_boost_tree_new d cfg (leaf_output_calculator_new Regression) = Ok t ->
  grad_boost_tree_new d' (for_targets nt' cfg) (leaf_output_calculator_new Regression) = Ok t' -> turned_out t t'.
Proof.
  intros Hst Hc T E E'. rewrite grad_boost_tree_new_eq in E, E'. apply build_with_built in E. apply build_with_built in E'.
  destruct (built_turned _ _ _ _ _ _ _ _ _ Hst Hc (zeros_length nt') E E' T) as [A B]. split; auto. intros row.
  unfold gb_out. destruct (B row) as [[-> ->]|(x & x' & l & l' & -> & E1 & -> & E2 & Mx)]; [left; auto|right].
  pose proof (turned_labels _ _ _ Mx) as Er. destruct Mx as (Wx & Wx' & Lx & Lx' & _).
  destruct (real_rect _ _ _ _ Wx Lx) as [Rx Nx].
  apply (mk_gb_regression nc nt) in E1; auto. apply (mk_gb_regression nc nt') in E2; auto. subst.
  exists (means nt (rl x)). split; [reflexivity|]. split; [apply means_length|]. cbn [bind gl_output unwrap]. do 2 f_equal.
  rewrite Er. apply tr_means; auto. apply zeros_length.
Qed.

Lemma map2_vsub_tr v ls ps : length v = nt' -> rectangular nt ls -> rectangular nt ps -> length ps = length ls ->
  map2 vsub (map (transform M v) ls) (map (transform M v) ps) = map (transform M (zeros nt')) (map2 vsub ls ps).
Proof.
  intros Hv H. revert ps. induction H as [|l ls Hl H IH]; intros [|p ps] Hp HL; try discriminate; cbn [map map2]; auto.
  pose proof (Forall_inv Hp) as Hp1. pose proof (Forall_inv_tail Hp) as Hp2. cbv beta in Hp1. f_equal; [now apply tr_sub|]. apply IH; auto.
Qed.

Section Boost.
Variables (d : @dataset xr_ops) (ls : list (list R)) (cfg : @tree_config xr_ops) (n : nat) (lr : R) (v : list R)
  (m m' : @regression_boost_model xr_ops).
Hypotheses (W : wf_dataset nc nt d) (Hl : real_labels ls d) (Hst : standard cfg) (Hc : tc_number_of_classes cfg = N.of_nat nt)
  (Hv : length v = nt')
  (E : regression_boost_train d cfg n (Fin lr) = Ok m)
  (E' : regression_boost_train (relabel d (map (transform M v) ls)) (for_targets nt' cfg) n (Fin lr) = Ok m').

Lemma boost_turned_trees : forall k, (k <= n)%nat -> Forall2 turned_out (firstn k (m_trees m)) (firstn k (m_trees m')).
Proof.
  pose proof (relabel_turned d ls v W Hl Hv) as T. pose proof T as (_ & W' & _).
  assert (Hl' : real_labels (map (transform M v) ls) (relabel d (map (transform M v) ls))) by reflexivity.
  destruct (real_rect _ _ _ _ W Hl) as [Rl Nl].
  destruct (guess_real _ _ _ _ _ _ _ _ W Hl E) as (Hg & Hlr & HT).
  destruct (guess_real _ _ _ _ _ _ _ _ W' Hl' E') as (Hg' & Hlr' & HT'). rewrite tr_means in Hg' by auto.
  induction k as [|k IH]; intros Hk; [constructor|]. specialize (IH ltac:(lia)).
  destruct (regression_stage _ cfg n (Fin lr) m k (wf_lengths _ _ _ W) E Hk) as (preds & t & Ep & _ & Ht & Eb).
  destruct (regression_stage _ (for_targets nt' cfg) n (Fin lr) m' k (wf_lengths _ _ _ W') E' Hk) as (preds' & t' & Ep' & _ & Ht' & Eb').
  rewrite (firstn_snoc _ _ _ Ht), (firstn_snoc _ _ _ Ht'). apply Forall2_app; auto. constructor; [|constructor].
  unfold regression_boost_all_predictions in Ep, Ep'. rewrite all_predictions_eq in Ep, Ep'. cbn [relabel feature_rows] in Ep'.
  assert (HP : exists ps, Forall2 (fun row p => regression_boost_predict (first_trees k m) row = Ok (map Fin p) /\ length p = nt) (feature_rows d) ps /\
     Forall2 (fun row p => regression_boost_predict (first_trees k m') row = Ok (map Fin p) /\ length p = nt') (feature_rows d) (map (transform M v) ps)).
  { destruct (trained_predictions nc nt d ls cfg k lr (first_trees k m) (feature_rows d) W Hl) as (ps & Hps).
    - apply (regression_prefix d cfg n k); auto. lia.
    - intros row Hin. eapply row_long; eauto.
    - exists ps. split; auto. clear Ep Ep'. revert Hps. generalize (feature_rows d). intros rows0 Hps.
      induction Hps as [|row p rows ps [H1 H2] H IHp]; cbn [map]; constructor; [|exact IHp].
      split; [|now apply tr_length].
      unfold regression_boost_predict in *. rewrite predict_instance_raw in *. cbn [first_trees m_trees m_initial_guess m_learning_rate] in *.
      rewrite Hg, Hlr in H1. rewrite Hg', Hlr'.
      destruct (raw_turned lr v (means nt ls) row _ _ (means_length nt ls) Hv IH) as [[A _]|(p' & A & _ & B)].
      + xr. rewrite A in H1. discriminate.
      + xr. rewrite A in H1. injection H1 as H1. apply (f_equal (map xval)) in H1. rewrite !map_xval_Fin in H1. subst p'. exact B. }
  destruct HP as (ps & HP & HP'). apply (Forall2_real nt _ _ ps) in Ep; auto. apply (Forall2_real nt' _ _ (map (transform M v) ps)) in Ep'; auto. subst preds preds'.
  assert (HL : length ps = length ls) by (rewrite <- (Forall2_length _ _ _ HP); eapply xr_len; eauto).
  pose proof (Forall2_rect _ _ _ _ HP) as Rp.
  destruct (residual_data nc nt d ls ps W Hl HL Rp) as [Wr Lr].
  assert (Ed : mkDS (feature_rows (relabel d (map (transform M v) ls))) (differences (labels (relabel d (map (transform M v) ls))) (map (map Fin) (map (transform M v) ps)))
       (feature_columns (relabel d (map (transform M v) ls))) =
     relabel (mkDS (feature_rows d) (differences (labels d) (map (map Fin) ps)) (feature_columns d)) (map (transform M (zeros nt')) (map2 vsub ls ps))).
  { unfold relabel. cbn [feature_rows feature_columns labels]. f_equal. rewrite <- map2_vsub_tr with (v := v) by auto. apply differences_Fin. }
  xr. rewrite Ed in Eb'. refine (turned_tree _ _ cfg t t' Hst Hc _ Eb Eb').
  apply relabel_turned; auto. apply zeros_length.
Qed.

Theorem boost_tr :
  Forall2 (fun t t' => tree_map (fun _ => tt) t' = tree_map (fun _ => tt) t) (m_trees m) (m_trees m') /\
  forall row, (regression_boost_predict m row = Panic /\ regression_boost_predict m' row = Panic) \/
    exists p, regression_boost_predict m row = Ok (map Fin p) /\ length p = nt /\ regression_boost_predict m' row = Ok (map Fin (transform M v p)).
Proof.
  pose proof (relabel_turned d ls v W Hl Hv) as T. pose proof T as (_ & W' & _).
  assert (Hl' : real_labels (map (transform M v) ls) (relabel d (map (transform M v) ls))) by reflexivity.
  destruct (real_rect _ _ _ _ W Hl) as [Rl Nl].
  destruct (guess_real _ _ _ _ _ _ _ _ W Hl E) as (Hg & Hlr & HT).
  destruct (guess_real _ _ _ _ _ _ _ _ W' Hl' E') as (Hg' & Hlr' & HT'). rewrite tr_means in Hg' by auto.
  pose proof (boost_turned_trees n (Nat.le_refl n)) as HF. rewrite <- HT in HF at 1. rewrite <- HT' in HF. rewrite !firstn_all in HF.
  split; [eapply Forall2_impl; [|exact HF]; now intros t t' [A _]|].
  intros row. unfold regression_boost_predict. rewrite !predict_instance_raw, Hg, Hlr, Hg', Hlr'.
  apply raw_turned; auto. apply means_length.
Qed.
End Boost.

End Map.

(* ------------------------------------------------------------------ *)
(** ** Targets computed from one number *)

Lemma dot_one a y : dot [a] [y] = a * y.
Proof. unfold dot. cbn [combine map]. rewrite Rsum_cons. cbn. ring. Qed.

Lemma from_one_tr a b y : from_one a b y = transform (map (fun x => [x]) a) b [y].
Proof.
  unfold from_one, transform. revert b. induction a as [|x a IH]; intros [|z b]; cbn [map combine]; auto. rewrite IH. cbn [fst snd]. now rewrite dot_one.
Qed.

Lemma column_keeps a : Exists (fun x => x <> 0) a -> keeps_shapes 1 (Rsum (map (fun x => x * x) a)) (map (fun x => [x]) a).
Proof.
  intros H. split; [|split].
  - induction H as [x a Hx|x a H IH]; cbn [map]; rewrite Rsum_cons.
    + assert (0 < x * x) by (destruct (Rdichotomy _ _ Hx); nra). assert (0 <= Rsum (map (fun x => x * x) a)); [|lra].
      apply Rsum_nonneg. intros y Hy. apply in_map_iff in Hy as (z & <- & _). apply Rle_0_sqr.
    + pose proof (Rle_0_sqr x) as H0. unfold Rsqr in H0. lra.
  - rewrite Forall_map. apply Forall_forall. reflexivity.
  - intros [|y [|? ?]] L; try discriminate. rewrite map_map. rewrite (Rsum_map_ext _ (fun x => y * y * (x * x))) by (intros x _; rewrite dot_one; ring).
    rewrite Rsum_map_mult. replace (Rsum (map (fun x => x * x) [y])) with (y * y) by (cbn [map]; rewrite Rsum_cons; unfold Rsum; cbn; ring). ring.
Qed.

Lemma one_target_labels (ys : list R) a b : map (from_one a b) ys = map (transform (map (fun x => [x]) a) b) (map (fun y => [y]) ys).
Proof. rewrite map_map. apply map_ext. intros y. apply from_one_tr. Qed.

Lemma one_entry (p : list R) : length p = 1%nat -> exists y, p = [y].
Proof. destruct p as [|y [|? ?]]; try discriminate. eauto. Qed.

Theorem tree_from_one nc d ys cfg a b t t' :
  wf_dataset nc 1 d -> real_labels (map (fun y => [y]) ys) d -> standard cfg -> tc_number_of_classes cfg = 1%N ->
  length b = length a -> Exists (fun x => x <> 0) a ->
  regression_tree_new d cfg = Ok t -> regression_tree_new (relabel d (map (from_one a b) ys)) (for_targets (length a) cfg) = Ok t' ->
  tree_map (fun _ => tt) t' = tree_map (fun _ => tt) t /\
  forall row, (tree_prediction row t = Panic /\ tree_prediction row t' = Panic) \/
    exists y, tree_prediction row t = Ok [Fin y] /\ tree_prediction row t' = Ok (map Fin (from_one a b y)).
Proof.
  intros W Hl Hst Hc Lb Ha E E'. rewrite one_target_labels in E'.
  destruct (tree_tr nc 1 (length a) _ _ (column_keeps a Ha) (map_length _ _) d _ cfg b t t' W Hl Hst Hc Lb E E') as [A B]. split; auto.
  intros row. destruct (B row) as [C|(p & H1 & H2 & H3)]; [now left|right]. destruct (one_entry p H2) as (y & ->). exists y. rewrite from_one_tr. auto.
Qed.

Theorem boost_from_one nc d ys cfg n lr a b m m' :
  wf_dataset nc 1 d -> real_labels (map (fun y => [y]) ys) d -> standard cfg -> tc_number_of_classes cfg = 1%N ->
  length b = length a -> Exists (fun x => x <> 0) a ->
  regression_boost_train d cfg n (Fin lr) = Ok m ->
  regression_boost_train (relabel d (map (from_one a b) ys)) (for_targets (length a) cfg) n (Fin lr) = Ok m' ->
  Forall2 (fun t t' => tree_map (fun _ => tt) t' = tree_map (fun _ => tt) t) (m_trees m) (m_trees m') /\
  forall row, (regression_boost_predict m row = Panic /\ regression_boost_predict m' row = Panic) \/
    exists y, regression_boost_predict m row = Ok [Fin y] /\ regression_boost_predict m' row = Ok (map Fin (from_one a b y)).
Proof.
  intros W Hl Hst Hc Lb Ha E E'. rewrite one_target_labels in E'.
  destruct (boost_tr nc 1 (length a) _ _ (column_keeps a Ha) (map_length _ _) d _ cfg n lr b m m' W Hl Hst Hc Lb E E') as [A B]. split; auto.
  intros row. destruct (B row) as [C|(p & H1 & H2 & H3)]; [now left|right]. destruct (one_entry p H2) as (y & ->). exists y. rewrite from_one_tr. auto.
Qed.
