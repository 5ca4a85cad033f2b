(** Rescaling and shifting the labels (C48). *)
From Coq Require Import Reals Lra Lia Permutation Sorted.
From Verif Require Import Base Num ModelCommon ModelTree ModelBoost Spec SpecTree SpecScore SpecFit Lib ProofData ProofSort ProofSplit ProofSplit2
  ProofTree ProofTree3 ProofScore ProofScore2 ProofBoost ProofBoost2 XR SpecExact SpecError SpecAffine ProofReal ProofSplitExact
  ProofSplitExact2 ProofTreeExact ProofScoreExact ProofLeaf ProofBoostExact ProofClassRun.
Local Open Scope R_scope.

(* ------------------------------------------------------------------ *)
(** ** Vectors *)

Lemma affine_map2 s v l : affine s v l = map2 (fun x y => s * x + y) l v.
Proof. unfold affine. now rewrite map2_combine. Qed.

Lemma affine_length k s v l : length l = k -> length v = k -> length (affine s v l) = k.
Proof. intros H1 H2. unfold affine. rewrite map_length, combine_length. lia. Qed.

Lemma affine_nth s v l j : (j < length l)%nat -> (j < length v)%nat -> nth j (affine s v l) 0 = s * nth j l 0 + nth j v 0.
Proof. intros. rewrite affine_map2. apply (nth_map2 (fun x y => s * x + y)); auto. Qed.

Lemma affine_nil s v : affine s v [] = []. Proof. reflexivity. Qed.

Lemma affine_rect k s v ls : length v = k -> rectangular k ls -> rectangular k (map (affine s v) ls).
Proof. intros Hv H. unfold rectangular in *. rewrite Forall_map. eapply Forall_impl; [|exact H]. intros l Hl. now apply affine_length. Qed.

Lemma affine_target k s v ls j : (j < k)%nat -> length v = k -> rectangular k ls ->
  target j (map (affine s v) ls) = map (fun x => s * x + nth j v 0) (target j ls).
Proof.
  intros Hj Hv H. unfold target. rewrite !map_map. apply map_ext_in. intros l Hl.
  pose proof (proj1 (Forall_forall _ _) H l Hl) as L. cbv beta in L. apply affine_nth; lia.
Qed.

Lemma mean_affine s b l : l <> [] -> mean (map (fun x => s * x + b) l) = s * mean l + b.
Proof.
  intros H. unfold mean. rewrite map_length.
  assert (E : Rsum (map (fun x => s * x + b) l) = s * Rsum l + INR (length l) * b).
  { rewrite Rsum_map_plus, Rsum_map_mult, Rsum_map_const, map_id. lra. }
  rewrite E. pose proof (nonempty_INR l H). field. auto.
Qed.

Lemma variance_affine s b l : variance (map (fun x => s * x + b) l) = s * s * variance l.
Proof.
  destruct l as [|x l]; [unfold variance; cbn; unfold Rdiv; ring|]. set (a := x :: l). assert (Ha : a <> []) by discriminate.
  unfold variance. rewrite mean_affine by auto. rewrite map_length, map_map.
  rewrite (Rsum_map_ext _ (fun y => s * s * ((y - mean a) * (y - mean a)))) by (intros; ring).
  rewrite Rsum_map_mult. unfold Rdiv. ring.
Qed.

Lemma total_affine k s v ls : length v = k -> rectangular k ls -> total_variance k (map (affine s v) ls) = s * s * total_variance k ls.
Proof.
  intros Hv H. unfold total_variance. rewrite <- Rsum_map_mult. apply Rsum_map_ext. intros j Hj. apply in_seq in Hj.
  rewrite (affine_target k) by (auto; lia). apply variance_affine.
Qed.

Lemma remaining_affine k s v a b : length v = k -> rectangular k a -> rectangular k b ->
  remaining_variance k (map (affine s v) a) (map (affine s v) b) = s * s * remaining_variance k a b.
Proof. intros Hv Ha Hb. unfold remaining_variance. rewrite !map_length, !total_affine by auto. ring. Qed.

Lemma means_affine k s v ls : length v = k -> rectangular k ls -> ls <> [] -> means k (map (affine s v) ls) = affine s v (means k ls).
Proof.
  intros Hv H Hne. apply (nth_ext _ _ 0 0).
  - rewrite means_length. symmetry. apply affine_length; auto. apply means_length.
  - rewrite means_length. intros j Hj. rewrite affine_nth by (rewrite ?means_length; lia).
    assert (Em : forall ls, nth j (means k ls) 0 = mean (target j ls)).
    { intros m. unfold means. rewrite (nth_indep _ 0 (mean (target 0 m))) by (rewrite map_length, seq_length; lia).
      rewrite (map_nth (fun j => mean (target j m))), seq_nth by lia. reflexivity. }
    rewrite !Em, (affine_target k) by auto. apply mean_affine. intros E. apply map_eq_nil in E. contradiction.
Qed.

(* ------------------------------------------------------------------ *)
(** ** The split finder *)

Definition scaled_threshold (w : R) (b : @best_threshold xr_ops) : @best_threshold xr_ops :=
  mkBT (match bt_loss b with Fin x => Fin (w * x) | y => y end) (bt_threshold b).

Definition scaled_split (w : R) (b : @best_split xr_ops) : @best_split xr_ops :=
  mkBS (match bs_gain b with Fin x => Fin (w * x) | y => y end) (bs_question b).

Lemma best_upto_affine k s v (a : list (xr * list R)) prev n b :
  s <> 0 -> length v = k -> rectangular k (map snd a) ->
  best_upto k a prev n b ->
  best_upto k (map (fun p => (fst p, affine s v (snd p))) a) prev n (scaled_threshold (s * s) b).
Proof.
  intros Hs Hv Hr. set (a' := map (fun p => (fst p, affine s v (snd p))) a).
  assert (Hss : 0 < s * s). { destruct (Rdichotomy _ _ Hs); [nra|nra]. }
  assert (Hcut : forall i w, cut a prev i w <-> cut a' prev i w).
  { intros i w. unfold cut, a'. rewrite nth_error_map. split.
    - intros (l & E & H). rewrite E. exists (affine s v l). auto.
    - intros (l & E & H). destruct (nth_error a i) as [[w' l']|]; [|discriminate]. cbn in E. injection E as -> _. exists l'. auto. }
  assert (Hcost : forall i, cost k a' i = s * s * cost k a i).
  { intros i. unfold cost, a'. rewrite map_map. cbn [snd]. rewrite <- (map_map snd (affine s v)). rewrite firstn_map, skipn_map.
    apply remaining_affine; auto; unfold rectangular in *.
    - rewrite <- (firstn_skipn i (map snd a)) in Hr. now apply Forall_app in Hr.
    - rewrite <- (firstn_skipn i (map snd a)) in Hr. now apply Forall_app in Hr. }
  intros [[-> N]|(i & w & Hi & Hc & -> & H1 & H2)].
  - left. split; [reflexivity|]. intros i w Hi Hc. apply (N i w); auto. now apply Hcut.
  - right. exists i, w. split; auto. split; [now apply Hcut|]. split; [unfold scaled_threshold; cbn; now rewrite Hcost|]. split.
    + intros j u Hj Hu. apply Hcut in Hu. rewrite !Hcost. apply Rmult_le_compat_l; [lra|eauto].
    + intros j u Hj Hu. apply Hcut in Hu. rewrite !Hcost. apply Rmult_lt_compat_l; [lra|eauto].
Qed.

Lemma ordered_affine s v ls (r : list (xr * nat)) :
  ordered (map (affine s v) ls) r = map (fun p => (fst p, affine s v (snd p))) (ordered ls r).
Proof. unfold ordered. rewrite map_map. apply map_ext. intros p. cbn [fst snd]. f_equal. rewrite <- (affine_nil s v) at 1. apply map_nth. Qed.

Definition plain_threshold (b : @best_threshold xr_ops) : Prop := bt_loss b = PInf \/ exists x, bt_loss b = Fin x.

Lemma best_upto_plain k a prev n b : best_upto k a prev n b -> plain_threshold b.
Proof. intros [[-> _]|(i & w & _ & _ & -> & _)]; [left; reflexivity|right; eexists; reflexivity]. Qed.

Lemma xltb_scale w x y : 0 < w -> xltb (Fin (w * x)) (Fin (w * y)) = xltb (Fin x) (Fin y).
Proof.
  intros Hw. destruct (xltb (Fin x) (Fin y)) eqn:E.
  - apply xltb_Fin in E. apply xltb_Fin. now apply Rmult_lt_compat_l.
  - destruct (xltb (Fin (w * x)) (Fin (w * y))) eqn:E'; auto. apply xltb_Fin in E'. apply Rmult_lt_reg_l in E'; auto. apply xltb_Fin in E'. congruence.
Qed.

Lemma enumerate_map {A B} (f : A -> B) l : enumerate (map f l) = map (fun e => (fst e, f (snd e))) (enumerate l).
Proof. unfold enumerate. rewrite map_length. apply combine_map_r. Qed.

Lemma pselect_scaled w tv (ts : list (@best_threshold xr_ops)) :
  0 < w -> Forall plain_threshold ts ->
  (exists g, bs_gain (pselect (Fin tv) ts) = Fin g) /\
  pselect (Fin (w * tv)) (map (scaled_threshold w) ts) = scaled_split w (pselect (Fin tv) ts).
Proof.
  intros Hw H. unfold pselect.
  assert (G : forall es es' b b', Forall (fun e : nat * @best_threshold xr_ops => plain_threshold (snd e)) es ->
    es' = map (fun e => (fst e, scaled_threshold w (snd e))) es -> (exists g, bs_gain b = Fin g) -> b' = scaled_split w b ->
    (exists g, bs_gain (fold_left (pselect_step (Fin tv)) es b) = Fin g) /\
    fold_left (pselect_step (Fin (w * tv))) es' b' = scaled_split w (fold_left (pselect_step (Fin tv)) es b)).
  { clear ts H. induction es as [|[i t] es IH]; intros es' b b' H -> (g & Eg) ->; [split; [eauto|reflexivity]|].
    inversion H as [|? ? Ht H']; subst. cbn [map fold_left fst snd]. apply IH; auto; clear IH H H'.
    - unfold pselect_step. cbn [fst snd]. destruct Ht as [Ht|(x & Ht)].
      + change (@fltb xr_ops) with xltb. change (@fsub xr_ops) with xsub. cbn [snd] in Ht. rewrite Ht, Eg. cbn. eauto.
      + cbn [snd] in Ht. rewrite Ht. destruct (fltb _ _); [|eauto]. cbn [bs_gain]. eexists. reflexivity.
    - unfold pselect_step. cbn [fst snd scaled_threshold bt_loss bt_threshold scaled_split bs_gain]. cbn [snd] in Ht.
      change (@fltb xr_ops) with xltb. change (@fsub xr_ops) with xsub. rewrite Eg. destruct Ht as [Ht|(x & Ht)]; rewrite Ht.
      + cbn. unfold scaled_split. now rewrite Eg.
      + rewrite !xsub_Fin. replace (w * tv - w * x) with (w * (tv - x)) by ring. rewrite xltb_scale by auto.
        destruct (xltb (Fin g) (Fin (tv - x))); [reflexivity|]. unfold scaled_split. now rewrite Eg. }
  destruct (G (enumerate ts) (enumerate (map (scaled_threshold w) ts)) (@no_split xr_ops) (@no_split xr_ops)) as [A B]; auto.
  - apply Forall_forall. intros [i t] Hin. apply in_combine_r in Hin. exact (proj1 (Forall_forall _ _) H t Hin).
  - apply enumerate_map.
  - exists 0. reflexivity.
  - unfold scaled_split, no_split. cbn. change (@f0 xr_ops) with (Fin 0). cbn. now rewrite Rmult_0_r.
Qed.

Theorem split_affine nc nt (d d' : @dataset xr_ops) ls s v b :
  wf_dataset nc nt d -> wf_dataset nc nt d' -> feature_columns d' = feature_columns d ->
  real_labels ls d -> real_labels (map (affine s v) ls) d' -> s <> 0 -> length v = nt ->
  find_best_split d (N.of_nat nt) = Ok b ->
  (exists g, bs_gain b = Fin g) /\ find_best_split d' (N.of_nat nt) = Ok (scaled_split (s * s) b).
Proof.
  intros W W' Ecols Hl Hl' Hs Hv E. rewrite (find_best_split_eq xr_laws nc nt d W) in E. injection E as <-.
  rewrite (find_best_split_eq xr_laws nc nt d' W').
  destruct (real_rect _ _ _ _ W Hl) as [Hr Hne]. destruct (real_rect _ _ _ _ W' Hl') as [Hr' Hne'].
  assert (Hss : 0 < s * s). { destruct (Rdichotomy _ _ Hs); [nra|nra]. }
  set (ts := map (@pcolumn xr_ops nt (labels d)) (dvls d)).
  assert (HT : Forall plain_threshold ts /\ map (@pcolumn xr_ops nt (labels d')) (dvls d') = map (scaled_threshold (s * s)) ts).
  { unfold ts, dvls. rewrite Ecols. rewrite !map_map.
    assert (HC : forall col, In col (feature_columns d) ->
      plain_threshold (pcolumn nt (labels d) (vls_of (labels d) (the_sort col))) /\
      pcolumn nt (labels d') (vls_of (labels d') (the_sort col)) = scaled_threshold (s * s) (pcolumn nt (labels d) (vls_of (labels d) (the_sort col)))).
    { intros col Hin. apply In_nth_error in Hin as (j & Ec). pose proof Ec as Ec'. rewrite <- Ecols in Ec'.
      assert (HS : sorted_version col (the_sort col)).
      { apply (the_sort_spec xr_laws). exact (wf_column_num nc nt d col W (nth_error_In _ _ Ec)). }
      assert (L : length col = length ls) by exact (wf_col_length nc nt d ls col W Hl (nth_error_In _ _ Ec)).
      assert (L' : length col = length (map (affine s v) ls)) by now rewrite map_length.
      destruct (considered_cut nc nt d ls j col _ W Hl Ec HS) as (m & Hm & Hnum & Hhd & _).
      destruct (considered_cut nc nt d' _ j col _ W' Hl' Ec' HS) as (m' & Hm' & Hnum' & Hhd' & _).
      assert (m' = m) by congruence. subst m'.
      assert (HB := pcolumn_exact nt ls (ordered ls (the_sort col)) (fst m, nth (snd m) ls []) Hr Hne).
      rewrite ordered_labels in HB. specialize (HB (labels_in_order_perm ls col _ HS L) Hhd).
      assert (HB' := pcolumn_exact nt (map (affine s v) ls) (ordered (map (affine s v) ls) (the_sort col)) (fst m, nth (snd m) (map (affine s v) ls) []) Hr' Hne').
      rewrite ordered_labels in HB'. specialize (HB' (labels_in_order_perm _ col _ HS L') Hhd').
      cbn [fst] in HB, HB'.
      assert (Hn : xeqb (fst m) (fst m) = true).
      { unfold xeqb. unfold is_num in Hnum. change (@fleb xr_ops) with xleb in Hnum. now rewrite Hnum. }
      specialize (HB Hn). specialize (HB' Hn).
      assert (E1 : pcolumn nt (labels d) (vls_of (labels d) (the_sort col)) = pcolumn nt (map (map Fin) ls) (map fin_row (ordered ls (the_sort col)))).
      { rewrite Hl. f_equal. apply vls_ordered. }
      assert (E2 : pcolumn nt (labels d') (vls_of (labels d') (the_sort col)) =
                   pcolumn nt (map (map Fin) (map (affine s v) ls)) (map fin_row (ordered (map (affine s v) ls) (the_sort col)))).
      { rewrite Hl'. f_equal. apply vls_ordered. }
      rewrite E1, E2. split; [eapply best_upto_plain; exact HB|].
      eapply best_upto_unique; [exact HB'|]. rewrite ordered_affine. rewrite map_length. apply best_upto_affine; auto.
      rewrite ordered_labels. unfold rectangular in *. rewrite <- (labels_in_order_perm ls col _ HS L). exact Hr. }
    split; [rewrite Forall_map; apply Forall_forall; intros col Hin; now apply HC|].
    apply map_ext_in. intros col Hin. now apply HC. }
  destruct HT as [HT1 HT2]. unfold pfind. rewrite HT2. fold ts.
  assert (Etv : ptotal_variance nt (labels d) = Fin (total_variance nt ls)).
  { unfold real_labels in Hl. rewrite Hl. now apply ptotal_variance_exact. }
  assert (Etv' : ptotal_variance nt (labels d') = Fin (s * s * total_variance nt ls)).
  { unfold real_labels in Hl'. rewrite Hl'. rewrite <- (total_affine nt s v) by auto. now apply ptotal_variance_exact. }
  rewrite Etv, Etv'. destruct (pselect_scaled (s * s) (total_variance nt ls) ts Hss HT1) as [A B]. split; auto. now rewrite B.
Qed.

(* ------------------------------------------------------------------ *)
(** ** Trees *)

Definition moved (nc nt : nat) (s : R) (v : list R) (d d' : @dataset xr_ops) : Prop :=
  wf_dataset nc nt d /\ wf_dataset nc nt d' /\ real_labels (rl d) d /\ real_labels (rl d') d' /\
  rs d' = map (fun p => (fst p, affine s v (snd p))) (rs d).

Lemma rs_fst nc nt d : wf_dataset nc nt d -> map fst (rs d) = feature_rows d.
Proof. intros W. unfold rs. rewrite map_map. cbn [rp fst]. apply map_fst_combine. symmetry. exact (wf_lengths _ _ _ W). Qed.

Lemma moved_rows nc nt s v d d' : moved nc nt s v d d' -> feature_rows d' = feature_rows d.
Proof.
  intros (W & W' & _ & _ & E). rewrite <- (rs_fst _ _ _ W), <- (rs_fst _ _ _ W'), E, map_map. reflexivity.
Qed.

Lemma moved_labels nc nt s v d d' : moved nc nt s v d d' -> rl d' = map (affine s v) (rl d).
Proof.
  intros (W & W' & _ & _ & E). rewrite <- (rs_snd _ _ _ W), <- (rs_snd _ _ _ W'), E, !map_map. reflexivity.
Qed.

Lemma moved_columns nc nt s v d d' : moved nc nt s v d d' -> feature_columns d' = feature_columns d.
Proof.
  intros M. pose proof (moved_rows _ _ _ _ _ _ M) as Er. destruct M as (W & W' & _).
  apply nth_error_ext. intros j. pose proof (proj1 (wf_columns _ _ _ W)) as L. pose proof (proj1 (wf_columns _ _ _ W')) as L'.
  destruct (nth_error (feature_columns d) j) as [col|] eqn:Ec.
  - destruct (nth_error (feature_columns d') j) as [col'|] eqn:Ec'.
    + pose proof (column_is_map nc _ _ j col (wf_rows _ _ _ W) (wf_columns _ _ _ W) Ec) as E1.
      pose proof (column_is_map nc _ _ j col' (wf_rows _ _ _ W') (wf_columns _ _ _ W') Ec') as E2.
      xr. rewrite Er in E2. congruence.
    + apply nth_error_None in Ec'. assert (j < length (feature_columns d))%nat by (apply nth_error_Some; congruence). lia.
  - apply nth_error_None in Ec. apply nth_error_None. lia.
Qed.

Lemma filter_moved (p : list xr -> bool) s v (l : list (list xr * list R)) :
  filter (fun x => p (fst x)) (map (fun p => (fst p, affine s v (snd p))) l) =
  map (fun p => (fst p, affine s v (snd p))) (filter (fun x => p (fst x)) l).
Proof. induction l as [|x l IH]; auto. cbn [map filter fst]. destruct (p (fst x)); cbn [map]; now rewrite IH. Qed.

Lemma moved_partition nc nt s v d d' q fd td fd' td' : moved nc nt s v d d' ->
  partition d q = Ok (fd, td) -> partition d' q = Ok (fd', td') ->
  moved nc nt s v fd fd' /\ moved nc nt s v td td'.
Proof.
  intros (W & W' & L & L' & E) P P'.
  destruct (sub_true _ _ _ _ _ _ W P L) as (Wf & Wt & Lf & Lt & Et & Ef & _).
  destruct (sub_true _ _ _ _ _ _ W' P' L') as (Wf' & Wt' & Lf' & Lt' & Et' & Ef' & _).
  split; (split; [auto|]; split; [auto|]; split; [auto|]; split; [auto|]).
  - rewrite Ef', Ef, E. apply (filter_moved (fun x => negb (answers q x))).
  - rewrite Et', Et, E. apply (filter_moved (fun x => answers q x)).
Qed.

Lemma scaled_stop w b level top g : 0 < w -> bs_gain b = Fin g -> stop_here (scaled_split w b) level top = stop_here b level top.
Proof.
  intros Hw E. unfold stop_here, scaled_split. cbn [bs_gain]. rewrite E. f_equal.
  change (xeqb (Fin (w * g)) (Fin 0) = xeqb (Fin g) (Fin 0)). unfold xeqb, xleb.
  destruct (Rle_dec (w * g) 0) as [A|A]; destruct (Rle_dec g 0) as [B|B]; destruct (Rle_dec 0 (w * g)) as [C|C]; destruct (Rle_dec 0 g) as [D|D]; auto; exfalso; nra.
Qed.

Lemma built_node_inv' {O : NumOps} {L} (mk : dataset -> res L) cfg level d t s :
  built mk cfg level d t -> tc_split_finder cfg d (tc_number_of_classes cfg) = Ok s ->
  stop_here s level (tc_max_levels cfg) = false ->
  exists fd td a b, partition d (bs_question s) = Ok (fd, td) /\ built mk cfg (level + 1) td a /\ built mk cfg (level + 1) fd b /\ t = node_new (bs_question s) a b.
Proof.
  intros B E St. inversion B; subst; rewrite E in *; match goal with H : Ok _ = Ok _ |- _ => injection H as -> end; [congruence|]. eauto 9.
Qed.

Section Moved.
Variables (nc nt : nat) (s : R) (v : list R).
Hypotheses (Hs : s <> 0) (Hv : length v = nt).

(** Trees built from moved data ask the same questions; every row reaches moved leaf data. *)
Lemma built_moved {L L'} (mk : dataset -> res L) (mk' : dataset -> res L') cfg level d d' t t' :
  standard cfg -> tc_number_of_classes cfg = N.of_nat nt ->
  built mk cfg level d t -> built mk' cfg level d' t' -> moved nc nt s v d d' ->
  tree_map (fun _ => tt) t' = tree_map (fun _ => tt) t /\
  forall row,
    (find_leaf_node_for_data row t = Panic /\ find_leaf_node_for_data row t' = Panic) \/
    exists x x' l l', find_leaf_node_for_data row t = Ok l /\ mk x = Ok l /\
      find_leaf_node_for_data row t' = Ok l' /\ mk' x' = Ok l' /\ moved nc nt s v x x'.
Proof.
  intros St Hc B. revert d' t'.
  assert (Hss : 0 < s * s). { destruct (Rdichotomy _ _ Hs); [nra|nra]. }
  assert (Fin' : forall d d' b, moved nc nt s v d d' -> tc_split_finder cfg d (tc_number_of_classes cfg) = Ok b ->
    (exists g, bs_gain b = Fin g) /\ tc_split_finder cfg d' (tc_number_of_classes cfg) = Ok (scaled_split (s * s) b)).
  { intros x x' b M E. rewrite St, Hc in *. cbn [split_finder_new] in *.
    pose proof (moved_columns _ _ _ _ _ _ M) as Ec. pose proof (moved_labels _ _ _ _ _ _ M) as El.
    destruct M as (W & W' & L1 & L2 & _). rewrite El in L2. eapply (split_affine nc nt x x' (rl x) s v); eauto. }
  induction B as [level d b l Es Est El|level d b fd td t f Es Est Ep Bt IHt Bf IHf]; intros d' t' B' M.
  - destruct (Fin' _ _ _ M Es) as ((g & Eg) & Es'). pose proof (scaled_stop (s * s) b level (tc_max_levels cfg) g Hss Eg) as Est'.
    rewrite Est in Est'. destruct (built_leaf_inv _ _ _ _ _ _ B' Es' Est') as (l' & El' & ->). split; [reflexivity|].
    intros row. right. exists d, d', l, l'. auto.
  - destruct (Fin' _ _ _ M Es) as ((g & Eg) & Es'). pose proof (scaled_stop (s * s) b level (tc_max_levels cfg) g Hss Eg) as Est'.
    rewrite Est in Est'. pose proof M as (W & W' & _).
    destruct (built_node_inv' _ _ _ _ _ _ B' Es' Est') as (fd' & td' & a & c & Ep' & Ba & Bc & ->). cbn [scaled_split bs_question] in Ep'.
    destruct (moved_partition _ _ _ _ _ _ _ _ _ _ _ M Ep Ep') as [Mf Mt].
    destruct (IHt _ _ Ba Mt) as [T1 T2]. destruct (IHf _ _ Bc Mf) as [F1 F2].
    split; [cbn; now rewrite T1, F1|]. intros row. cbn [node_new find_leaf_node_for_data scaled_split bs_question].
    assert (HS : solve (bs_question b) row = Panic \/ exists v, solve (bs_question b) row = Ok v).
    { unfold solve, idxN, idx; destruct (_ <? _)%N; [|left; reflexivity]; match goal with |- context [nth_error row ?i] => destruct (nth_error row i) end; cbn [bind]; [right; eexists; reflexivity|left; reflexivity]. }
    destruct HS as [->|([|] & ->)]; cbn [bind]; [left; auto|apply T2|apply F2].
Qed.

End Moved.

(* ------------------------------------------------------------------ *)
(** ** Regression trees *)

Lemma relabel_moved nc nt d ls s v : wf_dataset nc nt d -> real_labels ls d -> length v = nt ->
  moved nc nt s v d (relabel d (map (affine s v) ls)).
Proof.
  intros W Hl Hv. destruct (real_rect _ _ _ _ W Hl) as [Hr _]. pose proof (xr_len nc nt d ls W Hl) as HL.
  assert (W' : wf_dataset nc nt (relabel d (map (affine s v) ls))).
  { apply (with_labels_wf nc nt d _ W).
    - rewrite !map_length. symmetry. exact HL.
    - pose proof (affine_rect nt s v ls Hv Hr) as Ha. unfold rectangular in *. rewrite Forall_map. eapply Forall_impl; [|exact Ha]. intros a E. rewrite map_length. exact E. }
  assert (L' : real_labels (map (affine s v) ls) (relabel d (map (affine s v) ls))) by reflexivity.
  split; auto. split; auto. split; [rewrite (real_rl _ _ Hl); exact Hl|]. split; [rewrite (real_rl _ _ L'); exact L'|].
  unfold rs, samples, relabel. cbn [feature_rows labels]. xr. rewrite Hl. generalize (feature_rows d). intros rows. clear. revert rows.
  induction ls as [|l ls IH]; intros [|r rows]; cbn; auto. rewrite IH. unfold rp. cbn [fst snd]. now rewrite !map_xval_Fin.
Qed.

Theorem tree_affine nc nt d ls cfg s v t t' :
  wf_dataset nc nt d -> real_labels ls d -> standard cfg -> tc_number_of_classes cfg = N.of_nat nt -> s <> 0 -> length v = nt ->
  regression_tree_new d cfg = Ok t -> regression_tree_new (relabel d (map (affine s v) ls)) cfg = Ok t' ->
  tree_map (fun _ => tt) t' = tree_map (fun _ => tt) t /\
  forall row, (tree_prediction row t = Panic /\ tree_prediction row t' = Panic) \/
    exists p, tree_prediction row t = Ok (map Fin p) /\ length p = nt /\ tree_prediction row t' = Ok (map Fin (affine s v p)).
Proof.
  intros W Hl Hst Hc Hs Hv E E'. pose proof (relabel_moved nc nt d ls s v W Hl Hv) as M.
  rewrite regression_tree_new_eq in E, E'. apply build_with_built in E. apply build_with_built in E'.
  destruct (built_moved nc nt s v Hs Hv _ _ _ _ _ _ _ _ Hst Hc E E' M) as [A B]. split; auto. intros row.
  unfold tree_prediction. destruct (B row) as [[-> ->]|(x & x' & l & l' & -> & E1 & -> & E2 & Mx)]; [left; auto|right].
  unfold mk_reg in E1, E2. cbn [bind] in *. injection E1 as <-. injection E2 as <-. cbn [rl_data unwrap bind].
  pose proof (moved_labels _ _ _ _ _ _ Mx) as Er. destruct Mx as (Wx & Wx' & Lx & Lx' & _).
  destruct (real_rect _ _ _ _ Wx Lx) as [Rx Nx].
  exists (means nt (rl x)). split; [exact (leaf_prediction nc nt x Wx Lx)|]. split; [apply means_length|].
  rewrite <- means_affine by auto. rewrite <- Er. exact (leaf_prediction nc nt x' Wx' Lx').
Qed.

(* ------------------------------------------------------------------ *)
(** ** Regression boosting *)

Definition zeros (k : nat) : list R := repeat 0 k.

Lemma zeros_length k : length (zeros k) = k. Proof. apply repeat_length. Qed.
Lemma zeros_nth k j : nth j (zeros k) 0 = 0.
Proof. unfold zeros. apply nth_repeat. Qed.

Lemma vstep_affine k lr s v g o : length g = k -> length o = k -> length v = k ->
  vstep lr (affine s v g) (affine s (zeros k) o) = affine s v (vstep lr g o).
Proof.
  intros Hg Ho Hv. assert (L1 : length (affine s v g) = k) by now apply affine_length.
  assert (L2 : length (affine s (zeros k) o) = k) by (apply affine_length; auto; apply zeros_length).
  assert (L3 : length (vstep lr g o) = k) by (rewrite vstep_length; lia).
  apply (nth_ext _ _ 0 0).
  - rewrite vstep_length by lia. rewrite L1. symmetry. now apply affine_length.
  - intros j Hj. rewrite vstep_length in Hj by lia. rewrite L1 in Hj. unfold vstep at 1. rewrite nth_map2 by lia.
    rewrite !affine_nth by (rewrite ?zeros_length; lia). rewrite zeros_nth. unfold vstep. rewrite nth_map2 by lia. ring.
Qed.

Lemma vsub_affine k s v a b : length a = k -> length b = k -> length v = k ->
  vsub (affine s v a) (affine s v b) = affine s (zeros k) (vsub a b).
Proof.
  intros Ha Hb Hv. assert (L1 : length (affine s v a) = k) by now apply affine_length.
  assert (L2 : length (affine s v b) = k) by now apply affine_length.
  assert (L3 : length (vsub a b) = k) by (unfold vsub; rewrite map2_length; lia).
  apply (nth_ext _ _ 0 0).
  - unfold vsub at 1. rewrite map2_length, L1, L2. rewrite (affine_length k s (zeros k)); auto; [lia|apply zeros_length].
  - intros j Hj. unfold vsub in Hj at 1. rewrite map2_length in Hj. unfold vsub at 1. rewrite nth_map2 by lia.
    rewrite !affine_nth by (rewrite ?zeros_length; lia). rewrite zeros_nth. unfold vsub. rewrite nth_map2 by lia. ring.
Qed.

(** Outputs of two trees related by a scale. *)
Definition moved_out (k : nat) (s : R) (t t' : tree_node (@grad_boost_leaf xr_ops)) : Prop :=
  tree_map (fun _ => tt) t' = tree_map (fun _ => tt) t /\
  forall row, (@gb_out xr_ops row t = Panic /\ @gb_out xr_ops row t' = Panic) \/
    exists o, @gb_out xr_ops row t = Ok (map Fin o) /\ length o = k /\ @gb_out xr_ops row t' = Ok (map Fin (affine s (zeros k) o)).

Lemma fold_step_Fin k lr (os : list (list R)) : forall g, length g = k -> Forall (fun o => length o = k) os ->
  fold_left (map2 xadd) (map (@weighted xr_ops (Fin lr)) (map (map Fin) os)) (map Fin g) = map Fin (fold_left (vstep lr) os g) /\
  length (fold_left (vstep lr) os g) = k.
Proof.
  induction os as [|o os IH]; intros g Hg Ho; [auto|].
  pose proof (Forall_inv Ho) as Lo. pose proof (Forall_inv_tail Ho) as Ho'. cbv beta in Lo. cbn [map fold_left]. rewrite step_Fin. apply IH; auto.
  rewrite vstep_length; congruence.
Qed.

Lemma fold_step_affine k lr s v (os : list (list R)) : length v = k -> forall g, length g = k -> Forall (fun o => length o = k) os ->
  fold_left (vstep lr) (map (affine s (zeros k)) os) (affine s v g) = affine s v (fold_left (vstep lr) os g).
Proof.
  intros Hv. induction os as [|o os IH]; intros g Hg Ho; [auto|].
  pose proof (Forall_inv Ho) as Lo. pose proof (Forall_inv_tail Ho) as Ho'. cbv beta in Lo. cbn [map fold_left].
  rewrite (vstep_affine k) by auto. apply IH; auto. rewrite vstep_length; congruence.
Qed.

Lemma raw_real k lr g row ts os : length g = k -> Forall (fun o => length o = k) os ->
  Forall2 (fun t o => @gb_out xr_ops row t = Ok (map Fin o)) ts os ->
  @raw xr_ops _ gb_out (Fin lr) (map Fin g) row ts = Ok (map Fin (fold_left (vstep lr) os g)).
Proof.
  intros Hg Ho H. rewrite (@raw_outs xr_ops _ gb_out (Fin lr) (map Fin g) row ts (map (map Fin) os)).
  - rewrite add_leaf_outputs_eq.
    + f_equal. apply (fold_step_Fin k lr os g Hg Ho).
    + rewrite Forall_map, Forall_map. eapply Forall_impl; [|exact Ho]. intros o E. unfold weighted. rewrite !map_length. rewrite E, Hg. reflexivity.
  - clear Ho. induction H; cbn [map]; constructor; auto.
Qed.

Lemma raw_moved k lr s v g row ts ts' :
  length g = k -> length v = k -> Forall2 (moved_out k s) ts ts' ->
  (@raw xr_ops _ gb_out (Fin lr) (map Fin g) row ts = Panic /\ @raw xr_ops _ gb_out (Fin lr) (map Fin (affine s v g)) row ts' = Panic) \/
  exists p, @raw xr_ops _ gb_out (Fin lr) (map Fin g) row ts = Ok (map Fin p) /\ length p = k /\
    @raw xr_ops _ gb_out (Fin lr) (map Fin (affine s v g)) row ts' = Ok (map Fin (affine s v p)).
Proof.
  intros Hg Hv H.
  assert (D : (mapM (fun t => o <- @gb_out xr_ops row t;; Ok (weighted (Fin lr) o)) ts = Panic /\
               mapM (fun t => o <- @gb_out xr_ops row t;; Ok (weighted (Fin lr) o)) ts' = Panic) \/
              exists os, Forall2 (fun t o => @gb_out xr_ops row t = Ok (map Fin o)) ts os /\ Forall (fun o => length o = k) os /\
                 Forall2 (fun t o => @gb_out xr_ops row t = Ok (map Fin o)) ts' (map (affine s (zeros k)) os)).
  { induction H as [|t t' ts ts' [_ Ht] H IH]; [right; exists []; cbn; repeat split; constructor|].
    cbn [mapM]. destruct (Ht row) as [[-> ->]|(o & Eo & Lo & Eo')]; [left; auto|].
    destruct IH as [[E1 E2]|(os & A & B & C)].
    - left. rewrite Eo, Eo'. cbn [bind]. xr. rewrite E1, E2. auto.
    - right. exists (o :: os). cbn [map]. auto. }
  destruct D as [[E1 E2]|(os & A & B & C)].
  - left. unfold raw. rewrite E1, E2. auto.
  - right. exists (fold_left (vstep lr) os g). split; [now apply (raw_real k)|]. split; [apply (fold_step_Fin k lr os g Hg B)|].
    rewrite <- (fold_step_affine k) by auto. apply (raw_real k); auto.
    + now apply affine_length.
    + rewrite Forall_map. eapply Forall_impl; [|exact B]. intros o E. apply affine_length; auto. apply zeros_length.
Qed.

Lemma moved_tree nc nt d d' cfg s t t' :
  standard cfg -> tc_number_of_classes cfg = N.of_nat nt -> s <> 0 -> moved nc nt s (zeros nt) d d' ->
  grad_boost_tree_new d cfg (leaf_output_calculator_new Regression) = Ok t ->
  grad_boost_tree_new d' cfg (leaf_output_calculator_new Regression) = Ok t' -> moved_out nt s t t'.
Proof.
  intros Hst Hc Hs M E E'. rewrite grad_boost_tree_new_eq in E, E'. apply build_with_built in E. apply build_with_built in E'.
  destruct (built_moved nc nt s (zeros nt) Hs (zeros_length nt) _ _ _ _ _ _ _ _ Hst Hc E E' M) as [A B]. split; auto. intros row.
  unfold gb_out. destruct (B row) as [[-> ->]|(x & x' & l & l' & -> & E1 & -> & E2 & Mx)]; [left; auto|right].
  pose proof (moved_labels _ _ _ _ _ _ Mx) as Er. destruct Mx as (Wx & Wx' & Lx & Lx' & _).
  destruct (real_rect _ _ _ _ Wx Lx) as [Rx Nx].
  apply (mk_gb_regression nc nt) in E1; auto. apply (mk_gb_regression nc nt) in E2; auto. subst.
  exists (means nt (rl x)). split; [reflexivity|]. split; [apply means_length|]. cbn [bind gl_output unwrap]. do 2 f_equal.
  rewrite Er. apply means_affine; auto. apply zeros_length.
Qed.

Lemma map2_vsub_affine k s v ls ps : length v = k -> rectangular k ls -> rectangular k ps -> length ps = length ls ->
  map2 vsub (map (affine s v) ls) (map (affine s v) ps) = map (affine s (zeros k)) (map2 vsub ls ps).
Proof.
  intros Hv H. revert ps. induction H as [|l ls Hl H IH]; intros [|p ps] Hp HL; try discriminate; cbn [map map2]; auto.
  inversion Hp; subst. f_equal; [now apply vsub_affine|]. apply IH; auto.
Qed.

Section Boost.
Variables (nc nt : nat) (d : @dataset xr_ops) (ls : list (list R)) (cfg : @tree_config xr_ops) (n : nat) (lr s : R) (v : list R)
  (m m' : @regression_boost_model xr_ops).
Hypotheses (W : wf_dataset nc nt d) (Hl : real_labels ls d) (Hst : standard cfg) (Hc : tc_number_of_classes cfg = N.of_nat nt)
  (Hs : s <> 0) (Hv : length v = nt)
  (E : regression_boost_train d cfg n (Fin lr) = Ok m)
  (E' : regression_boost_train (relabel d (map (affine s v) ls)) cfg n (Fin lr) = Ok m').

Lemma boost_moved_trees : forall k, (k <= n)%nat -> Forall2 (moved_out nt s) (firstn k (m_trees m)) (firstn k (m_trees m')).
Proof.
  pose proof (relabel_moved nc nt d ls s v W Hl Hv) as M. pose proof M as (_ & W' & _).
  assert (Hl' : real_labels (map (affine s v) ls) (relabel d (map (affine s v) ls))) by reflexivity.
  destruct (real_rect _ _ _ _ W Hl) as [Rl Nl].
  destruct (guess_real _ _ _ _ _ _ _ _ W Hl E) as (Hg & Hlr & HT).
  destruct (guess_real _ _ _ _ _ _ _ _ W' Hl' E') as (Hg' & Hlr' & HT'). rewrite means_affine in Hg' by auto.
  induction k as [|k IH]; intros Hk; [constructor|]. specialize (IH ltac:(lia)).
  destruct (regression_stage _ cfg n (Fin lr) m k (wf_lengths _ _ _ W) E Hk) as (preds & t & Ep & _ & Ht & Eb).
  destruct (regression_stage _ cfg n (Fin lr) m' k (wf_lengths _ _ _ W') E' Hk) as (preds' & t' & Ep' & _ & Ht' & Eb').
  rewrite (firstn_snoc _ _ _ Ht), (firstn_snoc _ _ _ Ht'). apply Forall2_app; auto. constructor; [|constructor].
  unfold regression_boost_all_predictions in Ep, Ep'. rewrite all_predictions_eq in Ep, Ep'. cbn [relabel feature_rows] in Ep'.
  assert (HP : exists ps, Forall2 (fun row p => regression_boost_predict (first_trees k m) row = Ok (map Fin p) /\ length p = nt) (feature_rows d) ps /\
     Forall2 (fun row p => regression_boost_predict (first_trees k m') row = Ok (map Fin p) /\ length p = nt) (feature_rows d) (map (affine s v) ps)).
  { destruct (trained_predictions nc nt d ls cfg k lr (first_trees k m) (feature_rows d) W Hl) as (ps & Hps).
    - apply (regression_prefix d cfg n k); auto. lia.
    - intros row Hin. eapply row_long; eauto.
    - exists ps. split; auto. clear Ep Ep'. revert Hps. generalize (feature_rows d). intros rows0 Hps.
      induction Hps as [|row p rows ps [H1 H2] H IHp]; cbn [map]; constructor; [|exact IHp].
      split; [|now apply affine_length].
      unfold regression_boost_predict in *. rewrite predict_instance_raw in *. cbn [first_trees m_trees m_initial_guess m_learning_rate] in *.
      rewrite Hg, Hlr in H1. rewrite Hg', Hlr'.
      destruct (raw_moved nt lr s v (means nt ls) row _ _ (means_length nt ls) Hv IH) as [[A _]|(p' & A & _ & B)].
      + xr. rewrite A in H1. discriminate.
      + xr. rewrite A in H1. injection H1 as H1. apply (f_equal (map xval)) in H1. rewrite !map_xval_Fin in H1. subst p'. exact B. }
  destruct HP as (ps & HP & HP'). apply (Forall2_real nt _ _ ps) in Ep; auto. apply (Forall2_real nt _ _ (map (affine s v) ps)) in Ep'; auto. subst preds preds'.
  assert (HL : length ps = length ls) by (rewrite <- (Forall2_length _ _ _ HP); eapply xr_len; eauto).
  pose proof (Forall2_rect _ _ _ _ HP) as Rp.
  destruct (residual_data nc nt d ls ps W Hl HL Rp) as [Wr Lr].
  assert (Ed : mkDS (feature_rows (relabel d (map (affine s v) ls))) (differences (labels (relabel d (map (affine s v) ls))) (map (map Fin) (map (affine s v) ps)))
       (feature_columns (relabel d (map (affine s v) ls))) =
     relabel (mkDS (feature_rows d) (differences (labels d) (map (map Fin) ps)) (feature_columns d)) (map (affine s (zeros nt)) (map2 vsub ls ps))).
  { unfold relabel. cbn [feature_rows feature_columns labels]. f_equal. rewrite <- map2_vsub_affine with (v := v) by auto. apply differences_Fin. }
  xr. rewrite Ed in Eb'. refine (moved_tree nc nt _ _ cfg s t t' Hst Hc Hs _ Eb Eb').
  apply relabel_moved; auto. apply zeros_length.
Qed.

Theorem boost_affine :
  Forall2 (fun t t' => tree_map (fun _ => tt) t' = tree_map (fun _ => tt) t) (m_trees m) (m_trees m') /\
  forall row, (regression_boost_predict m row = Panic /\ regression_boost_predict m' row = Panic) \/
    exists p, regression_boost_predict m row = Ok (map Fin p) /\ length p = nt /\ regression_boost_predict m' row = Ok (map Fin (affine s v p)).
Proof.
  pose proof (relabel_moved nc nt d ls s v W Hl Hv) as M. pose proof M as (_ & W' & _).
  assert (Hl' : real_labels (map (affine s v) ls) (relabel d (map (affine s v) ls))) by reflexivity.
  destruct (real_rect _ _ _ _ W Hl) as [Rl Nl].
  destruct (guess_real _ _ _ _ _ _ _ _ W Hl E) as (Hg & Hlr & HT).
  destruct (guess_real _ _ _ _ _ _ _ _ W' Hl' E') as (Hg' & Hlr' & HT'). rewrite means_affine in Hg' by auto.
  pose proof (boost_moved_trees n (Nat.le_refl n)) as HF. rewrite <- HT in HF at 1. rewrite <- HT' in HF. rewrite !firstn_all in HF.
  split; [eapply Forall2_impl; [|exact HF]; now intros t t' [A _]|].
  intros row. unfold regression_boost_predict. rewrite !predict_instance_raw, Hg, Hlr, Hg', Hlr'.
  apply (raw_moved nt); auto. apply means_length.
Qed.
End Boost.

(* ------------------------------------------------------------------ *)
(** ** Shifts (C48) *)

Lemma shift_affine v l : shift v l = affine 1 v l.
Proof. unfold shift, affine. apply map_ext. intros p. ring. Qed.

Lemma shift_affines v ls : map (shift v) ls = map (affine 1 v) ls.
Proof. apply map_ext. intros. apply shift_affine. Qed.

Lemma affine_id k l : length l = k -> affine 1 (zeros k) l = l.
Proof.
  intros H. apply (nth_ext _ _ 0 0); [rewrite (affine_length k); auto; apply zeros_length|].
  rewrite (affine_length k); auto; [|apply zeros_length]. intros j Hj. rewrite affine_nth, zeros_nth by (rewrite ?zeros_length; lia). ring.
Qed.

Theorem tree_shift nc nt d ls cfg v t t' :
  wf_dataset nc nt d -> real_labels ls d -> standard cfg -> tc_number_of_classes cfg = N.of_nat nt -> length v = nt ->
  regression_tree_new d cfg = Ok t -> regression_tree_new (relabel d (map (shift v) ls)) cfg = Ok t' ->
  tree_map (fun _ => tt) t' = tree_map (fun _ => tt) t /\
  forall row, (tree_prediction row t = Panic /\ tree_prediction row t' = Panic) \/
    exists p, tree_prediction row t = Ok (map Fin p) /\ length p = nt /\ tree_prediction row t' = Ok (map Fin (shift v p)).
Proof.
  intros W Hl Hst Hc Hv E E'. rewrite shift_affines in E'.
  destruct (tree_affine nc nt d ls cfg 1 v t t' W Hl Hst Hc R1_neq_R0 Hv E E') as [A B]. split; auto.
  intros row. destruct (B row) as [C|(p & H1 & H2 & H3)]; [now left|right]. exists p. rewrite shift_affine. auto.
Qed.

Theorem boost_shift nc nt d ls cfg n lr v m m' :
  wf_dataset nc nt d -> real_labels ls d -> standard cfg -> tc_number_of_classes cfg = N.of_nat nt -> length v = nt ->
  regression_boost_train d cfg n (Fin lr) = Ok m ->
  regression_boost_train (relabel d (map (shift v) ls)) cfg n (Fin lr) = Ok m' ->
  m_trees m' = m_trees m /\
  forall row, (regression_boost_predict m row = Panic /\ regression_boost_predict m' row = Panic) \/
    exists p, regression_boost_predict m row = Ok (map Fin p) /\ length p = nt /\ regression_boost_predict m' row = Ok (map Fin (shift v p)).
Proof.
  intros W Hl Hst Hc Hv E E'. rewrite shift_affines in E'. split.
  2:{ destruct (boost_affine nc nt d ls cfg n lr 1 v m m' W Hl Hst Hc R1_neq_R0 Hv E E') as [_ B].
      intros row. destruct (B row) as [C|(p & H1 & H2 & H3)]; [now left|right]. exists p. rewrite shift_affine. auto. }
  pose proof (relabel_moved nc nt d ls 1 v W Hl Hv) as M. pose proof M as (_ & W' & _).
  assert (Hl' : real_labels (map (affine 1 v) ls) (relabel d (map (affine 1 v) ls))) by reflexivity.
  destruct (real_rect _ _ _ _ W Hl) as [Rl Nl].
  destruct (guess_real _ _ _ _ _ _ _ _ W Hl E) as (_ & _ & HT). destruct (guess_real _ _ _ _ _ _ _ _ W' Hl' E') as (_ & _ & HT').
  assert (G : forall k, (k <= n)%nat -> firstn k (m_trees m') = firstn k (m_trees m)).
  2:{ specialize (G n (Nat.le_refl n)). rewrite <- HT' in G at 1. rewrite <- HT in G. now rewrite !firstn_all in G. }
  induction k as [|k IH]; intros Hk; [reflexivity|]. specialize (IH ltac:(lia)).
  destruct (regression_stage _ cfg n (Fin lr) m k (wf_lengths _ _ _ W) E Hk) as (preds & t & Ep & _ & Ht & Eb).
  destruct (regression_stage _ cfg n (Fin lr) m' k (wf_lengths _ _ _ W') E' Hk) as (preds' & t' & Ep' & _ & Ht' & Eb').
  rewrite (firstn_snoc _ _ _ Ht), (firstn_snoc _ _ _ Ht'). f_equal; auto. f_equal.
  assert (Ek : regression_boost_train d cfg k (Fin lr) = Ok (first_trees k m)) by (apply (regression_prefix d cfg n k); auto; lia).
  assert (Ek' : regression_boost_train (relabel d (map (affine 1 v) ls)) cfg k (Fin lr) = Ok (first_trees k m')) by (apply (regression_prefix _ cfg n k); auto; lia).
  destruct (boost_affine nc nt d ls cfg k lr 1 v _ _ W Hl Hst Hc R1_neq_R0 Hv Ek Ek') as [_ B].
  unfold regression_boost_all_predictions in Ep, Ep'. rewrite all_predictions_eq in Ep, Ep'. cbn [relabel feature_rows] in Ep'.
  destruct (trained_predictions nc nt d ls cfg k lr (first_trees k m) (feature_rows d) W Hl Ek) as (ps & HP).
  { intros row Hin. eapply row_long; eauto. }
  assert (HP' : Forall2 (fun row p => regression_boost_predict (first_trees k m') row = Ok (map Fin p) /\ length p = nt) (feature_rows d) (map (affine 1 v) ps)).
  { clear Ep Ep'. revert HP. generalize (feature_rows d). intros rows0 Hps. induction Hps as [|row p rows ps [H1 H2] H IHp]; cbn [map]; constructor; [|exact IHp].
    split; [|now apply affine_length]. destruct (B row) as [[C _]|(q & C & _ & D)]; [congruence|].
    xr. rewrite C in H1. injection H1 as H1. apply (f_equal (map xval)) in H1. rewrite !map_xval_Fin in H1. subst q. exact D. }
  apply (Forall2_real nt _ _ ps) in Ep; auto. apply (Forall2_real nt _ _ (map (affine 1 v) ps)) in Ep'; auto. subst preds preds'.
  assert (HL : length ps = length ls) by (rewrite <- (Forall2_length _ _ _ HP); eapply xr_len; eauto).
  pose proof (Forall2_rect _ _ _ _ HP) as Rp. destruct (vsub_rect nt ls ps HL Rl Rp) as [Rv _].
  assert (Ed : mkDS (feature_rows (relabel d (map (affine 1 v) ls))) (differences (labels (relabel d (map (affine 1 v) ls))) (map (map Fin) (map (affine 1 v) ps)))
       (feature_columns (relabel d (map (affine 1 v) ls))) =
     mkDS (feature_rows d) (differences (labels d) (map (map Fin) ps)) (feature_columns d)).
  { unfold relabel. cbn [feature_rows feature_columns labels]. f_equal.
    transitivity (map (map Fin) (map2 vsub ls ps)).
    - etransitivity; [apply differences_Fin|]. f_equal. rewrite (map2_vsub_affine nt 1 v) by auto.
      transitivity (map (fun x => x) (map2 vsub ls ps)); [|apply map_id].
      apply map_ext_in. intros l Hin. apply affine_id. exact (proj1 (Forall_forall _ _) Rv l Hin).
    - symmetry. etransitivity; [|apply differences_Fin]. apply (f_equal2 (@differences xr_ops)); [exact Hl|reflexivity]. }
  xr. rewrite Ed in Eb'. congruence.
Qed.
