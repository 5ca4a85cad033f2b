(** Trees grown in binary64 on consistent tables of arbitrary bounded labels nearly fit (C83). *)
From Coq Require Import Reals Lra Lia ZArith.
From Flocq Require Import Core.
From Flocq Require Import IEEE754.BinarySingleNaN.
From Verif Require Import Base Num ModelCommon ModelTree ModelBoost Lib Spec SpecTree SpecScore F64 XR SpecExact SpecFit SpecInt SpecNear SpecNode SpecPredict SpecNearFit
  ProofReal ProofData ProofTree ProofScore ProofNear3 ProofNode ProofNearLabel ProofInt2 ProofInt3 ProofInt4 ProofInt5 ProofPredict ProofFitFloat.

Section Size.
Context {O : NumOps}.

Lemma leaf_size {L} (mk : dataset -> res L) cfg nc nt level d t x :
  built mk cfg level d t -> wf_dataset nc nt d -> (length (samples_like x t d) + length (path x t) <= length (samples d))%nat.
Proof.
  intros B. change (samples_like x t d) with (answering_like (path x t) x (samples d)).
  induction B as [level d s lf Es Est El|level d s fd td t f Es Est Ep Bt IHt Bf IHf]; intros W.
  - cbn [leaf_node path]. rewrite answering_nil. cbn. lia.
  - destruct (partition_wf nc nt d _ fd td W Ep) as (Hq & Wf & Wt & St & Sf).
    destruct (partition_shrinks _ _ _ _ Ep) as [Nf Nt]. specialize (IHt Wt). specialize (IHf Wf).
    assert (HL : forall d', wf_dataset nc nt d' -> length (samples d') = length (feature_rows d')).
    { intros d' W'. unfold samples. rewrite combine_length, (wf_lengths _ _ _ W'). lia. }
    rewrite (HL _ Wt) in IHt. rewrite (HL _ Wf) in IHf. rewrite (HL _ W).
    cbn [node_new path]. rewrite answering_cons. destruct (answers (bs_question s) x); [rewrite <- St|rewrite <- Sf]; cbn [length]; lia.
Qed.

End Size.

Local Open Scope R_scope.

Section NearFit.
Context (P : platform) (B : R).
Local Existing Instance f64_ops.
Local Remove Hints xr_ops : typeclass_instances.

Context (nc nt : nat) (d : @dataset (f64_ops P)) (W : wf_dataset nc nt d) (Hb : bounded_labels B d) (Ho : ordinary_table B d)
  (Hk : (Z.of_nat nt <= 2 ^ 40)%Z) (HC : consistent_rows d)
  (cfg : @tree_config (f64_ops P)) (Hs : standard cfg) (HK : tc_number_of_classes cfg = N.of_nat nt).

Definition spread (n : nat) : R := 2 * (INR n * INR n) * sqrt (real_gain_error nt n B).

Lemma error_nonneg n : 0 <= real_gain_error nt n B.
Proof.
  unfold real_gain_error, Rdiv. pose proof (pos_INR nt). pose proof (pos_INR n). pose proof (Rle_0_sqr B) as HB. unfold Rsqr in HB.
  assert (0 < 2 ^ 53) by (apply pow_lt; lra).
  apply Rmult_le_pos; [|left; now apply Rinv_0_lt_compat]. apply Rmult_le_pos; [|exact HB]. repeat apply Rmult_le_pos; lra.
Qed.

Lemma spread_nonneg n : 0 <= spread n.
Proof. unfold spread. pose proof (pos_INR n). repeat apply Rmult_le_pos; try lra. apply sqrt_pos. Qed.

Lemma built_near {L} (mk : dataset -> res L) t (x l : list (@F (f64_ops P))) j : built mk cfg 0 d t ->
  (N.of_nat (length (path x t)) < tc_max_levels cfg)%N ->
  let group := map snd (samples_like x t d) in
  In l group -> (j < nt)%nat ->
  Rabs (nth j (map B2R l) 0 - mean (target j (map (map B2R) group))) <= spread (length group).
Proof.
  intros Bt Hl group Hin Hj.
  destruct (leaf_split mk cfg nc nt 0 d t x Hs HK Bt W) as (d' & s & W' & E & Es & [Hg|Hg]); [|lia].
  change (answering_like (path x t) x (samples d)) with (samples_like x t d) in E.
  destruct (node_bounded P B d d' nc nt (path x t) x W W' E Hb Ho) as [Hb' Ho'].
  assert (Hi : incl (samples d') (samples d)) by (rewrite E; unfold samples_like; intros p Hp; now apply filter_In in Hp).
  destruct (split_near P B nc nt d' W' Hb' Ho' Hk s Es) as (_ & Hmax & _).
  assert (G : B2R (bs_gain s) = 0).
  { clear -Hg. revert Hg. generalize (bs_gain s : f64). intros g Hg. change (Beqb g (B754_zero false) = true) in Hg.
    destruct g as [sg|sg| |[|] m e Hm]; try reflexivity; try (destruct sg; discriminate); discriminate. }
  rewrite G, Rplus_0_l in Hmax.
  assert (Eg : group = labels d') by (unfold group; rewrite <- E; exact (samples_labels P nc nt d' W')).
  clearbody group. subst group. change (map (map B2R) (labels d')) with (real_values d').
  assert (LL : length (labels d') = length (real_values d')) by (unfold real_values; now rewrite map_length).
  pose proof (small_gain_near_labels nc nt (exact_data d') (real_values d') (real_gain_error nt (length (labels d')) B)
    (exact_wf P nc nt d' W') (bounded_real_labels P B d' Hb') (exact_consistent P nc nt d' W' (consistent_rows_sub P d d' Hi HC))
    (error_nonneg _) Hmax (map B2R l) j) as H.
  unfold spread. rewrite LL at 1 2. apply H; auto. unfold real_values. now apply in_map.
Qed.

Lemma one_label_mean (ls : list (list R)) l j : (length ls <= 1)%nat -> In l ls -> nth j l 0 - mean (target j ls) = 0.
Proof.
  intros HL Hi. destruct ls as [|a [|b ls]]; [destruct Hi| |cbn in HL; lia]. destruct Hi as [->|[]].
  unfold mean, target. cbn [map length Rsum fold_right INR]. unfold Rsum. cbn. lra.
Qed.

Theorem leaf_labels_near {L} (mk : dataset -> res L) t (x l : list (@F (f64_ops P))) j : built mk cfg 0 d t ->
  (N.of_nat (length (labels d)) <= tc_max_levels cfg + 1)%N ->
  let group := map snd (samples_like x t d) in
  In l group -> (j < nt)%nat ->
  Rabs (nth j (map B2R l) 0 - mean (target j (map (map B2R) group))) <= spread (length group).
Proof.
  intros Bt Hd group Hin Hj.
  destruct (N.lt_ge_cases (N.of_nat (length (path x t))) (tc_max_levels cfg)) as [Hl|Hl]; [exact (built_near mk t x l j Bt Hl Hin Hj)|].
  pose proof (leaf_size mk cfg nc nt 0 d t x Bt W) as HS.
  assert (HL : length (samples d) = length (labels d)) by (rewrite <- (samples_labels P nc nt d W); now rewrite map_length).
  assert (H1 : (length group <= 1)%nat) by (unfold group; rewrite map_length; lia).
  rewrite (one_label_mean (map (map B2R) group) (map B2R l) j); [rewrite Rabs_R0; apply spread_nonneg|now rewrite map_length|now apply in_map].
Qed.

Lemma bounded_tame : tame (labels d).
Proof.
  unfold tame. apply Forall_forall. intros l Hl. apply Forall_forall. intros x Hx. destruct (Hb l x Hl Hx) as [F H]. split; [exact F|].
  destruct Ho as [[_ HB] _]. eapply Rle_trans; [exact H|]. eapply Rle_trans; [exact HB|].
  replace (2 ^ 400) with (bpow radix2 400); [apply bpow_le; lia|]. rewrite (bpow_powerRZ radix2 400). change (IZR radix2) with 2. reflexivity.
Qed.

Theorem deep_tree_nearly_fits (t : tree_node regression_leaf) (row label : list (@F (f64_ops P))) (j : nat) :
  regression_tree_new d cfg = Ok t -> (N.of_nat (length (labels d)) <= tc_max_levels cfg + 1)%N ->
  In (row, label) (samples d) -> (j < nt)%nat ->
  let n := length (samples_like row t d) in
  exists (p : list f64) (v : f64), tree_prediction row t = Ok p /\ nth_error p j = Some v /\ is_finite v = true /\
    Rabs (B2R v - nth j (map B2R label) 0) <= spread n + bpow radix2 (-51) * (INR n + 1) * B + bpow radix2 (-1072).
Proof.
  intros E Hd Hin Hj n. destruct (row_length P nc nt d row label W Hin) as [Lr Ll].
  destruct Ho as [HB Hn].
  destruct (tree_prediction_error nc nt d cfg t row j W E ltac:(rewrite Lr; apply le_n) Hj bounded_tame ltac:(lia)) as (p & v & Hp & Hv & Fv & He).
  exists p, v. split; [exact Hp|]. split; [exact Hv|]. split; [exact Fv|].
  assert (Hg : In label (map snd (samples_like row t d))).
  { apply in_map_iff. exists (row, label). split; [reflexivity|]. unfold samples_like. apply filter_In. split; [exact Hin|].
    apply forallb_forall. intros q _. cbn [fst]. apply eqb_reflx. }
  pose proof E as Bt. rewrite regression_tree_new_eq in Bt. apply build_with_built in Bt.
  pose proof (leaf_labels_near _ t row label j Bt Hd Hg Hj) as Hl.
  set (ys := target j (map (map B2R) (map snd (samples_like row t d)))) in *.
  assert (LG : length (map snd (samples_like row t d)) = n) by (unfold n; apply map_length).
  rewrite LG in *. 
  assert (B0 : 0 <= B) by (eapply Rle_trans; [|exact (proj1 HB)]; left; apply Rinv_0_lt_compat, pow_lt; lra).
  assert (Hma : mean (map Rabs ys) <= B).
  { apply mean_le; [exact B0|]. intros y Hy. apply in_map_iff in Hy as (z & <- & Hz). unfold ys, target in Hz.
    rewrite map_map in Hz. apply in_map_iff in Hz as (l & <- & Hl0).
    destruct (like_incl row t d) as [Hi _]. apply Hi in Hl0.
    destruct (nth_in_or_default j (map B2R l) 0) as [Hx|Hx]; [|rewrite Hx, Rabs_R0; exact B0].
    apply in_map_iff in Hx as (x & <- & Hx). exact (proj2 (Hb l x Hl0 Hx)). }
  assert (Hr : bpow radix2 (-51) * INR (n + 1) * mean (map Rabs ys) <= bpow radix2 (-51) * (INR n + 1) * B).
  { rewrite plus_INR. cbn [INR]. apply Rmult_le_compat_l; [|exact Hma]. pose proof (pos_INR n). pose proof (bpow_gt_0 radix2 (-51)).
    apply Rmult_le_pos; lra. }
  apply Rabs_le_inv in He, Hl. apply Rabs_le. lra.
Qed.

End NearFit.

Section NearFitTrees.
Context (P : platform) (B : R).
Local Existing Instance f64_ops.
Local Remove Hints xr_ops : typeclass_instances.

Theorem leaves_close nc nt (d : @dataset (f64_ops P)) (cfg : @tree_config (f64_ops P)) calc :
  wf_dataset nc nt d -> bounded_labels B d -> ordinary_table B d -> (Z.of_nat nt <= 2 ^ 40)%Z -> consistent_rows d ->
  standard cfg -> tc_number_of_classes cfg = N.of_nat nt ->
  (forall t, regression_tree_new d cfg = Ok t -> close_leaves B nt (tc_max_levels cfg) d t) /\
  (forall t, grad_boost_tree_new d cfg calc = Ok t -> close_leaves B nt (tc_max_levels cfg) d t) /\
  (forall t, amg_boost_tree_new d cfg calc = Ok t -> close_leaves B nt (tc_max_levels cfg) d t).
Proof.
  intros W Hb Ho Hk HC Hs HK.
  repeat split; intros t E; [rewrite regression_tree_new_eq in E|rewrite grad_boost_tree_new_eq in E|rewrite amg_boost_tree_new_eq in E];
    apply build_with_built in E; intros row l j Hl group n Hin Hj; eapply (built_near P B nc nt); eauto.
Qed.

End NearFitTrees.
