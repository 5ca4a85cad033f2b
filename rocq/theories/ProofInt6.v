(** The theorems on integer labels, stated with [integer_labels] instead of integer lists. *)
From Coq Require Import Reals Lra Lia ZArith Permutation Sorted.
From Flocq Require Import Core.
From Flocq Require Import IEEE754.BinarySingleNaN.
From Verif Require Import Base Num ModelCommon ModelTree Lib Spec SpecTree SpecScore F64 XR SpecExact SpecInt SpecFit ProofReal ProofData ProofSort
  ProofSplit ProofSplit2 ProofTree ProofTree3 ProofSplitExact ProofSplitExact2 ProofTreeExact ProofScoreF64 ProofRound
  ProofError ProofScan ProofInt ProofInt2 ProofInt3 ProofInt4 ProofInt5.
Local Open Scope R_scope.

Section Int6.
Context (P : platform) (M : Z).
Local Existing Instance f64_ops.
Local Remove Hints xr_ops : typeclass_instances.

Lemma integer_data (d : @dataset (f64_ops P)) : integer_labels M d -> sums_fit M d ->
  exists zs, labels d = fz zs /\ fits M zs /\ real_values d = rz zs.
Proof.
  intros HI [HM HF]. destruct (integer_zs P M d HI) as (zs & El & Hb). exists zs.
  assert (Hf : fits M zs) by (split; auto; rewrite El in HF; unfold fz in HF; now rewrite map_length in HF).
  split; [auto|]. split; [auto|]. unfold real_values. rewrite El. now apply (bounded_real M HM).
Qed.

Theorem gain_accuracy nc nt (d : @dataset (f64_ops P)) b :
  wf_dataset nc nt d -> integer_labels M d -> sums_fit M d -> (Z.of_nat nt <= 2 ^ 40)%Z ->
  find_best_split d (N.of_nat nt) = Ok b ->
  is_finite (bs_gain b) = true /\
  (forall j r i v, considered (exact_data d) j r i v ->
     cut_gain nt i (labels_in_order (real_values d) r) <= B2R (bs_gain b) + gain_error nt M) /\
  (b = mkBS f0 (Question 0 f0) \/
   (0 < B2R (bs_gain b) /\ exists j r i v, considered (exact_data d) j r i v /\
      exact_question (bs_question b) = @Question xr_ops (N.of_nat j) v /\
      Rabs (B2R (bs_gain b) - cut_gain nt i (labels_in_order (real_values d) r)) <= gain_error nt M)).
Proof.
  intros W HI HF Hk E. destruct (integer_data d HI HF) as (zs & El & Hf & ->).
  exact (split_int P M (proj1 HF) nc nt d zs b W El Hf Hk E).
Qed.

Theorem gain_near_exact_gain nc nt (d : @dataset (f64_ops P)) b :
  wf_dataset nc nt d -> integer_labels M d -> sums_fit M d -> (Z.of_nat nt <= 2 ^ 40)%Z ->
  find_best_split d (N.of_nat nt) = Ok b ->
  exists bx gx, find_best_split (exact_data d) (N.of_nat nt) = Ok bx /\ bs_gain bx = Fin gx /\
    Rabs (B2R (bs_gain b) - gx) <= gain_error nt M.
Proof.
  intros W HI HF Hk E. destruct (integer_data d HI HF) as (zs & El & Hf & _).
  destruct (gain_near_exact P M (proj1 HF) nc nt d zs b W El Hf Hk E) as (bx & gx & H1 & H2 & _ & H3). eauto.
Qed.

Theorem gain_bounds_every_question_int nc nt (d : @dataset (f64_ops P)) b q :
  wf_dataset nc nt d -> integer_labels M d -> sums_fit M d -> (Z.of_nat nt <= 2 ^ 40)%Z ->
  find_best_split d (N.of_nat nt) = Ok b ->
  question_gain nt (exact_question q) (feature_rows (exact_data d)) (real_values d) <= B2R (bs_gain b) + gain_error nt M.
Proof.
  intros W HI HF Hk E. destruct (integer_data d HI HF) as (zs & El & Hf & ->).
  exact (gain_bounds_questions P M (proj1 HF) nc nt d zs b q W El Hf Hk E).
Qed.

Theorem question_near_optimal_int nc nt (d : @dataset (f64_ops P)) b q :
  wf_dataset nc nt d -> integer_labels M d -> sums_fit M d -> (Z.of_nat nt <= 2 ^ 40)%Z ->
  find_best_split d (N.of_nat nt) = Ok b -> occurs_once (exact_data d) (exact_question (bs_question b)) ->
  question_gain nt (exact_question q) (feature_rows (exact_data d)) (real_values d) <=
  question_gain nt (exact_question (bs_question b)) (feature_rows (exact_data d)) (real_values d) + 2 * gain_error nt M.
Proof.
  intros W HI HF Hk E. destruct (integer_data d HI HF) as (zs & El & Hf & ->).
  exact (question_near_optimal P M (proj1 HF) nc nt d zs b q W El Hf Hk E).
Qed.

Theorem pure_no_gain_int nc nt (d : @dataset (f64_ops P)) l b :
  wf_dataset nc nt d -> integer_labels M d -> sums_fit M d -> (forall x, In x (labels d) -> x = l) ->
  find_best_split d (N.of_nat nt) = Ok b -> bs_gain b = f0.
Proof.
  intros W HI HF Hl E. destruct (integer_data d HI HF) as (zs & El & Hf & Er).
  assert (Hz : exists z, In z zs).
  { pose proof (zs_nonempty _ _ _ _ _ W El). destruct zs as [|z zs']; [congruence|]. exists z. now left. }
  destruct Hz as (z & Hz).
  rewrite (pure_int_no_split P M (proj1 HF) nc nt d zs z b W El Hf); auto.
  assert (H1 : forall x, In x zs -> map f64_of_Z x = l).
  { intros x Hx. apply Hl. rewrite El. unfold fz. now apply in_map. }
  assert (H2 : forall x, In x zs -> map B2R l = map IZR x).
  { intros x Hx. rewrite <- (H1 x Hx). pose proof (bounded_real M (proj1 HF) zs Hf) as Hb. unfold fz, rz in Hb. rewrite map_map in Hb.
    clear - Hb Hx. induction zs as [|a zs IH]; [destruct Hx|]. injection Hb as Ha Hb. destruct Hx as [->|Hx]; auto. }
  intros x Hx. apply map_IZR_inj. rewrite <- (H2 x Hx). now apply H2.
Qed.

Theorem pure_leaf_int nc nt (d : @dataset (f64_ops P)) l cfg :
  wf_dataset nc nt d -> integer_labels M d -> sums_fit M d -> (forall x, In x (labels d) -> x = l) ->
  standard cfg -> tc_number_of_classes cfg = N.of_nat nt ->
  exists q, regression_tree_new d cfg = Ok (leaf_node q (mkRL (Some d))).
Proof.
  intros W HI HF Hl Hs Hk. rewrite regression_tree_new_eq. unfold fuel_for. cbn [build_with].
  destruct (split_usable (f64_laws P) nc nt d W) as (b & Eb & _).
  pose proof (pure_no_gain_int nc nt d l b W HI HF Hl Eb) as Eg.
  rewrite Hs, Hk. change (split_finder_new Variance d (N.of_nat nt)) with (find_best_split d (N.of_nat nt)). rewrite Eb. cbn [bind].
  assert (E0 : feqb (bs_gain b) f0 = true) by (rewrite Eg; reflexivity). unfold stop_here. rewrite E0. cbn [orb].
  eexists. reflexivity.
Qed.

(** A float gain of zero on a small table: no question separates the labels at all. *)
Theorem zero_gain_nothing_int nc nt (d : @dataset (f64_ops P)) b q :
  wf_dataset nc nt d -> integer_labels M d -> small_table M nt d ->
  find_best_split d (N.of_nat nt) = Ok b -> feqb (bs_gain b) f0 = true ->
  question_gain nt (exact_question q) (feature_rows (exact_data d)) (real_values d) = 0.
Proof.
  intros W HI HT E Hz. pose proof (proj1 HT) as HM. destruct (integer_zs P M d HI) as (zs & El & Hb).
  pose proof (zs_nonempty _ _ _ _ _ W El) as Hne. destruct (small_fits P M HM nt d zs El Hb Hne HT) as (Hf & Hk & _).
  pose proof (zero_gain_is_no_split P M HM nc nt d zs b W El Hf Hk E Hz) as Eb.
  destruct (zero_gain_small P M HM nc nt d zs b W El Hb HT E Eb) as (bx & Ex & Gx).
  unfold real_values. rewrite El. rewrite (bounded_real M HM zs Hf).
  apply (zero_gain_nothing nc nt (exact_data d) (rz zs) bx (exact_wf P nc nt d W) (exact_real_labels P M HM d zs El Hf) Ex).
  rewrite Gx. apply xeqb_Fin. reflexivity.
Qed.

End Int6.
