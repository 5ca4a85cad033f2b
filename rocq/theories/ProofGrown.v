(** Boosting with trees that already fit the training data (C94). *)
From Coq Require Import Reals Lra Lia Permutation Sorted.
From Verif Require Import Base Num ModelCommon ModelTree ModelBoost Spec SpecTree SpecScore SpecFit SpecGrown Lib ProofData ProofSort ProofSplit ProofSplit2
  ProofTree ProofTree3 ProofScore ProofScore2 ProofBoost ProofBoost2 XR SpecExact SpecError SpecAffine ProofReal ProofSplitExact
  ProofSplitExact2 ProofTreeExact ProofScoreExact ProofLeaf ProofBoostExact ProofClassRun ProofShift.
Local Open Scope R_scope.

Lemma towards_length s g t k : length g = k -> length t = k -> length (towards s g t) = k.
Proof. intros H H'. unfold towards. rewrite map_length, combine_length. lia. Qed.

Lemma towards_nth s g t j : (j < length g)%nat -> (j < length t)%nat -> nth j (towards s g t) 0 = nth j g 0 + s * (nth j t 0 - nth j g 0).
Proof.
  revert t j. induction g as [|x g IH]; intros [|y t] [|j] H H'; cbn [length] in *; try lia; [reflexivity|].
  exact (IH t j ltac:(lia) ltac:(lia)).
Qed.

Lemma list_eq_nth (a b : list R) : length a = length b -> (forall j, (j < length a)%nat -> nth j a 0 = nth j b 0) -> a = b.
Proof. exact (fun H H' => nth_ext a b 0 0 H H'). Qed.

Lemma towards_start g t : length t = length g -> towards 0 g t = g.
Proof. intros H. apply list_eq_nth; [now rewrite (towards_length 0 g t (length g))|]. intros j Hj. rewrite (towards_length 0 g t (length g)) in Hj by auto. rewrite towards_nth by lia. lra. Qed.

Lemma pair_Fin (rows : list (list xr)) (ls : list (list R)) row l : In (row, l) (combine rows ls) -> In (row, map Fin l) (combine rows (map (map Fin) ls)).
Proof. revert ls. induction rows as [|x rows IH]; intros [|y ls] H; try destruct H; cbn; [left; congruence|right; auto]. Qed.

Lemma pairwise_answers (f : list xr -> res (list xr)) (h : list R -> list R) rows (ls : list (list R)) preds :
  Forall2 (fun r p => f r = Ok p) rows preds -> length rows = length ls -> (forall r l, In (r, l) (combine rows ls) -> f r = Ok (map Fin (h l))) ->
  preds = map (map Fin) (map h ls).
Proof.
  intros HF. revert ls. induction HF as [|r p rows ps H1 HF IH]; intros [|l ls] HL Hs; try discriminate; [reflexivity|]. cbn [map]. f_equal.
  - pose proof (Hs r l (or_introl eq_refl)) as Q. rewrite H1 in Q. now injection Q.
  - apply IH; [now injection HL|intros row0 l0 Hin; apply Hs; now right].
Qed.

Lemma map2_self (k : nat) (h h' : list R -> list R) ls : Forall (fun l => length l = k) ls -> (forall l, length l = k -> vsub l (h l) = h' l) -> map2 vsub ls (map h ls) = map h' ls.
Proof. intros H Hh. induction H as [|l ls L0 H IH]; cbn [map map2]; [reflexivity|]. f_equal; auto. Qed.

Section Grown.
Context (nc nt : nat) (d : @dataset xr_ops) (ls : list (list R)) (cfg : @tree_config xr_ops) (n : nat) (lr : R)
  (T : @tree_node xr_ops (@regression_leaf xr_ops)) (m : @regression_boost_model xr_ops).
Hypotheses (W : wf_dataset nc nt d) (Hl : real_labels ls d) (Hst : standard cfg) (Hc : tc_number_of_classes cfg = N.of_nat nt)
  (ET : regression_tree_new d cfg = Ok T) (Hfit : fits_training d T)
  (E : regression_boost_train d cfg n (Fin lr) = Ok m).

Let g := means nt ls.
Let c := 1 - lr.
Let out (row : list xr) : list R := match tree_prediction row T with Ok p => map xval p | _ => [] end.

Lemma out_eq row : (nc <= length row)%nat -> tree_prediction row T = Ok (map Fin (out row)) /\ length (out row) = nt.
Proof.
  intros Hr. destruct (prediction_is_mean nc nt d ls cfg T row W Hl ET Hr) as (group & _ & _ & Ep & _).
  assert (Ep' : tree_prediction row T = Ok (map Fin (map (fun j => mean (target j group)) (seq 0 nt)))) by (rewrite map_map; exact Ep).
  assert (E1 : out row = map (fun j => mean (target j group)) (seq 0 nt)) by (unfold out; rewrite Ep'; apply map_xval_Fin).
  rewrite E1. split; [exact Ep'|]. rewrite map_length. apply seq_length.
Qed.

(** The table of residuals after the first [k] trees. *)
Definition left_over (k : nat) : @dataset xr_ops := relabel d (map (affine (c ^ k) (map (fun x => - (c ^ k * x)) g)) ls).

Lemma offset_length k : length (map (fun x => - (c ^ k * x)) g) = nt.
Proof. rewrite map_length. apply means_length. Qed.

Lemma left_over_wf k : wf_dataset nc nt (left_over k) /\ real_labels (map (affine (c ^ k) (map (fun x => - (c ^ k * x)) g)) ls) (left_over k).
Proof. pose proof (relabel_moved nc nt d ls (c ^ k) _ W Hl (offset_length k)) as (_ & W' & _). split; [exact W'|reflexivity]. Qed.

Lemma offset_nth k j : nth j (map (fun x => - (c ^ k * x)) g) 0 = - (c ^ k * nth j g 0).
Proof. replace 0 with ((fun x => - (c ^ k * x)) 0) at 1 by ring. apply (map_nth (fun x => - (c ^ k * x))). Qed.

Lemma pow_zero_offset k l : length l = nt -> c ^ k = 0 -> affine (c ^ k) (map (fun x => - (c ^ k * x)) g) l = zeros nt.
Proof.
  intros L0 H. apply list_eq_nth; [rewrite (affine_length nt) by (auto; apply offset_length); now rewrite zeros_length|].
  intros j Hj. rewrite (affine_length nt) in Hj by (auto; apply offset_length). rewrite affine_nth by (rewrite ?offset_length; lia). rewrite offset_nth, H, zeros_nth. ring.
Qed.

(** The tree of the residuals has the questions of [T], and its outputs are those of [T], less the starting point, scaled. *)
Lemma stage_tree k t : grad_boost_tree_new (left_over k) cfg (leaf_output_calculator_new Regression) = Ok t ->
  (c ^ k <> 0 -> tree_map (fun _ => tt) t = tree_map (fun _ => tt) T) /\
  forall row, (nc <= length row)%nat -> @gb_out xr_ops row t = Ok (map Fin (affine (c ^ k) (map (fun x => - (c ^ k * x)) g) (out row))).
Proof.
  intros Et. destruct (left_over_wf k) as [W' L']. set (v := map (fun x => - (c ^ k * x)) g) in *.
  assert (Hv : length v = nt) by apply offset_length.
  pose proof Et as Et0. rewrite (grad_boost_is_regression (left_over k) cfg Regression Hst) in Et0. apply bind_Ok in Et0 as (rt & Ert & Em).
  assert (Hrl : real_labels (rl (left_over k)) (left_over k)) by (rewrite (real_rl _ _ L'); exact L').
  assert (G : forall row, (nc <= length row)%nat -> @gb_out xr_ops row t = tree_prediction row rt) by (intros row Hr; exact (gb_is_mean nc nt (left_over k) cfg t rt row W' Hrl Et Ert Hr)).
  split.
  - intros Hs. pose proof (relabel_moved nc nt d ls (c ^ k) v W Hl Hv) as Mv.
    pose proof ET as BT. rewrite regression_tree_new_eq in BT. apply build_with_built in BT.
    pose proof Et as Bt. rewrite grad_boost_tree_new_eq in Bt. apply build_with_built in Bt.
    exact (proj1 (built_moved nc nt (c ^ k) v Hs Hv _ _ _ _ _ _ _ _ Hst Hc BT Bt Mv)).
  - intros row Hr. rewrite (G row Hr). destruct (out_eq row Hr) as [Eo Lo].
    destruct (Req_dec (c ^ k) 0) as [Hz|Hs].
    + unfold v. rewrite (pow_zero_offset k (out row) Lo Hz).
      destruct (prediction_is_mean nc nt (left_over k) _ cfg rt row W' L' Ert Hr) as (group & _ & _ & Ep & Hb). etransitivity; [exact Ep|]. f_equal.
      rewrite <- (map_map (fun j => mean (target j group)) Fin). f_equal. apply list_eq_nth; [now rewrite map_length, seq_length, zeros_length|].
      intros j Hj. rewrite map_length, seq_length in Hj. rewrite zeros_nth.
      assert (Hw : nth j (map (fun j => mean (target j group)) (seq 0 nt)) 0 = mean (target j group)).
      { apply nth_error_nth. rewrite nth_error_map, (nth_error_nth' _ 0%nat) by now rewrite seq_length. rewrite seq_nth by exact Hj. reflexivity. }
      rewrite Hw. destruct (Hb j 0 0 Hj); [|lra]. intros l Hin. apply in_map_iff in Hin as (y & <- & Hy).
      destruct (real_rect nc nt d ls W Hl) as [Rl _]. unfold rectangular in Rl. rewrite Forall_forall in Rl. unfold v. rewrite (pow_zero_offset k y (Rl y Hy) Hz), zeros_nth. lra.
    + destruct (proj2 (tree_affine nc nt d ls cfg (c ^ k) v T rt W Hl Hst Hc Hs Hv ET Ert) row) as [[A _]|(p & A & _ & B)].
      * exfalso. pose proof (eq_trans (eq_sym A) Eo) as Q. discriminate Q.
      * pose proof (eq_trans (eq_sym A) Eo) as Q. injection Q as Q. apply (f_equal (map xval)) in Q. rewrite !map_xval_Fin in Q. subst p. exact B.
Qed.

Lemma blend_residual k l : length l = nt -> vsub l (towards (1 - c ^ k) g l) = affine (c ^ k) (map (fun x => - (c ^ k * x)) g) l.
Proof.
  intros L0. pose proof (means_length nt ls) as Lg. fold g in Lg. pose proof (offset_length k) as Lv.
  assert (Lt : length (towards (1 - c ^ k) g l) = nt) by (apply towards_length; auto).
  assert (L1 : length (vsub l (towards (1 - c ^ k) g l)) = nt) by (unfold vsub; rewrite map2_length; lia).
  apply list_eq_nth; [now rewrite (affine_length nt)|]. intros j Hj. rewrite L1 in Hj. unfold vsub. rewrite nth_map2 by lia.
  rewrite towards_nth, affine_nth, offset_nth by lia. ring.
Qed.

Lemma blend_step k t : length t = nt ->
  vstep lr (towards (1 - c ^ k) g t) (affine (c ^ k) (map (fun x => - (c ^ k * x)) g) t) = towards (1 - c ^ S k) g t.
Proof.
  intros L0. pose proof (means_length nt ls) as Lg. fold g in Lg. pose proof (offset_length k) as Lv.
  assert (Lt : length (towards (1 - c ^ k) g t) = nt) by (apply towards_length; auto).
  assert (La : length (affine (c ^ k) (map (fun x => - (c ^ k * x)) g) t) = nt) by now apply (affine_length nt).
  apply list_eq_nth; [rewrite vstep_length by lia; rewrite (towards_length (1 - c ^ S k) g t nt); auto|].
  intros j Hj. rewrite vstep_length in Hj by lia. unfold vstep. rewrite nth_map2 by lia. rewrite !towards_nth, affine_nth, offset_nth by lia.
  cbn [pow]. unfold c. ring.
Qed.

Lemma stage_table k preds : (forall row, (nc <= length row)%nat -> regression_boost_predict (first_trees k m) row = Ok (map Fin (towards (1 - c ^ k) g (out row)))) ->
  regression_boost_all_predictions (first_trees k m) d = Ok preds -> mkDS (feature_rows d) (differences (labels d) preds) (feature_columns d) = left_over k.
Proof.
  intros IH Ep.
  assert (Epreds : preds = map (map Fin) (map (towards (1 - c ^ k) g) ls)).
  { unfold regression_boost_all_predictions in Ep. rewrite all_predictions_eq in Ep. apply mapM_Forall2 in Ep.
    refine (pairwise_answers (regression_boost_predict (first_trees k m)) (towards (1 - c ^ k) g) (feature_rows d) ls preds Ep (xr_len _ _ _ _ W Hl) _).
    intros r l Hin. assert (Hrl : (nc <= length r)%nat) by (apply (row_long nc nt d r W); exact (in_combine_l _ _ _ _ Hin)).
    assert (Hin' : In (r, map Fin l) (samples d)) by (unfold samples; refine (eq_ind_r (fun z => In (r, map Fin l) (combine (feature_rows d) z)) _ Hl); exact (pair_Fin _ _ _ _ Hin)).
    destruct (out_eq r Hrl) as [Eor _]. pose proof (eq_trans (eq_sym (Hfit r _ Hin')) Eor) as Q. injection Q as Q.
    apply (f_equal (map xval)) in Q. rewrite !map_xval_Fin in Q. rewrite Q. exact (IH r Hrl). }
  unfold left_over, relabel. f_equal. rewrite Epreds. etransitivity; [apply (f_equal (fun z => @differences xr_ops z _)); exact Hl|].
    etransitivity; [apply differences_Fin|]. f_equal. destruct (real_rect nc nt d ls W Hl) as [Rl _]. exact (map2_self nt _ _ ls Rl (blend_residual k)).
Qed.

Theorem grown_predictions : forall k, (k <= n)%nat -> forall row, (nc <= length row)%nat ->
  regression_boost_predict (first_trees k m) row = Ok (map Fin (towards (1 - c ^ k) g (out row))).
Proof.
  destruct (guess_real _ _ _ _ _ _ _ _ W Hl E) as (Hg & Hlr & HT).
  induction k as [|k IH]; intros Hk row Hr; destruct (out_eq row Hr) as [Eo Lo].
  - unfold regression_boost_predict. rewrite predict_instance_raw. cbn [first_trees m_trees m_initial_guess m_learning_rate firstn]. cbn. f_equal.
    etransitivity; [exact Hg|]. f_equal. cbn [pow]. replace (1 - 1) with 0 by ring. symmetry. apply towards_start. unfold g. rewrite means_length. exact Lo.
  - specialize (IH ltac:(lia)).
    destruct (regression_stage d cfg n (Fin lr) m k (wf_lengths _ _ _ W) E Hk) as (preds & t & Ep & _ & Ht & Eb).
    rewrite (stage_table k preds IH Ep) in Eb.
    destruct (stage_tree k t Eb) as [_ Ho].
    rewrite <- (blend_step k (out row) Lo).
    pose proof (means_length nt ls) as Lg. fold g in Lg.
    refine (next_prediction nt d cfg n lr m k t row _ _ E Hlr Ht (IH row Hr) _ (Ho row Hr) _); [now apply towards_length|].
    apply (affine_length nt); [exact Lo|apply offset_length].
Qed.

Theorem grown_trees k t : nth_error (m_trees m) k = Some t ->
  ((1 - lr) ^ k <> 0 -> tree_map (fun _ => tt) t = tree_map (fun _ => tt) T) /\
  ((1 - lr) ^ k = 0 -> nd_true t = None /\ nd_false t = None).
Proof.
  intros Ht. destruct (guess_real _ _ _ _ _ _ _ _ W Hl E) as (_ & _ & HT).
  assert (Hk : (k < n)%nat) by (rewrite <- HT; apply nth_error_Some; congruence).
  destruct (regression_stage d cfg n (Fin lr) m k (wf_lengths _ _ _ W) E Hk) as (preds & t' & Ep & _ & Ht' & Eb).
  assert (t' = t) by congruence. subst t'. rewrite (stage_table k preds (grown_predictions k ltac:(lia)) Ep) in Eb.
  split; [exact (proj1 (stage_tree k t Eb))|]. intros Hz. destruct (left_over_wf k) as [W' L'].
  rewrite (grad_boost_is_regression (left_over k) cfg Regression Hst) in Eb. apply bind_Ok in Eb as (rt & Ert & Em).
  destruct (pure_leaf nc nt (left_over k) _ (zeros nt) cfg W' L') as (q & Eq); [|exact Hst|exact Hc|].
  { intros x Hx. apply in_map_iff in Hx as (y & <- & Hy). destruct (real_rect nc nt d ls W Hl) as [Rl _]. unfold rectangular in Rl. rewrite Forall_forall in Rl. exact (pow_zero_offset k y (Rl y Hy) Hz). }
  rewrite Eq in Ert. injection Ert as <-. unfold leaf_node in Em. cbn [tree_mapM] in Em. apply bind_Ok in Em as (l' & _ & Em). cbn [bind] in Em. injection Em as <-. auto.
Qed.

End Grown.

Theorem grown_ensemble (nc nt : nat) (d : @dataset xr_ops) (ls : list (list R)) (cfg : @tree_config xr_ops) (n : nat) (lr : R)
    (T : @tree_node xr_ops (@regression_leaf xr_ops)) (m : @regression_boost_model xr_ops) :
  wf_dataset nc nt d -> real_labels ls d -> standard cfg -> tc_number_of_classes cfg = N.of_nat nt ->
  regression_tree_new d cfg = Ok T -> fits_training d T -> regression_boost_train d cfg n (Fin lr) = Ok m ->
  (forall row, (nc <= length row)%nat -> exists p, tree_prediction row T = Ok (map Fin p) /\ length p = nt /\
     regression_boost_predict m row = Ok (map Fin (towards (1 - (1 - lr) ^ n) (map (fun j => mean (target j ls)) (seq 0 nt)) p))) /\
  (forall k t, nth_error (m_trees m) k = Some t ->
     ((1 - lr) ^ k <> 0 -> tree_map (fun _ => tt) t = tree_map (fun _ => tt) T) /\
     ((1 - lr) ^ k = 0 -> nd_true t = None /\ nd_false t = None)).
Proof.
  intros W Hl Hst Hc ET Hfit E. split; [|exact (grown_trees nc nt d ls cfg n lr T m W Hl Hst Hc ET Hfit E)].
  intros row Hr. destruct (out_eq nc nt d ls cfg T W Hl ET row Hr) as [Eo Lo]. eexists. split; [exact Eo|]. split; [exact Lo|].
  destruct (guess_real _ _ _ _ _ _ _ _ W Hl E) as (_ & _ & HT).
  assert (F1 : first_trees n m = m) by (unfold first_trees; rewrite firstn_all2 by lia; now destruct m).
  pose proof (grown_predictions nc nt d ls cfg n lr T m W Hl Hst Hc ET Hfit E n (Nat.le_refl n) row Hr) as H. rewrite F1 in H. exact H.
Qed.

Theorem deep_ensemble (nc nt : nat) (d : @dataset xr_ops) (ls : list (list R)) (cfg : @tree_config xr_ops) (n : nat) (lr : R) (m : @regression_boost_model xr_ops) :
  wf_dataset nc nt d -> real_labels ls d -> consistent d -> standard cfg -> tc_number_of_classes cfg = N.of_nat nt ->
  (N.of_nat (length (feature_rows d)) <= tc_max_levels cfg + 1)%N -> regression_boost_train d cfg n (Fin lr) = Ok m ->
  forall row l, In (row, l) (combine (feature_rows d) ls) ->
  regression_boost_predict m row = Ok (map Fin (towards (1 - (1 - lr) ^ n) (map (fun j => mean (target j ls)) (seq 0 nt)) l)).
Proof.
  intros W Hl HC Hst Hc Hd E row l Hin.
  destruct (regression_total xr_laws nc nt d cfg W Hst Hc) as (T & ET).
  assert (Hfit : fits_training d T) by (intros r l' Hs; exact (deep_tree_fits nc nt d ls cfg T r l' W Hl HC Hst Hc ET Hd Hs)).
  assert (Hr : (nc <= length row)%nat) by (apply (row_long nc nt d row W); exact (in_combine_l _ _ _ _ Hin)).
  destruct (proj1 (grown_ensemble nc nt d ls cfg n lr T m W Hl Hst Hc ET Hfit E) row Hr) as (p & Ep & _ & H).
  assert (Hin' : In (row, map Fin l) (samples d)) by (unfold samples; refine (eq_ind_r (fun z => In (row, map Fin l) (combine (feature_rows d) z)) _ Hl); exact (pair_Fin _ _ _ _ Hin)).
  pose proof (eq_trans (eq_sym (Hfit row _ Hin')) Ep) as Q. injection Q as Q. apply (f_equal (map xval)) in Q. rewrite !map_xval_Fin in Q. subst p. exact H.
Qed.
