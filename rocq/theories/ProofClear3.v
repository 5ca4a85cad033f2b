(** A single regression tree whose decisions are clear (C91). *)
From Coq Require Import Reals Lra Lia ZArith.
From Flocq Require Import Core.
From Flocq Require Import IEEE754.BinarySingleNaN.
From Verif Require Import Base Num ModelCommon ModelTree ModelBoost Lib Spec SpecTree F64 XR SpecExact SpecInt SpecNear SpecNode SpecScore SpecPredict SpecClear SpecFit ProofReal ProofData ProofTree
  ProofScore ProofTreeExact ProofInt ProofInt2 ProofNear3 ProofNode SpecFitFloat ProofSort ProofFitFloat ProofPredict ProofLeaf ProofScore3 ProofClear ProofClear2.
Local Open Scope R_scope.

Section Tree.
Context (P : platform).
Local Notation FO := (f64_ops P).

Lemma tracks_exact B (d : @dataset FO) : bounded_labels B d -> tracks P 0 d (exact_data d).
Proof.
  intros H. unfold tracks, samples, exact_data. cbn [feature_rows labels]. unfold bounded_labels in H. revert H. generalize (labels d). generalize (feature_rows d).
  intros rows. induction rows as [|r rows IH]; intros [|l ls] H; cbn [map combine]; try constructor.
  - cbn [fst snd]. split; [reflexivity|]. assert (Hl : forall z, In z l -> is_finite (z : f64) = true) by (intros z Hz; exact (proj1 (H l z (or_introl eq_refl) Hz))).
    clear -Hl. induction l as [|a l IH]; cbn [map]; constructor.
    + exists (B2R (a : f64)). split; [exact (exact_finite a (Hl a (or_introl eq_refl)))|]. rewrite Rminus_eq_0, Rabs_R0. lra.
    + apply IH. intros z Hz. apply Hl. now right.
  - apply IH. intros l' z Hl Hz. apply (H l' z); auto. now right.
Qed.

Lemma small_exact B (d : @dataset FO) : bounded_labels B d -> small_data B (exact_data d).
Proof.
  intros H [r l] z Hin Hz. unfold samples in Hin. apply in_combine_r in Hin. unfold exact_data in Hin. cbn [labels snd] in *.
  apply in_map_iff in Hin as (l0 & <- & Hl). apply in_map_iff in Hz as (a & Ea & Ha). destruct (H l0 a Hl Ha) as [Fa Ba].
  rewrite (exact_finite a Fa) in Ea. injection Ea as <-. exact Ba.
Qed.

Lemma bounded_tame B (d : @dataset FO) : bounded_labels B d -> ordinary_table B d -> tame (labels d).
Proof.
  intros H [[_ HB] _]. unfold tame. apply Forall_forall. intros l Hl. apply Forall_forall. intros y Hy. destruct (H l y Hl Hy) as [Fy By]. split; [exact Fy|].
  eapply Rle_trans; [exact By|]. eapply Rle_trans; [exact HB|]. replace (2 ^ 400) with (bpow radix2 400); [apply bpow_le; lia|].
  rewrite <- (IZR_Zpower radix2 400) by lia. change (Zpower radix2 400) with (2 ^ Z.of_nat 400)%Z. rewrite <- pow_IZR. reflexivity.
Qed.

(** The answer, once the questions are known to be the same. *)
Lemma clear_tree_path nc nt B (d : @dataset FO) (cfg : @tree_config FO) (cfg' : @tree_config xr_ops) t te (row : list f64) rest :
  @wf_dataset FO nc nt d -> bounded_labels B d -> ordinary_table B d -> standard cfg' -> tc_number_of_classes cfg' = N.of_nat nt ->
  @regression_tree_new FO d cfg = Ok t -> @regression_tree_new xr_ops (exact_data d) cfg' = Ok te -> (nc <= length row)%nat ->
  map exact_question (@path FO _ row t) = @path xr_ops _ (map exact_value row) te ++ rest ->
  (rest = [] \/ forall s s', In s (samples_like (map exact_value row) te (exact_data d)) -> In s' (samples_like (map exact_value row) te (exact_data d)) -> snd s = snd s') ->
  exists p pe, @tree_prediction FO row t = Ok p /\ @tree_prediction xr_ops (map exact_value row) te = Ok (map Fin pe) /\ length p = nt /\ length pe = nt /\
    forall j, (j < nt)%nat -> is_finite (nth j p (B754_zero false) : f64) = true /\
      Rabs (B2R (nth j p (B754_zero false) : f64) - nth j pe 0) <= bpow radix2 (-51) * INR (length (labels d) + 1) * B + bpow radix2 (-1072).
Proof.
  intros W Hb Ho S' C' E E' Hr Hp Hrest.
  pose proof (exact_wf P nc nt d W) as Wx. pose proof (tracks_exact B d Hb) as T. pose proof (bounded_real_labels P B d Hb) as Hl.
  assert (Hr' : (nc <= length (map exact_value row))%nat) by now rewrite map_length.
  destruct (prediction_is_mean nc nt (exact_data d) (real_values d) cfg' te (map exact_value row) Wx Hl E' Hr') as (group & _ & Eg & Epe & _).
  assert (Epe' : @tree_prediction xr_ops (map exact_value row) te = Ok (map Fin (map (fun j => mean (target j group)) (seq 0 nt)))) by (rewrite map_map; exact Epe).
  destruct (group_facts (P:=P) nc nt d cfg t row W E Hr) as [Hne _].
  assert (HN : (Z.of_nat (length (labels d)) <= 2 ^ 40)%Z) by (destruct Ho as [_ H]; eapply Z.le_trans; [exact H|]; lia).
  pose proof (bounded_tame B d Hb Ho) as Tm.
  exists (map (fun j => @average_of FO (map snd (@samples_like FO _ row t d)) j) (seq 0 nt)), (map (fun j => mean (target j group)) (seq 0 nt)).
  split; [exact (prediction_average nc nt d cfg t row W E Hr)|]. split; [exact Epe'|]. split; [now rewrite map_length, seq_length|]. split; [now rewrite map_length, seq_length|].
  intros j Hj.
  destruct (tree_prediction_error (P:=P) nc nt d cfg t row j W E Hr Hj Tm HN) as (p & v & Ep & Ev & Fv & Herr).
  rewrite (prediction_average nc nt d cfg t row W E Hr) in Ep. injection Ep as Ep.
  assert (Hv : nth j (map (fun j => @average_of FO (map snd (@samples_like FO _ row t d)) j) (seq 0 nt)) (B754_zero false : f64) = v).
  { apply nth_error_nth. rewrite <- Ep in Ev. exact Ev. }
  assert (Hw : nth j (map (fun j => mean (target j group)) (seq 0 nt)) 0 = mean (target j group)).
  { apply nth_error_nth. rewrite nth_error_map, (nth_error_nth' _ 0%nat) by now rewrite seq_length. rewrite seq_nth by exact Hj. reflexivity. }
  split; [exact (eq_trans (f_equal (fun z : f64 => is_finite z) Hv) Fv)|]. rewrite Hw. change (Rabs (B2R (nth j (map (fun j => @average_of FO (map snd (@samples_like FO _ row t d)) j) (seq 0 nt)) (B754_zero false : f64) : f64) - mean (target j group)) <= bpow radix2 (-51) * INR (length (labels d) + 1) * B + bpow radix2 (-1072)). rewrite Hv.
  assert (Hne' : @samples_like FO _ row t d <> []) by (intros E0; apply Hne; rewrite E0; reflexivity).
  pose proof (group_close P 0 (Rle_refl 0) d (exact_data d) T row t te rest Hp Hrest j Hne') as Hgc.
  assert (Emean : target j (map (map B2R) (map snd (@samples_like FO _ row t d))) = map (gf j) (@samples_like FO _ row t d)).
  { unfold target. rewrite !map_map. apply map_ext. intros s. unfold gf. change 0 with (B2R (B754_zero false : f64)). apply map_nth. }
  assert (Emx : target j group = map (gx j) (@samples_like xr_ops _ (map exact_value row) te (exact_data d))).
  { transitivity (map (fun l : list xr => xval (nth j l (Fin 0))) (map (map Fin) group)).
    - unfold target. rewrite map_map. apply map_ext. intros l. rewrite (map_nth Fin l 0 j). reflexivity.
    - rewrite Eg. apply map_map. }
  rewrite Emean in Herr. rewrite Emx.
  assert (E0 : mean (map (gf j) (@samples_like FO _ row t d)) = mean (map (gx j) (@samples_like xr_ops _ (map exact_value row) te (exact_data d)))).
  { apply Rminus_diag_uniq. destruct (Req_dec (mean (map (gf j) (@samples_like FO _ row t d)) - mean (map (gx j) (@samples_like xr_ops _ (map exact_value row) te (exact_data d)))) 0) as [H0|H0]; [exact H0|].
    exfalso. apply Rabs_pos_lt in H0. exact (Rlt_not_le _ _ H0 Hgc). }
  rewrite <- E0. eapply Rle_trans; [exact Herr|]. apply Rplus_le_compat_r.
  destruct (like_incl (P:=P) row t d) as [Hi Hle].
  assert (B0 : 0 <= B) by exact (B_nonneg P B d Ho).
  apply Rmult_le_compat.
  - apply Rmult_le_pos; [apply bpow_ge_0|apply pos_INR].
  - apply mean_nonneg. intros z Hz. apply in_map_iff in Hz as (y & <- & _). apply Rabs_pos.
  - apply Rmult_le_compat_l; [apply bpow_ge_0|]. apply le_INR. apply Nat.add_le_mono_r. exact Hle.
  - apply mean_le; [exact B0|]. intros z Hz. rewrite map_map in Hz. apply in_map_iff in Hz as (s & <- & Hs). unfold gf.
    assert (Hin : In (snd s) (labels d)) by (apply Hi; now apply in_map).
    destruct (Nat.lt_ge_cases j (length (snd s))) as [Hj'|Hj'].
    + exact (proj2 (Hb (snd s) (nth j (snd s) (B754_zero false : f64)) Hin (nth_In (snd s) _ Hj'))).
    + rewrite nth_overflow by exact Hj'. cbn. rewrite Rabs_R0. exact B0.
Qed.

Theorem clear_tree nc nt B (d : @dataset FO) (cfg : @tree_config FO) (cfg' : @tree_config xr_ops) t te (row : list f64) :
  @wf_dataset FO nc nt d -> bounded_labels B d -> ordinary_table B d -> (Z.of_nat nt <= 2 ^ 40)%Z ->
  standard cfg -> standard cfg' -> tc_number_of_classes cfg = N.of_nat nt -> tc_number_of_classes cfg' = N.of_nat nt ->
  tc_max_levels cfg' = tc_max_levels cfg ->
  @regression_tree_new FO d cfg = Ok t -> @regression_tree_new xr_ops (exact_data d) cfg' = Ok te -> (nc <= length row)%nat ->
  clear_path (2 * real_gain_error nt (length (labels d)) B) nc nt (tc_max_levels cfg) (exact_data d) te (map exact_value row) ->
  (exists rest, map exact_question (@path FO _ row t) = @path xr_ops _ (map exact_value row) te ++ rest /\
    (rest = [] \/ forall s s', In s (samples_like (map exact_value row) te (exact_data d)) -> In s' (samples_like (map exact_value row) te (exact_data d)) -> snd s = snd s')) /\
  exists p pe, @tree_prediction FO row t = Ok p /\ @tree_prediction xr_ops (map exact_value row) te = Ok (map Fin pe) /\ length p = nt /\ length pe = nt /\
    forall j, (j < nt)%nat -> is_finite (nth j p (B754_zero false) : f64) = true /\
      Rabs (B2R (nth j p (B754_zero false) : f64) - nth j pe 0) <= bpow radix2 (-51) * INR (length (labels d) + 1) * B + bpow radix2 (-1072).
Proof.
  intros W Hb Ho Hk S S' C C' M E E' Hr Hc.
  pose proof (exact_wf P nc nt d W) as Wx. pose proof (tracks_exact B d Hb) as T.
  pose proof E as Bt. rewrite regression_tree_new_eq in Bt. apply build_with_built in Bt.
  pose proof E' as Bx. rewrite regression_tree_new_eq in Bx. apply build_with_built in Bx.
  destruct (follow P _ _ cfg cfg' nc nt B 0 (length (labels d)) _ row 0 d t S S' C C' M Hk (Rle_refl 0)
    ltac:(rewrite !Rmult_0_r, Rplus_0_r; apply Rle_refl) Bt (exact_data d) te Bx W Wx T Hb Ho (small_exact B d Hb) (Nat.le_refl _)) as (rest & Hp & Hrest).
  { exact Hc. }
  split; [now exists rest|].
  exact (clear_tree_path nc nt B d cfg cfg' t te row rest W Hb Ho S' C' E E' Hr Hp Hrest).
Qed.

Theorem clear_tree_same nc nt B (d : @dataset FO) (cfg : @tree_config FO) (cfg' : @tree_config xr_ops) t te (row : list f64) :
  @wf_dataset FO nc nt d -> bounded_labels B d -> ordinary_table B d -> (Z.of_nat nt <= 2 ^ 40)%Z ->
  standard cfg -> standard cfg' -> tc_number_of_classes cfg = N.of_nat nt -> tc_number_of_classes cfg' = N.of_nat nt ->
  tc_max_levels cfg' = tc_max_levels cfg ->
  @regression_tree_new FO d cfg = Ok t -> @regression_tree_new xr_ops (exact_data d) cfg' = Ok te -> (nc <= length row)%nat ->
  clear_path (2 * real_gain_error nt (length (labels d)) B) nc nt (tc_max_levels cfg) (exact_data d) te (map exact_value row) ->
  same_questions row t (exact_data d) te /\
  exists p pe, @tree_prediction FO row t = Ok p /\ @tree_prediction xr_ops (map exact_value row) te = Ok (map Fin pe) /\ length p = nt /\ length pe = nt /\
    forall j, (j < nt)%nat -> is_finite (nth j p (B754_zero false) : f64) = true /\
      Rabs (B2R (nth j p (B754_zero false) : f64) - nth j pe 0) <= bpow radix2 (-51) * INR (length (labels d) + 1) * B + bpow radix2 (-1072).
Proof. exact (clear_tree nc nt B d cfg cfg' t te row). Qed.

End Tree.
