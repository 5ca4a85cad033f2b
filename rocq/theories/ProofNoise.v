(** Regression trees under label noise (C92). *)
From Coq Require Import Reals Lra Lia ZArith.
From Flocq Require Import Core.
From Flocq Require Import IEEE754.BinarySingleNaN.
From Verif Require Import Base Num ModelCommon ModelTree ModelBoost Lib Spec SpecTree F64 XR SpecExact SpecInt SpecNear SpecNode SpecScore SpecPredict SpecClear SpecFit SpecNoise ProofReal ProofData ProofTree
  ProofScore ProofTreeExact ProofInt ProofInt2 ProofNear3 ProofNode SpecFitFloat ProofSort ProofFitFloat ProofPredict ProofLeaf ProofScore3 ProofClear ProofClear2 ProofClear3.
Local Open Scope R_scope.

Section Noise.
Context (P : platform).
Local Notation FO := (f64_ops P).

Lemma noise_tracks e B (d d' : @dataset FO) : noisy_copy e d d' -> bounded_labels B d -> tracks P e d' (exact_data d).
Proof.
  intros (Er & _ & Hn) H. unfold tracks, samples, exact_data. cbn [feature_rows labels]. rewrite Er. unfold bounded_labels in H. revert Hn H.
  generalize (labels d) (labels d'). generalize (feature_rows d).
  intros rows ls ls' Hn. revert rows. induction Hn as [|l l' ls ls' Hll Hn IH]; intros [|r rows] H; cbn [map combine]; try constructor.
  - cbn [fst snd]. split; [reflexivity|]. assert (Hl : forall z, In z l -> is_finite (z : f64) = true) by (intros z Hz; exact (proj1 (H l z (or_introl eq_refl) Hz))).
    clear -Hl Hll. induction Hll as [|y y' l l' Hy Hll IH]; cbn [map]; constructor.
    + exists (B2R (y : f64)). split; [exact (exact_finite y (Hl y (or_introl eq_refl)))|exact Hy].
    + apply IH. intros z Hz. apply Hl. now right.
  - apply IH. intros l0 z Hl Hz. apply (H l0 z); auto. now right.
Qed.

(** [te] is the exact tree of [d]; [t] is the binary64 tree of the noisy copy [d']. *)
Theorem noise_tree nc nt B e (d d' : @dataset FO) (cfg : @tree_config FO) (cfg' : @tree_config xr_ops) t te (row : list f64) :
  @wf_dataset FO nc nt d -> @wf_dataset FO nc nt d' -> bounded_labels B d -> bounded_labels B d' -> ordinary_table B d -> (Z.of_nat nt <= 2 ^ 40)%Z ->
  0 <= e -> noisy_copy e d d' ->
  standard cfg -> standard cfg' -> tc_number_of_classes cfg = N.of_nat nt -> tc_number_of_classes cfg' = N.of_nat nt ->
  tc_max_levels cfg' = tc_max_levels cfg ->
  @regression_tree_new FO d' cfg = Ok t -> @regression_tree_new xr_ops (exact_data d) cfg' = Ok te -> (nc <= length row)%nat ->
  clear_path (2 * real_gain_error nt (length (labels d)) B + 32 * INR nt * B * e) nc nt (tc_max_levels cfg) (exact_data d) te (map exact_value row) ->
  same_questions row t (exact_data d) te /\
  exists p pe, @tree_prediction FO row t = Ok p /\ @tree_prediction xr_ops (map exact_value row) te = Ok (map Fin pe) /\ length p = nt /\ length pe = nt /\
    forall j, (j < nt)%nat -> is_finite (nth j p (B754_zero false) : f64) = true /\
      Rabs (B2R (nth j p (B754_zero false) : f64) - nth j pe 0) <= e + (bpow radix2 (-51) * INR (length (labels d) + 1) * B + bpow radix2 (-1072)).
Proof.
  intros Wd W Hbd Hb Hod Hk He Hn S S' C C' M E E' Hr Hc.
  pose proof (exact_wf P nc nt d Wd) as Wx. pose proof (noise_tracks e B d d' Hn Hbd) as T. pose proof (bounded_real_labels P B d Hbd) as Hl.
  assert (LL : length (labels d') = length (labels d)) by (symmetry; exact (Forall2_length _ _ _ (proj2 (proj2 Hn)))).
  assert (Ho : ordinary_table B d') by (destruct Hod as [O1 O2]; split; [exact O1|now rewrite LL]).
  rewrite <- LL in Hc |- *.
  pose proof E as Bt. rewrite regression_tree_new_eq in Bt. apply build_with_built in Bt.
  pose proof E' as Bx. rewrite regression_tree_new_eq in Bx. apply build_with_built in Bx.
  destruct (follow P _ _ cfg cfg' nc nt B e (length (labels d')) (2 * real_gain_error nt (length (labels d')) B + 32 * INR nt * B * e) row 0 d' t S S' C C' M Hk He
    ltac:(right; ring) Bt (exact_data d) te Bx W Wx T Hb Ho (small_exact P B d Hbd) (Nat.le_refl _)) as (rest & Hp & Hrest).
  { exact Hc. }
  split; [now exists rest|].
  assert (Hr' : (nc <= length (map exact_value row))%nat) by now rewrite map_length.
  destruct (prediction_is_mean nc nt (exact_data d) (real_values d) cfg' te (map exact_value row) Wx Hl E' Hr') as (group & _ & Eg & Epe & _).
  assert (Epe' : @tree_prediction xr_ops (map exact_value row) te = Ok (map Fin (map (fun j => mean (target j group)) (seq 0 nt)))) by (rewrite map_map; exact Epe).
  destruct (group_facts (P:=P) nc nt d' cfg t row W E Hr) as [Hne _].
  assert (HN : (Z.of_nat (length (labels d')) <= 2 ^ 40)%Z) by (destruct Ho as [_ H]; eapply Z.le_trans; [exact H|]; lia).
  pose proof (bounded_tame P B d' Hb Ho) as Tm.
  exists (map (fun j => @average_of FO (map snd (@samples_like FO _ row t d')) j) (seq 0 nt)), (map (fun j => mean (target j group)) (seq 0 nt)).
  split; [exact (prediction_average nc nt d' cfg t row W E Hr)|]. split; [exact Epe'|]. split; [now rewrite map_length, seq_length|]. split; [now rewrite map_length, seq_length|].
  intros j Hj.
  destruct (tree_prediction_error (P:=P) nc nt d' cfg t row j W E Hr Hj Tm HN) as (p & v & Ep & Ev & Fv & Herr).
  rewrite (prediction_average nc nt d' cfg t row W E Hr) in Ep. injection Ep as Ep.
  assert (Hv : nth j (map (fun j => @average_of FO (map snd (@samples_like FO _ row t d')) j) (seq 0 nt)) (B754_zero false : f64) = v).
  { apply nth_error_nth. rewrite <- Ep in Ev. exact Ev. }
  assert (Hw : nth j (map (fun j => mean (target j group)) (seq 0 nt)) 0 = mean (target j group)).
  { apply nth_error_nth. rewrite nth_error_map, (nth_error_nth' _ 0%nat) by now rewrite seq_length. rewrite seq_nth by exact Hj. reflexivity. }
  split; [exact (eq_trans (f_equal (fun z : f64 => is_finite z) Hv) Fv)|]. rewrite Hw. change (Rabs (B2R (nth j (map (fun j => @average_of FO (map snd (@samples_like FO _ row t d')) j) (seq 0 nt)) (B754_zero false : f64) : f64) - mean (target j group)) <= e + (bpow radix2 (-51) * INR (length (labels d') + 1) * B + bpow radix2 (-1072))). rewrite Hv.
  assert (Hne' : @samples_like FO _ row t d' <> []) by (intros E0; apply Hne; rewrite E0; reflexivity).
  pose proof (group_close P e He d' (exact_data d) T row t te rest Hp Hrest j Hne') as Hgc.
  assert (Emean : target j (map (map B2R) (map snd (@samples_like FO _ row t d'))) = map (gf j) (@samples_like FO _ row t d')).
  { unfold target. rewrite !map_map. apply map_ext. intros s. unfold gf. change 0 with (B2R (B754_zero false : f64)). apply map_nth. }
  assert (Emx : target j group = map (gx j) (@samples_like xr_ops _ (map exact_value row) te (exact_data d))).
  { transitivity (map (fun l : list xr => xval (nth j l (Fin 0))) (map (map Fin) group)).
    - unfold target. rewrite map_map. apply map_ext. intros l. rewrite (map_nth Fin l 0 j). reflexivity.
    - rewrite Eg. apply map_map. }
  rewrite Emean in Herr. rewrite Emx.
  set (Mx := mean (map (gx j) _)) in Hgc |- *. set (Mf := mean (map (gf j) _)) in Hgc, Herr.
  replace (B2R (v : f64) - Mx) with ((B2R (v : f64) - Mf) + (Mf - Mx)) by ring. eapply Rle_trans; [apply Rabs_triang|]. rewrite Rplus_comm.
  apply Rplus_le_compat; [exact Hgc|].
  eapply Rle_trans; [exact Herr|]. apply Rplus_le_compat_r.
  destruct (like_incl (P:=P) row t d') as [Hi Hle].
  assert (B0 : 0 <= B) by exact (B_nonneg P B d' Ho).
  apply Rmult_le_compat.
  - apply Rmult_le_pos; [apply bpow_ge_0|apply pos_INR].
  - apply mean_nonneg. intros z Hz. apply in_map_iff in Hz as (y & <- & _). apply Rabs_pos.
  - apply Rmult_le_compat_l; [apply bpow_ge_0|]. apply le_INR. apply Nat.add_le_mono_r. exact Hle.
  - apply mean_le; [exact B0|]. intros z Hz. rewrite map_map in Hz. apply in_map_iff in Hz as (s & <- & Hs). unfold gf.
    assert (Hin : In (snd s) (labels d')) by (apply Hi; now apply in_map).
    destruct (Nat.lt_ge_cases j (length (snd s))) as [Hj'|Hj'].
    + exact (proj2 (Hb (snd s) (nth j (snd s) (B754_zero false : f64)) Hin (nth_In (snd s) _ Hj'))).
    + rewrite nth_overflow by exact Hj'. cbn. rewrite Rabs_R0. exact B0.
Qed.


Lemma noisy_self e (d : @dataset FO) : 0 <= e -> noisy_copy e d d.
Proof.
  intros He. split; [reflexivity|]. split; [reflexivity|]. induction (labels d) as [|l ls IH]; constructor; [|exact IH].
  induction l as [|y l IHl]; constructor; [|exact IHl]. rewrite Rminus_eq_0, Rabs_R0. exact He.
Qed.

(** The binary64 trees of a table and of a noisy copy. *)
Theorem noise_trees nc nt B e (d d' : @dataset FO) (cfg : @tree_config FO) (cfg' : @tree_config xr_ops) t t' te (row : list f64) :
  @wf_dataset FO nc nt d -> @wf_dataset FO nc nt d' -> bounded_labels B d -> bounded_labels B d' -> ordinary_table B d -> (Z.of_nat nt <= 2 ^ 40)%Z ->
  0 <= e -> noisy_copy e d d' ->
  standard cfg -> standard cfg' -> tc_number_of_classes cfg = N.of_nat nt -> tc_number_of_classes cfg' = N.of_nat nt ->
  tc_max_levels cfg' = tc_max_levels cfg ->
  @regression_tree_new FO d cfg = Ok t -> @regression_tree_new FO d' cfg = Ok t' -> @regression_tree_new xr_ops (exact_data d) cfg' = Ok te -> (nc <= length row)%nat ->
  clear_path (2 * real_gain_error nt (length (labels d)) B + 32 * INR nt * B * e) nc nt (tc_max_levels cfg) (exact_data d) te (map exact_value row) ->
  same_questions row t (exact_data d) te /\ same_questions row t' (exact_data d) te /\
  exists p p', @tree_prediction FO row t = Ok p /\ @tree_prediction FO row t' = Ok p' /\ length p = nt /\ length p' = nt /\
    forall j, (j < nt)%nat -> is_finite (nth j p (B754_zero false) : f64) = true /\ is_finite (nth j p' (B754_zero false) : f64) = true /\
      Rabs (B2R (nth j p' (B754_zero false) : f64) - B2R (nth j p (B754_zero false) : f64)) <= e + (bpow radix2 (-50) * INR (length (labels d) + 1) * B + bpow radix2 (-1071)).
Proof.
  intros Wd W Hbd Hb Hod Hk He Hn S S' C C' M E E2 E' Hr Hc.
  destruct (noise_tree nc nt B e d d' cfg cfg' t' te row Wd W Hbd Hb Hod Hk He Hn S S' C C' M E2 E' Hr Hc) as (Q' & p' & pe & Ep' & Epe & Lp' & Lpe & H').
  assert (T0 : same_questions row t (exact_data d) te) by exact (proj1 (noise_tree nc nt B e d d cfg cfg' t te row Wd Wd Hbd Hbd Hod Hk He (noisy_self e d He) S S' C C' M E E' Hr Hc)).
  split; [exact T0|]. split; [exact Q'|].
  destruct T0 as (rest & Hp & Hrest). destruct (clear_tree_path P nc nt B d cfg cfg' t te row rest Wd Hbd Hod S' C' E E' Hr Hp Hrest) as (p & pe0 & Ep & Epe0 & Lp & _ & H).
  assert (pe0 = pe). { apply Fin_inj. pose proof (eq_trans (eq_sym Epe0) Epe) as Q. injection Q as Q. exact Q. } subst pe0.
  exists p, p'. split; [exact Ep|]. split; [exact Ep'|]. split; [exact Lp|]. split; [exact Lp'|]. intros j Hj. destruct (H j Hj) as [F1 H1]. destruct (H' j Hj) as [F2 H2].
  split; [exact F1|]. split; [exact F2|]. clear - H1 H2.
  replace (bpow radix2 (-50)) with (2 * bpow radix2 (-51)) by (change (-50)%Z with (1 + -51)%Z; rewrite bpow_plus; reflexivity).
  replace (bpow radix2 (-1071)) with (2 * bpow radix2 (-1072)) by (change (-1071)%Z with (1 + -1072)%Z; rewrite bpow_plus; reflexivity).
  replace (B2R (nth j p' (B754_zero false) : f64) - B2R (nth j p (B754_zero false) : f64)) with
    ((B2R (nth j p' (B754_zero false) : f64) - nth j pe 0) + - (B2R (nth j p (B754_zero false) : f64) - nth j pe 0)) by ring.
  eapply Rle_trans; [apply Rabs_triang|]. rewrite Rabs_Ropp. lra.
Qed.

End Noise.
