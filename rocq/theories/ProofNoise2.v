(** Regression ensembles under label noise (C93). *)
From Coq Require Import Reals Lra Lia ZArith.
From Flocq Require Import Core.
From Flocq Require Import IEEE754.BinarySingleNaN.
From Verif Require Import Base Num ModelCommon ModelTree ModelBoost Lib Spec SpecTree F64 XR SpecExact SpecInt SpecNear SpecNode SpecScore SpecPredict SpecClear SpecFit SpecNoise ProofReal ProofData ProofTree
  ProofScore ProofTreeExact ProofInt ProofInt2 ProofNear3 ProofNode SpecFitFloat ProofSort ProofFitFloat ProofPredict ProofLeaf ProofScore3 ProofClear ProofClear2 ProofClear3 ProofClear4 ProofClear5.
Local Open Scope R_scope.

Lemma clear_path_le {L} (a b : R) nc nt levels d (t : @tree_node xr_ops L) x : a <= b -> clear_path b nc nt levels d t x -> clear_path a nc nt levels d t x.
Proof.
  intros Hab [H1 H2]. split; [|exact H2]. intros k q here ls Hk Hn Hl. destruct (H1 k q here ls Hk Hn Hl) as (j & r & i & v & Hc & Eq & Hg & Ho).
  exists j, r, i, v. split; [exact Hc|]. split; [exact Eq|]. split; [lra|]. intros j' r' i' v' Hc' Hne. pose proof (Ho j' r' i' v' Hc' Hne). lra.
Qed.

Lemma clear_stage_le (a b : R) nc nt levels d m k x : a <= b -> clear_stage b nc nt levels d m k x -> clear_stage a nc nt levels d m k x.
Proof. intros Hab H ps t Hp Ht. exact (clear_path_le a b nc nt levels _ t x Hab (H ps t Hp Ht)). Qed.

Section Noise.
Context (P : platform).
Local Notation FO := (f64_ops P).

Lemma noise_values e (d d' : @dataset FO) : noisy_copy e d d' -> Forall2 (Forall2 (fun (y : f64) z => Rabs (B2R y - z) <= e)) (labels d') (real_values d).
Proof.
  intros (_ & _ & H). unfold real_values. induction H as [|l l' ls ls' Hll H IH]; cbn [map]; constructor; [|exact IH].
  clear -Hll. induction Hll as [|y y' l l' Hy Hll IH]; cbn [map]; constructor; [exact Hy|exact IH].
Qed.

(** [me] is the exact ensemble of [d]; [m] and [m'] are the binary64 ensembles of [d] and of the noisy copy [d']. *)
Theorem noise_ensembles (nc nt : nat) (d d' : @dataset FO) (cfg : @tree_config FO) (cfg' : @tree_config xr_ops) (n : nat)
    (lr : f64) (m m' : @regression_boost_model FO) (me : @regression_boost_model xr_ops) (B nu : R) (row : list f64) :
  let N := length (labels d) in
  let B' := (1 + 4 * sqrt (INR N)) * B in
  let e := bpow radix2 (-48) * INR (N + 2) * B' in
  let margin := 2 * real_gain_error nt N (4 * B') + 128 * INR nt * B' * (sqrt (INR N) * (2 * nu + INR (n + 2) * e)) in
  @wf_dataset FO nc nt d -> @wf_dataset FO nc nt d' -> 0 <= nu <= B -> noisy_copy nu d d' ->
  (Z.of_nat N <= 2 ^ 20)%Z -> is_finite lr = true -> 0 <= B2R lr <= 2 ->
  bpow radix2 (-400) <= B <= bpow radix2 300 -> within B (labels d) -> within B (labels d') -> (Z.of_nat nt <= 2 ^ 40)%Z ->
  standard cfg -> standard cfg' -> tc_number_of_classes cfg = N.of_nat nt -> tc_number_of_classes cfg' = N.of_nat nt ->
  tc_max_levels cfg' = tc_max_levels cfg ->
  @regression_boost_train FO d cfg n lr = Ok m -> @regression_boost_train FO d' cfg n lr = Ok m' ->
  @regression_boost_train xr_ops (exact_data d) cfg' n (Fin (B2R lr)) = Ok me ->
  INR n * e <= B -> (nc <= length row)%nat ->
  (forall x k, In x (row :: feature_rows d) -> (k < n)%nat -> clear_stage margin nc nt (tc_max_levels cfg) (exact_data d) me k (map exact_value x)) ->
  (forall k t t' te, nth_error (m_trees m) k = Some t -> nth_error (m_trees m') k = Some t' -> nth_error (m_trees me) k = Some te ->
     exists ps, regression_boost_all_predictions (first_trees k me) (exact_data d) = Ok ps /\
       same_questions row t (mkDS (feature_rows (exact_data d)) (differences (labels (exact_data d)) ps) (feature_columns (exact_data d))) te /\
       same_questions row t' (mkDS (feature_rows (exact_data d)) (differences (labels (exact_data d)) ps) (feature_columns (exact_data d))) te) /\
  exists p p', @regression_boost_predict FO m row = Ok p /\ @regression_boost_predict FO m' row = Ok p' /\ length p = nt /\ length p' = nt /\
    forall j, (j < nt)%nat -> is_finite (nth j p (B754_zero false) : f64) = true /\ is_finite (nth j p' (B754_zero false) : f64) = true /\
      Rabs (B2R (nth j p' (B754_zero false) : f64) - B2R (nth j p (B754_zero false) : f64)) <=
        INR (4 * n + 1) * sqrt (INR N) * nu + 4 * sqrt (INR N) * INR ((n + 1) * (n + 1)) * e.
Proof.
  intros N B' e margin W W' Hnu Hcopy HN Fl Hlr HB HL HL' Hnt Sc Sc' C C' M E E' Ex Hn Hr Hc.
  assert (Hl : real_labels (real_values d) (exact_data d)).
  { apply (bounded_real_labels P B). intros l x Hi Hx. unfold within in HL. rewrite Forall_forall in HL. pose proof (HL l Hi) as H. rewrite Forall_forall in H. exact (H x Hx). }
  assert (LL : length (labels d') = N) by (symmetry; exact (Forall2_length _ _ _ (proj2 (proj2 Hcopy)))).
  assert (Er : feature_rows d' = feature_rows d) by exact (proj1 Hcopy).
  assert (B0 : 0 <= B) by lra. pose proof (sqrt_pos (INR N)) as Q0.
  assert (B1 : 0 <= B') by (unfold B'; apply Rmult_le_pos; lra).
  assert (Hle : 2 * real_gain_error nt N (4 * B') + 128 * INR nt * B' * (sqrt (INR N) * INR (n + 2) * e) <= margin).
  { unfold margin. apply Rplus_le_compat_l. apply Rmult_le_compat_l; [apply Rmult_le_pos; [|exact B1]; pose proof (pos_INR nt); lra|].
    rewrite Rmult_assoc. apply Rmult_le_compat_l; lra. }
  destruct (clear_ensemble P nc nt d cfg cfg' n lr m me B row W HN Fl Hlr HB HL Hnt Sc Sc' C C' M E Ex Hn Hr
    (fun x k Hx Hk => clear_stage_le _ _ _ _ _ _ _ _ _ Hle (Hc x k Hx Hk))) as (H1 & p & q & Ep & Eq & Lp & Lq & H).
  assert (Hf : feature_rows (exact_data d) = map (map exact_value) (feature_rows d')) by (rewrite Er; reflexivity).
  pose proof (clear_ensemble_from P nc nt d' (exact_data d) (real_values d) cfg cfg' n lr m' me B nu row W' (exact_wf P nc nt d W) Hf Hl Hnu (noise_values nu d d' Hcopy)) as G.
  cbv zeta in G. rewrite LL, Er in G.
  destruct (G HN Fl Hlr HB HL' Hnt Sc Sc' C C' M E' Ex Hn Hr Hc) as (H1' & p' & q' & Ep' & Eq' & Lp' & Lq' & H').
  assert (Eqq : q' = q). { apply Fin_inj. pose proof (eq_trans (eq_sym Eq') Eq) as Q. injection Q as Q. exact Q. } subst q'.
  split.
  - intros k t t' te Ht Ht' Hte. destruct (H1 k t te Ht Hte) as (ps & Eps & S1). destruct (H1' k t' te Ht' Hte) as (ps' & Eps' & S2).
    assert (Es : ps' = ps) by (pose proof (eq_trans (eq_sym Eps') Eps) as Q; injection Q as Q; exact Q). subst ps'. exists ps. auto.
  - exists p, p'. repeat (split; [assumption|]). intros j Hj. destruct (H j Hj) as [F1 H2]. destruct (H' j Hj) as [F2 H3]. split; [exact F1|]. split; [exact F2|].
    fold N in H2. fold B' in H2, H3. fold e in H2, H3. revert H2 H3. generalize (B2R (nth j p (B754_zero false) : f64)) (B2R (nth j p' (B754_zero false) : f64)) (nth j q 0). intros u v z H2 H3.
    replace (v - u) with ((v - z) + - (u - z)) by ring. eapply Rle_trans; [apply Rabs_triang|]. rewrite Rabs_Ropp. lra.
Qed.

End Noise.
