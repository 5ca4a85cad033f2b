(** One boosting stage in binary64 and in exact arithmetic, with clear decisions (C91). *)
From Coq Require Import Reals Lra Lia ZArith.
From Flocq Require Import Core.
From Flocq Require Import IEEE754.BinarySingleNaN.
From Verif Require Import Base Num ModelCommon ModelTree ModelBoost Lib Spec SpecTree F64 XR SpecExact SpecInt SpecNear SpecNode SpecScore SpecPredict SpecClear ProofReal ProofRound ProofError ProofData ProofTree
  ProofScore ProofBoost ProofTreeExact ProofBoostExact ProofInt ProofInt2 ProofNear3 ProofNode SpecFitFloat ProofSort ProofFitFloat ProofPredict ProofLeaf ProofClear ProofClear2 ProofClear3.
Local Open Scope R_scope.

(** Stepping towards the means of the groups a tree makes, for any list of things that have rows. *)
Lemma shrink_any {O : NumOps} {L A} (mk : dataset -> res L) cfg (rowof : A -> list F) (h : A -> R) (lr : R) level d t :
  0 <= lr <= 2 -> built mk cfg level d t -> forall Q,
  let grp a := filter (fun b => forallb (fun q => Bool.eqb (answers q (rowof b)) (answers q (rowof a))) (path (rowof a) t)) Q in
  Rsum (map (fun a => (h a - lr * mean (map h (grp a))) * (h a - lr * mean (map h (grp a)))) Q) <= Rsum (map (fun a => h a * h a) Q).
Proof.
  intros Hlr. induction 1 as [level d s l Es Est El|level d s fd td t f Es Est Ep Bt IHt Bf IHf]; intros Q grp.
  - assert (E : forall x, grp x = Q) by (intros x; apply filter_all; reflexivity).
    set (xs := map h Q).
    rewrite (Rsum_map_ext _ (fun s => (h s - lr * mean xs) * (h s - lr * mean xs))) by (intros x _; now rewrite E).
    rewrite <- (map_map h (fun y => (y - lr * mean xs) * (y - lr * mean xs))), <- (map_map h (fun y => y * y)). fold xs.
    change (dev (lr * mean xs) xs <= sumsq xs). rewrite dev_expand. clearbody xs. destruct xs as [|x xs]; [cbn; lra|].
    assert (Hm : INR (length (x :: xs)) * mean (x :: xs) = Rsum (x :: xs)) by (apply mean_sum; discriminate).
    rewrite <- Hm. set (M := mean (x :: xs)). set (k := INR (length (x :: xs))).
    assert (0 <= k * (M * M)) by (apply Rmult_le_pos; [apply pos_INR|apply Rle_0_sqr]).
    assert (0 <= lr * (2 - lr)) by (apply Rmult_le_pos; lra).
    pose proof (Rmult_le_pos _ _ H H0). lra.
  - set (c := fun a : A => answers (bs_question s) (rowof a)).
    specialize (IHt (filter c Q)). specialize (IHf (filter (fun a => negb (c a)) Q)). cbv zeta in IHt, IHf.
    rewrite (Rsum_split _ c). rewrite (Rsum_split (fun s => h s * h s) c).
    apply Rplus_le_compat.
    + eapply Rle_trans; [|exact IHt]. right. apply Rsum_map_ext. intros p Hp. apply filter_In in Hp as [Hp Ha]. unfold c in Ha.
      assert (E : grp p = filter (fun b => forallb (fun q => Bool.eqb (answers q (rowof b)) (answers q (rowof p))) (path (rowof p) t)) (filter c Q)).
      { unfold grp. simpl. rewrite Ha. rewrite filter_filter. apply filter_ext_In. intros z _. unfold c. simpl. rewrite ?Ha. destruct (answers (bs_question s) (rowof z)); reflexivity. }
      now rewrite E.
    + eapply Rle_trans; [|exact IHf]. right. apply Rsum_map_ext. intros p Hp. apply filter_In in Hp as [Hp Ha]. unfold c in Ha. apply negb_true_iff in Ha.
      assert (E : grp p = filter (fun b => forallb (fun q => Bool.eqb (answers q (rowof b)) (answers q (rowof p))) (path (rowof p) f)) (filter (fun a => negb (c a)) Q)).
      { unfold grp. simpl. rewrite Ha. rewrite filter_filter. apply filter_ext_In. intros z _. unfold c. simpl. rewrite ?Ha. destruct (answers (bs_question s) (rowof z)); reflexivity. }
      now rewrite E.
Qed.

Lemma sub_nth_f (y p : list f64) j : length p = length y ->
  nth j (map (fun q : f64 * f64 => Bminus mode_NE (fst q) (snd q)) (combine y p)) (B754_zero false) = Bminus mode_NE (nth j y (B754_zero false)) (nth j p (B754_zero false)).
Proof.
  intros H. change (B754_zero false : f64) with ((fun q : f64 * f64 => Bminus mode_NE (fst q) (snd q)) (B754_zero false, B754_zero false)) at 1.
  rewrite map_nth, combine_nth by now symmetry. reflexivity.
Qed.

Lemma vsub_nth a b j : length b = length a -> nth j (vsub a b) 0 = nth j a 0 - nth j b 0.
Proof.
  intros H. destruct (Nat.lt_ge_cases j (length a)) as [Hj|Hj]; [apply nth_map2; lia|].
  rewrite !nth_overflow; try lia; [lra|]. unfold vsub. rewrite map2_length. lia.
Qed.

Lemma map2_nth_error {A B C} (f : A -> B -> C) a b i x y : nth_error a i = Some x -> nth_error b i = Some y -> nth_error (map2 f a b) i = Some (f x y).
Proof. revert a b. induction i as [|i IH]; intros [|u a] [|v b] H K; try discriminate; cbn in *; [congruence|auto]. Qed.

Lemma mean_diff {A} (f g : A -> R) l : mean (map f l) - mean (map g l) = mean (map (fun a => f a - g a) l).
Proof.
  unfold mean. rewrite !map_length. assert (E : Rsum (map (fun a => f a - g a) l) = Rsum (map f l) - Rsum (map g l)).
  { induction l as [|a l IH]; [cbn; lra|]. cbn [map]. rewrite !Rsum_cons, IH. lra. }
  rewrite E. unfold Rdiv. ring.
Qed.

(** How far what the binary64 predictions leave of the labels is from what the exact ones leave of theirs, in target [j]. *)
Definition gap (j : nat) (ys ps : list (list f64)) (xs pe : list (list R)) : list R :=
  map (fun q => (B2R (nth j (fst (fst q)) (B754_zero false)) - B2R (nth j (snd (fst q)) (B754_zero false))) - (nth j (fst (snd q)) 0 - nth j (snd (snd q)) 0))
    (combine (combine ys ps) (combine xs pe)).

Lemma gap_algebra (u y p z q c : R) : Rabs (u - (y - p)) <= c -> Rabs ((u - (z - q)) - ((y - p) - (z - q))) <= c.
Proof. intros H. replace (u - (z - q) - ((y - p) - (z - q))) with (u - (y - p)) by ring. exact H. Qed.

Lemma step_algebra (p' q r y z l Mf Mx : R) :
  Rabs ((y - p') - (z - (q + l * Mx)) - (r - (z - q) - l * (Mf - Mx))) = Rabs ((y - p') - (r - l * Mf)).
Proof. f_equal. ring. Qed.

Section Stage.
Context (P : platform).
Local Notation FO := (f64_ops P).
Context (nc nt : nat) (d : @dataset FO) (x0 : @dataset xr_ops) (xs : list (list R)) (cfg : @tree_config FO) (cfg' : @tree_config xr_ops) (n k : nat) (lr : f64)
  (m : @regression_boost_model FO) (me : @regression_boost_model xr_ops) (B : R)
  (ps : list (list f64)) (pe : list (list R)) (t : @tree_node FO (@grad_boost_leaf FO)) (te : @tree_node xr_ops (@grad_boost_leaf xr_ops)) (a margin : R).
Hypothesis W : @wf_dataset FO nc nt d.
Hypothesis Wx : @wf_dataset xr_ops nc nt x0.
Hypothesis Fx0 : feature_rows x0 = map (map exact_value) (feature_rows d).
Hypothesis Hl : real_labels xs x0.
Hypothesis HN : (Z.of_nat (length (labels d)) <= 2 ^ 20)%Z.
Hypothesis HB : bpow radix2 (-400) <= B <= bpow radix2 398.
Hypothesis HL : within B (labels d).
Hypothesis Fl : is_finite lr = true.
Hypothesis Hlr : 0 <= B2R lr <= 2.
Hypothesis Hk : (Z.of_nat nt <= 2 ^ 40)%Z.
Hypothesis Sc : standard cfg.
Hypothesis Sc' : standard cfg'.
Hypothesis C : tc_number_of_classes cfg = N.of_nat nt.
Hypothesis C' : tc_number_of_classes cfg' = N.of_nat nt.
Hypothesis M : tc_max_levels cfg' = tc_max_levels cfg.
Hypothesis E : @regression_boost_train FO d cfg n lr = Ok m.
Hypothesis Ex : @regression_boost_train xr_ops x0 cfg' n (Fin (B2R lr)) = Ok me.
Hypothesis Hkn : (k < n)%nat.
Hypothesis Eps : @regression_boost_all_predictions FO (first_trees k m) d = Ok ps.
Hypothesis Hps : within B ps.
Hypothesis HP : Forall2 (fun row p => @regression_boost_predict xr_ops (first_trees k me) row = Ok (map Fin p) /\ length p = nt) (feature_rows x0) pe.
Hypothesis Ht : nth_error (m_trees m) k = Some t.
Hypothesis Hte : nth_error (m_trees me) k = Some te.
Hypothesis a0 : 0 <= a.
Hypothesis Hgap : forall j, (j < nt)%nat -> rms (gap j (labels d) ps xs pe) <= a.

Let N := length (labels d).
Let eps := sqrt (INR N) * (a + 3 * (ulp1 * B)).
Hypothesis Heps : eps <= B.
Hypothesis Hmargin : 2 * real_gain_error nt N (4 * B) + 2 * (16 * INR nt * (4 * B) * eps) <= margin.

Definition D : @dataset FO := @mkDS FO (feature_rows d) (@differences FO (labels d) ps) (feature_columns d).
Definition X : @dataset xr_ops := @mkDS xr_ops (feature_rows x0) (@differences xr_ops (labels x0) (map (map Fin) pe)) (feature_columns x0).

Lemma HB4 : bpow radix2 (-400) <= B <= bpow radix2 400.
Proof. split; [lra|]. eapply Rle_trans; [apply HB|apply bpow_le; lia]. Qed.

Lemma Bp : 0 < B.
Proof. exact (B_pos B HB4). Qed.

Lemma HN40 : (Z.of_nat (length (labels d)) <= 2 ^ 40)%Z.
Proof. eapply Z.le_trans; [exact HN|]. lia. Qed.

Lemma Npos : (1 <= N)%nat.
Proof.
  unfold N. rewrite (wf_lengths _ _ _ W). pose proof (wf_nonempty _ _ _ W) as H. destruct (feature_rows d); [now contradiction H|cbn; lia].
Qed.

Lemma rootN : 1 <= sqrt (INR N).
Proof. exact (proj1 (sqrt_count N Npos HN40)). Qed.

Lemma eps0 : 0 <= eps.
Proof. pose proof (uB_small B HB4) as [U1 _]. apply Rmult_le_pos; [apply sqrt_pos|lra]. Qed.

Lemma Hs : Forall2 (fun y s : list f64 => length y = length s) (labels d) ps.
Proof.
  destruct (regression_stage d cfg n lr m k (wf_lengths _ _ _ W) E Hkn) as (ps0 & t0 & Eps0 & H & _). rewrite Eps in Eps0. injection Eps0 as <-. exact H.
Qed.

Lemma Bt : built (mk_gb (leaf_output_calculator_new Regression)) cfg 0 D t.
Proof.
  destruct (regression_stage d cfg n lr m k (wf_lengths _ _ _ W) E Hkn) as (ps0 & t0 & Eps0 & _ & Ht0 & Eb). rewrite Eps in Eps0. injection Eps0 as <-.
  rewrite Ht in Ht0. injection Ht0 as <-. rewrite grad_boost_tree_new_eq in Eb. apply build_with_built in Eb. exact Eb.
Qed.

Lemma Ebt : @grad_boost_tree_new FO D cfg (leaf_output_calculator_new Regression) = Ok t.
Proof.
  destruct (regression_stage d cfg n lr m k (wf_lengths _ _ _ W) E Hkn) as (ps0 & t0 & Eps0 & _ & Ht0 & Eb). rewrite Eps in Eps0. injection Eps0 as <-.
  rewrite Ht in Ht0. injection Ht0 as <-. exact Eb.
Qed.

Lemma Epe : @regression_boost_all_predictions xr_ops (first_trees k me) x0 = Ok (map (map Fin) pe).
Proof.
  unfold regression_boost_all_predictions. rewrite all_predictions_eq. apply mapM_Forall2. clear -HP. induction HP as [|r p rs qs [H1 _] H IH]; cbn [map]; constructor; auto.
Qed.

Lemma Bx : built (mk_gb (leaf_output_calculator_new Regression)) cfg' 0 X te.
Proof.
  destruct (regression_stage x0 cfg' n (Fin (B2R lr)) me k (wf_lengths _ _ _ Wx) Ex Hkn) as (ps0 & t0 & Eps0 & _ & Ht0 & Eb).
  pose proof Epe as Q. rewrite Eps0 in Q. injection Q as Q.
  rewrite Hte in Ht0. injection Ht0 as Q'. rewrite Q, <- Q' in Eb. rewrite grad_boost_tree_new_eq in Eb. apply build_with_built in Eb. exact Eb.
Qed.

Lemma Lps : length ps = N.
Proof. symmetry. exact (Forall2_length _ _ _ Hs). Qed.

Lemma Lrow : length (feature_rows d) = N.
Proof. symmetry. exact (wf_lengths _ _ _ W). Qed.

Lemma Lpe : length pe = N.
Proof. rewrite <- Lrow, <- (Forall2_length _ _ _ HP). rewrite Fx0. apply map_length. Qed.

Lemma Lxs : length xs = N.
Proof. pose proof (wf_lengths _ _ _ Wx) as L. unfold real_labels in Hl. rewrite Hl, map_length, Fx0, map_length in L. exact (eq_trans L Lrow). Qed.

Lemma Rxs : rectangular nt xs.
Proof.
  pose proof (wf_labels _ _ _ Wx) as R. unfold real_labels in Hl. rewrite Hl in R. unfold rectangular in *. rewrite Forall_map in R.
  eapply Forall_impl; [|exact R]. intros v Hv. cbn in Hv. now rewrite map_length in Hv.
Qed.

Lemma Rps : rectangular nt ps.
Proof. pose proof (wf_labels _ _ _ W) as R. pose proof Hs as H. clear -H R. unfold rectangular in *. induction H; constructor; inversion R; subst; auto; congruence. Qed.

Lemma Rpe : rectangular nt pe.
Proof. exact (Forall2_rect _ _ _ _ HP). Qed.

Lemma WD : @wf_dataset FO nc nt D.
Proof.
  destruct (differences_rect nt (labels d) ps) as [Q1 Q2]; [exact (Forall2_length _ _ _ Hs)|apply (wf_labels _ _ _ W)|exact Rps|].
  apply (with_labels_wf nc nt d (differences (labels d) ps) W); auto. rewrite Q1. apply (wf_lengths _ _ _ W).
Qed.

Lemma LD : length (labels D) = N.
Proof. cbn. unfold differences. rewrite map_length, combine_length. exact (eq_trans (f_equal (Nat.min N) Lps) (Nat.min_id N)). Qed.

Lemma WX : @wf_dataset xr_ops nc nt X /\ real_labels (map2 vsub xs pe) X.
Proof. apply (residual_data nc nt x0 xs pe Wx Hl); [|exact Rpe]. rewrite Lpe. symmetry. exact Lxs. Qed.

Lemma withinD : within (3 * B) (labels D).
Proof. exact (differences_within P B (labels d) ps HB4 HL Hps). Qed.

Lemma boundedD : bounded_labels (4 * B) D.
Proof.
  intros l x Hin Hx. pose proof withinD as H. unfold within in H. rewrite Forall_forall in H. pose proof (H l Hin) as H'. rewrite Forall_forall in H'.
  destruct (H' x Hx) as [Fx Bx']. split; [exact Fx|]. pose proof Bp. eapply Rle_trans; [exact Bx'|]. lra.
Qed.

Lemma ordinaryD : ordinary_table (4 * B) D.
Proof.
  assert (E4 : 2 ^ 400 = bpow radix2 400).
  { rewrite <- (IZR_Zpower radix2 400) by lia. change (Zpower radix2 400) with (2 ^ Z.of_nat 400)%Z. rewrite <- pow_IZR. reflexivity. }
  split.
  - rewrite E4. rewrite <- bpow_opp. change (- (400))%Z with (-400)%Z. pose proof Bp. split; [lra|]. change 400%Z with (2 + 398)%Z. rewrite bpow_plus. change (bpow radix2 2) with 4. lra.
  - rewrite LD. exact HN.
Qed.

(** Row number [i] in the two data sets. *)
Lemma at_index i : (i < N)%nat -> exists (row y p : list f64) (z q : list R), nth_error (feature_rows d) i = Some row /\ nth_error (labels d) i = Some y /\ nth_error ps i = Some p /\ nth_error xs i = Some z /\ nth_error pe i = Some q /\
  length y = nt /\ length p = nt /\ length z = nt /\ length q = nt /\
  nth_error (@samples FO D) i = Some (row, map (fun w : f64 * f64 => Bminus mode_NE (fst w) (snd w)) (combine y p)) /\
  nth_error (@samples xr_ops X) i = Some (map exact_value row, map Fin (vsub z q)).
Proof.
  intros Hi. destruct (some_nth (feature_rows d) i ltac:(rewrite Lrow; exact Hi)) as (row & H1). destruct (some_nth (labels d) i Hi) as (y & H2).
  destruct (some_nth ps i ltac:(rewrite Lps; exact Hi)) as (p & H3). destruct (some_nth pe i ltac:(rewrite Lpe; exact Hi)) as (q & H4).
  destruct (some_nth xs i ltac:(rewrite Lxs; exact Hi)) as (z & H0).
  exists row, y, p, z, q. pose proof (wf_labels _ _ _ W) as Rl. pose proof Rps as R2. pose proof Rpe as R3. pose proof Rxs as R4. unfold rectangular in *. rewrite Forall_forall in Rl, R2, R3, R4.
  repeat (split; [first [exact H1|exact H2|exact H3|exact H0|exact H4|exact (R4 _ (nth_error_In _ _ H0))|exact (Rl _ (nth_error_In _ _ H2))|exact (R2 _ (nth_error_In _ _ H3))|exact (R3 _ (nth_error_In _ _ H4))]|]).
  split.
  - apply pair_nth; [exact H1|]. change (labels D) with (@differences FO (labels d) ps). unfold differences. exact (map_nth_error _ _ _ (pair_nth _ _ _ _ _ H2 H3)).
  - apply pair_nth; [change (feature_rows X) with (feature_rows x0); rewrite Fx0; exact (map_nth_error (map exact_value) _ _ H1)|]. pose proof (proj2 WX) as HX. unfold real_labels in HX. rewrite HX.
    apply (map_nth_error (map Fin)). apply map2_nth_error; [exact H0|exact H4].
Qed.

Lemma finite_at i (y p : list f64) j : nth_error (labels d) i = Some y -> nth_error ps i = Some p ->
  is_finite (nth j y (B754_zero false) : f64) = true /\ Rabs (B2R (nth j y (B754_zero false) : f64)) <= B /\
  is_finite (nth j p (B754_zero false) : f64) = true /\ Rabs (B2R (nth j p (B754_zero false) : f64)) <= B.
Proof.
  intros H2 H3. destruct (within_nth B (labels d) y j (Rlt_le _ _ Bp) HL (nth_error_In _ _ H2)) as [Fy By].
  destruct (within_nth B ps p j (Rlt_le _ _ Bp) Hps (nth_error_In _ _ H3)) as [Fp Bp']. repeat split; assumption.
Qed.

Lemma gap_nth j ps' pe' i y p z q : nth_error (labels d) i = Some y -> nth_error ps' i = Some p -> nth_error xs i = Some z -> nth_error pe' i = Some q ->
  nth_error (gap j (labels d) ps' xs pe') i = Some ((B2R (nth j y (B754_zero false) : f64) - B2R (nth j p (B754_zero false) : f64)) - (nth j z 0 - nth j q 0)).
Proof. intros H2 H3 H0 H4. unfold gap. exact (map_nth_error _ _ _ (pair_nth _ _ _ _ _ (pair_nth _ _ _ _ _ H2 H3) (pair_nth _ _ _ _ _ H0 H4))). Qed.

Lemma gap_length j ps' pe' : length ps' = N -> length pe' = N -> length (gap j (labels d) ps' xs pe') = N.
Proof. intros H H'. unfold gap. rewrite map_length, !combine_length, H, H', Lxs. fold N. rewrite !Nat.min_id. reflexivity. Qed.

(** The residuals of the two runs differ by the difference of the predictions and one rounding. *)
Lemma residual_gap i (y p : list f64) z q j : nth_error (labels d) i = Some y -> nth_error ps i = Some p -> nth_error xs i = Some z -> nth_error pe i = Some q ->
  length y = nt -> length p = nt -> length z = nt -> length q = nt ->
  let r := nth j (map (fun w : f64 * f64 => Bminus mode_NE (fst w) (snd w)) (combine y p)) (B754_zero false) in
  let x := nth j (vsub z q) 0 in
  Rabs ((B2R r - x) - ((B2R (nth j y (B754_zero false) : f64) - B2R (nth j p (B754_zero false) : f64)) - (nth j z 0 - nth j q 0))) <= 3 * (ulp1 * B).
Proof.
  intros H2 H3 H0 H4 Ly Lp Lz Lq r x. destruct (finite_at i y p j H2 H3) as (Fy & By & Fp & Bp').
  unfold r, x. rewrite sub_nth_f by exact (eq_trans Lp (eq_sym Ly)). rewrite vsub_nth by exact (eq_trans Lq (eq_sym Lz)).
  destruct (residual_step B HB4 _ _ Fy Fp By Bp') as (_ & Er & _).
  exact (gap_algebra _ _ _ _ _ _ Er).
Qed.

Lemma residual_close i (y p : list f64) z q j : nth_error (labels d) i = Some y -> nth_error ps i = Some p -> nth_error xs i = Some z -> nth_error pe i = Some q ->
  length y = nt -> length p = nt -> length z = nt -> length q = nt -> (j < nt)%nat ->
  let r := nth j (map (fun w : f64 * f64 => Bminus mode_NE (fst w) (snd w)) (combine y p)) (B754_zero false) in
  let x := nth j (vsub z q) 0 in Rabs (B2R r - x) <= eps.
Proof.
  intros H2 H3 H0 H4 Ly Lp Lz Lq Hj r x. pose proof (residual_gap i y p z q j H2 H3 H0 H4 Ly Lp Lz Lq) as H. cbv zeta in H. fold r x in H.
  pose proof (entry_le_rms _ _ (nth_error_In _ _ (gap_nth j ps pe i y p z q H2 H3 H0 H4))) as G. rewrite (gap_length j ps pe Lps Lpe) in G.
  set (w := B2R (nth j y (B754_zero false)) - B2R (nth j p (B754_zero false)) - (nth j z 0 - nth j q 0)) in *. pose proof rootN as Q. pose proof (uB_small B HB4) as [U1 _].
  assert (G' : Rabs w <= sqrt (INR N) * a) by (eapply Rle_trans; [exact G|]; apply Rmult_le_compat_l; [lra|]; apply Hgap; exact Hj).
  assert (3 * (ulp1 * B) <= sqrt (INR N) * (3 * (ulp1 * B))).
  { replace (3 * (ulp1 * B)) with (1 * (3 * (ulp1 * B))) at 1 by ring. apply Rmult_le_compat_r; lra. }
  replace (B2R r - x) with ((B2R r - x - w) + w) by ring. eapply Rle_trans; [apply Rabs_triang|]. unfold eps. lra.
Qed.

Lemma LSD : length (@samples FO D) = N.
Proof. unfold samples. rewrite combine_length, LD. change (feature_rows D) with (feature_rows d). rewrite Lrow. apply Nat.min_id. Qed.

Lemma LSX : length (@samples xr_ops X) = N.
Proof.
  unfold samples. rewrite combine_length. destruct WX as [WX' _]. pose proof (wf_lengths _ _ _ WX') as L. rewrite L, Nat.min_id.
  change (feature_rows X) with (feature_rows x0). rewrite Fx0, map_length. exact Lrow.
Qed.

Lemma stage_tracks : tracks P eps D X.
Proof.
  unfold tracks. apply Forall2_nth. split; [exact (eq_trans LSD (eq_sym LSX))|].
  intros i s s' H H'. assert (Hi : (i < N)%nat) by (rewrite <- LSD; exact (nth_lt _ _ _ H)).
  destruct (at_index i Hi) as (row & y & p & z & q & H1 & H2 & H3 & H0 & H4 & Ly & Lp & Lz & Lq & S1 & S2).
  assert (Es : (row, map (fun w : f64 * f64 => Bminus mode_NE (fst w) (snd w)) (combine y p)) = s) by exact (some_inj _ _ _ S1 H). subst s.
  assert (Es : (map exact_value row, map Fin (vsub z q)) = s') by exact (some_inj _ _ _ S2 H'). subst s'. cbn [fst snd]. split; [reflexivity|].
  assert (Lr : length (map (fun w : f64 * f64 => Bminus mode_NE (fst w) (snd w)) (combine y p)) = nt) by (rewrite map_length, combine_length; exact (eq_trans (f_equal2 Nat.min Ly Lp) (Nat.min_id nt))).
  assert (Lx : length (vsub z q) = nt) by (unfold vsub; rewrite map2_length; exact (eq_trans (f_equal2 Nat.min Lz Lq) (Nat.min_id nt))).
  apply Forall2_nth. split; [exact (eq_trans Lr (eq_sym (eq_trans (map_length Fin _) Lx)))|]. intros j u v Hu Hv. change (nth_error (map Fin (vsub z q)) j = Some v) in Hv. rewrite nth_error_map in Hv.
  destruct (nth_error (vsub z q) j) as [x|] eqn:Ev; [|discriminate]. cbn [option_map] in Hv. injection Hv as <-. exists x. split; [reflexivity|].
  assert (Hj : (j < nt)%nat) by (rewrite <- Lr; exact (nth_lt _ _ _ Hu)).
  pose proof (residual_close i y p z q j H2 H3 H0 H4 Ly Lp Lz Lq Hj) as K. cbv zeta in K.
  refine (eq_ind _ (fun z : f64 => Rabs (B2R z - x) <= eps) _ u (nth_error_nth _ _ (B754_zero false : f64) Hu)).
  exact (eq_ind _ (fun z => Rabs (_ - z) <= eps) K x (nth_error_nth _ _ 0 Ev)).
Qed.

Lemma smallX : small_data (4 * B) X.
Proof.
  intros s' r Hin Hr. pose proof stage_tracks as T. unfold tracks in T. apply In_nth_error in Hin as [i Hi].
  destruct (some_nth (@samples FO D) i) as (s & Hs').
  { exact (eq_ind_r (fun z => (i < z)%nat) (nth_lt _ _ _ Hi) (Forall2_length _ _ _ T)). }
  destruct (proj2 (proj1 (Forall2_nth _ _ _) T) i s s' Hs' Hi) as [_ F2]. apply In_nth_error in Hr as [j Hj].
  destruct (some_nth (snd s) j) as (u & Hu). { exact (eq_ind_r (fun z => (j < z)%nat) (nth_lt _ _ _ Hj) (Forall2_length _ _ _ F2)). }
  destruct (proj2 (proj1 (Forall2_nth _ _ _) F2) j u (Fin r) Hu Hj) as (z & Ez & Hz). injection Ez as <-.
  assert (Hb : Rabs (B2R (u : f64)) <= 3 * B).
  { pose proof withinD as HD. unfold within in HD. rewrite Forall_forall in HD. destruct s as [sr sl]. cbn [snd] in Hu.
    pose proof (HD sl (in_combine_r _ _ _ _ (nth_error_In _ _ Hs'))) as H. rewrite Forall_forall in H. exact (proj2 (H u (nth_error_In _ _ Hu))). }
  replace r with (B2R (u : f64) + - (B2R (u : f64) - r)) by ring. eapply Rle_trans; [apply Rabs_triang|]. rewrite Rabs_Ropp.
  apply Rle_trans with (3 * B + eps); [apply Rplus_le_compat; assumption|]. lra.
Qed.

(** A row that meets only clear decisions answers the same questions in both trees. *)
Lemma stage_follow (row : list f64) :
  clear_path margin nc nt (tc_max_levels cfg) X te (map exact_value row) ->
  exists rest, map exact_question (@path FO _ row t) = @path xr_ops _ (map exact_value row) te ++ rest /\
    (rest = [] \/ forall s s', In s (samples_like (map exact_value row) te X) -> In s' (samples_like (map exact_value row) te X) -> snd s = snd s').
Proof.
  intros Hc. apply (follow P _ _ cfg cfg' nc nt (4 * B) eps N margin row 0 D t Sc Sc' C C' M Hk eps0 Hmargin Bt X te Bx WD (proj1 WX) stage_tracks boundedD ordinaryD smallX).
  - rewrite LD. apply Nat.le_refl.
  - exact Hc.
Qed.

Definition leaf_error : R := (12 * (INR N + 1) + 1) * (ulp1 * B).

Lemma leaf_error_small : 0 <= leaf_error <= B.
Proof.
  pose proof (uB_small B HB4) as [U1 U2]. pose proof (pos_INR N) as N0. unfold leaf_error. split; [apply Rmult_le_pos; lra|].
  pose proof (count_small N HN40) as Hcs. replace ((12 * (INR N + 1) + 1) * (ulp1 * B)) with (12 * (ulp1 * INR N) * B + 13 * (ulp1 * B)) by ring.
  assert (12 * (ulp1 * INR N) * B <= 12 * / 8192 * B) by (apply Rmult_le_compat_r; [exact (Rlt_le _ _ Bp)|lra]). lra.
Qed.

Lemma tameD : tame (labels D).
Proof.
  pose proof Bp as B0. eapply Forall_impl; [|exact withinD]. intros v Hv. eapply Forall_impl; [|exact Hv]. intros x [Fx Bx']. split; [exact Fx|].
  eapply Rle_trans; [exact Bx'|]. apply Rle_trans with (bpow radix2 2 * bpow radix2 400); [change (bpow radix2 2) with 4; pose proof HB4; lra|].
  rewrite <- bpow_plus. apply bpow_le. lia.
Qed.

(** The two trees' outputs for such a row. *)
Lemma stage_outputs (row : list f64) : (nc <= length row)%nat ->
  clear_path margin nc nt (tc_max_levels cfg) X te (map exact_value row) ->
  exists (o : list f64) (oe : list R), @find_leaf_node_for_data FO _ row t = Ok (@mkGL FO (Some o)) /\ @gb_out xr_ops (map exact_value row) te = Ok (map Fin oe) /\ length oe = nt /\
  forall j, (j < nt)%nat ->
    let Mf := mean (map (fun p : (list f64 * list f64) * (list xr * list xr) => gf j (fst p)) (leaf_pairs P D X row t)) in
    let Mx := mean (map (fun p : (list f64 * list f64) * (list xr * list xr) => gx j (snd p)) (leaf_pairs P D X row t)) in
    is_finite (nth j o (B754_zero false)) = true /\ Rabs (B2R (nth j o (B754_zero false)) - Mf) <= leaf_error /\ Rabs Mf <= 3 * B /\
    nth j oe 0 = Mx /\ Rabs (Mf - Mx) <= eps.
Proof.
  intros Hr Hc. destruct (stage_follow row Hc) as (rest & Hp & Hrest).
  assert (Hr' : (nc <= length (map exact_value row))%nat) by now rewrite map_length.
  assert (HlX : real_labels (rl X) X) by (rewrite (real_rl _ _ (proj2 WX)); exact (proj2 WX)).
  destruct (regression_leaf_out cfg' nc nt 0 X te (map exact_value row) Bx (proj1 WX) HlX Hr') as (ld & Eo & Sld & Wld & Hld).
  assert (exists o : list f64, @find_leaf_node_for_data FO _ row t = Ok (@mkGL FO (Some o))) as (o & Ef) by (eexists; exact (gb_regression_leaf nc nt D cfg t row WD Ebt Hr)).
  exists o, (means nt (rl ld)).
  split; [exact Ef|]. split; [exact Eo|]. split; [apply means_length|]. intros j Hj Mf Mx.
  assert (HND : (Z.of_nat (length (labels D)) <= 2 ^ 40)%Z) by (rewrite LD; exact HN40).
  destruct (leaf_output_error (P:=P) nc nt D cfg t row j WD Ebt Hr Hj tameD HND) as (o' & v & Eo' & Ev & Fv & Herr).
  assert (Hv : nth j o (B754_zero false) = (v : f64)).
  { apply nth_error_nth. assert (Eoo : Ok (@mkGL FO (Some o')) = Ok (@mkGL FO (Some o))) by exact (eq_trans (eq_sym Eo') Ef). injection Eoo as ->. exact Ev. }
  assert (Emean : target j (map (map B2R) (map snd (@samples_like FO _ row t D))) = map (gf j) (@samples_like FO _ row t D)).
  { unfold target. rewrite !map_map. apply map_ext. intros s. unfold gf. change 0 with (B2R (B754_zero false : f64)). apply map_nth. }
  rewrite Emean in Herr.
  assert (EMf : mean (map (gf j) (@samples_like FO _ row t D)) = Mf).
  { unfold Mf. rewrite <- (leaf_pairs_fst P eps D X stage_tracks row t). now rewrite map_map. }
  rewrite EMf in Herr. pose proof Bp as B0. pose proof (uB_small B HB4) as [U1 U2]. pose proof (pos_INR N) as N0.
  assert (HG : forall s, In s (@samples_like FO _ row t D) -> Rabs (gf j s) <= 3 * B).
  { intros s HsG. unfold gf. apply (within_nth (3 * B) (labels D)); [lra|exact withinD|]. unfold samples_like in HsG. apply filter_In in HsG as [HsG _].
    destruct s as [u w]. exact (in_combine_r _ _ _ _ HsG). }
  assert (Hma : mean (map Rabs (map (gf j) (@samples_like FO _ row t D))) <= 3 * B).
  { apply mean_le; [lra|]. intros x Hx. rewrite map_map in Hx. apply in_map_iff in Hx as (s & <- & HsG). exact (HG s HsG). }
  assert (HM : Rabs Mf <= 3 * B) by (rewrite <- EMf; eapply Rle_trans; [apply mean_abs|exact Hma]).
  rewrite Hv. split; [exact Fv|]. split.
  { eapply Rle_trans; [exact Herr|]. pose proof (eta_B B HB4) as He. unfold leaf_error.
    replace (bpow radix2 (-51)) with (4 * ulp1) by (unfold ulp1; change 4 with (bpow radix2 2); rewrite <- bpow_plus; reflexivity).
    assert (HLG : (length (@samples_like FO _ row t D) <= N)%nat).
    { unfold samples_like. eapply Nat.le_trans; [apply ProofScoreF64.filter_le|]. rewrite LSD. apply Nat.le_refl. }
    rewrite map_length.
    assert (INR (length (@samples_like FO _ row t D) + 1) <= INR N + 1) by (rewrite plus_INR; cbn [INR]; apply le_INR in HLG; lra).
    assert (4 * ulp1 * INR (length (@samples_like FO _ row t D) + 1) * mean (map Rabs (map (gf j) (@samples_like FO _ row t D))) <= 4 * ulp1 * (INR N + 1) * (3 * B)).
    { pose proof ulp1_pos. pose proof (pos_INR (length (@samples_like FO _ row t D) + 1)).
      apply Rmult_le_compat; [apply Rmult_le_pos; lra| |apply Rmult_le_compat_l; lra|exact Hma].
      apply mean_nonneg. intros x Hx. apply in_map_iff in Hx as (z & <- & _). apply Rabs_pos. }
    lra. }
  split; [exact HM|].
  assert (Hne : @samples_like FO _ row t D <> []).
  { destruct (gb_leaf_of_row nc nt D cfg Regression t row WD Ebt Hr) as (x & _ & Sx & Wx' & _). intros E0. pose proof (eq_trans Sx E0) as Sx'.
    pose proof (wf_nonempty _ _ _ Wx') as Hn. pose proof (wf_lengths _ _ _ Wx') as Hl'. unfold samples in Sx'. destruct (feature_rows x), (labels x); try discriminate; now contradiction Hn. }
  assert (Hq : leaf_pairs P D X row t <> []).
  { intros E0. apply Hne. rewrite <- (leaf_pairs_fst P eps D X stage_tracks row t), E0. reflexivity. }
  split.
  { unfold means. assert (Hw : nth j (map (fun j => mean (target j (rl ld))) (seq 0 nt)) 0 = mean (target j (rl ld))).
    { apply nth_error_nth. rewrite nth_error_map, (nth_error_nth' _ 0%nat) by now rewrite seq_length. rewrite seq_nth by exact Hj. reflexivity. }
    rewrite Hw. unfold Mx. rewrite (leaf_mean P eps D X stage_tracks row t te rest Hp Hrest j Hq). f_equal.
    transitivity (map (gx j) (@samples xr_ops ld)); [|now rewrite Sld].
    transitivity (map (fun l : list xr => xval (nth j l (Fin 0))) (map snd (@samples xr_ops ld))); [|apply map_map].
    unfold samples. rewrite map_snd_combine by (symmetry; apply (wf_lengths _ _ _ Wld)).
    unfold target, rl. rewrite map_map. apply map_ext. intros l. exact (map_nth xval l (Fin 0) j). }
  unfold Mf, Mx. rewrite (leaf_mean P eps D X stage_tracks row t te rest Hp Hrest j Hq).
  rewrite <- (map_map fst (gf j)), (leaf_pairs_fst P eps D X stage_tracks row t).
  exact (group_close P eps eps0 D X stage_tracks row t te rest Hp Hrest j Hne).
Qed.

Lemma stage_step (ps' : list (list f64)) (pe' : list (list R)) j :
  (forall row, In row (feature_rows d) -> clear_path margin nc nt (tc_max_levels cfg) X te (map exact_value row)) ->
  @regression_boost_all_predictions FO (first_trees (S k) m) d = Ok ps' ->
  Forall2 (fun row p => @regression_boost_predict xr_ops (first_trees (S k) me) row = Ok (map Fin p) /\ length p = nt) (feature_rows x0) pe' ->
  (j < nt)%nat -> rms (gap j (labels d) ps' xs pe') <= a + (24 * INR N + 52) * (ulp1 * B).
Proof.
  intros Hc Eps' HP' Hj.
  pose proof Bp as B0. pose proof (uB_small B HB4) as [U1 U2]. pose proof (pos_INR N) as N0.
  set (Q := @combine (list f64 * list f64) (list xr * list xr) (@samples FO D) (@samples xr_ops X)).
  set (h := fun q : (list f64 * list f64) * (list xr * list xr) => gf j (fst q) - gx j (snd q)).
  set (step := fun q : (list f64 * list f64) * (list xr * list xr) => h q - B2R lr * mean (map h (leaf_pairs P D X (fst (fst q)) t))).
  assert (HF : Forall2 (fun row p => @regression_boost_predict FO (first_trees k m) row = Ok p) (feature_rows d) ps).
  { unfold regression_boost_all_predictions in Eps. rewrite all_predictions_eq in Eps. now apply mapM_Forall2 in Eps. }
  assert (HF' : Forall2 (fun row p => @regression_boost_predict FO (first_trees (S k) m) row = Ok p) (feature_rows d) ps').
  { unfold regression_boost_all_predictions in Eps'. rewrite all_predictions_eq in Eps'. now apply mapM_Forall2 in Eps'. }
  assert (Lps' : length ps' = N) by (rewrite <- Lrow; symmetry; exact (Forall2_length _ _ _ HF')).
  assert (Lpe' : length pe' = N).
  { rewrite <- (Forall2_length _ _ _ HP'). rewrite Fx0, map_length. exact Lrow. }
  assert (Lg' : length (gap j (labels d) ps' xs pe') = N) by exact (gap_length j ps' pe' Lps' Lpe').
  assert (LQ : length Q = N) by (unfold Q; rewrite combine_length; exact (eq_trans (f_equal2 Nat.min LSD LSX) (Nat.min_id N))).
  destruct (guess_real nc nt x0 xs cfg' n (Fin (B2R lr)) me Wx Hl Ex) as (_ & Hlrx & _).
  assert (S1 : rms (gap j (labels d) ps' xs pe') <= rms (map step Q) + (24 * INR N + 49) * (ulp1 * B)).
  { apply rms_move; [apply Rmult_le_pos; lra|]. apply Forall2_nth. split; [exact (eq_trans Lg' (eq_sym (eq_trans (map_length _ Q) LQ)))|].
    intros i u w Hu Hw. assert (Hi : (i < N)%nat) by (rewrite <- Lg'; exact (nth_lt _ _ _ Hu)).
    destruct (at_index i Hi) as (row & y & p & z & q & H1 & H2 & H3 & H0 & H4 & Ly & Lp & Lz & Lq & I1 & I2).
    destruct (some_nth ps' i ltac:(rewrite Lps'; exact Hi)) as (p' & H5). destruct (some_nth pe' i ltac:(rewrite Lpe'; exact Hi)) as (q' & H6).
    assert (Eu : u = (B2R (nth j y (B754_zero false) : f64) - B2R (nth j p' (B754_zero false) : f64)) - (nth j z 0 - nth j q' 0)).
    { apply (some_inj (nth_error (gap j (labels d) ps' xs pe') i)); [exact Hu|]. exact (gap_nth j ps' pe' i y p' z q' H2 H5 H0 H6). }
    set (r := map (fun w : f64 * f64 => Bminus mode_NE (fst w) (snd w)) (combine y p)) in *.
    set (x := map Fin (vsub z q)) in *.
    assert (EQ : nth_error Q i = Some ((row, r), (map exact_value row, x))) by exact (pair_nth _ _ _ _ _ I1 I2).
    assert (Ew : w = step ((row, r), (map exact_value row, x))).
    { apply (some_inj (nth_error (map step Q) i)); [exact Hw|]. exact (map_nth_error _ _ _ EQ). }
    assert (Hin : In row (feature_rows d)) by exact (nth_error_In _ _ H1).
    assert (Hrl : (nc <= length row)%nat) by exact (ProofLeaf.row_long nc nt d row W Hin).
    destruct (stage_outputs row Hrl (Hc row Hin)) as (o & oe & Eo & Eoe & Loe & Hout).
    destruct (Hout j Hj) as (Fo & Ho & HM & Hoe & _).
    assert (Ep : @regression_boost_predict FO (first_trees k m) row = Ok p) by exact (proj2 (proj1 (Forall2_nth _ _ _) HF) i row p H1 H3).
    assert (Ep' : @regression_boost_predict FO (first_trees (S k) m) row = Ok p') by exact (proj2 (proj1 (Forall2_nth _ _ _) HF') i row p' H1 H5).
    destruct (regression_step nc nt d cfg n lr m k t row p p' o j W E Hrl Ht Ep Ep' Eo Hj) as (_ & _ & Estep).
    assert (Hrow' : nth_error (feature_rows x0) i = Some (map exact_value row)) by (rewrite Fx0; exact (map_nth_error (map exact_value) _ _ H1)).
    destruct (proj2 (proj1 (Forall2_nth _ _ _) HP) i _ q Hrow' H4) as [Eq _].
    destruct (proj2 (proj1 (Forall2_nth _ _ _) HP') i _ q' Hrow' H6) as [Eq' _].
    pose proof (next_prediction nt x0 cfg' n (B2R lr) me k te (map exact_value row) q oe Ex Hlrx Hte Eq Lq Eoe Loe) as Enext.
    assert (Eqq : map Fin q' = map Fin (vstep (B2R lr) q oe)) by (pose proof (eq_trans (eq_sym Eq') Enext) as Z; injection Z as Z; exact Z).
    apply Fin_inj in Eqq.
    assert (Hq' : nth j q' 0 = nth j q 0 + B2R lr * nth j oe 0).
    { rewrite Eqq. unfold vstep. apply nth_map2; [rewrite Lq; exact Hj|rewrite Loe; exact Hj]. }
    destruct (finite_at i y p j H2 H3) as (Fy & By & Fp & Bp').
    destruct (update_step B HB4 _ _ lr _ _ _ Fy Fp Fl Fo By Bp' Hlr HM Ho (proj2 leaf_error_small)) as [_ Hup].
    assert (Estep' : nth j p' (B754_zero false) = Bplus mode_NE (nth j p (B754_zero false) : f64) (Bmult mode_NE lr (nth j o (B754_zero false)))) by exact Estep.
    rewrite Eu, Ew, Hq', Hoe. rewrite Estep'. unfold step. cbn [fst snd].
    assert (Eh : h (row, r, (map exact_value row, x)) = B2R (Bminus mode_NE (nth j y (B754_zero false)) (nth j p (B754_zero false))) - (nth j z 0 - nth j q 0)).
    { unfold h, gf, gx. cbn [fst snd]. unfold r. rewrite sub_nth_f by exact (eq_trans Lp (eq_sym Ly)). f_equal.
      unfold x. rewrite (map_nth Fin (vsub z q) 0 j). cbn [xval]. apply vsub_nth. exact (eq_trans Lq (eq_sym Lz)). }
    rewrite Eh. unfold h at 1. rewrite <- mean_diff.
    eapply Rle_trans; [|apply Rle_trans with (1 := Hup); unfold leaf_error; lra].
    right. apply step_algebra. }
  assert (S2 : rms (map step Q) <= rms (map h Q)).
  { apply rms_le; [now rewrite !map_length|]. rewrite !map_map.
    exact (@shrink_any FO _ _ _ _ (fun q : (list f64 * list f64) * (list xr * list xr) => fst (fst q) : list f64) h (B2R lr) _ _ _ Hlr Bt Q). }
  assert (S3 : rms (map h Q) <= rms (gap j (labels d) ps xs pe) + 3 * (ulp1 * B)).
  { apply rms_move; [lra|]. apply Forall2_nth. split; [exact (eq_trans (eq_trans (map_length h Q) LQ) (eq_sym (gap_length j ps pe Lps Lpe)))|].
    intros i u w Hu Hw. assert (Hi : (i < N)%nat) by (rewrite <- LQ, <- (map_length h); exact (nth_lt _ _ _ Hu)).
    destruct (at_index i Hi) as (row & y & p & z & q & H1 & H2 & H3 & H0 & H4 & Ly & Lp & Lz & Lq & I1 & I2).
    assert (EQ : nth_error Q i = Some ((row, map (fun w : f64 * f64 => Bminus mode_NE (fst w) (snd w)) (combine y p)), (map exact_value row, map Fin (vsub z q)))) by exact (pair_nth _ _ _ _ _ I1 I2).
    assert (Eu : u = h ((row, map (fun w : f64 * f64 => Bminus mode_NE (fst w) (snd w)) (combine y p)), (map exact_value row, map Fin (vsub z q)))).
    { apply (some_inj (nth_error (map h Q) i)); [exact Hu|]. exact (map_nth_error _ _ _ EQ). }
    assert (Ew : w = (B2R (nth j y (B754_zero false) : f64) - B2R (nth j p (B754_zero false) : f64)) - (nth j z 0 - nth j q 0)).
    { apply (some_inj (nth_error (gap j (labels d) ps xs pe) i)); [exact Hw|]. exact (gap_nth j ps pe i y p z q H2 H3 H0 H4). }
    rewrite Eu, Ew. unfold h, gf, gx. cbn [fst snd]. rewrite (map_nth Fin (vsub z q) 0 j). cbn [xval].
    exact (residual_gap i y p z q j H2 H3 H0 H4 Ly Lp Lz Lq). }
  pose proof (Hgap j Hj) as S4. lra.
Qed.

End Stage.
