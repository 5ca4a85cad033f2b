(** Trees grown in binary64 on integer labels. *)
From Coq Require Import Reals Lra Lia ZArith Permutation Sorted.
From Flocq Require Import Core.
From Flocq Require Import IEEE754.BinarySingleNaN.
From Verif Require Import Base Num ModelCommon ModelTree Lib Spec SpecTree SpecScore F64 XR SpecExact SpecInt SpecFit ProofReal ProofData ProofSort
  ProofSplit ProofSplit2 ProofTree ProofTree3 ProofScore ProofScore3 ProofSplitExact ProofSplitExact2 ProofTreeExact ProofScoreF64 ProofRound
  ProofError ProofScan ProofInt ProofInt2 ProofInt3 ProofInt4.
Local Open Scope R_scope.

Section Int5.
Context (P : platform) (M : Z).
Local Existing Instance f64_ops.
Local Remove Hints xr_ops : typeclass_instances.

(* ------------------------------------------------------------------ *)
(** ** Data sets and their parts *)

Lemma integer_sub (d d' : @dataset (f64_ops P)) : incl (labels d') (labels d) -> integer_labels M d -> integer_labels M d'.
Proof. intros Hi H l x Hl Hx. apply (H l x); auto. Qed.

Lemma samples_labels nc nt (d : @dataset (f64_ops P)) : wf_dataset nc nt d -> map snd (samples d) = labels d.
Proof. intros W. apply map_snd_combine. now rewrite (wf_lengths _ _ _ W). Qed.

Lemma samples_labels_incl nc nt nc' nt' (d d' : @dataset (f64_ops P)) : wf_dataset nc nt d -> wf_dataset nc' nt' d' ->
  incl (samples d') (samples d) -> incl (labels d') (labels d).
Proof.
  intros W W' H l Hl. rewrite <- (samples_labels _ _ _ W') in Hl. rewrite <- (samples_labels _ _ _ W).
  apply in_map_iff in Hl as (p & <- & Hp). apply in_map. auto.
Qed.

Lemma small_sub k (d d' : @dataset (f64_ops P)) : (length (labels d') <= length (labels d))%nat -> small_table M k d -> small_table M k d'.
Proof.
  intros Hl [HM H]. split; auto. cbv zeta in *. set (n := Z.of_nat (length (labels d))) in *. set (n' := Z.of_nat (length (labels d'))) in *.
  assert (Hn : (0 <= n' <= n)%Z) by (unfold n, n'; lia).
  eapply Z.le_lt_trans; [|exact H]. apply Z.mul_le_mono_nonneg_l; [nia|].
  assert (0 <= n' * n' <= n * n)%Z by nia. nia.
Qed.

Lemma sums_fit_sub (d d' : @dataset (f64_ops P)) : (length (labels d') <= length (labels d))%nat -> sums_fit M d -> sums_fit M d'.
Proof. intros Hl [HM H]. split; auto. nia. Qed.

Lemma consistent_rows_sub (d d' : @dataset (f64_ops P)) : incl (samples d') (samples d) -> consistent_rows d -> consistent_rows d'.
Proof. intros Hi H row row' l l' H1 H2. apply (H row row'); auto. Qed.

Lemma wf_row_num nc nt (d : @dataset (f64_ops P)) row : wf_dataset nc nt d -> In row (feature_rows d) -> Forall (fun x => Bleb x x = true) row.
Proof. intros W Hi. pose proof (wf_nonan _ _ _ W) as H. rewrite Forall_forall in H. exact (H row Hi). Qed.

Lemma exact_rows_eq (row row' : list f64) : Forall (fun x => Bleb x x = true) row ->
  map exact_value row = map exact_value row' -> Forall2 (fun x y => @feqb (f64_ops P) x y = true) row row'.
Proof.
  intros H. revert row'. induction H as [|x row Hx _ IH]; intros [|y row'] E; try discriminate; constructor.
  - injection E as Exy _. change (Beqb x y = true). rewrite (proj1 (Bleb_swap_cmp x y)).
    rewrite <- !exact_leb, <- Exy, !exact_leb, Hx. reflexivity.
  - injection E as _ E. now apply IH.
Qed.

Lemma exact_consistent nc nt (d : @dataset (f64_ops P)) : wf_dataset nc nt d -> consistent_rows d -> consistent (exact_data d).
Proof.
  intros W HC row l l' H H'.
  assert (E : @samples xr_ops (exact_data d) = map (fun p => (map exact_value (fst p), map exact_value (snd p))) (samples d)).
  { unfold samples, exact_data. cbn [feature_rows labels]. generalize (feature_rows d) (labels d).
    intros a. induction a as [|x a IH]; intros [|y b]; try reflexivity. cbn [map combine]. f_equal. apply IH. }
  rewrite E in H, H'. apply in_map_iff in H as ([r1 l1] & H1 & H2). apply in_map_iff in H' as ([r2 l2] & H1' & H2').
  cbn [fst snd] in *. injection H1 as <- <-. injection H1' as H3 <-. f_equal. apply (HC r1 r2); auto.
  apply exact_rows_eq; auto. apply (wf_row_num nc nt d); auto. now apply in_combine_l in H2.
Qed.

(* ------------------------------------------------------------------ *)
(** ** Splitting stops only at one label *)

Lemma map_IZR_inj a b : map IZR a = map IZR b -> a = b.
Proof. revert b. induction a as [|x a IH]; intros [|y b] E; try discriminate; auto. injection E as E1 E2. apply eq_IZR in E1. f_equal; auto. Qed.

Context (HM : (1 <= M)%Z).

Lemma zs_nonempty nc nt (d : @dataset (f64_ops P)) zs : wf_dataset nc nt d -> labels d = fz zs -> zs <> [].
Proof.
  intros W El ->. pose proof (wf_nonempty _ _ _ W) as H. pose proof (wf_lengths _ _ _ W) as L. rewrite El in L.
  destruct (feature_rows d); [congruence|discriminate].
Qed.

Lemma zs_rect nc nt (d : @dataset (f64_ops P)) zs : wf_dataset nc nt d -> labels d = fz zs -> rectangular nt zs.
Proof.
  intros W El. pose proof (wf_labels _ _ _ W) as H. rewrite El in H. unfold rectangular, fz in *. rewrite Forall_map in H.
  eapply Forall_impl; [|exact H]. intros a Ha. cbv beta in Ha. now rewrite map_length in Ha.
Qed.

Lemma zero_gain_is_no_split nc nt (d : @dataset (f64_ops P)) zs b :
  wf_dataset nc nt d -> labels d = fz zs -> fits M zs -> (Z.of_nat nt <= 2 ^ 40)%Z ->
  find_best_split d (N.of_nat nt) = Ok b -> feqb (bs_gain b) f0 = true -> b = no_split.
Proof.
  intros W El Hf Hk E Hz. destruct (split_int P M HM nc nt d zs b W El Hf Hk E) as (Fg & _ & [Hb|[Hpos _]]); auto. exfalso.
  change (Beqb (bs_gain b) (B754_zero false) = true) in Hz. rewrite Beqb_correct in Hz by auto.
  destruct (Req_bool_spec (B2R (bs_gain b)) (B2R (B754_zero false : f64))) as [H|]; [|discriminate]. cbn [B2R] in H. lra.
Qed.

Lemma stop_one_label nc nt (d : @dataset (f64_ops P)) zs b :
  wf_dataset nc nt d -> labels d = fz zs -> bounded M zs -> small_table M nt d -> consistent_rows d ->
  find_best_split d (N.of_nat nt) = Ok b -> feqb (bs_gain b) f0 = true ->
  exists z, length z = nt /\ forall l, In l zs -> l = z.
Proof.
  intros W El Hb Hs HC E Hz. pose proof (zs_nonempty _ _ _ _ W El) as Hne. pose proof (zs_rect _ _ _ _ W El) as Hr.
  destruct (small_fits P M HM nt d zs El Hb Hne Hs) as (Hf & Hk & _).
  pose proof (zero_gain_is_no_split nc nt d zs b W El Hf Hk E Hz) as Eb.
  destruct (zero_gain_small P M HM nc nt d zs b W El Hb Hs E Eb) as (bx & Ex & Gx).
  pose proof (zero_gain_one_label nc nt (exact_data d) (rz zs) bx (exact_wf P nc nt d W) (exact_real_labels P M HM d zs El Hf)
    (exact_consistent nc nt d W HC) Ex Gx) as H.
  destruct zs as [|z zs]; [congruence|]. exists z. split.
  - unfold rectangular in Hr. inversion Hr; auto.
  - intros l Hl. apply map_IZR_inj. rewrite (H (map IZR l)) by (unfold rz; now apply in_map). symmetry. apply H. now left.
Qed.

Lemma leaf_one_label_int cfg nc nt level (d : @dataset (f64_ops P)) t (x : list f64) :
  standard cfg -> tc_number_of_classes cfg = N.of_nat nt ->
  built mk_reg cfg level d t -> wf_dataset nc nt d -> integer_labels M d -> small_table M nt d -> consistent_rows d -> (nc <= length x)%nat ->
  exists ld zs, find_leaf_node_for_data x t = Ok (mkRL (Some ld)) /\ wf_dataset nc nt ld /\ labels ld = fz zs /\ fits M zs /\
    incl (samples ld) (samples d) /\
    (length (feature_rows ld) + length (path x t) <= length (feature_rows d))%nat /\
    ((exists z, length z = nt /\ forall l, In l zs -> l = z) \/ (level + N.of_nat (length (path x t)) = tc_max_levels cfg)%N).
Proof.
  intros Hs Hk B. induction B as [level d s lf Es Est El|level d s fd td t f Es Est Ep Bt IHt Bf IHf]; intros W HI HT HC Hx.
  - injection El as <-. destruct (integer_zs P M d HI) as (zs & El & Hb). pose proof (zs_nonempty _ _ _ _ W El) as Hne.
    destruct (small_fits P M HM nt d zs El Hb Hne HT) as (Hf & _ & _).
    exists d, zs. split; [reflexivity|]. split; [auto|]. split; [auto|]. split; [auto|]. split; [apply incl_refl|].
    split; [cbn; lia|]. rewrite Hs, Hk in Es. change (find_best_split d (N.of_nat nt) = Ok s) in Es.
    unfold stop_here in Est. apply orb_true_iff in Est as [Hg|Hg].
    + left. eapply stop_one_label; eauto.
    + right. apply N.eqb_eq in Hg. cbn. lia.
  - destruct (partition_wf nc nt d _ fd td W Ep) as (Hq & Wf & Wt & St & Sf).
    destruct (partition_shrinks _ _ _ _ Ep) as [Nf Nt].
    assert (It : incl (samples td) (samples d)) by (rewrite St; apply filter_incl).
    assert (If : incl (samples fd) (samples d)) by (rewrite Sf; apply filter_incl).
    pose proof (wf_lengths _ _ _ W) as L. pose proof (wf_lengths _ _ _ Wf) as Lf. pose proof (wf_lengths _ _ _ Wt) as Lt.
    destruct (IHt Wt (integer_sub _ _ (samples_labels_incl _ _ _ _ _ _ W Wt It) HI) (small_sub nt d td ltac:(lia) HT) (consistent_rows_sub _ _ It HC) Hx)
      as (lt & zt & Et & A1 & A2 & A3 & A4 & A5 & A6).
    destruct (IHf Wf (integer_sub _ _ (samples_labels_incl _ _ _ _ _ _ W Wf If) HI) (small_sub nt d fd ltac:(lia) HT) (consistent_rows_sub _ _ If HC) Hx)
      as (lf & zf & Ef & B1 & B2 & B3 & B4 & B5 & B6).
    cbn [node_new find_leaf_node_for_data path]. rewrite solve_Ok by (eapply Nat.lt_le_trans; [exact Hq|exact Hx]). cbn [bind].
    destruct (answers (bs_question s) x); [exists lt, zt|exists lf, zf]; (split; [assumption|]); (split; [auto|]); (split; [auto|]);
      (split; [auto|]); (split; [eauto using incl_tran|]); (split; [cbn [length]; lia|]).
    + destruct A6 as [A6|A6]; [now left|right; cbn [length]; lia].
    + destruct B6 as [B6|B6]; [now left|right; cbn [length]; lia].
Qed.

(* ------------------------------------------------------------------ *)
(** ** The average of integer labels *)

Lemma entries_fz zs j k : rectangular k zs -> (j < k)%nat ->
  flat_map (fun l : list f64 => match nth_error l j with Some x => [x] | None => [] end) (fz zs) = map f64_of_Z (ztarget j zs).
Proof.
  intros Hr Hj. induction Hr as [|l zs Hl _ IH]; [reflexivity|]. unfold fz, ztarget in *. cbn [map flat_map]. rewrite IH, nth_error_map.
  destruct (nth_error l j) as [z|] eqn:E; [|apply nth_error_None in E; lia]. cbn [option_map app]. f_equal. f_equal. symmetry. now apply nth_error_nth.
Qed.

Lemma sum_exact l a : Forall (fun z => (Z.abs z <= M)%Z) l -> (Z.abs a + Z.of_nat (length l) * M <= 2 ^ 53)%Z ->
  fold_left (Bplus mode_NE) (map f64_of_Z l) (f64_of_Z a) = f64_of_Z (a + sumZ l).
Proof.
  intros H. revert a. induction H as [|z l Hz Hl IH]; intros a Ha; cbn [map fold_left sumZ fold_right length] in *.
  - f_equal. lia.
  - assert ((Z.of_nat (S (length l)) * M = M + Z.of_nat (length l) * M)%Z) as E by lia. rewrite E in Ha.
    assert (0 <= Z.of_nat (length l) * M)%Z by nia.
    rewrite plus_Z by lia. fold (sumZ l). rewrite IH by lia. f_equal. lia.
Qed.

Lemma average_fz zs j k : fits M zs -> rectangular k zs -> (j < k)%nat ->
  @average_of (f64_ops P) (fz zs) j = Bdiv mode_NE (f64_of_Z (sumZ (ztarget j zs))) (f64_of_Z (Z.of_nat (length zs))).
Proof.
  intros Hf Hr Hj.
  change (Bdiv mode_NE (fold_left (Bplus mode_NE) (flat_map (fun l : list f64 => match nth_error l j with Some x => [x] | None => [] end) (fz zs)) (f64_of_Z 0))
            (f64_of_Z (Z.of_nat (length (fz zs)))) = Bdiv mode_NE (f64_of_Z (sumZ (ztarget j zs))) (f64_of_Z (Z.of_nat (length zs)))).
  rewrite (entries_fz zs j k Hr Hj). unfold fz. rewrite map_length. f_equal.
  destruct Hf as [Hb HL]. rewrite sum_exact; [f_equal|apply ztarget_bounded; auto; lia|]. rewrite ztarget_length. nia.
Qed.

Lemma average_value zs j k : fits M zs -> rectangular k zs -> (j < k)%nat -> zs <> [] ->
  let v := @average_of (f64_ops P) (fz zs) j in
  is_finite v = true /\ B2R v = nearest (mean (target j (rz zs))).
Proof.
  intros Hf Hr Hj Hne v. unfold v. rewrite (average_fz zs j k Hf Hr Hj).
  pose proof (fits_sum M HM j zs Hf) as HS. pose proof (fits_length M HM zs Hf) as HL.
  assert (Hn : (0 < Z.of_nat (length zs))%Z) by (destruct zs; [congruence|cbn [length]; lia]).
  destruct (of_Z_exact (sumZ (ztarget j zs)) HS) as (A2 & A1 & _). destruct (of_Z_exact (Z.of_nat (length zs))) as (N2 & N1 & _); [lia|].
  assert (Em : mean (target j (rz zs)) = IZR (sumZ (ztarget j zs)) / IZR (Z.of_nat (length zs))).
  { unfold mean. rewrite target_rz, map_length, ztarget_length, Rsum_IZR, INR_IZR_INZ. reflexivity. }
  rewrite Em. destruct (div_value (f64_of_Z (sumZ (ztarget j zs))) (f64_of_Z (Z.of_nat (length zs)))) as [F V]; auto.
  - rewrite N2. apply not_0_IZR. lia.
  - rewrite A2, N2. eapply Rle_lt_trans; [apply (rnd_le_format _ (IZR (2 ^ 53)))|].
    + destruct (of_Z_exact (2 ^ 53)) as (E & _); [lia|]. rewrite <- E. apply generic_format_B2R.
    + unfold Rdiv. rewrite Rabs_mult, Rabs_inv, (Rabs_pos_eq (IZR (Z.of_nat _))) by (apply IZR_le; lia).
      rewrite <- abs_IZR. apply Rmult_le_reg_r with (IZR (Z.of_nat (length zs))); [apply IZR_lt; lia|].
      rewrite Rmult_assoc, Rinv_l, Rmult_1_r by (apply not_0_IZR; lia). rewrite <- mult_IZR. apply IZR_le. nia.
    + change (bpow radix2 1024) with (IZR (Z.pow_pos 2 1024)). apply IZR_lt. reflexivity.
  - split; auto. rewrite V, A2, N2. reflexivity.
Qed.

Lemma average_pure zs z k : fits M zs -> zs <> [] -> length z = k -> (forall l, In l zs -> l = z) ->
  map (@average_of (f64_ops P) (fz zs)) (seq 0 k) = map f64_of_Z z.
Proof.
  intros Hf Hne Lz Hz.
  assert (Hr : rectangular k zs) by (apply Forall_forall; intros l Hl; rewrite (Hz l Hl); exact Lz).
  transitivity (map f64_of_Z (map (fun t => nth t z 0%Z) (seq 0 k))); [|now rewrite map_seq_nthZ].
  rewrite map_map. apply map_ext_in. intros j Hj. apply in_seq in Hj. rewrite (average_fz zs j k) by (auto; lia).
  destruct (pure_sums z j zs Hz) as [E _]. rewrite E.
  assert (Hb : (Z.abs (nth j z 0) <= M)%Z).
  { apply (entry_bound M HM). destruct Hf as [Hb _]. unfold bounded in Hb. rewrite Forall_forall in Hb. apply Hb.
    destruct zs as [|l zs]; [congruence|]. rewrite <- (Hz l (or_introl eq_refl)). now left. }
  pose proof (fits_length M HM zs Hf). destruct Hf as [_ HL]. apply div_Z_exact; [|lia|].
  - destruct zs; [congruence|cbn [length]; lia].
  - rewrite Z.abs_mul. rewrite (Z.abs_eq (Z.of_nat _)) by lia. nia.
Qed.

(* ------------------------------------------------------------------ *)
(** ** Deep trees fit *)

Lemma row_length nc nt (d : @dataset (f64_ops P)) (row label : list (@F (f64_ops P))) :
  wf_dataset nc nt d -> In (row, label) (samples d) -> length row = nc /\ length label = nt.
Proof.
  intros W Hin. pose proof (wf_rows _ _ _ W) as R0. pose proof (wf_labels _ _ _ W) as R1. unfold rectangular in *. rewrite Forall_forall in R0, R1.
  split; [apply R0; now apply in_combine_l in Hin|apply R1; now apply in_combine_r in Hin].
Qed.

Theorem deep_tree_fits_int nc nt (d : @dataset (f64_ops P)) cfg t (row label : list (@F (f64_ops P))) :
  wf_dataset nc nt d -> integer_labels M d -> small_table M nt d -> consistent_rows d ->
  standard cfg -> tc_number_of_classes cfg = N.of_nat nt ->
  regression_tree_new d cfg = Ok t -> (N.of_nat (length (feature_rows d)) <= tc_max_levels cfg + 1)%N ->
  In (row, label) (samples d) -> tree_prediction row t = Ok label.
Proof.
  intros W HI HT HC Hs Hk E Hn Hin. destruct (row_length _ _ _ _ _ W Hin) as [Lrow Llab].
  destruct (training_row_in_its_leaf nc nt d cfg t row label W E Hin) as (ld0 & Ef0 & Hin0).
  rewrite (prediction_average nc nt d cfg t row W E) by lia. f_equal.
  rewrite regression_tree_new_eq in E. apply build_with_built in E.
  destruct (built_lookup cfg nc nt 0 d t row E W ltac:(lia)) as (ld1 & Ef1 & Es1 & W1). rewrite Ef0 in Ef1. injection Ef1 as <-.
  destruct (leaf_one_label_int cfg nc nt 0 d t row Hs Hk E W HI HT HC ltac:(apply Nat.eq_le_incl; symmetry; exact Lrow)) as (ld & zs & Ef & Wl & El & Hf & _ & Hlen & H).
  rewrite Ef0 in Ef. injection Ef as <-.
  assert (Hl : map snd (samples_like row t d) = fz zs).
  { rewrite <- El. change (samples_like row t d) with (filter (fun p => same_answers (path row t) row (fst p)) (samples d)). rewrite <- Es1.
    apply (samples_labels nc nt _ Wl). }
  rewrite Hl. pose proof (zs_nonempty _ _ _ _ Wl El) as Hne. pose proof (zs_rect _ _ _ _ Wl El) as Hr.
  assert (Hone : exists z, length z = nt /\ forall l, In l zs -> l = z).
  { destruct H as [H|H]; auto. pose proof (wf_lengths _ _ _ Wl) as L. rewrite El in L. unfold fz in L. rewrite map_length in L.
    change (@length (@F (f64_ops P))) with (@length f64) in *.
    assert (length zs <= 1)%nat by lia. destruct zs as [|z [|z' zs]]; [congruence| |cbn [length] in *; lia].
    exists z. split; [inversion Hr; auto|]. intros l [<-|[]]. reflexivity. }
  destruct Hone as (z & Lz & Hz). rewrite (average_pure zs z nt Hf Hne Lz Hz).
  assert (Hlab : In label (fz zs)) by (rewrite <- El; now apply in_combine_r in Hin0).
  unfold fz in Hlab. apply in_map_iff in Hlab as (z' & <- & Hz'). now rewrite (Hz z' Hz').
Qed.

Lemma sub_self z : (Z.abs z <= 2 ^ 53)%Z -> Bminus mode_NE (f64_of_Z z) (f64_of_Z z) = B754_zero false.
Proof. intros H. rewrite minus_Z by (auto; rewrite Z.sub_diag; cbn; lia). now rewrite Z.sub_diag. Qed.

Lemma sum_zeros (l : list f64) : Forall (eq (B754_zero false)) l -> fold_left (Bplus mode_NE) l (B754_zero false) = B754_zero false.
Proof. induction 1 as [|x l <- _ IH]; auto. Qed.

Lemma zero_over n : (0 < n)%nat -> (Z.of_nat n <= 2 ^ 53)%Z ->
  Bdiv mode_NE (B754_zero false) (f64_of_Z (Z.of_nat n)) = B754_zero false :> f64.
Proof.
  intros H0 H. destruct (of_Z_exact (Z.of_nat n)) as (V & F & S); [lia|].
  assert (0 < IZR (Z.of_nat n)) by (apply IZR_lt; lia).
  destruct (f64_of_Z (Z.of_nat n)) as [s|s| |s m e Hme] eqn:E; try discriminate.
  - cbn [B2R] in V. lra.
  - destruct s; [|reflexivity]. exfalso. cbn [B2R] in V. pose proof (F2R_lt_0 radix2 (Float radix2 (Zneg m) e) ltac:(reflexivity)) as Hneg.
    cbn [cond_Zopp] in V. change (Z.opp (Zpos m)) with (Zneg m) in V. lra.
Qed.

Lemma zero_row_error l nt : @fsqr (f64_ops P) f0 = f0 -> (0 < nt)%nat -> (Z.of_nat nt <= 2 ^ 53)%Z -> length l = nt -> Forall (fun z => (Z.abs z <= 2 ^ 53)%Z) l ->
  @mean_sum_of_squared_differences_between_vectors (f64_ops P) (map f64_of_Z l) (map f64_of_Z l) = Ok (B754_zero false).
Proof.
  intros H2 H0 HL Ll Hl. rewrite squared_loop by reflexivity. f_equal.
  change (Bdiv mode_NE (fold_left (Bplus mode_NE) (map2 (fun p q : f64 => p_sqr P (Bminus mode_NE p q)) (map f64_of_Z l) (map f64_of_Z l)) (B754_zero false))
            (f64_of_Z (Z.of_nat (length (map f64_of_Z l)))) = B754_zero false).
  rewrite sum_zeros, map_length, Ll; [now apply zero_over|].
  clear Ll. induction Hl as [|z l Hz _ IH]; [constructor|]. cbn [map map2]. constructor; auto. rewrite sub_self by auto. symmetry. exact H2.
Qed.

Theorem deep_tree_zero_error_int nc nt (d : @dataset (f64_ops P)) cfg t :
  @fsqr (f64_ops P) f0 = f0 ->
  wf_dataset nc nt d -> integer_labels M d -> small_table M nt d -> consistent_rows d -> (0 < nt)%nat ->
  standard cfg -> tc_number_of_classes cfg = N.of_nat nt ->
  regression_tree_new d cfg = Ok t -> (N.of_nat (length (feature_rows d)) <= tc_max_levels cfg + 1)%N ->
  calculate_overall_mean_squared_error d t = Ok f0.
Proof.
  intros H2 W HI HT HC Hk Hs Hc E Hn. destruct (integer_zs P M d HI) as (zs & El & Hb). pose proof (zs_nonempty _ _ _ _ W El) as Hne.
  destruct (small_fits P M HM nt d zs El Hb Hne HT) as (Hf & Hnt & _).
  rewrite tree_mse_eq by (rewrite (wf_lengths _ _ _ W); auto).
  assert (G : forall S, incl S (samples d) -> mapM (tree_row_error t) S = Ok (map (fun _ => B754_zero false : f64) S)).
  { induction S as [|[row label] S IH]; intros HS; [reflexivity|]. cbn [mapM map].
    assert (Hp : In (row, label) (samples d)) by (apply HS; now left).
    rewrite IH by (intros x Hx; apply HS; now right).
    pose proof (deep_tree_fits_int nc nt d cfg t row label W HI HT HC Hs Hc E Hn Hp) as Hfit.
    destruct (row_length _ _ _ _ _ W Hp) as [_ Ll].
    assert (Hlab : In label (fz zs)) by (rewrite <- El; now apply in_combine_r in Hp).
    unfold fz in Hlab. apply in_map_iff in Hlab as (z & Ez & Hz).
    assert (Er : tree_row_error t (row, label) = Ok (B754_zero false : f64)).
    { etransitivity; [|apply (zero_row_error z nt); auto].
      - unfold tree_row_error. cbn [fst snd]. unfold tree_prediction in Hfit. rewrite Ez.
        destruct (find_leaf_node_for_data row t) as [lf| |]; cbn [bind] in *; try discriminate.
        destruct (unwrap (rl_data lf)) as [dd| |]; cbn [bind] in *; try discriminate. rewrite Hfit. reflexivity.
      - lia.
      - rewrite <- Ez in Ll. now rewrite map_length in Ll.
      - destruct Hf as [_ HL]. unfold bounded in Hb. rewrite Forall_forall in Hb. eapply Forall_impl; [|exact (Hb z Hz)]. intros y Hy. cbv beta in *.
        destruct zs; [congruence|]. cbn [length] in HL. nia. }
    rewrite Er. reflexivity. }
  rewrite G by apply incl_refl. cbn [bind]. f_equal.
  change (Bdiv mode_NE (fold_left (Bplus mode_NE) (map (fun _ => B754_zero false) (samples d)) (B754_zero false)) (f64_of_Z (Z.of_nat (length (feature_rows d)))) = B754_zero false).
  rewrite sum_zeros; [apply zero_over|].
  - pose proof (wf_nonempty _ _ _ W). destruct (feature_rows d); [congruence|cbn [length]; lia].
  - rewrite <- (wf_lengths _ _ _ W), El. unfold fz. rewrite map_length. now apply (fits_length M HM).
  - apply Forall_map, Forall_forall. reflexivity.
Qed.

Theorem leaf_above_limit_int nc nt (d : @dataset (f64_ops P)) cfg t (row : list (@F (f64_ops P))) ld :
  wf_dataset nc nt d -> integer_labels M d -> small_table M nt d -> consistent_rows d ->
  standard cfg -> tc_number_of_classes cfg = N.of_nat nt ->
  regression_tree_new d cfg = Ok t -> (nc <= length row)%nat -> (N.of_nat (length (path row t)) < tc_max_levels cfg)%N ->
  find_leaf_node_for_data row t = Ok (mkRL (Some ld)) ->
  exists l, forall l', In l' (labels ld) -> l' = l.
Proof.
  intros W HI HT HC Hs Hk E Hx Hlt Hf. rewrite regression_tree_new_eq in E. apply build_with_built in E.
  destruct (leaf_one_label_int cfg nc nt 0 d t row Hs Hk E W HI HT HC Hx) as (ld' & zs & Ef & Wl & El & _ & _ & _ & [(z & _ & H)|H]); [|lia].
  rewrite Hf in Ef. injection Ef as <-. exists (map f64_of_Z z). intros l' Hin. rewrite El in Hin. unfold fz in Hin.
  apply in_map_iff in Hin as (y & <- & Hy). now rewrite (H y Hy).
Qed.

(* ------------------------------------------------------------------ *)
(** ** Predictions are correctly rounded means *)

Theorem prediction_rounds_the_mean nc nt (d : @dataset (f64_ops P)) cfg t (row : list (@F (f64_ops P))) :
  wf_dataset nc nt d -> integer_labels M d -> sums_fit M d -> regression_tree_new d cfg = Ok t -> (nc <= length row)%nat ->
  exists prediction, tree_prediction row t = Ok prediction /\ length prediction = nt /\
    let group := map (map B2R) (map snd (samples_like row t d)) in
    group <> [] /\
    forall j v, nth_error prediction j = Some v ->
      is_finite v = true /\ B2R v = nearest (mean (target j group)) /\
      forall lo hi : f64, is_finite lo = true -> is_finite hi = true ->
        (forall l x, In l (labels d) -> nth_error l j = Some x -> @fleb (f64_ops P) lo x = true /\ @fleb (f64_ops P) x hi = true) ->
        @fleb (f64_ops P) lo v = true /\ @fleb (f64_ops P) v hi = true.
Proof.
  intros W HI HF E Hx. rewrite (prediction_average nc nt d cfg t row W E Hx). eexists. split; [reflexivity|].
  split; [now rewrite map_length, seq_length|].
  rewrite regression_tree_new_eq in E. apply build_with_built in E.
  destruct (built_lookup cfg nc nt 0 d t row E W Hx) as (ld & Ef & Es & Wl).
  assert (Hi : incl (samples ld) (samples d)) by (rewrite Es; apply filter_incl).
  assert (Hil : incl (labels ld) (labels d)) by (eapply samples_labels_incl; eauto).
  assert (Hl : map snd (samples_like row t d) = labels ld).
  { change (samples_like row t d) with (filter (fun p => same_answers (path row t) row (fst p)) (samples d)). rewrite <- Es.
    apply (samples_labels nc nt _ Wl). }
  destruct (integer_zs P M ld (integer_sub _ _ Hil HI)) as (zs & El & Hb). pose proof (zs_nonempty _ _ _ _ Wl El) as Hne. pose proof (zs_rect _ _ _ _ Wl El) as Hr.
  assert (Hlen : (length (labels ld) <= length (labels d))%nat).
  { rewrite <- (samples_labels _ _ _ Wl), <- (samples_labels _ _ _ W), !map_length, Es. clear. induction (samples d) as [|x l IH]; cbn [filter length]; [lia|].
    match goal with |- context [if ?c then _ else _] => destruct c end; cbn [length]; lia. }
  destruct (sums_fit_sub _ _ Hlen HF) as [_ HS].
  assert (Hf : fits M zs). { split; auto. rewrite El in HS. unfold fz in HS. now rewrite map_length in HS. }
  rewrite Hl, El. cbv zeta. rewrite (bounded_real M HM zs Hf). split; [intros H0; apply map_eq_nil in H0; contradiction|].
  intros j v Hj. rewrite nth_error_map in Hj. destruct (Nat.lt_ge_cases j nt) as [Hjn|Hjn];
    [|rewrite (proj2 (nth_error_None _ _)) in Hj by (rewrite seq_length; lia); discriminate].
  rewrite (nth_error_nth' _ 0%nat), seq_nth in Hj by (try rewrite seq_length; lia). cbn [option_map] in Hj. injection Hj as <-.
  destruct (average_value zs j nt Hf Hr Hjn Hne) as [Fv Vv]. split; [exact Fv|]. split; [exact Vv|].
  intros lo hi Flo Fhi Hrange.
  assert (Hm : B2R lo <= mean (target j (rz zs)) <= B2R hi).
  { apply mean_bounds; [intros H0; apply map_eq_nil, map_eq_nil in H0; contradiction|].
    intros x Hxt. unfold target, rz in Hxt. rewrite map_map in Hxt. apply in_map_iff in Hxt as (l & <- & Hlin).
    assert (Hlf : In (map f64_of_Z l) (labels ld)) by (rewrite El; unfold fz; now apply in_map).
    unfold rectangular in Hr. rewrite Forall_forall in Hr. specialize (Hr l Hlin). cbv beta in Hr.
    destruct (nth_error l j) as [z|] eqn:Ez; [|apply nth_error_None in Ez; lia].
    destruct (Hrange (map f64_of_Z l) (f64_of_Z z) (Hil _ Hlf)) as [H1 H2]; [rewrite nth_error_map, Ez; reflexivity|].
    assert (Hz : (Z.abs z <= 2 ^ 53)%Z).
    { destruct Hf as [_ HL]. unfold bounded in Hb. rewrite Forall_forall in Hb. specialize (Hb l Hlin). rewrite Forall_forall in Hb.
      specialize (Hb z (nth_error_In _ _ Ez)). cbv beta in Hb. destruct zs; [congruence|]. cbn [length] in HL. nia. }
    destruct (of_Z_exact z Hz) as (Vz & Fz & _).
    change 0 with (IZR 0). rewrite map_nth, (nth_error_nth l j 0%Z Ez), <- Vz.
    split; [apply (proj1 (finite_leb lo _ Flo Fz)); exact H1|apply (proj1 (finite_leb _ hi Fz Fhi)); exact H2]. }
  assert (Hlo : B2R lo <= B2R (@average_of (f64_ops P) (fz zs) j : f64)).
  { rewrite Vv. rewrite <- (rnd_B2R lo). apply rnd_le. tauto. }
  assert (Hhi : B2R (@average_of (f64_ops P) (fz zs) j : f64) <= B2R hi).
  { rewrite Vv. rewrite <- (rnd_B2R hi). apply rnd_le. tauto. }
  split; [exact (proj2 (finite_leb _ _ Flo Fv) Hlo)|exact (proj2 (finite_leb _ _ Fv Fhi) Hhi)].
Qed.

End Int5.
