(** A two-row classification run whose training accuracy falls from 1 to 0 in the second boosting iteration. *)
From Coq Require Import Reals Lra Lia ZArith.
From Flocq Require Import Core.
From Flocq Require Import IEEE754.BinarySingleNaN.
From Verif Require Import Base Num F64 XR ModelCommon ModelTree ModelBoost Lib Spec SpecTree SpecExact SpecInt SpecNear SpecNode SpecClass SpecScore SpecF64
  SpecPredict SpecSaturate ProofReal ProofRound ProofError ProofData ProofTree ProofTree3 ProofScore ProofScore2 ProofBoost ProofBoost2 ProofLeaf ProofNode
  ProofPredict ProofLeafFloat ProofSaturate ProofCollapse Decide Check.
Local Open Scope R_scope.
Local Existing Instance f64_ops.
Local Remove Hints xr_ops : typeclass_instances.

Lemma mapM_two {A B} (f : A -> res B) a b x y : f a = Ok x -> f b = Ok y -> mapM f [a; b] = Ok [x; y].
Proof. intros E1 E2. cbn [mapM]. rewrite E1, E2. reflexivity. Qed.

Section Pair.
Context (P : platform).
Local Notation O := (f64_ops P).

(** Two rows with the feature values 0 and 1. *)
Definition pair_data (a b : list f64) : @dataset O :=
  @mkDS O [[B754_zero false]; [Bone]] [a; b] [[B754_zero false; Bone]].

Lemma pair_wf a b : length a = 2%nat -> length b = 2%nat -> @wf_dataset O 1 2 (pair_data a b).
Proof.
  intros La Lb. assert (W : @wf_dataset O 1 0 (pair_data [] [])) by check_wf.
  destruct W as [W1 W2 W3 W4 W5 W6 W7]. constructor; auto.
  unfold rectangular. cbn. repeat constructor; assumption.
Qed.

Lemma pair_gain a b :
  question_gain 2 (exact_question (@Question O 0 Bone)) (feature_rows (exact_data (pair_data a b))) (real_values (pair_data a b)) =
  (nth 0 (map B2R a) 0 - nth 0 (map B2R b) 0) * (nth 0 (map B2R a) 0 - nth 0 (map B2R b) 0) / 4 +
  (nth 1 (map B2R a) 0 - nth 1 (map B2R b) 0) * (nth 1 (map B2R a) 0 - nth 1 (map B2R b) 0) / 4.
Proof.
  set (A := map B2R a). set (Bb := map B2R b).
  assert (ER : feature_rows (exact_data (pair_data a b)) = [[Fin 0]; [Fin 1]]).
  { unfold exact_data, pair_data. cbn [feature_rows map]. f_equal. f_equal. f_equal.
    transitivity (Fin (B2R (Bone : f64))); [reflexivity|]. now rewrite Bone_1. }
  rewrite ER. unfold real_values, pair_data. cbn [labels map]. fold A Bb.
  assert (EQ : exact_question (@Question O 0 Bone) = @Question xr_ops 0 (Fin 1)).
  { unfold exact_question. cbn [q_column q_value]. f_equal. transitivity (Fin (B2R (Bone : f64))); [reflexivity|]. now rewrite Bone_1. }
  rewrite EQ. unfold question_gain.
  assert (LF : labels_answering false (@Question xr_ops 0 (Fin 1)) [[Fin 0]; [Fin 1]] [A; Bb] = [A]).
  { unfold labels_answering. cbn [combine filter fst]. unfold answers. cbn.
    repeat (destruct (Rle_dec _ _); try lra); repeat (destruct (Rlt_dec _ _); try lra); reflexivity. }
  assert (LT : labels_answering true (@Question xr_ops 0 (Fin 1)) [[Fin 0]; [Fin 1]] [A; Bb] = [Bb]).
  { unfold labels_answering. cbn [combine filter fst]. unfold answers. cbn.
    repeat (destruct (Rle_dec _ _); try lra); repeat (destruct (Rlt_dec _ _); try lra); reflexivity. }
  rewrite LF, LT. unfold remaining_variance, total_variance, target, variance, mean. cbn [length map seq Rsum fold_right INR Nat.add nth]. field.
Qed.

Lemma pair_split a b B cfg t :
  length a = 2%nat -> length b = 2%nat -> bounded_labels B (pair_data a b) -> ordinary_table B (pair_data a b) ->
  @standard O cfg -> tc_number_of_classes cfg = 2%N -> (1 <= tc_max_levels cfg)%N ->
  real_gain_error 2 2 B <
    question_gain 2 (exact_question (@Question O 0 Bone)) (feature_rows (exact_data (pair_data a b))) (real_values (pair_data a b)) ->
  grad_boost_tree_new (pair_data a b) cfg (leaf_output_calculator_new MultiClassClassification) = Ok t ->
  @samples_like O _ [B754_zero false] t (pair_data a b) = [([B754_zero false], a)] /\
  @samples_like O _ [Bone] t (pair_data a b) = [([Bone], b)].
Proof.
  intros La Lb Hb Ho Hs HK Hm Hg E. pose proof (pair_wf a b La Lb) as W.
  destruct (leaves_little_left P B 1 2 (pair_data a b) W Hb Ho ltac:(lia) cfg Hs HK (leaf_output_calculator_new MultiClassClassification)) as (_ & HL & _).
  specialize (HL t E). pose proof E as E'. rewrite grad_boost_tree_new_eq in E'. apply build_with_built in E'.
  inversion E' as [level d s lf Es Est El Hlev Hd Ht|level d s fd td t1 f1 Es Est Ep Bt Bf Hlev Hd Ht]; subst.
  - exfalso. specialize (HL [B754_zero false] (@Question O 0 Bone)). cbn [leaf_node path length] in HL.
    specialize (HL ltac:(lia)). rewrite answering_nil in HL.
    change (@question_gain 2 (exact_question (@Question O 0 Bone)) (feature_rows (exact_data (pair_data a b))) (real_values (pair_data a b)) <= real_gain_error 2 2 B) in HL.
    lra.
  - destruct (partition_wf 1 2 _ _ fd td W Ep) as (_ & Wf & Wt & St & Sf).
    set (q := bs_question s) in *.
    assert (S2 : samples (pair_data a b) = [([B754_zero false], a); ([Bone], b)]) by reflexivity.
    rewrite S2 in St, Sf. cbn [filter fst] in St, Sf.
    assert (NE : forall d', @wf_dataset O 1 2 d' -> samples d' <> []).
    { intros d' W' H0. pose proof (wf_nonempty _ _ _ W') as H1. pose proof (wf_lengths _ _ _ W') as H2. unfold samples in H0.
      destruct (feature_rows d'); [now apply H1|]. destruct (labels d'); discriminate. }
    pose proof (NE td Wt) as Nt. pose proof (NE fd Wf) as Nf. rewrite St in Nt. rewrite Sf in Nf.
    assert (HA : answers q [B754_zero false] = negb (answers q [Bone])).
    { destruct (answers q [B754_zero false]), (answers q [Bone]); cbn in Nt, Nf; auto; now contradiction. }
    assert (Refl : forall qs (row : list f64), forallb (fun q => Bool.eqb (@answers O q row) (answers q row)) qs = true).
    { intros qs row. apply forallb_forall. intros x _. apply Bool.eqb_reflx. }
    unfold samples_like. rewrite S2. cbn [node_new path filter fst forallb]. fold q. rewrite !Bool.eqb_reflx, !Refl. rewrite HA.
    destruct (answers q [Bone]); cbn [negb Bool.eqb andb]; auto.
Qed.

Lemma pair_leaf a b cfg t (row : list f64) (y : list f64) :
  length a = 2%nat -> length b = 2%nat -> (1 <= length row)%nat ->
  grad_boost_tree_new (pair_data a b) cfg (leaf_output_calculator_new MultiClassClassification) = Ok t ->
  @samples_like O _ row t (pair_data a b) = [(row, y)] ->
  find_leaf_node_for_data row t = Ok (mkGL (Some (map (@class_output_of O 2 [y]) (seq 0 2)))).
Proof.
  intros La Lb Hr E S. pose proof (gb_class_leaf 1 2 (pair_data a b) cfg t row (pair_wf a b La Lb) E Hr) as Ef.
  assert (Em : map snd (@samples_like O _ row t (pair_data a b)) = [y]) by (rewrite S; reflexivity).
  rewrite Em in Ef. exact Ef.
Qed.

Lemma finite_above_ninf (x : f64) : is_finite x = true -> @fltb O fninf x = true.
Proof. destruct x; try discriminate; reflexivity. Qed.

End Pair.

Section Run.
Context (P : platform) (Hexp : accurate_exp P).
Local Notation O := (f64_ops P).
Local Notation zero := (B754_zero false : f64).
Local Notation one := (Bone : f64).

Definition pair_run : @dataset O := pair_data P [one; zero] [zero; one].

Context (cfg : @tree_config O) (Hs : @standard O cfg) (HK : tc_number_of_classes cfg = 2%N) (Hm : (1 <= tc_max_levels cfg)%N).

Lemma softmax_pair (x y : f64) : @softmax O [x; y] = [@prob64 P [x; y] x; @prob64 P [x; y] y].
Proof. reflexivity. Qed.

Lemma run_wf : @wf_dataset O 1 2 pair_run.
Proof. now apply pair_wf. Qed.

(** The first tree. *)
Lemma first_labels p : p = half \/ p = near_half ->
  let a := [Bminus mode_NE one p; Bminus mode_NE zero p] in
  let b := [Bminus mode_NE zero p; Bminus mode_NE one p] in
  bounded_labels 1 (pair_data P a b) /\ ordinary_table 1 (pair_data P a b) /\
  real_gain_error 2 2 1 < question_gain 2 (exact_question (@Question O 0 Bone)) (feature_rows (exact_data (pair_data P a b))) (real_values (pair_data P a b)) /\
  map (@class_output_of O 2 [a]) (seq 0 2) = [one; Bopp one] /\ map (@class_output_of O 2 [b]) (seq 0 2) = [Bopp one; one].
Proof.
  intros Hp a b. destruct half_value as [Fh Vh].
  assert (Vp : is_finite p = true /\ / 4 <= B2R p <= / 2).
  { destruct Hp as [-> | ->]; [rewrite Vh; split; [exact Fh|lra]|]. split; [vm_compute; reflexivity|].
    assert (E4 : B2R (binary_normalize 53 1024 _ _ mode_NE 1 (-2) false) = / 4).
    { pose proof (binary_normalize_correct 53 1024 _ _ mode_NE 1 (-2) false) as C. cbn [round_mode] in C.
      assert (Ef : F2R (Float radix2 1 (-2)) = b2 (-2)) by (unfold F2R; cbn; lra).
      rewrite Ef in C. change (round radix2 (SpecFloat.fexp 53 1024) ZnearestE (b2 (-2))) with (rnd (b2 (-2))) in C.
      rewrite (rnd_format (b2 (-2))) in C by (apply ProofScoreF64.format_pow; lia).
      rewrite Rlt_bool_true in C; [rewrite (proj1 C); reflexivity|]. rewrite Rabs_pos_eq by apply bpow_ge_0. apply bpow_lt. lia. }
    split.
    - rewrite <- E4. apply ProofInt.finite_leb; vm_compute; reflexivity.
    - rewrite <- Vh. apply ProofInt.finite_leb; vm_compute; reflexivity. }
  destruct Vp as [Fp Vp].
  destruct (minus_value one p eq_refl Fp) as [F1 V1]; [rewrite Bone_1; apply small_emax; rewrite Rabs_pos_eq; lra|]. rewrite Bone_1 in V1.
  destruct (minus_value zero p eq_refl Fp) as [F0 V0]; [apply small_emax; apply Rabs_le; cbn [B2R]; lra|].
  assert (V0' : B2R (Bminus mode_NE zero p) = - B2R p).
  { rewrite V0. change (B2R zero) with 0. rewrite Rminus_0_l. apply rnd_format, generic_format_opp, generic_format_B2R. }
  assert (V1' : / 2 <= B2R (Bminus mode_NE one p) <= 1).
  { rewrite V1. split.
    - rewrite <- Vh, <- (rnd_B2R half). apply rnd_le. lra.
    - apply Rle_trans with (rnd 1); [apply rnd_le; lra|right; exact rnd_1]. }
  assert (Hbd : forall x, In x a \/ In x b -> is_finite x = true /\ Rabs (B2R x) <= 1).
  { intros x Hx. unfold a, b in Hx. cbn [In] in Hx. assert (Hx' : x = Bminus mode_NE one p \/ x = Bminus mode_NE zero p) by (intuition auto).
    destruct Hx' as [-> | ->]; (split; [assumption|apply Rabs_le; lra]). }
  split; [|split; [|split; [|split]]].
  - intros l x Hl Hx. destruct Hl as [<-|[<-|[]]]; apply Hbd; auto.
  - split; [|cbn; lia]. assert (1 <= 2 ^ 400) by (apply pow_R1_Rle; lra). split; [rewrite <- Rinv_1; apply Rinv_le; lra|lra].
  - rewrite pair_gain. unfold a, b. cbn [map nth]. rewrite V0'. set (u := B2R (Bminus mode_NE one p)) in *. set (v := B2R p) in *.
    unfold real_gain_error. replace (INR 2) with 2 by (cbn; lra).
    assert (H53 : / 2 ^ 53 <= / 2 ^ 20) by (apply Rinv_le; [apply pow_lt; lra|apply Rle_pow; [lra|lia]]).
    assert (E20 : 2 ^ 20 = 1048576) by (rewrite pow_IZR; reflexivity). rewrite E20 in H53.
    assert (Hq : 9 / 16 <= (u - - v) * (u - - v)) by (replace (9 / 16) with (3 / 4 * (3 / 4)) by field; apply Rmult_le_compat; lra).
    assert (Hq2 : (u - - v) * (u - - v) = (- v - u) * (- v - u)) by ring.
    unfold Rdiv. lra.
  - destruct Hp as [-> | ->]; compute_eq.
  - destruct Hp as [-> | ->]; compute_eq.
Qed.

Definition first_p : f64 := @prob64 P [half; half] half.

Section Trained.
Context (n : nat) (m : @multi_class_boost_model O) (E : multi_class_boost_train pair_run cfg n rate = Ok m).

Lemma guess : m_initial_guess m = [half; half] /\ m_learning_rate m = rate /\ length (m_trees m) = n.
Proof.
  destruct (multi_class_shape (f64_laws P) 2 pair_run cfg n rate m (wf_labels _ _ _ run_wf) ltac:(lia) E) as (A & B & C).
  split; [exact C|]. auto.
Qed.

Lemma first_tree : (1 <= n)%nat -> exists t, nth_error (m_trees m) 0 = Some t /\
  find_leaf_node_for_data [zero] t = Ok (mkGL (Some [one; Bopp one])) /\
  find_leaf_node_for_data [one] t = Ok (mkGL (Some [Bopp one; one])).
Proof.
  intros Hn. destruct (multi_class_stage pair_run cfg n rate m 0 eq_refl E ltac:(lia)) as (scores & t & Hsc & HF & Ht & Eb).
  exists t. split; [exact Ht|]. destruct guess as (G & _ & _).
  assert (Er : forall row, multi_class_boost_raw (first_trees 0 m) row = Ok [half; half]).
  { intros row. destruct (multi_class_raw_sum (first_trees 0 m) row []) as (p & Ep & Lp & Hp); [constructor|].
    rewrite Ep. f_equal. unfold first_trees in Lp, Hp. cbn [m_initial_guess m_learning_rate] in Lp, Hp. rewrite G in Lp, Hp.
    pose proof (Hp 0%nat half eq_refl) as H0. pose proof (Hp 1%nat half eq_refl) as H1. cbn [fold_left] in H0, H1.
    destruct p as [|x [|y [|z p]]]; try discriminate. cbn [nth_error] in H0, H1. injection H0 as ->. injection H1 as ->. reflexivity. }
  assert (Esc : scores = [[half; half]; [half; half]]).
  { unfold pair_run, pair_data in Hsc. cbn [feature_rows mapM] in Hsc. rewrite !Er in Hsc. cbn [bind] in Hsc. now injection Hsc. }
  subst scores. cbn [map] in Eb. rewrite softmax_pair in Eb. fold first_p in Eb.
  change (grad_boost_tree_new (pair_data P [Bminus mode_NE one first_p; Bminus mode_NE zero first_p] [Bminus mode_NE zero first_p; Bminus mode_NE one first_p])
    cfg (leaf_output_calculator_new MultiClassClassification) = Ok t) in Eb.
  destruct (first_labels first_p (first_probability Hexp)) as (Hb & Ho & Hg & O1 & O2).
  destruct (pair_split P [Bminus mode_NE one first_p; Bminus mode_NE zero first_p] [Bminus mode_NE zero first_p; Bminus mode_NE one first_p] 1 cfg t eq_refl eq_refl Hb Ho Hs HK Hm Hg Eb) as [S0 S1].
  set (a := [Bminus mode_NE one first_p; Bminus mode_NE zero first_p]) in *. set (b := [Bminus mode_NE zero first_p; Bminus mode_NE one first_p]) in *.
  split.
  - etransitivity; [exact (pair_leaf P a b cfg t [zero] a eq_refl eq_refl ltac:(cbn; lia) Eb S0)|]. do 3 f_equal. exact O1.
  - etransitivity; [exact (pair_leaf P a b cfg t [one] b eq_refl eq_refl ltac:(cbn; lia) Eb S1)|]. do 3 f_equal. exact O2.
Qed.

Lemma first_scores : (1 <= n)%nat -> multi_class_boost_raw (first_trees 1 m) [zero] = Ok [top; bottom] /\
  multi_class_boost_raw (first_trees 1 m) [one] = Ok [bottom; top].
Proof.
  intros Hn. destruct (first_tree Hn) as (t & Ht & L0 & L1). destruct guess as (G & R & _).
  assert (Ef : m_trees (first_trees 1 m) = [t]).
  { unfold first_trees. cbn [m_trees]. destruct (m_trees m) as [|t' ts]; [discriminate|]. cbn in Ht. injection Ht as ->. reflexivity. }
  assert (Er : forall row o, find_leaf_node_for_data row t = Ok (mkGL (Some o)) -> length o = 2%nat ->
    multi_class_boost_raw (first_trees 1 m) row =
    Ok [Bplus mode_NE half (Bmult mode_NE rate (nth 0 o zero)); Bplus mode_NE half (Bmult mode_NE rate (nth 1 o zero))]).
  { intros row o Lo Ln. destruct (multi_class_raw_sum (first_trees 1 m) row [o]) as (p & Ep & Lp & Hp).
    { rewrite Ef. constructor; [|constructor]. split; [exact Lo|]. unfold first_trees. cbn [m_initial_guess]. rewrite G, Ln. cbn. lia. }
    rewrite Ep. f_equal. unfold first_trees in Lp, Hp. cbn [m_initial_guess m_learning_rate] in Lp, Hp. rewrite G in Lp, Hp. rewrite R in Hp.
    pose proof (Hp 0%nat half eq_refl) as H0. pose proof (Hp 1%nat half eq_refl) as H1. cbn [fold_left] in H0, H1.
    destruct p as [|x [|y [|z p]]]; try discriminate. cbn [nth_error] in H0, H1. injection H0 as ->. injection H1 as ->. reflexivity. }
  split; [rewrite (Er _ _ L0 eq_refl)|rewrite (Er _ _ L1 eq_refl)]; cbn [nth]; rewrite score_up, score_down; reflexivity.
Qed.

Definition zero_residual : f64 := Bminus mode_NE one one.
Definition tiny_residual : f64 := Bminus mode_NE zero (@tiny P).

Lemma tiny_residual_value : is_finite tiny_residual = true /\ B2R tiny_residual = - B2R (@tiny P) /\ residual_like tiny_residual /\ 0 < Rabs (B2R tiny_residual) < 1.
Proof.
  destruct (tiny_facts Hexp) as (_ & Ft & Ht). pose proof (bpow_gt_0 radix2 (-190)) as H0. assert (H59 : b2 (-59) < 1) by (apply (bpow_lt radix2 (-59) 0); lia).
  destruct (minus_value zero tiny eq_refl Ft) as [F V]; [apply small_emax; apply Rabs_le; cbn [B2R]; lra|].
  change (B2R zero) with 0 in V. rewrite Rminus_0_l, (rnd_format (- B2R tiny)) in V by (apply generic_format_opp, generic_format_B2R).
  fold tiny_residual in F, V.
  split; [exact F|]. split; [exact V|]. assert (HA : Rabs (B2R tiny_residual) = B2R (@tiny P)) by (rewrite V, Rabs_Ropp, Rabs_pos_eq; lra).
  split; [|rewrite HA; lra]. split; [exact F|]. rewrite HA. split; [lra|]. right. apply Rle_trans with (b2 (-190)); [apply bpow_le; lia|lra].
Qed.

Lemma second_labels :
  let a := [zero_residual; tiny_residual] in let b := [tiny_residual; zero_residual] in
  bounded_labels (B2R (@tiny P)) (pair_data P a b) /\ ordinary_table (B2R (@tiny P)) (pair_data P a b) /\
  real_gain_error 2 2 (B2R (@tiny P)) <
    question_gain 2 (exact_question (@Question O 0 Bone)) (feature_rows (exact_data (pair_data P a b))) (real_values (pair_data P a b)).
Proof.
  intros a b. destruct tiny_residual_value as (F & V & _). destruct (tiny_facts Hexp) as (_ & Ft & Ht). pose proof (bpow_gt_0 radix2 (-190)) as H0.
  assert (Vz : is_finite zero_residual = true /\ B2R zero_residual = 0) by (split; vm_compute; reflexivity). destruct Vz as [Fz Vz].
  split; [|split].
  - intros l x Hl Hx. assert (Hx' : x = zero_residual \/ x = tiny_residual) by (destruct Hl as [<-|[<-|[]]]; cbn [In a b] in Hx; intuition auto).
    destruct Hx' as [-> | ->]; (split; [assumption|]); [rewrite Vz, Rabs_R0; lra|rewrite V, Rabs_Ropp, Rabs_pos_eq; lra].
  - split; [|cbn; lia]. assert (E4 : 2 ^ 400 = b2 400) by (rewrite pow_IZR; reflexivity). split.
    + rewrite E4, <- bpow_opp. apply Rle_trans with (b2 (-190)); [apply bpow_le; lia|tauto].
    + rewrite E4. apply Rle_trans with (b2 (-59)); [tauto|apply bpow_le; lia].
  - rewrite pair_gain. unfold a, b. cbn [map nth]. rewrite V, Vz. set (q := B2R (@tiny P)) in *. unfold real_gain_error. replace (INR 2) with 2 by (cbn; lra).
    assert (H53 : / 2 ^ 53 <= / 2 ^ 20) by (apply Rinv_le; [apply pow_lt; lra|apply Rle_pow; [lra|lia]]).
    assert (E20 : 2 ^ 20 = 1048576) by (rewrite pow_IZR; reflexivity). rewrite E20 in H53.
    assert (Hq : 0 < q * q) by (apply Rmult_lt_0_compat; lra).
    replace ((0 - - q) * (0 - - q) / 4 + (- q - 0) * (- q - 0) / 4) with (q * q * / 2) by field.
    replace (320 * (2 + 1) * (2 + 2) * (q * q) / 2 ^ 53) with (q * q * (3840 * / 2 ^ 53)) by (unfold Rdiv; ring).
    apply Rmult_lt_compat_l; lra.
Qed.

Lemma second_tree : (2 <= n)%nat -> exists t, nth_error (m_trees m) 1 = Some t /\
  mapM (multi_class_boost_raw (first_trees 1 m)) (feature_rows pair_run) = Ok [[top; bottom]; [bottom; top]] /\
  residual_data pair_run [[top; bottom]; [bottom; top]] = pair_data P [zero_residual; tiny_residual] [tiny_residual; zero_residual] /\
  @samples_like O _ [zero] t (residual_data pair_run [[top; bottom]; [bottom; top]]) = [([zero], [zero_residual; tiny_residual])] /\
  @samples_like O _ [one] t (residual_data pair_run [[top; bottom]; [bottom; top]]) = [([one], [tiny_residual; zero_residual])] /\
  find_leaf_node_for_data [zero] t = Ok (mkGL (Some (map (@class_output_of O 2 [[zero_residual; tiny_residual]]) (seq 0 2)))) /\
  find_leaf_node_for_data [one] t = Ok (mkGL (Some (map (@class_output_of O 2 [[tiny_residual; zero_residual]]) (seq 0 2)))).
Proof.
  intros Hn. destruct (first_scores ltac:(lia)) as [R0 R1].
  destruct (multi_class_stage pair_run cfg n rate m 1 eq_refl E ltac:(lia)) as (scores & t & Hsc & HF & Ht & Eb).
  exists t. split; [exact Ht|].
  assert (Esc : mapM (multi_class_boost_raw (first_trees 1 m)) (feature_rows pair_run) = Ok [[top; bottom]; [bottom; top]]).
  { exact (mapM_two _ _ _ _ _ R0 R1). }
  split; [exact Esc|]. rewrite Esc in Hsc. injection Hsc as <-.
  assert (Ed : residual_data pair_run [[top; bottom]; [bottom; top]] = pair_data P [zero_residual; tiny_residual] [tiny_residual; zero_residual]).
  { unfold residual_data. cbn [map]. rewrite !softmax_pair. destruct (sure Hexp) as [P1 P2]. destruct (tiny_facts Hexp) as (P3 & _).
    rewrite P1, P2, P3. reflexivity. }
  split; [exact Ed|]. fold (residual_data pair_run [[top; bottom]; [bottom; top]]) in Eb. rewrite Ed in Eb |- *.
  destruct second_labels as (Hb & Ho & Hg).
  destruct (pair_split P [zero_residual; tiny_residual] [tiny_residual; zero_residual] _ cfg t eq_refl eq_refl Hb Ho Hs HK Hm Hg Eb) as [S0 S1].
  split; [exact S0|]. split; [exact S1|]. split.
  - exact (pair_leaf P [zero_residual; tiny_residual] [tiny_residual; zero_residual] cfg t [zero] _ eq_refl eq_refl ltac:(cbn; lia) Eb S0).
  - exact (pair_leaf P [zero_residual; tiny_residual] [tiny_residual; zero_residual] cfg t [one] _ eq_refl eq_refl ltac:(cbn; lia) Eb S1).
Qed.

(** From the second iteration on, the score of every row's own class is NaN. *)
Lemma own_class_nan : (2 <= n)%nat -> forall row c, (row, c) = ([zero], 0%nat) \/ (row, c) = ([one], 1%nat) ->
  exists s p k, multi_class_boost_raw m row = Ok s /\ nth_error s c = Some (B754_nan : f64) /\
    multi_class_boost_predict m row = Ok p /\ @one_hot O 2 (N.of_nat k) p /\ ((exists v, In v s /\ @fltb O fninf v = true) -> k <> c).
Proof.
  intros Hn row c Hrc. destruct (second_tree Hn) as (t & Ht & Hsc & Ed & S0 & S1 & _).
  assert (Hrow : (1 <= length row)%nat /\ (c < 2)%nat) by (destruct Hrc as [H|H]; injection H as -> ->; cbn; lia).
  refine (nan_score P 1 2 pair_run cfg n rate m 1 t _ row c run_wf ltac:(lia) E ltac:(lia) Ht Hsc (proj1 Hrow) (proj2 Hrow) _).
  intros r y v Hin Hv. destruct Hrc as [H|H]; injection H as -> ->.
  - change (In (r, y) (@samples_like O _ [zero] t (residual_data pair_run [[top; bottom]; [bottom; top]]))) in Hin. rewrite S0 in Hin.
    destruct Hin as [H|[]]. injection H as <- <-. cbn [nth_error] in Hv. injection Hv as <-. split; vm_compute; reflexivity.
  - change (In (r, y) (@samples_like O _ [one] t (residual_data pair_run [[top; bottom]; [bottom; top]]))) in Hin. rewrite S1 in Hin.
    destruct Hin as [H|[]]. injection H as <- <-. cbn [nth_error] in Hv. injection Hv as <-. split; vm_compute; reflexivity.
Qed.

End Trained.

Lemma tiny_output : is_finite (output64 [tiny_residual] 2) = true /\ Rabs (B2R (output64 [tiny_residual] 2)) <= 4.
Proof.
  destruct tiny_residual_value as (F & V & HL & H01). destruct (tiny_facts Hexp) as (_ & Ft & Ht).
  pose proof (bpow_gt_0 radix2 (-190)) as H0. assert (H59 : b2 (-59) <= / 2) by (apply (bpow_le radix2 (-59) (-1)); lia).
  set (q := B2R (@tiny P)) in *.
  assert (HA : Rabs (B2R tiny_residual) = q) by (rewrite V, Rabs_Ropp, Rabs_pos_eq; lra).
  assert (HD : Rsum (map hill [tiny_residual]) = q * (1 - q)) by (cbn [map Rsum fold_right]; unfold hill; rewrite HA; ring).
  assert (HD0 : 0 < q * (1 - q)) by (apply Rmult_lt_0_compat; lra).
  destruct (output_error [tiny_residual] (Forall_cons _ HL (Forall_nil _)) ltac:(cbn; lia) 2 ltac:(lia) ltac:(cbn; lia)) as [Fo Eo].
  { rewrite HD. lra. }
  { discriminate. }
  split; [exact Fo|]. rewrite HD in Eo.
  assert (EN : Rsum (map B2R [tiny_residual]) = - q) by (cbn [map Rsum fold_right]; rewrite V; ring).
  assert (ET : Rsum (map (fun x => Rabs (B2R x)) [tiny_residual]) = q) by (cbn [map Rsum fold_right]; rewrite HA; ring).
  rewrite EN, ET in Eo. cbn [length] in Eo. replace (INR 1) with 1 in Eo by reflexivity. replace (INR 2) with 2 in Eo by (cbn; lra).
  assert (Hi : 1 <= / (1 - q) <= 2).
  { split; [rewrite <- Rinv_1; apply Rinv_le; lra|]. rewrite <- (Rinv_inv 2). apply Rinv_le; lra. }
  replace (- q / (q * (1 - q)) * ((2 - 1) / 2)) with (- / 2 * / (1 - q)) in Eo by (field; lra).
  replace (q / (q * (1 - q))) with (/ (1 - q)) in Eo by (field; lra).
  assert (H49 : 0 < b2 (-49) <= / 2) by (split; [apply bpow_gt_0|apply (bpow_le radix2 (-49) (-1)); lia]).
  assert (HB : b2 (-49) * (1 + 1) * / (1 - q) <= / 2 * 2 * 2) by (apply Rmult_le_compat; try lra; apply Rmult_le_pos; lra).
  apply Rabs_le_inv in Eo. apply Rabs_le. lra.
Qed.

(** The other class keeps a finite score after two iterations. *)
Lemma other_class_finite m : multi_class_boost_train pair_run cfg 2 rate = Ok m ->
  forall row c, (row, c) = ([zero], 0%nat) \/ (row, c) = ([one], 1%nat) ->
  exists s v, multi_class_boost_raw m row = Ok s /\ In v s /\ @fltb O fninf v = true.
Proof.
  intros E row c Hrc. destruct (guess 2 m E) as (G & R & Lt). destruct (first_tree 2 m E ltac:(lia)) as (t0 & Ht0 & A0 & A1).
  destruct (second_tree 2 m E ltac:(lia)) as (t1 & Ht1 & _ & _ & _ & _ & B0 & B1).
  assert (Et : m_trees m = [t0; t1]).
  { destruct (m_trees m) as [|x [|y [|z l]]]; try discriminate. cbn [nth_error] in Ht0, Ht1. congruence. }
  assert (Er : forall o0 o1, find_leaf_node_for_data row t0 = Ok (mkGL (Some o0)) -> find_leaf_node_for_data row t1 = Ok (mkGL (Some o1)) ->
    length o0 = 2%nat -> length o1 = 2%nat -> exists s, multi_class_boost_raw m row = Ok s /\ forall j, (j < 2)%nat ->
    nth_error s j = Some (Bplus mode_NE (Bplus mode_NE half (Bmult mode_NE rate (nth j o0 zero))) (Bmult mode_NE rate (nth j o1 zero)))).
  { intros o0 o1 L0 L1 N0 N1. destruct (multi_class_raw_sum m row [o0; o1]) as (p & Ep & Lp & Hp).
    { rewrite Et, G. constructor; [|constructor; [|constructor]]; (split; [assumption|]); [rewrite N0|rewrite N1]; cbn; lia. }
    exists p. split; [exact Ep|]. intros j Hj. rewrite G, R in Hp. refine (Hp j half _). destruct j as [|[|j]]; try reflexivity; lia. }
  assert (Hfin : exists s v, multi_class_boost_raw m row = Ok s /\ In v s /\
     v = Bplus mode_NE bottom (Bmult mode_NE rate (output64 [tiny_residual] 2))).
  { destruct Hrc as [H|H]; injection H as -> ->.
    - destruct (Er _ _ A0 B0 eq_refl eq_refl) as (s & Es & Hsj). exists s. eexists. split; [exact Es|]. split; [|reflexivity].
      specialize (Hsj 1%nat ltac:(lia)). cbn [nth] in Hsj. rewrite score_down in Hsj. exact (nth_error_In s 1 Hsj).
    - destruct (Er _ _ A1 B1 eq_refl eq_refl) as (s & Es & Hsj). exists s. eexists. split; [exact Es|]. split; [|reflexivity].
      specialize (Hsj 0%nat ltac:(lia)). cbn [nth] in Hsj. rewrite score_down in Hsj. exact (nth_error_In s 0 Hsj). }
  destruct Hfin as (s & v & Es & Hin & Ev). exists s, v. split; [exact Es|]. split; [exact Hin|]. apply finite_above_ninf. rewrite Ev.
  destruct tiny_output as [Fo Bo]. destruct rate_facts as [Fr Vr]. destruct bottom_facts as [Fb Vb]. destruct top_facts as (_ & Ht & _).
  set (o := output64 [tiny_residual] 2) in *.
  assert (HP : Rabs (B2R rate * B2R o) <= b2 8).
  { rewrite Rabs_mult. apply Rle_trans with (64 * 4); [apply Rmult_le_compat; try apply Rabs_pos; [rewrite Vr, Rabs_pos_eq; lra|exact Bo]|change (b2 8) with 256; lra]. }
  destruct (mult_value rate o Fr Fo) as [F1 V1]; [eapply pow_le_emax with (e := 8%Z); [lia|exact HP|lia]|].
  assert (HP2 : Rabs (B2R (Bmult mode_NE rate o)) <= b2 8).
  { rewrite V1. apply rnd_le_format; [apply ProofScoreF64.format_pow; lia|exact HP]. }
  apply (plus_value bottom (Bmult mode_NE rate o) Fb F1).
  eapply pow_le_emax with (e := 9%Z); [lia| |lia]. eapply Rle_trans; [apply Rabs_triang|]. change (b2 8) with 256 in HP2. change (b2 9) with 512.
  assert (Rabs (B2R bottom) <= 64) by (rewrite Vb; apply Rabs_le; lra). lra.
Qed.

Lemma one_hot_two k (v : list f64) : @one_hot O 2 (N.of_nat k) v -> v = match k with 0%nat => [one; zero] | _ => [zero; one] end.
Proof.
  intros (Hk & L & H). destruct v as [|x [|y [|z v]]]; try discriminate. pose proof (H 0%nat ltac:(lia)) as H0. pose proof (H 1%nat ltac:(lia)) as H1.
  cbn [nth_error] in H0, H1. destruct k as [|[|k]]; [| |lia]; cbn in H0, H1; injection H0 as ->; injection H1 as ->; reflexivity.
Qed.

(** Two rows, one per class: correct after one iteration, wrong after two. *)
Theorem collapse :
  (exists m r, multi_class_boost_train pair_run cfg 1 rate = Ok m /\ multi_class_boost_score m pair_run = Ok r /\ B2R (r : f64) = 1) /\
  (exists m r, multi_class_boost_train pair_run cfg 2 rate = Ok m /\ multi_class_boost_score m pair_run = Ok r /\ is_finite (r : f64) = true /\ B2R (r : f64) = 0) /\
  forall n m, (2 <= n)%nat -> multi_class_boost_train pair_run cfg n rate = Ok m ->
    (exists s, multi_class_boost_raw m [zero] = Ok s /\ nth_error s 0 = Some (B754_nan : f64)) /\
    (exists s, multi_class_boost_raw m [one] = Ok s /\ nth_error s 1 = Some (B754_nan : f64)).
Proof.
  assert (Lab : length (labels pair_run) = length (feature_rows pair_run)) by reflexivity.
  assert (Hfr : feature_rows pair_run <> []) by discriminate.
  assert (HN : (Z.of_nat (length (feature_rows pair_run)) <= 2 ^ 53)%Z) by (cbn; lia).
  assert (Tot : forall n, exists m, multi_class_boost_train pair_run cfg n rate = Ok m /\
    Forall (fun row => exists v, multi_class_boost_predict m row = Ok v) (feature_rows pair_run)).
  { intros n. destruct (multi_class_total_run (f64_laws P) 1 2 pair_run cfg n rate run_wf ltac:(lia) Hs HK ltac:(lia)) as (m & Em & Hp).
    exists m. split; [exact Em|]. apply Forall_forall. intros row Hr. destruct (Hp row) as (p & Ep & _); [|eauto].
    destruct Hr as [<-|[<-|[]]]; cbn; lia. }
  split; [|split].
  - destruct (Tot 1%nat) as (m & Em & HF). exists m.
    destruct (ProofScoreF64.ensemble_accuracy_f64 P pair_run (multi_class_boost_predict m) Lab Hfr HN HF) as (r & Er & _ & _ & _ & H1 & _).
    exists r. split; [exact Em|]. split; [exact Er|]. apply H1. apply (ProofScoreF64.correct_all P (multi_class_boost_predict m) pair_run Lab).
    assert (Ef : first_trees 1 m = m).
    { destruct (guess 1 m Em) as (_ & _ & L). destruct m as [ts g l]. unfold first_trees. cbn [m_trees m_initial_guess m_learning_rate] in *. f_equal.
      apply firstn_all2. lia. }
    destruct (first_scores 1 m Em ltac:(lia)) as [R0 R1]. rewrite Ef in R0, R1.
    destruct top_facts as (Ft & Ht & _). destruct bottom_facts as [Fb Vb].
    assert (Hlt : Bltb bottom top = true).
    { apply ProofInt.finite_ltb; auto. lra. }
    assert (Hlt' : Bltb top bottom = false).
    { destruct (Bltb top bottom) eqn:Eb; [|reflexivity]. apply ProofInt.finite_ltb in Eb; auto. lra. }
    assert (P0 : multi_class_boost_predict m [zero] = Ok [one; zero]).
    { destruct (multi_class_one_class (f64_laws P) m [zero] [top; bottom] R0 ltac:(discriminate)) as (c & v & Ev & Hv & Hc).
      assert (c = 0%nat).
      { destruct Hc as [(mx & Hmx & _ & Hall)|[-> _]]; [|reflexivity]. destruct c as [|[|c]]; [reflexivity| |destruct c; discriminate].
        cbn [nth_error] in Hmx. injection Hmx as <-. destruct (Hall 0%nat top eq_refl) as [H _]. change (Bltb bottom top = false) in H. congruence. }
      subst c. rewrite Ev. f_equal. exact (one_hot_two 0 v Hv). }
    assert (P1 : multi_class_boost_predict m [one] = Ok [zero; one]).
    { destruct (multi_class_one_class (f64_laws P) m [one] [bottom; top] R1 ltac:(discriminate)) as (c & v & Ev & Hv & Hc).
      assert (c = 1%nat).
      { destruct Hc as [(mx & Hmx & _ & Hall)|[_ H]].
        - destruct c as [|[|c]]; [|reflexivity|destruct c; discriminate].
          cbn [nth_error] in Hmx. injection Hmx as <-. destruct (Hall 1%nat top eq_refl) as [H _]. change (Bltb bottom top = false) in H. congruence.
        - pose proof (finite_above_ninf P top Ft) as H2. rewrite (H top ltac:(right; left; reflexivity)) in H2. discriminate. }
      subst c. rewrite Ev. f_equal. exact (one_hot_two 1 v Hv). }
    apply Forall_forall. intros p Hp. destruct Hp as [<-|[<-|[]]]; eexists; (split; [first [exact P0|exact P1]|vm_compute; reflexivity]).
  - destruct (Tot 2%nat) as (m & Em & HF). exists m.
    destruct (ProofScoreF64.ensemble_accuracy_f64 P pair_run (multi_class_boost_predict m) Lab Hfr HN HF) as (r & Er & Fr & _ & _ & _ & H0).
    exists r. split; [exact Em|]. split; [exact Er|]. split; [exact Fr|]. apply H0. apply (ProofScoreF64.correct_all P (multi_class_boost_predict m) pair_run Lab).
    assert (Wrong : forall row c y, (row, c) = ([zero], 0%nat) \/ (row, c) = ([one], 1%nat) -> @one_hot O 2 (N.of_nat c) y ->
       ~ row_correct (multi_class_boost_predict m) (row, y)).
    { intros row c y Hrc Hy (v & Ev & Heq). cbn [fst snd] in Ev, Heq.
      destruct (own_class_nan 2 m Em ltac:(lia) row c Hrc) as (s & p & k & Es & _ & Ep & Hp & Hk).
      destruct (other_class_finite m Em row c Hrc) as (s' & w & Es' & Hw). rewrite Es in Es'. injection Es' as <-.
      specialize (Hk ltac:(exists w; exact Hw)). rewrite Ep in Ev. injection Ev as <-.
      assert (Hk2 : (k < 2)%nat) by (destruct Hp as [Hlt _]; lia). assert (Hc2 : (c < 2)%nat) by (destruct Hy as [Hlt _]; lia).
      rewrite (one_hot_two k p Hp), (one_hot_two c y Hy) in Heq.
      destruct k as [|[|k]], c as [|[|c]]; try lia; vm_compute in Heq; discriminate. }
    apply Forall_forall. intros p Hp. destruct Hp as [<-|[<-|[]]]; [apply (Wrong [zero] 0%nat)|apply (Wrong [one] 1%nat)]; auto.
    + repeat split. intros [|[|i]] Hi; [reflexivity|reflexivity|lia].
    + repeat split. intros [|[|i]] Hi; [reflexivity|reflexivity|lia].
  - intros n m Hn Em. destruct (own_class_nan n m Em Hn [zero] 0 (or_introl eq_refl)) as (s & _ & _ & A & B & _).
    destruct (own_class_nan n m Em Hn [one] 1 (or_intror eq_refl)) as (s' & _ & _ & A' & B' & _). split; eauto.
Qed.

End Run.

Theorem collapse_exists (P : platform) :
  accurate_exp P ->
  let zero : f64 := B754_zero false in
  let one : f64 := Bone in
  let d := @mkDS (f64_ops P) [[zero]; [one]] [[one; zero]; [zero; one]] [[zero; one]] in
  exists lr : f64, is_finite lr = true /\ 31 < B2R lr < 61 /\
    forall cfg, standard cfg -> tc_number_of_classes cfg = 2%N -> (1 <= tc_max_levels cfg)%N ->
      (exists m r, multi_class_boost_train d cfg 1 lr = Ok m /\ multi_class_boost_score m d = Ok r /\ B2R (r : f64) = 1) /\
      (exists m r, multi_class_boost_train d cfg 2 lr = Ok m /\ multi_class_boost_score m d = Ok r /\ is_finite (r : f64) = true /\ B2R (r : f64) = 0) /\
      forall n m, (2 <= n)%nat -> multi_class_boost_train d cfg n lr = Ok m ->
        (exists s, multi_class_boost_raw m [zero] = Ok s /\ nth_error s 0 = Some (B754_nan : f64)) /\
        (exists s, multi_class_boost_raw m [one] = Ok s /\ nth_error s 1 = Some (B754_nan : f64)).
Proof.
  intros Hexp zero one d. exists rate. destruct rate_facts as [F V]. destruct top_facts as (_ & H & _).
  split; [exact F|]. split; [lra|]. intros cfg Hs HK Hm. exact (collapse P Hexp cfg Hs HK Hm).
Qed.
