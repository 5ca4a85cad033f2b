(** Rounding errors of ensemble predictions in binary64. *)
From Coq Require Import Reals Lra Lia ZArith.
From Flocq Require Import Core Relative.
From Flocq Require Import IEEE754.BinarySingleNaN.
From Verif Require Import Base Num F64 ModelCommon ModelTree ModelBoost Lib Spec SpecTree SpecExact SpecScore SpecFit SpecPredict ProofReal ProofRound ProofError ProofBoost ProofBoost2 ProofData ProofTree ProofTree3 ProofScore ProofScore3 ProofLeaf.
Local Open Scope R_scope.

Lemma pow_le_emax x e : (e < 1024)%Z -> Rabs x <= bpow radix2 e -> (-1074 <= e)%Z -> Rabs (rnd x) < bpow radix2 1024.
Proof.
  intros He Hx He'. eapply Rle_lt_trans; [apply rnd_le_format; [|exact Hx]|apply bpow_lt; exact He].
  now apply ProofScoreF64.format_pow.
Qed.

Lemma bpow_two e : bpow radix2 (e + 1) = 2 * bpow radix2 e.
Proof. rewrite bpow_plus. change (bpow radix2 1) with 2. ring. Qed.

(** Adding up terms that are themselves slightly off. *)
Section Sum.
Variables (c S h : R).
Hypotheses (Hc : 0 <= c <= 3) (HS : 0 <= S <= bpow radix2 1000) (Hh : eta1 <= h <= bpow radix2 900).

Let unit := (c + 3) * ulp1 * S + 3 * h.

Lemma count_small k : (Z.of_nat k <= 2 ^ 40)%Z -> ulp1 * INR k <= / 8192.
Proof.
  intros Hk. rewrite INR_IZR_INZ. apply IZR_le in Hk. change (2 ^ 40)%Z with (Zpower radix2 40) in Hk.
  rewrite IZR_Zpower in Hk by lia. pose proof ulp1_pos.
  apply Rle_trans with (ulp1 * bpow radix2 40); [apply Rmult_le_compat_l; lra|].
  unfold ulp1. rewrite <- bpow_plus. change (-53 + 40)%Z with (-13)%Z. change (bpow radix2 (-13)) with (/ IZR (Zpower radix2 13)).
  change (Zpower radix2 13) with 8192%Z. lra.
Qed.

Lemma accumulate (terms : list (f64 * R)) : forall (s : f64) (E : R) (k : nat),
  is_finite s = true -> Rabs (B2R s - E) <= INR k * unit ->
  Rabs E + Rsum (map (fun p => Rabs (snd p)) terms) <= S ->
  (Z.of_nat (k + length terms) <= 2 ^ 40)%Z ->
  Forall (fun p => is_finite (fst p) = true /\ Rabs (B2R (fst p) - snd p) <= c * ulp1 * Rabs (snd p) + h) terms ->
  let r := fold_left (fun s p => Bplus mode_NE s (fst p)) terms s in
  is_finite r = true /\ Rabs (B2R r - (E + Rsum (map snd terms))) <= INR (k + length terms) * unit.
Proof.
  pose proof ulp1_pos as Hu. pose proof ulp1_small as Hu'. pose proof eta1_pos as Hn.
  induction terms as [|[t x] terms IH]; intros s E k Fs He HE Hk Ht; cbn [fold_left map length fst snd].
  - rewrite Nat.add_0_r. cbn [Rsum fold_right]. rewrite Rplus_0_r. auto.
  - inversion Ht as [|? ? [Ft Hx] Ht']; subst. cbn [fst snd] in Ft, Hx. cbn [map snd] in HE. rewrite Rsum_cons in HE.
    assert (Hr : 0 <= Rsum (map (fun p : f64 * R => Rabs (snd p)) terms)).
    { apply Rsum_nonneg. intros y Hy. apply in_map_iff in Hy as (p & <- & _). apply Rabs_pos. }
    cbn [length] in Hk. assert (Hk' : ulp1 * INR k <= / 8192) by (apply count_small; lia).
    pose proof (Rabs_pos x) as Px. pose proof (Rabs_pos E) as PE.
    assert (Hcx : c * ulp1 * Rabs x <= c * ulp1 * S) by (apply Rmult_le_compat_l; [apply Rmult_le_pos; lra|lra]).
    assert (HuS : 0 <= ulp1 * S) by (apply Rmult_le_pos; lra).
    assert (Hcc : 0 <= c * ulp1 * S <= 3 * (ulp1 * S)) by (rewrite Rmult_assoc; split; [apply Rmult_le_pos; lra|apply Rmult_le_compat_r; lra]).
    assert (HU : unit <= 6 * (ulp1 * S) + 3 * h) by (unfold unit; lra).
    assert (HU0 : 0 <= unit) by (unfold unit; lra).
    assert (HeU : ulp1 * (INR k * unit) <= / 8192 * unit) by (rewrite <- Rmult_assoc; apply Rmult_le_compat_r; lra).
    assert (Hk1 : INR k * unit <= bpow radix2 40 * unit).
    { apply Rmult_le_compat_r; [exact HU0|]. rewrite INR_IZR_INZ, <- (IZR_Zpower radix2 40) by lia. apply IZR_le. change (Zpower radix2 40) with (2 ^ 40)%Z. lia. }
    assert (Hd : Rabs (B2R s + B2R t - (E + x)) <= INR k * unit + (c * ulp1 * Rabs x + h)).
    { replace (B2R s + B2R t - (E + x)) with ((B2R s - E) + (B2R t - x)) by ring.
      eapply Rle_trans; [apply Rabs_triang|]. lra. }
    assert (HEx : Rabs (E + x) <= S) by (eapply Rle_trans; [apply Rabs_triang|]; lra).
    assert (Hst : Rabs (B2R s + B2R t) <= S + INR k * unit + c * ulp1 * Rabs x + h).
    { replace (B2R s + B2R t) with ((B2R s + B2R t - (E + x)) + (E + x)) by ring.
      eapply Rle_trans; [apply Rabs_triang|]. lra. }
    assert (Hb : Rabs (B2R s + B2R t) <= bpow radix2 1002).
    { assert (B2 : bpow radix2 1002 = 4 * bpow radix2 1000).
      { change 1002%Z with (1000 + 1 + 1)%Z. rewrite !bpow_two. ring. }
      rewrite B2.
      assert (P40 : bpow radix2 40 * (ulp1 * S) <= / 8192 * bpow radix2 1000).
      { rewrite <- Rmult_assoc. apply Rle_trans with (bpow radix2 40 * ulp1 * bpow radix2 1000).
        - apply Rmult_le_compat_l; [apply Rmult_le_pos; [apply bpow_ge_0|lra]|lra].
        - apply Rmult_le_compat_r; [apply bpow_ge_0|]. unfold ulp1. rewrite <- bpow_plus.
          change (40 + -53)%Z with (-13)%Z. change (bpow radix2 (-13)) with (/ 8192). lra. }
      assert (Ph : bpow radix2 40 * h <= / 8192 * bpow radix2 1000).
      { apply Rle_trans with (bpow radix2 40 * bpow radix2 900); [apply Rmult_le_compat_l; [apply bpow_ge_0|lra]|].
        change (/ 8192) with (bpow radix2 (-13)). rewrite <- !bpow_plus. apply bpow_le. lia. }
      assert (Ph' : h <= / 8192 * bpow radix2 1000).
      { apply Rle_trans with (bpow radix2 900); [lra|].
        change (/ 8192) with (bpow radix2 (-13)). rewrite <- !bpow_plus. apply bpow_le. lia. }
      assert (PS : ulp1 * S <= / 8192 * bpow radix2 1000).
      { apply Rle_trans with (ulp1 * bpow radix2 1000); [apply Rmult_le_compat_l; lra|].
        apply Rmult_le_compat_r; [apply bpow_ge_0|]. change (/ 8192) with (bpow radix2 (-13)). apply bpow_le. lia. }
      assert (PU : bpow radix2 40 * unit <= 6 * (bpow radix2 40 * (ulp1 * S)) + 3 * (bpow radix2 40 * h)).
      { eapply Rle_trans; [apply Rmult_le_compat_l; [apply bpow_ge_0|exact HU]|]. lra. }
      pose proof (bpow_gt_0 radix2 1000). lra. }
    destruct (plus_value s t Fs Ft) as [Fp Vp]; [eapply pow_le_emax; [|exact Hb|]; lia|].
    replace (k + Datatypes.S (length terms))%nat with (Datatypes.S k + length terms)%nat in * by lia.
    rewrite Rsum_cons. rewrite <- Rplus_assoc. apply IH; auto.
    + rewrite Vp, S_INR. pose proof (rnd_error (B2R s + B2R t)) as Hre.
      replace (rnd (B2R s + B2R t) - (E + x)) with ((rnd (B2R s + B2R t) - (B2R s + B2R t)) + (B2R s + B2R t - (E + x))) by ring.
      eapply Rle_trans; [apply Rabs_triang|].
      assert (Hl : ulp1 * Rabs (B2R s + B2R t) <= ulp1 * S + / 8192 * unit + ulp1 * (3 * (ulp1 * S)) + ulp1 * h).
      { eapply Rle_trans; [apply Rmult_le_compat_l; [lra|exact Hst]|]. 
        assert (ulp1 * (c * ulp1 * Rabs x) <= ulp1 * (3 * (ulp1 * S))) by (apply Rmult_le_compat_l; lra). lra. }
      assert (Hq : ulp1 * (3 * (ulp1 * S)) <= / 1000 * (ulp1 * S)).
      { rewrite <- Rmult_assoc. apply Rmult_le_compat_r; lra. }
      assert (Hqh : ulp1 * h <= / 1000 * h) by (apply Rmult_le_compat_r; lra).
      unfold unit in *. lra.
    + eapply Rle_trans; [|exact HE]. pose proof (Rabs_triang E x). lra.
Qed.
End Sum.

Lemma size_member start rate l x : In x l -> Rabs (rate * x) <= weighted_size start rate l.
Proof.
  intros Hx. unfold weighted_size. pose proof (Rabs_pos start).
  enough (Rabs (rate * x) <= Rsum (map (fun x => Rabs (rate * x)) l)) by lra.
  induction l as [|y l IH]; [destruct Hx|]. cbn [map]. rewrite Rsum_cons.
  assert (0 <= Rsum (map (fun x => Rabs (rate * x)) l)).
  { apply Rsum_nonneg. intros z Hz. apply in_map_iff in Hz as (p & <- & _). apply Rabs_pos. }
  pose proof (Rabs_pos (rate * y)). destruct Hx as [->|Hx]; [lra|]. specialize (IH Hx). lra.
Qed.

Lemma size_nonneg start rate l : 0 <= weighted_size start rate l.
Proof.
  unfold weighted_size. pose proof (Rabs_pos start).
  assert (0 <= Rsum (map (fun x => Rabs (rate * x)) l)); [|lra].
  apply Rsum_nonneg. intros z Hz. apply in_map_iff in Hz as (p & <- & _). apply Rabs_pos.
Qed.

Lemma product_error (a b : f64) : is_finite a = true -> is_finite b = true -> Rabs (B2R a * B2R b) <= bpow radix2 1010 ->
  is_finite (Bmult mode_NE a b) = true /\
  Rabs (B2R (Bmult mode_NE a b) - B2R a * B2R b) <= ulp1 * Rabs (B2R a * B2R b) + eta1.
Proof.
  intros Fa Fb H. destruct (mult_value a b Fa Fb) as [F1 V1]; [eapply pow_le_emax; [|exact H|]; lia|].
  split; [exact F1|]. rewrite V1. apply rnd_error.
Qed.

Lemma fold_left_pairs {A B C} (f : A -> B -> A) (g : C -> B) (l : list C) : forall a,
  fold_left (fun s x => f s (g x)) l a = fold_left f (map g l) a.
Proof. induction l; intros; cbn; auto. Qed.

Lemma eta1_le_900 : eta1 <= bpow radix2 900.
Proof. apply bpow_le. lia. Qed.

(** Sums of rate times output. *)
Theorem ensemble_sum_error (rate start : f64) (outs : list f64) :
  is_finite rate = true -> is_finite start = true -> Forall (fun o => is_finite o = true) outs ->
  (Z.of_nat (length outs) <= 2 ^ 40)%Z ->
  weighted_size (B2R start) (B2R rate) (map B2R outs) <= bpow radix2 1000 ->
  let r := fold_left (fun s o => Bplus mode_NE s (Bmult mode_NE rate o)) outs start in
  is_finite r = true /\
  Rabs (B2R r - weighted_sum (B2R start) (B2R rate) (map B2R outs)) <=
    INR (length outs) * (bpow radix2 (-51) * weighted_size (B2R start) (B2R rate) (map B2R outs) + bpow radix2 (-1073)).
Proof.
  intros Fr Fs Fo Hl HS. cbv zeta. set (S := weighted_size _ _ _) in *.
  set (terms := map (fun o => (Bmult mode_NE rate o, B2R rate * B2R o)) outs).
  assert (Ef : fold_left (fun s o => Bplus mode_NE s (Bmult mode_NE rate o)) outs start =
    fold_left (fun s (p : f64 * R) => Bplus mode_NE s (fst p)) terms start).
  { unfold terms. clear. revert start. induction outs; intros; cbn [fold_left map fst]; auto. }
  rewrite Ef. pose proof (size_nonneg (B2R start) (B2R rate) (map B2R outs)) as HS0. fold S in HS0.
  pose proof eta1_le_900 as H9. pose proof ulp1_pos as Hu. pose proof eta1_pos as He.
  destruct (accumulate 1 S eta1 ltac:(lra) ltac:(lra) ltac:(lra) terms start (B2R start) 0%nat) as [F1 E1].
  - exact Fs.
  - rewrite Rminus_diag_eq by reflexivity. rewrite Rabs_R0. cbn [INR]. lra.
  - unfold S, weighted_size, terms. rewrite !map_map. cbn [snd]. lra.
  - unfold terms. rewrite map_length. exact Hl.
  - unfold terms. apply Forall_map, Forall_forall. intros o Ho. rewrite Forall_forall in Fo. cbn [fst snd].
    destruct (product_error rate o Fr (Fo o Ho)) as [F2 E2].
    + eapply Rle_trans; [apply (size_member (B2R start) (B2R rate) (map B2R outs)); now apply in_map|]. fold S.
      eapply Rle_trans; [exact HS|]. apply bpow_le. lia.
    + split; [exact F2|]. rewrite Rmult_1_l. exact E2.
  - split; [exact F1|]. unfold weighted_sum. unfold terms in E1 |- *. rewrite map_map in *. cbn [snd] in E1.
    rewrite map_length in E1. eapply Rle_trans; [exact E1|].
    cbn [Nat.add]. apply Rmult_le_compat_l; [apply pos_INR|].
    change (-51)%Z with (-53 + 1 + 1)%Z. change (-1073)%Z with (-1075 + 1 + 1)%Z. rewrite !bpow_two. fold ulp1 eta1. lra.
Qed.

Section Models.
Context {P : platform}.
Local Existing Instance f64_ops.
Notation F := (@F (f64_ops P)).
Set Default Proof Using "Type".

Lemma Forall_nth {A} (p : A -> Prop) (l : list A) j d : (j < length l)%nat -> Forall p l -> p (nth j l d).
Proof. intros Hj H. rewrite Forall_forall in H. apply H. now apply nth_In. Qed.

Theorem regression_error (m : regression_boost_model) (row : list F) (outs : list (list F)) (p : list F) (j : nat) (start : F) :
  Forall2 (fun t o => find_leaf_node_for_data row t = Ok (mkGL (Some o)) /\ (length (m_initial_guess m) <= length o)%nat)
    (m_trees m) outs ->
  regression_boost_predict m row = Ok p ->
  nth_error (m_initial_guess m) j = Some start ->
  is_finite (m_learning_rate m) = true -> is_finite start = true -> Forall (fun o => is_finite (nth j o f0) = true) outs ->
  (Z.of_nat (length outs) <= 2 ^ 40)%Z ->
  let contributions := map (fun o => B2R (nth j o f0)) outs in
  let size := weighted_size (B2R start) (B2R (m_learning_rate m)) contributions in
  size <= bpow radix2 1000 ->
  exists v, nth_error p j = Some v /\ is_finite v = true /\
    Rabs (B2R v - weighted_sum (B2R start) (B2R (m_learning_rate m)) contributions) <=
      INR (length outs) * (bpow radix2 (-51) * size + bpow radix2 (-1073)).
Proof.
  intros HF Hp Hs Fr Fs Fo Hl contributions size HS.
  destruct (regression_predict_sum m row outs HF) as (p' & Ep & _ & Hn). rewrite Hp in Ep. injection Ep as <-.
  specialize (Hn j start Hs). eexists. split; [exact Hn|].
  pose proof (ensemble_sum_error (m_learning_rate m) start (map (fun o => nth j o f0) outs)) as H.
  cbv zeta in H. unfold contributions, size in *. rewrite map_map in H. rewrite map_length in H.
  assert (Ef : fold_left (fun s o => fadd s (fmul (m_learning_rate m) (nth j o f0))) outs start =
    fold_left (fun s o => Bplus mode_NE s (Bmult mode_NE (m_learning_rate m) o)) (map (fun o : list F => nth j o f0) outs) start).
  { clear. revert start. induction outs; intros; cbn [fold_left map]; auto. }
  rewrite Ef. apply H; auto. apply Forall_map. exact Fo.
Qed.

Theorem multi_class_error (m : multi_class_boost_model) (row : list F) (outs : list (list F)) (p : list F) (j : nat) (start : F) :
  Forall2 (fun t o => find_leaf_node_for_data row t = Ok (mkGL (Some o)) /\ (length (m_initial_guess m) <= length o)%nat)
    (m_trees m) outs ->
  multi_class_boost_raw m row = Ok p ->
  nth_error (m_initial_guess m) j = Some start ->
  is_finite (m_learning_rate m) = true -> is_finite start = true -> Forall (fun o => is_finite (nth j o f0) = true) outs ->
  (Z.of_nat (length outs) <= 2 ^ 40)%Z ->
  let contributions := map (fun o => B2R (nth j o f0)) outs in
  let size := weighted_size (B2R start) (B2R (m_learning_rate m)) contributions in
  size <= bpow radix2 1000 ->
  exists v, nth_error p j = Some v /\ is_finite v = true /\
    Rabs (B2R v - weighted_sum (B2R start) (B2R (m_learning_rate m)) contributions) <=
      INR (length outs) * (bpow radix2 (-51) * size + bpow radix2 (-1073)).
Proof. exact (regression_error m row outs p j start). Qed.

Lemma share_error (v : f64) (k : nat) : is_finite v = true -> (2 <= k)%nat -> (Z.of_nat k <= 2 ^ 53)%Z ->
  let q := Bdiv mode_NE (Bopp v) (@fsub (f64_ops P) (@f_of_nat (f64_ops P) k) (@f1 (f64_ops P))) in
  is_finite q = true /\ Rabs (B2R q - - B2R v / (INR k - 1)) <= ulp1 * Rabs (- B2R v / (INR k - 1)) + eta1.
Proof.
  intros Fv Hk Hk'. cbv zeta.
  assert (Ek : @fsub (f64_ops P) (@f_of_nat (f64_ops P) k) (@f1 (f64_ops P)) = f64_of_Z (Z.of_nat k - 1)).
  { change (@f1 (f64_ops P)) with (Bone : f64). rewrite Bone_of_Z.
    change (@f_of_nat (f64_ops P) k) with (f64_of_Z (Z.of_nat k)). apply minus_Z; lia. }
  rewrite Ek. destruct (of_Z_exact (Z.of_nat k - 1)) as (V & Fk & _); [lia|].
  assert (Vk : B2R (f64_of_Z (Z.of_nat k - 1)) = INR k - 1) by (rewrite V, minus_IZR, INR_IZR_INZ; reflexivity).
  assert (H1 : 1 <= INR k - 1).
  { apply le_INR in Hk. cbn [INR] in Hk. lra. }
  assert (Hq : Rabs (- B2R v / (INR k - 1)) <= Rabs (B2R v)).
  { unfold Rdiv. rewrite Rabs_mult, Rabs_Ropp. rewrite <- (Rmult_1_r (Rabs (B2R v))) at 2.
    apply Rmult_le_compat_l; [apply Rabs_pos|]. rewrite Rabs_pos_eq.
    - rewrite <- Rinv_1. apply Rinv_le; lra.
    - left. apply Rinv_0_lt_compat. lra. }
  destruct (div_value (Bopp v) (f64_of_Z (Z.of_nat k - 1))) as [F1 V1].
  - now rewrite is_finite_Bopp.
  - rewrite Vk. lra.
  - rewrite B2R_Bopp, Vk. eapply Rle_lt_trans; [|apply (abs_B2R_lt_emax 53 1024 v)].
    apply rnd_le_format; [|exact Hq]. apply generic_format_abs, generic_format_B2R.
  - split; [exact F1|]. rewrite V1, B2R_Bopp, Vk. apply rnd_error.
Qed.

Lemma product_of_rounded (a b : f64) (q : R) : is_finite a = true -> is_finite b = true ->
  Rabs (B2R b - q) <= ulp1 * Rabs q + eta1 -> Rabs (B2R a * q) <= bpow radix2 1000 ->
  is_finite (Bmult mode_NE a b) = true /\
  Rabs (B2R (Bmult mode_NE a b) - B2R a * q) <= 3 * ulp1 * Rabs (B2R a * q) + (2 * Rabs (B2R a) + 1) * eta1.
Proof.
  intros Fa Fb Hb Hx. pose proof ulp1_pos as Hu. pose proof ulp1_small as Hu'. pose proof eta1_pos as He.
  pose proof (Rabs_pos (B2R a)) as Pa. pose proof (Rabs_pos (B2R a * q)) as Px.
  assert (H1 : Rabs (B2R a * B2R b - B2R a * q) <= ulp1 * Rabs (B2R a * q) + Rabs (B2R a) * eta1).
  { replace (B2R a * B2R b - B2R a * q) with (B2R a * (B2R b - q)) by ring. rewrite !Rabs_mult.
    eapply Rle_trans; [apply Rmult_le_compat_l; [exact Pa|exact Hb]|]. lra. }
  assert (H2 : Rabs (B2R a * B2R b) <= Rabs (B2R a * q) + ulp1 * Rabs (B2R a * q) + Rabs (B2R a) * eta1).
  { replace (B2R a * B2R b) with ((B2R a * B2R b - B2R a * q) + B2R a * q) by ring.
    eapply Rle_trans; [apply Rabs_triang|]. lra. }
  assert (Ha : Rabs (B2R a) * eta1 <= bpow radix2 (-51)).
  { apply Rle_trans with (bpow radix2 1024 * eta1).
    - apply Rmult_le_compat_r; [lra|]. left. apply abs_B2R_lt_emax.
    - unfold eta1. rewrite <- bpow_plus. apply bpow_le. lia. }
  assert (Hs : ulp1 * Rabs (B2R a * q) <= / 1000 * Rabs (B2R a * q)) by (apply Rmult_le_compat_r; lra).
  assert (H3 : Rabs (B2R a * B2R b) <= bpow radix2 1010).
  { assert (bpow radix2 (-51) <= bpow radix2 1000) by (apply bpow_le; lia).
    assert (4 * bpow radix2 1000 <= bpow radix2 1010).
    { change 4 with (bpow radix2 2). rewrite <- bpow_plus. apply bpow_le. lia. }
    pose proof (bpow_gt_0 radix2 1000). lra. }
  destruct (product_error a b Fa Fb H3) as [F1 E1]. split; [exact F1|].
  replace (B2R (Bmult mode_NE a b) - B2R a * q) with ((B2R (Bmult mode_NE a b) - B2R a * B2R b) + (B2R a * B2R b - B2R a * q)) by ring.
  eapply Rle_trans; [apply Rabs_triang|].
  assert (H4 : ulp1 * Rabs (B2R a * B2R b) <= ulp1 * (Rabs (B2R a * q) + ulp1 * Rabs (B2R a * q) + Rabs (B2R a) * eta1))
    by (apply Rmult_le_compat_l; lra).
  assert (H5 : ulp1 * (ulp1 * Rabs (B2R a * q)) <= / 1000 * (ulp1 * Rabs (B2R a * q))).
  { apply Rmult_le_compat_r; [apply Rmult_le_pos; lra|lra]. }
  assert (H6 : ulp1 * (Rabs (B2R a) * eta1) <= / 1000 * (Rabs (B2R a) * eta1)).
  { apply Rmult_le_compat_r; [apply Rmult_le_pos; lra|lra]. }
  assert (0 <= Rabs (B2R a) * eta1) by (apply Rmult_le_pos; lra).
  assert (0 <= ulp1 * Rabs (B2R a * q)) by (apply Rmult_le_pos; lra). lra.
Qed.

(** What a leaf that carries a value for its class contributes to the score of class [j] out of [k]. *)
Definition amg_share (k j : nat) (o : nat * F) : R :=
  if Nat.eqb j (fst o) then B2R (snd o) else - B2R (snd o) / (INR k - 1).

Theorem amg_error (m : amg_boost_model) (row : list F) (outs : list (nat * F)) (p : list F) (j : nat) (start : F) :
  let k := length (m_initial_guess m) in
  Forall2 (fun t o => find_leaf_node_for_data row t = Ok (mkAL (Some (snd o)) (Some (fst o))) /\ (fst o < k)%nat) (m_trees m) outs ->
  amg_boost_raw m row = Ok p ->
  nth_error (m_initial_guess m) j = Some start -> (2 <= k)%nat -> (Z.of_nat k <= 2 ^ 53)%Z ->
  is_finite (m_learning_rate m) = true -> is_finite start = true -> Forall (fun o => is_finite (snd o) = true) outs ->
  (Z.of_nat (length outs) <= 2 ^ 40)%Z ->
  let contributions := map (fun o => if Nat.eqb j (fst o) then B2R (snd o) else - B2R (snd o) / (INR k - 1)) outs in
  let size := weighted_size (B2R start) (B2R (m_learning_rate m)) contributions in
  size <= bpow radix2 1000 ->
  exists v, nth_error p j = Some v /\ is_finite v = true /\
    Rabs (B2R v - weighted_sum (B2R start) (B2R (m_learning_rate m)) contributions) <=
      INR (length outs) * (bpow radix2 (-50) * size + bpow radix2 (-1072) * (1 + Rabs (B2R (m_learning_rate m)))).
Proof.
  intros k HF Hp Hs Hk Hk' Fr Fs Fo Hl contributions S HS.
  change contributions with (map (amg_share k j) outs) in *. clear contributions.
  destruct (amg_raw_sum m row outs HF) as (p' & Ep & _ & Hn). rewrite Hp in Ep. injection Ep as <-.
  specialize (Hn j start Hs). eexists. split; [exact Hn|]. fold k.
  set (rate := m_learning_rate m) in *.
  set (comp := fun o : nat * F => if Nat.eqb j (fst o) then snd o
    else Bdiv mode_NE (Bopp (snd o)) (@fsub (f64_ops P) (@f_of_nat (f64_ops P) k) (@f1 (f64_ops P)))).
  set (terms := map (fun o => (Bmult mode_NE rate (comp o), B2R rate * amg_share k j o)) outs).
  assert (Ef : forall s, fold_left (fun s o => fadd s (fmul rate (if Nat.eqb j (fst o) then snd o
      else fdiv (fneg (snd o)) (fsub (f_of_nat k) f1)))) outs s =
    fold_left (fun s (p : f64 * R) => Bplus mode_NE s (fst p)) terms s).
  { unfold terms. clear. induction outs; intros; cbn [fold_left map fst]; auto. }
  rewrite Ef. pose proof (size_nonneg (B2R start) (B2R rate) (map (amg_share k j) outs)) as HS0. fold S in HS0.
  pose proof ulp1_pos as Hu. pose proof ulp1_small as Hu'. pose proof eta1_pos as He. pose proof (Rabs_pos (B2R rate)) as Pr.
  assert (Hrr : Rabs (B2R rate) * eta1 <= bpow radix2 (-51)).
  { apply Rle_trans with (bpow radix2 1024 * eta1).
    - apply Rmult_le_compat_r; [lra|]. left. apply abs_B2R_lt_emax.
    - unfold eta1. rewrite <- bpow_plus. apply bpow_le. lia. }
  assert (Hr0 : 0 <= Rabs (B2R rate) * eta1) by (apply Rmult_le_pos; lra).
  assert (Hh : eta1 <= (2 * Rabs (B2R rate) + 1) * eta1 <= bpow radix2 900).
  { split; [lra|]. assert (4 * bpow radix2 (-51) <= bpow radix2 900).
    { change 4 with (bpow radix2 2). rewrite <- bpow_plus. apply bpow_le. lia. }
    assert (eta1 <= bpow radix2 (-51)) by (apply bpow_le; lia). pose proof (bpow_gt_0 radix2 (-51)). lra. }
  destruct (accumulate 3 S _ ltac:(lra) ltac:(lra) Hh terms start (B2R start) 0%nat) as [F1 E1].
  - exact Fs.
  - rewrite Rminus_diag_eq by reflexivity. rewrite Rabs_R0. cbn [INR]. lra.
  - unfold S, weighted_size, terms. rewrite !map_map. cbn [snd]. lra.
  - unfold terms. rewrite map_length. exact Hl.
  - unfold terms. apply Forall_map, Forall_forall. intros o Ho. rewrite Forall_forall in Fo. cbn [fst snd].
    assert (Hx : Rabs (B2R rate * amg_share k j o) <= bpow radix2 1000).
    { eapply Rle_trans; [apply (size_member (B2R start) (B2R rate) (map (amg_share k j) outs)); now apply in_map|]. exact HS. }
    unfold comp, amg_share in *. destruct (Nat.eqb j (fst o)).
    + apply product_of_rounded; auto. rewrite Rminus_diag_eq by reflexivity. rewrite Rabs_R0.
      pose proof (Rabs_pos (B2R (snd o))) as Hz. pose proof (Rmult_le_pos _ _ (Rlt_le _ _ Hu) Hz). lra.
    + destruct (share_error (snd o) k (Fo o Ho) Hk Hk') as [F2 E2]. apply product_of_rounded; auto.
  - split; [exact F1|]. unfold weighted_sum. unfold terms in E1 |- *. rewrite map_map in *. cbn [snd] in E1.
    rewrite map_length in E1. eapply Rle_trans; [exact E1|].
    cbn [Nat.add]. apply Rmult_le_compat_l; [apply pos_INR|].
    change (-50)%Z with (-53 + 1 + 1 + 1)%Z. change (-1072)%Z with (-1075 + 1 + 1 + 1)%Z. rewrite !bpow_two. fold ulp1 eta1.
    assert (0 <= ulp1 * S) by (apply Rmult_le_pos; lra). lra.
Qed.

(* ------------------------------------------------------------------ *)
(** ** Averages *)

(** Entry [j] of every label, as real numbers. *)
Definition column (j : nat) (ls : list (list F)) : list R := map (fun l => B2R (nth j l f0)) ls.

Lemma entries_nth (ls : list (list F)) j : Forall (fun l => (j < length l)%nat) ls ->
  flat_map (fun l => match nth_error l j with Some x => [x] | None => [] end) ls = map (fun l => nth j l f0) ls.
Proof.
  induction 1 as [|l ls Hl _ IH]; [reflexivity|]. cbn [flat_map map]. rewrite (nth_error_nth' l f0 Hl), IH. reflexivity.
Qed.

Theorem average_error (ls : list (list F)) (j : nat) :
  ls <> [] -> Forall (fun l => (j < length l)%nat /\ is_finite (nth j l f0) = true) ls ->
  (Z.of_nat (length ls) <= 2 ^ 40)%Z -> Rsum (map Rabs (column j ls)) <= bpow radix2 1000 ->
  is_finite (average_of ls j) = true /\
  Rabs (B2R (average_of ls j) - mean (column j ls)) <=
    bpow radix2 (-51) * INR (length ls + 1) * mean (map Rabs (column j ls)) + bpow radix2 (-1072).
Proof.
  intros Hne Hj Hl HS. set (S := Rsum (map Rabs (column j ls))) in *.
  assert (HS0 : 0 <= S).
  { apply Rsum_nonneg. intros y Hy. apply in_map_iff in Hy as (z & <- & _). apply Rabs_pos. }
  pose proof ulp1_pos as Hu. pose proof ulp1_small as Hu'. pose proof eta1_pos as He. pose proof eta1_le_900 as H9.
  unfold average_of. rewrite entries_nth by (eapply Forall_impl; [|exact Hj]; intros l [H _]; exact H).
  set (terms := map (fun l : list F => (nth j l f0, B2R (nth j l f0))) ls).
  assert (Ef : forall s, fold_left fadd (map (fun l : list F => nth j l f0) ls) s =
    fold_left (fun s (p : f64 * R) => Bplus mode_NE s (fst p)) terms s).
  { unfold terms. clear. induction ls; intros; cbn [fold_left map fst]; auto. }
  rewrite Ef. set (n := length ls) in *.
  destruct (accumulate 0 S eta1 ltac:(lra) ltac:(lra) ltac:(lra) terms (f0 : F) 0 0%nat) as [F1 E1].
  - reflexivity.
  - change (B2R (f0 : F)) with 0. rewrite Rminus_diag_eq by reflexivity. rewrite Rabs_R0. cbn [INR]. lra.
  - rewrite Rabs_R0. unfold S, column, terms. rewrite !map_map. cbn [snd]. lra.
  - unfold terms. rewrite map_length. exact Hl.
  - unfold terms. apply Forall_map. eapply Forall_impl; [|exact Hj]. intros l [_ Fl]. cbn [fst snd]. split; [exact Fl|].
    rewrite Rminus_diag_eq by reflexivity. rewrite Rabs_R0. lra.
  - match type of F1 with is_finite ?x = true => set (s := x) in * end. rewrite Rplus_0_l in E1. unfold terms in E1. rewrite map_map, map_length in E1. cbn [snd Nat.add] in E1.
    change (map (fun x : list F => B2R (nth j x f0)) ls) with (column j ls) in E1. fold n in E1.
    assert (Hn : (1 <= n)%nat) by (unfold n; destruct ls; [congruence|cbn [length]; lia]).
    assert (H1 : 1 <= INR n) by (apply (le_INR 1); exact Hn).
    change (@f_of_nat (f64_ops P) n) with (f64_of_Z (Z.of_nat n)).
    destruct (of_Z_exact (Z.of_nat n)) as (V & Fk & _); [lia|]. rewrite <- INR_IZR_INZ in V.
    assert (Hsum : Rabs (Rsum (column j ls)) <= S).
    { unfold S. generalize (column j ls). intros l. induction l as [|y l IH]; cbn [map]; rewrite ?Rsum_cons; [cbn [Rsum fold_right]; rewrite Rabs_R0; lra|].
      eapply Rle_trans; [apply Rabs_triang|]. lra. }
    assert (Hs : Rabs (B2R s) <= S + INR n * ((0 + 3) * ulp1 * S + 3 * eta1)).
    { replace (B2R s) with ((B2R s - Rsum (column j ls)) + Rsum (column j ls)) by ring.
      eapply Rle_trans; [apply Rabs_triang|]. lra. }
    pose proof (count_small n Hl) as Hk.
    assert (Hin : 0 < / INR n <= 1) by (split; [apply Rinv_0_lt_compat; lra|rewrite <- Rinv_1; apply Rinv_le; lra]).
    assert (Hdiv : Rabs (B2R s / INR n) <= S / INR n + 3 * ulp1 * S + 3 * eta1).
    { unfold Rdiv. rewrite Rabs_mult, (Rabs_pos_eq (/ INR n)) by lra.
      eapply Rle_trans; [apply Rmult_le_compat_r; [lra|exact Hs]|].
      replace ((S + INR n * ((0 + 3) * ulp1 * S + 3 * eta1)) * / INR n) with (S * / INR n + 3 * ulp1 * S + 3 * eta1) by (field; lra). lra. }
    assert (HSn : 0 <= S / INR n <= S).
    { unfold Rdiv. split; [apply Rmult_le_pos; lra|]. rewrite <- (Rmult_1_r S) at 2. apply Rmult_le_compat_l; lra. }
    destruct (div_value s (f64_of_Z (Z.of_nat n)) F1) as [F2 V2].
    + rewrite V. lra.
    + rewrite V. eapply pow_le_emax with (e := 1010%Z); [lia| |lia]. eapply Rle_trans; [exact Hdiv|].
      assert (3 * ulp1 * S <= S) by (rewrite <- (Rmult_1_l S) at 2; apply Rmult_le_compat_r; lra).
      assert (eta1 <= bpow radix2 1000) by (apply bpow_le; lia).
      assert (8 * bpow radix2 1000 <= bpow radix2 1010).
      { change 8 with (bpow radix2 3). rewrite <- bpow_plus. apply bpow_le. lia. }
      lra.
    + split; [exact F2|].
      match goal with |- Rabs (B2R ?x - _) <= _ => change (B2R x) with (B2R (Bdiv mode_NE s (f64_of_Z (Z.of_nat n)))) end. rewrite V2, V.
      assert (Em : mean (column j ls) = Rsum (column j ls) / INR n) by (unfold mean, column; rewrite map_length; reflexivity).
      assert (Ea : mean (map Rabs (column j ls)) = S / INR n) by (unfold mean, column; rewrite !map_length; reflexivity).
      rewrite Em, Ea.
      replace (rnd (B2R s / INR n) - Rsum (column j ls) / INR n) with
        ((rnd (B2R s / INR n) - B2R s / INR n) + (B2R s - Rsum (column j ls)) / INR n) by (field; lra).
      eapply Rle_trans; [apply Rabs_triang|].
      pose proof (rnd_error (B2R s / INR n)) as Hre.
      assert (H2 : Rabs ((B2R s - Rsum (column j ls)) / INR n) <= 3 * ulp1 * S + 3 * eta1).
      { unfold Rdiv. rewrite Rabs_mult, (Rabs_pos_eq (/ INR n)) by lra.
        eapply Rle_trans; [apply Rmult_le_compat_r; [lra|exact E1]|]. right. field. lra. }
      assert (H3 : ulp1 * Rabs (B2R s / INR n) <= ulp1 * (S / INR n + 3 * ulp1 * S + 3 * eta1)) by (apply Rmult_le_compat_l; lra).
      assert (H4 : ulp1 * (3 * ulp1 * S) <= / 1000 * (ulp1 * S)).
      { replace (ulp1 * (3 * ulp1 * S)) with ((3 * ulp1) * (ulp1 * S)) by ring. apply Rmult_le_compat_r; [apply Rmult_le_pos; lra|lra]. }
      assert (H5 : ulp1 * (3 * eta1) <= eta1) by (apply Rle_trans with (1 * eta1); [rewrite <- Rmult_assoc; apply Rmult_le_compat_r; lra|lra]).
      assert (H6 : ulp1 * (S / INR n) * (INR n + 1) = ulp1 * S + ulp1 * (S / INR n)) by (field; lra).
      assert (0 <= ulp1 * (S / INR n)) by (apply Rmult_le_pos; lra).
      assert (0 <= ulp1 * S) by (apply Rmult_le_pos; lra).
      change (-51)%Z with (-53 + 1 + 1)%Z. change (-1072)%Z with (-1075 + 1 + 1 + 1)%Z. rewrite !bpow_two. fold ulp1 eta1.
      rewrite plus_INR. change (INR 1) with 1.
      replace (2 * (2 * ulp1) * (INR n + 1) * (S / INR n)) with (4 * (ulp1 * (S / INR n) * (INR n + 1))) by ring.
      rewrite H6. lra.
Qed.

(** The leaf that [row] reaches holds at least one training row. *)
Lemma group_facts nc nt (d : @dataset (f64_ops P)) cfg (t : tree_node regression_leaf) (row : list F) :
  wf_dataset nc nt d -> regression_tree_new d cfg = Ok t -> (nc <= length row)%nat ->
  map snd (samples_like row t d) <> [] /\ rectangular nt (map snd (samples_like row t d)).
Proof.
  intros W E Hr. rewrite regression_tree_new_eq in E. apply build_with_built in E.
  destruct (built_lookup cfg nc nt 0 d t row E W Hr) as (ld & _ & Es & Wl).
  assert (Hl : map snd (samples_like row t d) = labels ld).
  { change (samples_like row t d) with (filter (fun p => same_answers (path row t) row (fst p)) (samples d)). rewrite <- Es.
    apply map_snd_combine. now rewrite (wf_lengths _ _ _ Wl). }
  rewrite Hl. split; [|exact (wf_labels _ _ _ Wl)].
  intros E0. apply (wf_nonempty _ _ _ Wl). pose proof (wf_lengths _ _ _ Wl) as L. rewrite E0 in L. now apply length_zero_iff_nil.
Qed.

Lemma column_target j (ls : list (list F)) : column j ls = target j (map (map B2R) ls).
Proof.
  unfold column, target. rewrite map_map. apply map_ext. intros l. change 0 with (B2R (f0 : F)). symmetry. apply (map_nth B2R).
Qed.

Lemma tame_average nt (ls group : list (list F)) j : tame ls -> rectangular nt ls -> (j < nt)%nat -> group <> [] ->
  incl group ls -> (length group <= length ls)%nat -> (Z.of_nat (length ls) <= 2 ^ 40)%Z ->
  let ys := target j (map (map B2R) group) in
  is_finite (average_of group j) = true /\
  Rabs (B2R (average_of group j) - mean ys) <= bpow radix2 (-51) * INR (length group + 1) * mean (map Rabs ys) + bpow radix2 (-1072).
Proof.
  intros T R Hj Hne Hi Hle Hl ys.
  assert (Hg : Forall (fun l : list F => (j < length l)%nat /\ is_finite (nth j l f0 : f64) = true /\ Rabs (B2R (nth j l f0 : f64)) <= bpow radix2 900) group).
  { apply Forall_forall. intros l Hx. specialize (Hi l Hx). unfold tame in T. rewrite Forall_forall in T. specialize (T l Hi).
    unfold rectangular in R. rewrite Forall_forall in R. specialize (R l Hi). assert (Hj' : (j < length l)%nat) by (rewrite R; exact Hj).
    split; [exact Hj'|]. exact (Forall_nth _ l j f0 Hj' T). }
  unfold ys. rewrite <- column_target. apply average_error; auto.
  - eapply Forall_impl; [|exact Hg]. intros l (A & B & _). auto.
  - lia.
  - assert (Hs : Rsum (map Rabs (column j group)) <= INR (length group) * bpow radix2 900).
    { rewrite <- Rsum_map_const. unfold column. rewrite map_map. apply Rsum_map_le. intros l Hx.
      rewrite Forall_forall in Hg. now apply Hg. }
    eapply Rle_trans; [exact Hs|]. apply Rle_trans with (bpow radix2 40 * bpow radix2 900).
    + apply Rmult_le_compat_r; [apply bpow_ge_0|]. rewrite INR_IZR_INZ, <- (IZR_Zpower radix2 40) by lia. apply IZR_le.
      change (Zpower radix2 40) with (2 ^ 40)%Z. lia.
    + rewrite <- bpow_plus. apply bpow_le. lia.
Qed.

Lemma like_incl {L} (row : list F) (t : tree_node L) (d : @dataset (f64_ops P)) :
  incl (map snd (samples_like row t d)) (labels d) /\ (length (map snd (samples_like row t d)) <= length (labels d))%nat.
Proof.
  split.
  - intros l Hl. apply in_map_iff in Hl as ([r l'] & <- & Hp). apply filter_In in Hp as [Hp _].
    unfold samples in Hp. now apply in_combine_r in Hp.
  - rewrite map_length. unfold samples_like. eapply Nat.le_trans; [apply ProofScoreF64.filter_le|].
    unfold samples. rewrite combine_length. lia.
Qed.

Theorem tree_prediction_error nc nt (d : @dataset (f64_ops P)) cfg (t : tree_node regression_leaf) (row : list F) (j : nat) :
  wf_dataset nc nt d -> regression_tree_new d cfg = Ok t -> (nc <= length row)%nat -> (j < nt)%nat ->
  tame (labels d) -> (Z.of_nat (length (labels d)) <= 2 ^ 40)%Z ->
  let group := map snd (samples_like row t d) in
  let ys := target j (map (map B2R) group) in
  exists p v, tree_prediction row t = Ok p /\ nth_error p j = Some v /\ is_finite v = true /\
    Rabs (B2R v - mean ys) <= bpow radix2 (-51) * INR (length group + 1) * mean (map Rabs ys) + bpow radix2 (-1072).
Proof.
  intros W E Hr Hj T Hl group ys. rewrite (prediction_average nc nt d cfg t row W E Hr). fold group.
  destruct (group_facts nc nt d cfg t row W E Hr) as [Hne _]. destruct (like_incl row t d) as [Hi Hc].
  eexists _, (average_of group j). split; [reflexivity|]. split.
  - rewrite nth_error_map, (nth_error_nth' _ 0%nat) by now rewrite seq_length. rewrite seq_nth by exact Hj. reflexivity.
  - exact (tame_average nt (labels d) group j T (wf_labels _ _ _ W) Hj Hne Hi Hc Hl).
Qed.

Theorem leaf_output_error nc nt (d : @dataset (f64_ops P)) cfg (t : tree_node grad_boost_leaf) (row : list F) (j : nat) :
  wf_dataset nc nt d -> grad_boost_tree_new d cfg (leaf_output_calculator_new Regression) = Ok t -> (nc <= length row)%nat -> (j < nt)%nat ->
  tame (labels d) -> (Z.of_nat (length (labels d)) <= 2 ^ 40)%Z ->
  let group := map snd (samples_like row t d) in
  let ys := target j (map (map B2R) group) in
  exists p v, find_leaf_node_for_data row t = Ok (mkGL (Some p)) /\ nth_error p j = Some v /\ is_finite v = true /\
    Rabs (B2R v - mean ys) <= bpow radix2 (-51) * INR (length group + 1) * mean (map Rabs ys) + bpow radix2 (-1072).
Proof.
  intros W E Hr Hj T Hl group ys. rewrite (gb_regression_leaf nc nt d cfg t row W E Hr). fold group.
  destruct (gb_leaf_of_row nc nt d cfg Regression t row W E Hr) as (x & _ & Sx & Wx & _).
  destruct (like_incl row t d) as [Hi Hc].
  assert (Hne : group <> []).
  { unfold group. rewrite <- Sx. unfold samples. rewrite map_snd_combine by now rewrite (wf_lengths _ _ _ Wx).
    intros E0. apply (wf_nonempty _ _ _ Wx). pose proof (wf_lengths _ _ _ Wx) as L. rewrite E0 in L. now apply length_zero_iff_nil. }
  eexists _, (average_of group j). split; [reflexivity|]. split.
  - rewrite nth_error_map, (nth_error_nth' _ 0%nat) by now rewrite seq_length. rewrite seq_nth by exact Hj. reflexivity.
  - exact (tame_average nt (labels d) group j T (wf_labels _ _ _ W) Hj Hne Hi Hc Hl).
Qed.

Theorem initial_guess_error nt (d : @dataset (f64_ops P)) cfg n lr (m : regression_boost_model) (j : nat) :
  rectangular nt (labels d) -> labels d <> [] -> regression_boost_train d cfg n lr = Ok m -> (j < nt)%nat ->
  tame (labels d) -> (Z.of_nat (length (labels d)) <= 2 ^ 40)%Z ->
  let ys := target j (map (map B2R) (labels d)) in
  exists v, nth_error (m_initial_guess m) j = Some v /\ is_finite v = true /\
    Rabs (B2R v - mean ys) <= bpow radix2 (-51) * INR (length (labels d) + 1) * mean (map Rabs ys) + bpow radix2 (-1072).
Proof.
  intros R Hne E Hj T Hl ys. destruct (regression_shape nt d cfg n lr m R E) as (_ & _ & _ & Hg).
  exists (average_of (labels d) j). split; [exact (Hg j Hj)|].
  exact (tame_average nt (labels d) (labels d) j T R Hj Hne (incl_refl _) (Nat.le_refl _) Hl).
Qed.

End Models.
