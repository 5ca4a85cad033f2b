(** The split finder in binary64 on integer labels: its gain and question against exact arithmetic. *)
From Coq Require Import Reals Lra Lia ZArith Permutation Sorted.
From Flocq Require Import Core.
From Flocq Require Import IEEE754.BinarySingleNaN.
From Verif Require Import Base Num ModelCommon ModelTree Lib Spec F64 XR SpecExact SpecInt ProofReal ProofData ProofSort
  ProofSplit ProofSplit2 ProofSplitExact ProofScoreF64 ProofRound ProofError ProofScan ProofInt ProofTree2.
Local Open Scope R_scope.

(* ------------------------------------------------------------------ *)
(** ** The exact copy of a data set *)

Definition ex (r : list (f64 * nat)) : list (xr * nat) := map (fun p => (exact_value (fst p), snd p)) r.

Section Copy.
Context (P : platform).

Lemma exact_num x : @is_num (f64_ops P) x -> @is_num xr_ops (exact_value x).
Proof. unfold is_num. cbn [fleb f64_ops xr_ops]. now rewrite exact_leb. Qed.

Lemma exact_lt x y : xltb (exact_value x) (exact_value y) = Bltb x y.
Proof. unfold xltb. rewrite (proj2 (Bleb_swap_cmp x y)), !exact_leb. reflexivity. Qed.
Lemma exact_eq x y : xeqb (exact_value x) (exact_value y) = Beqb x y.
Proof. unfold xeqb. rewrite !exact_leb. symmetry. apply (feqb_fleb _ (f64_laws P)). Qed.

Lemma exact_wf nc nt (d : @dataset (f64_ops P)) : @wf_dataset (f64_ops P) nc nt d -> @wf_dataset xr_ops nc nt (exact_data d).
Proof.
  intros W. destruct (wf_columns _ _ _ W) as [Lc Ht]. constructor; unfold exact_data; cbn [feature_rows labels feature_columns].
  - pose proof (wf_nonempty _ _ _ W) as H. intros E. apply map_eq_nil in E. contradiction.
  - rewrite !map_length. apply (wf_lengths _ _ _ W).
  - apply Forall_map. eapply Forall_impl; [|exact (wf_rows _ _ _ W)]. intros r Hr. cbv beta in Hr. rewrite <- Hr. apply map_length.
  - apply Forall_map. eapply Forall_impl; [|exact (wf_labels _ _ _ W)]. intros r Hr. cbv beta in Hr. rewrite <- Hr. apply map_length.
  - split; [now rewrite map_length|]. intros j col Hj. rewrite nth_error_map in Hj.
    destruct (@nth_error (list f64) (feature_columns d) j) as [c|] eqn:Ec; cbn [option_map] in Hj; [|congruence]. assert (E0 : map exact_value c = col) by congruence. clear Hj. rewrite <- E0. clear E0 col.
    destruct (Ht _ _ Ec) as [Ll Hc]. rewrite !map_length. split; auto.
    intros i row Hi. rewrite nth_error_map in Hi. destruct (@nth_error (list f64) (feature_rows d) i) as [r|] eqn:Er; cbn [option_map] in Hi; [|congruence].
    assert (E0 : map exact_value r = row) by congruence. clear Hi. rewrite <- E0. clear E0 row. destruct (Hc _ _ Er) as [Hlt He]. split; [now rewrite map_length|].
    rewrite !nth_error_map. exact (f_equal (option_map exact_value) He).
  - apply Forall_map. eapply Forall_impl; [|exact (wf_nonan _ _ _ W)]. intros r Hr. apply Forall_map.
    eapply Forall_impl; [|exact Hr]. intros x. apply exact_num.
  - apply (wf_u32 _ _ _ W).
Qed.

Lemma exact_sorted col : Forall (@is_num (f64_ops P)) col ->
  @sorted_version xr_ops (map exact_value col) (ex (@the_sort (f64_ops P) col)).
Proof.
  intros Hn. destruct (the_sort_spec (f64_laws P) col Hn) as [_ [Pm S]]. split.
  - transitivity (ex (@value_positions (f64_ops P) col)); [now apply Permutation_map|].
    replace (@value_positions xr_ops (map exact_value col)) with (ex (@value_positions (f64_ops P) col)); [reflexivity|].
    apply nth_error_ext. intros i. unfold ex. rewrite nth_error_map.
    rewrite (@nth_error_value_positions (f64_ops P)), (@nth_error_value_positions xr_ops), nth_error_map.
    change (@F (f64_ops P)) with f64 in *. destruct (@nth_error f64 col i); reflexivity.
  - eapply StronglySorted_map; [|exact S]. intros [x i] [y i'] _ _ H. unfold pair_lt in *. cbn [fst snd] in *.
    change (@fltb xr_ops) with xltb. change (@feqb xr_ops) with xeqb. rewrite exact_lt, exact_eq. exact H.
Qed.

End Copy.

(* ------------------------------------------------------------------ *)
(** ** Gains *)

Section Gain.
Context (P : platform) (M : Z) (HM : (1 <= M)%Z).
Local Existing Instance f64_ops.
Local Remove Hints xr_ops : typeclass_instances.

Lemma gain_error_alt k : gain_error k M = ulp1 * IZR (M * M) * (4 * (INR k + 4) * (INR k + 4)).
Proof.
  unfold gain_error, ulp1, Rdiv. replace (/ 2 ^ 53) with (bpow radix2 (-53)); [ring|].
  change (-53)%Z with (Z.opp 53). rewrite bpow_opp. f_equal. rewrite (bpow_powerRZ radix2 53). change (IZR radix2) with 2. reflexivity.
Qed.

Lemma gain_ok k (tv l : f64) T L :
  (Z.of_nat k <= 2 ^ 40)%Z -> IZR (M * M) <= bpow radix2 53 ->
  is_finite tv = true -> is_finite l = true ->
  Rabs (B2R tv) <= 2 * INR k * IZR (M * M) -> Rabs (B2R l) <= 6 * INR k * IZR (M * M) ->
  Rabs (B2R tv - T) <= ulp1 * IZR (M * M) * (INR k * INR k + 7 * INR k + INR k * / 1000) ->
  Rabs (B2R l - L) <= ulp1 * IZR (M * M) * (3 * (INR k * INR k) + 14 * INR k + INR k * / 1000) ->
  is_finite (Bminus mode_NE tv l) = true /\ B2R (Bminus mode_NE tv l) = rnd (B2R tv - B2R l) /\
  Rabs (B2R (Bminus mode_NE tv l) - (T - L)) <= gain_error k M.
Proof.
  intros Hk HMM Ft Fl Bt Bl Et El. pose proof ulp1_pos as Hu. pose proof eta1_pos as Hh. pose proof (pos_INR k) as Hk0.
  pose proof (MM_pos M HM) as HM1.
  assert (Hb : Rabs (B2R tv - B2R l) <= 8 * INR k * IZR (M * M)).
  { eapply Rle_trans; [apply (Rabs_triang (B2R tv) (- B2R l))|]. rewrite Rabs_Ropp. lra. }
  assert (Hk40 : INR k <= bpow radix2 40).
  { rewrite INR_IZR_INZ. rewrite <- (IZR_Zpower radix2 40) by lia. apply IZR_le. exact Hk. }
  destruct (minus_value tv l Ft Fl) as [F V].
  { pose proof (rnd_error (B2R tv - B2R l)) as He.
    pose proof (Rmult_le_compat_l ulp1 _ _ (Rlt_le _ _ Hu) Hb) as Hb'.
    assert (Hsmall : ulp1 <= 1) by (pose proof ulp1_small; lra).
    assert (Hp : INR k * IZR (M * M) <= bpow radix2 93).
    { replace (bpow radix2 93) with (bpow radix2 40 * bpow radix2 53) by (rewrite <- bpow_plus; reflexivity).
      apply Rmult_le_compat; lra. }
    assert (H0 : 0 <= 8 * INR k * IZR (M * M)) by nra.
    assert (ulp1 * (8 * INR k * IZR (M * M)) <= 1 * (8 * INR k * IZR (M * M))) by (apply Rmult_le_compat_r; lra).
    assert (eta1 <= bpow radix2 93) by (apply bpow_le; lia).
    apply Rle_lt_trans with (17 * bpow radix2 93).
    - replace (rnd (B2R tv - B2R l)) with ((rnd (B2R tv - B2R l) - (B2R tv - B2R l)) + (B2R tv - B2R l)) by ring.
      eapply Rle_trans; [apply Rabs_triang|]. lra.
    - apply Rlt_trans with (bpow radix2 5 * bpow radix2 93); [|rewrite <- bpow_plus; apply bpow_lt; lia].
      change (bpow radix2 5) with 32. pose proof (bpow_gt_0 radix2 93). lra. }
  split; auto. split; auto.
  assert (E0 : Rabs (B2R tv - B2R l - (T - L)) <=
    ulp1 * IZR (M * M) * (INR k * INR k + 7 * INR k + INR k * / 1000) +
    ulp1 * IZR (M * M) * (3 * (INR k * INR k) + 14 * INR k + INR k * / 1000)).
  { replace (B2R tv - B2R l - (T - L)) with ((B2R tv - T) + - (B2R l - L)) by ring.
    eapply Rle_trans; [apply Rabs_triang|]. rewrite Rabs_Ropp. lra. }
  pose proof (step_error _ _ _ _ _ E0 Hb V) as E1.
  pose proof (eta_MM M HM 1) as He1. cbn [INR] in He1.
  rewrite gain_error_alt.
  assert (0 <= ulp1 * IZR (M * M)) by nra.
  assert (0 <= ulp1 * IZR (M * M) * INR k) by nra.
  eapply Rle_trans; [exact E1|].
  replace (ulp1 * IZR (M * M) * (4 * (INR k + 4) * (INR k + 4))) with
    (4 * (ulp1 * IZR (M * M) * (INR k * INR k)) + 32 * (ulp1 * IZR (M * M) * INR k) + 64 * (ulp1 * IZR (M * M))) by ring.
  lra.
Qed.

(* ------------------------------------------------------------------ *)
(** ** One column *)

Definition frow (p : f64 * list Z) : @F (f64_ops P) * list (@F (f64_ops P)) := (fst p, map f64_of_Z (snd p)).

Lemma skipn_nth {A} (l : list A) i x : nth_error l i = Some x -> skipn i l = x :: skipn (S i) l.
Proof. revert i. induction l as [|y l IH]; intros [|i] H; try discriminate; cbn in *; [congruence|]. auto. Qed.

Lemma scan_tracks k total (all : list (f64 * list Z)) :
  fits M (map snd all) -> rectangular k (map snd all) -> tracks64 P k total (map snd all) ->
  forall i, (i <= length all)%nat ->
    tracks64 P k (left_at k (map frow all) i) (firstn i (map snd all)) /\
    tracks64 P k (right_at total (map frow all) i) (skipn i (map snd all)).
Proof.
  intros Hf Hr Ht. induction i as [|i IH]; intros Hi.
  - split; [apply tracks64_zero|exact Ht].
  - destruct IH as [IL IR]; [lia|].
    destruct (nth_error all i) as [[v l]|] eqn:E; [|apply nth_error_None in E; lia].
    assert (E' : nth_error (map snd all) i = Some l) by (rewrite nth_error_map, E; reflexivity).
    assert (E2 : nth_error (map frow all) i = Some (frow (v, l))) by (rewrite nth_error_map, E; reflexivity).
    assert (Hl : length l = k) by (unfold rectangular in Hr; rewrite Forall_forall in Hr; apply Hr; eapply nth_error_In; eauto).
    unfold left_at, right_at. rewrite (firstn_snoc _ _ _ E2), map_app, !fold_left_app.
    fold (left_at k (map frow all) i) (right_at total (map frow all) i). cbn [map snd frow fold_left].
    rewrite (firstn_snoc _ _ _ E'). split.
    + apply (tracks64_pleft P M HM); auto. rewrite <- (firstn_snoc _ _ _ E').
      apply (fits_app_l M _ (skipn (S i) (map snd all))). now rewrite firstn_skipn.
    + apply (tracks64_pright P M HM); auto.
      * now rewrite <- (skipn_nth _ _ _ E').
      * rewrite <- (skipn_nth _ _ _ E'). apply (fits_app_r M (firstn i (map snd all))). now rewrite firstn_skipn.
Qed.

Lemma loss_at_eq k total (all : list (f64 * list Z)) i :
  fits M (map snd all) -> rectangular k (map snd all) -> tracks64 P k total (map snd all) -> (0 < i < length all)%nat ->
  loss_at k total (map frow all) i = fsum (losses k (firstn i (map snd all)) (skipn i (map snd all))).
Proof.
  intros Hf Hr Ht Hi. destruct (scan_tracks k total all Hf Hr Ht i) as [HL HR]; [lia|].
  apply (tracks64_ploss P); auto.
  - intros E. apply (f_equal (@length _)) in E. rewrite firstn_length, map_length in E. cbn in E. lia.
  - intros E. apply (f_equal (@length _)) in E. rewrite skipn_length, map_length in E. cbn in E. lia.
Qed.

Lemma loss_at_ok k total (all : list (f64 * list Z)) i :
  fits M (map snd all) -> rectangular k (map snd all) -> tracks64 P k total (map snd all) -> (0 < i < length all)%nat ->
  (Z.of_nat k <= 2 ^ 40)%Z ->
  is_finite (loss_at k total (map frow all) i) = true /\
  Rabs (B2R (loss_at k total (map frow all) i)) <= 6 * INR k * IZR (M * M) /\
  Rabs (B2R (loss_at k total (map frow all) i) -
        remaining_variance k (rz (firstn i (map snd all))) (rz (skipn i (map snd all)))) <=
    ulp1 * IZR (M * M) * (3 * (INR k * INR k) + 14 * INR k + INR k * / 1000).
Proof.
  intros Hf Hr Ht Hi Hk. rewrite loss_at_eq by auto. apply (cut_ok P M HM); auto.
  - now rewrite firstn_skipn.
  - intros E. apply (f_equal (@length _)) in E. rewrite firstn_length, map_length in E. cbn in E. lia.
  - intros E. apply (f_equal (@length _)) in E. rewrite skipn_length, map_length in E. cbn in E. lia.
Qed.

Definition zrow (zs : list (list Z)) (r : list (f64 * nat)) : list (f64 * list Z) :=
  map (fun p => (fst p, nth (snd p) zs [])) r.

Lemma vls_zrow zs r : vls_of (fz zs) r = map frow (zrow zs r).
Proof.
  unfold vls_of, zrow. rewrite map_map. apply map_ext. intros [v i]. unfold frow. cbn [fst snd]. f_equal.
  unfold fz. change (@nil (@F (f64_ops P))) with (map f64_of_Z []). apply map_nth.
Qed.

Lemma zrow_ex zs r : rz (map snd (zrow zs r)) = labels_in_order (rz zs) (ex r).
Proof.
  unfold rz at 1, zrow, labels_in_order, ex. rewrite !map_map. apply map_ext. intros [v i]. cbn [fst snd].
  unfold rz. change (@nil R) with (map IZR []). symmetry. apply map_nth.
Qed.

Lemma zrow_perm zs (col : list f64) r : @sorted_version (f64_ops P) col r -> length col = length zs ->
  Permutation zs (map snd (zrow zs r)).
Proof.
  intros [Hp _] L. unfold zrow. rewrite map_map. cbn [snd]. rewrite <- (map_map snd (fun i => nth i zs [])).
  pose proof (Permutation_map snd Hp) as H. rewrite ProofSort.value_positions_snd in H.
  assert (H' : Permutation (map snd r) (seq 0 (length zs))) by (rewrite <- L; exact H). clear H.
  rewrite H', map_nth_seq_all. reflexivity.
Qed.

Lemma rz_firstn i zs : rz (firstn i zs) = firstn i (rz zs).
Proof. unfold rz. now rewrite firstn_map. Qed.
Lemma rz_skipn i zs : rz (skipn i zs) = skipn i (rz zs).
Proof. unfold rz. now rewrite skipn_map. Qed.

(** The sorted column of the exact copy, and the cuts considered in it. *)
Lemma considered_ex nc nt d j (col : list f64) r' i v' : @wf_dataset (f64_ops P) nc nt d ->
  @nth_error (list f64) (feature_columns d) j = Some col -> considered (exact_data d) j r' i v' ->
  r' = ex (@the_sort (f64_ops P) col) /\ exists m v, hd_error (@the_sort (f64_ops P) col) = Some m /\ v' = exact_value v /\ (0 < i)%nat /\
    (exists id, nth_error (@the_sort (f64_ops P) col) i = Some (v, id)) /\ feqb v (fst m) = false.
Proof.
  intros W Hj ((col' & Hj' & HS) & id & m' & Hi & Hm & Hlt).
  assert (Ec : col' = map exact_value col).
  { unfold exact_data in Hj'. cbn [feature_columns] in Hj'. rewrite nth_error_map in Hj'.
    assert (Hj2 : option_map (map exact_value) (@nth_error (list f64) (feature_columns d) j) = Some col') by exact Hj'.
    rewrite Hj in Hj2. cbn in Hj2. congruence. }
  subst col'.
  assert (Hn : Forall (@is_num (f64_ops P)) col).
  { eapply (@wf_column_num (f64_ops P)); eauto. eapply nth_error_In. exact Hj. }
  assert (Er : r' = ex (@the_sort (f64_ops P) col)) by (eapply (sorted_version_unique xr_laws); [exact HS|now apply exact_sorted]).
  split; [exact Er|]. subst r'. unfold ex in Hi, Hm. rewrite nth_error_map in Hi.
  destruct (@nth_error (f64 * nat) (@the_sort (f64_ops P) col) i) as [[v id0]|] eqn:Ei.
  2:{ discriminate Hi. }
  cbn [option_map fst snd] in Hi. rename Hi into Hx.
  assert (Ev : v' = exact_value v) by congruence. clear Hx. subst v'.
  destruct (@the_sort (f64_ops P) col) as [|m r] eqn:Es; [discriminate|]. cbn [map hd_error] in Hm.
  assert (Em : m' = (exact_value (fst m), snd m)) by (injection Hm as <-; reflexivity). subst m'. cbn [fst] in Hlt. rewrite exact_lt in Hlt.
  exists m, v. split; [reflexivity|]. split; [reflexivity|].
  assert (Hneq : feqb v (fst m) = false).
  { rewrite (feqb_fleb _ (f64_laws P)). change (@fleb (f64_ops P)) with (@Bleb 53 1024).
    rewrite (proj2 (Bleb_swap_cmp (fst m) v)) in Hlt. apply andb_true_iff in Hlt as [_ Hlt]. apply negb_true_iff in Hlt.
    now rewrite Hlt. }
  split; [|split; [exists id0; exact Ei|exact Hneq]].
  destruct i; [|lia]. cbn [nth_error] in Ei. injection Ei as ->. cbn [fst] in Hlt.
  rewrite (proj2 (Bleb_swap_cmp v v)), andb_negb_r in Hlt. discriminate.
Qed.

Lemma considered_back nc nt d j (col : list f64) i m v id : @wf_dataset (f64_ops P) nc nt d ->
  @nth_error (list f64) (feature_columns d) j = Some col ->
  hd_error (@the_sort (f64_ops P) col) = Some m -> nth_error (@the_sort (f64_ops P) col) i = Some (v, id) -> feqb v (fst m) = false ->
  (0 < i)%nat /\ considered (exact_data d) j (ex (@the_sort (f64_ops P) col)) i (exact_value v).
Proof.
  intros W Hj Hm Hi Hneq.
  assert (Hn : Forall (@is_num (f64_ops P)) col).
  { eapply (@wf_column_num (f64_ops P)); eauto. eapply nth_error_In. exact Hj. }
  pose proof (exact_sorted P col Hn) as HS.
  assert (Hm' : hd_error (ex (@the_sort (f64_ops P) col)) = Some (exact_value (fst m), snd m)).
  { unfold ex. destruct (@the_sort (f64_ops P) col); [discriminate|]. cbn [hd_error map] in *. injection Hm as ->. reflexivity. }
  assert (Hi' : nth_error (ex (@the_sort (f64_ops P) col)) i = Some (exact_value v, id)).
  { unfold ex. rewrite nth_error_map. exact (f_equal (option_map (fun p : f64 * nat => (exact_value (fst p), snd p))) Hi). }
  destruct (the_sort_spec (f64_laws P) col Hn) as [_ [Hperm _]].
  assert (Hvnum : is_num v).
  { pose proof (@value_positions_num (f64_ops P) col Hn) as HV. rewrite Forall_forall in HV. change v with (fst (v, id)). apply HV.
    eapply Permutation_in; [exact Hperm|]. eapply nth_error_In. exact Hi. }
  destruct (sorted_head_le _ _ i _ (proj2 HS) Hm' Hi') as [->|Hle].
  - exfalso. assert (E : Some m = Some (v, id)).
    { rewrite <- Hm, <- Hi. now destruct (@the_sort (f64_ops P) col). }
    injection E as ->. cbn [fst] in Hneq. rewrite (feqb_fleb _ (f64_laws P)) in Hneq. unfold is_num in Hvnum. rewrite Hvnum in Hneq. discriminate.
  - cbn [fst] in Hle. rewrite exact_leb in Hle. rewrite (feqb_fleb _ (f64_laws P)) in Hneq.
    change (@fleb (f64_ops P)) with (@Bleb 53 1024) in Hneq. rewrite Hle, andb_true_r in Hneq.
    assert (Hlt : xltb (exact_value (fst m)) (exact_value v) = true).
    { unfold xltb. rewrite !exact_leb, Hle, Hneq. reflexivity. }
    split.
    + destruct i; [|lia]. exfalso. assert (E : Some m = Some (v, id)).
      { rewrite <- Hm, <- Hi. now destruct (@the_sort (f64_ops P) col). }
      injection E as ->. cbn [fst] in *. congruence.
    + split.
      * exists (map exact_value col). split; [|exact HS]. unfold exact_data. cbn [feature_columns]. rewrite nth_error_map.
        exact (f_equal (option_map (map exact_value)) Hj).
      * exists id, (exact_value (fst m), snd m). auto.
Qed.

End Gain.
