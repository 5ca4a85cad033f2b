(** Proofs about the CSV entry points and the f64 cast. *)
From Coq Require Import Reals Lra.
From Flocq Require Import Core IEEE754.BinarySingleNaN.
From Verif Require Import Base Num ModelCommon Lib Spec ProofData ProofSort F64.
Local Open Scope nat_scope.

Section Csv.
Context {O : NumOps}.

Lemma read_one_hot_records f k d :
  read_csv_data_one_hot_multi_target (Some f) k = Ok d ->
  exists recs, csv_records f = map Some recs /\
    length (feature_rows d) = length recs /\ length (labels d) = length recs /\
    (forall i rec, nth_error recs i = Some rec ->
       exists row label v, rec = row ++ [label] /\ nth_error (feature_rows d) i = Some row /\
         nth_error (labels d) i = Some v /\ one_hot k (f_to_usize label) v) /\
    exists first, nth_error (feature_rows d) 0 = Some first /\
      is_transpose (length first) (feature_rows d) (feature_columns d).
Proof.
  unfold read_csv_data_one_hot_multi_target. intros H.
  destruct (csv_records_cases f) as [Hn|(recs & Hr)].
  - rewrite (read_data_None f Hn) in H. discriminate.
  - rewrite (read_data_Some f recs Hr) in H. cbn [bind unwrap] in H.
    inv_bind H. inv_bind H. inv_bind H. injection H as <-. cbn [feature_rows labels feature_columns].
    apply parse_Ok in E as (L1 & F2 & L2). apply create_multi_target_labels_Ok in E0.
    pose proof (Forall2_length _ _ _ E0) as L3.
    apply create_feature_columns_Ok in E1 as (first & Hf & _ & Ht).
    exists recs. split; [assumption|]. split; [lia|]. split; [lia|]. split; [|eauto].
    intros i rec Hi. apply Forall2_nth in F2 as [_ F2].
    assert (Hlt : i < length recs) by (apply nth_error_Some; congruence).
    destruct (nth_error (sd_features x) i) as [row|] eqn:Er; [|apply nth_error_None in Er; lia].
    destruct (nth_error (sd_labels x) i) as [label|] eqn:El; [|apply nth_error_None in El; lia].
    destruct (nth_error x0 i) as [v|] eqn:Ev; [|apply nth_error_None in Ev; lia].
    exists row, label, v. split; [|split; [reflexivity|split; [reflexivity|]]].
    + apply (F2 i rec (row, label)); auto. rewrite nth_error_combine, Er, El. reflexivity.
    + apply Forall2_nth in E0 as [_ E0]. eapply E0; eauto.
Qed.

Lemma read_single_records f d :
  read_csv_data (Some f) = Ok d <->
  exists recs, csv_records f = map Some recs /\
    length (sd_features d) = length recs /\ length (sd_labels d) = length recs /\
    forall i rec, nth_error recs i = Some rec ->
      exists row label, rec = row ++ [label] /\ nth_error (sd_features d) i = Some row /\
        nth_error (sd_labels d) i = Some label.
Proof.
  unfold read_csv_data. split.
  - intros H. destruct (csv_records_cases f) as [Hn|(recs & Hr)].
    + rewrite (read_data_None f Hn) in H. discriminate.
    + rewrite (read_data_Some f recs Hr) in H. cbn [bind unwrap] in H.
      apply parse_Ok in H as (L1 & F2 & L2). exists recs. repeat split; auto.
      intros i rec Hi. apply Forall2_nth in F2 as [_ F2].
      assert (Hlt : i < length recs) by (apply nth_error_Some; congruence).
      destruct (nth_error (sd_features d) i) as [row|] eqn:Er; [|apply nth_error_None in Er; lia].
      destruct (nth_error (sd_labels d) i) as [label|] eqn:El; [|apply nth_error_None in El; lia].
      exists row, label. repeat split.
      apply (F2 i rec (row, label)); auto. rewrite nth_error_combine, Er, El. reflexivity.
  - intros (recs & Hr & L1 & L2 & H). rewrite (read_data_Some f recs Hr). cbn [bind unwrap].
    apply parse_Ok. repeat split; auto. apply Forall2_nth. split.
    + rewrite combine_length. lia.
    + intros i rec p Hi Hp. destruct (H i rec Hi) as (row & label & -> & Er & El).
      rewrite nth_error_combine, Er, El in Hp. injection Hp as <-. reflexivity.
Qed.

Lemma scale_spec s v r :
  multiply_f64_slice_by_f64_scalar s v = r <->
  length r = length v /\ forall i x, nth_error v i = Some x -> nth_error r i = Some (fmul x s).
Proof.
  unfold multiply_f64_slice_by_f64_scalar. split.
  - intros <-. rewrite map_length. split; [reflexivity|]. intros i x Hi. now rewrite nth_error_map, Hi.
  - intros [L H]. apply nth_error_ext. intros i. rewrite nth_error_map.
    destruct (nth_error v i) as [x|] eqn:E; simpl.
    + symmetry. auto.
    + symmetry. apply nth_error_None. apply nth_error_None in E. lia.
Qed.

Lemma mean_squared_spec a b :
  (length a = length b ->
   exists sq, (length a = length b /\ length sq = length a /\
     forall i x y, nth_error a i = Some x -> nth_error b i = Some y -> nth_error sq i = Some (fsqr (fsub x y))) /\
     mean_sum_of_squared_differences_between_f64_slices a b = Ok (fdiv (fold_left fadd sq fsum0) (f_of_nat (length a)))) /\
  (length a <> length b -> mean_sum_of_squared_differences_between_f64_slices a b = Panic).
Proof.
  unfold mean_sum_of_squared_differences_between_f64_slices. split; intros H.
  - rewrite (proj2 (Nat.eqb_eq _ _) H). exists (map (fun p => fsqr (fsub (fst p) (snd p))) (combine a b)). split; [|reflexivity].
    split; [exact H|]. split; [rewrite map_length, combine_length; lia|]. intros i x y Hx Hy. now rewrite nth_error_map, nth_error_combine, Hx, Hy.
  - now rewrite (proj2 (Nat.eqb_neq _ _) H).
Qed.

Lemma read_one_hot_panics file k :
  match file with
  | None => True
  | Some f => In None (csv_records f) \/ In (Some []) (csv_records f) \/ csv_records f = []
  end -> read_csv_data_one_hot_multi_target file k = Panic.
Proof.
  unfold read_csv_data_one_hot_multi_target. destruct file as [f|]; [|reflexivity]. intros H.
  destruct (csv_records_cases f) as [Hn|(recs & Hr)].
  - now rewrite (read_data_None f Hn).
  - rewrite (read_data_Some f recs Hr). cbn [bind unwrap]. rewrite Hr in H.
    destruct H as [H|[H|H]].
    + exfalso. apply in_map_iff in H as (? & ? & _). discriminate.
    + apply in_map_iff in H as (r & Er & Hin). injection Er as ->.
      rewrite parse_eq.
      match goal with |- context [mapM ?g recs] => assert (Ep : mapM g recs = Panic) end.
      { apply mapM_Panic; [|exists []; split; auto].
        intros x _. destruct (vec_pop x) as [c [l|]]; simpl; discriminate. }
      rewrite Ep. reflexivity.
    + apply map_eq_nil in H. subst recs. reflexivity.
Qed.

Lemma read_one_hot_wf f k nc recs :
  csv_records f = map Some recs -> recs <> [] -> rectangular (S nc) recs ->
  (forall row label, In (row ++ [label]) recs -> (f_to_usize label < N.of_nat k)%N) ->
  exists d, read_csv_data_one_hot_multi_target (Some f) k = Ok d /\
    feature_rows d <> [] /\ length (labels d) = length (feature_rows d) /\
    rectangular nc (feature_rows d) /\ rectangular k (labels d) /\
    is_transpose nc (feature_rows d) (feature_columns d).
Proof.
  intros Hr Hne Hrect Hcl. unfold read_csv_data_one_hot_multi_target.
  rewrite (read_data_Some f recs Hr). cbn [bind unwrap]. clear Hr f.
  rewrite parse_eq.
  assert (Hsplit : exists ps, recs = map (fun p => fst p ++ [snd p]) ps /\ Forall (fun p => length (fst p) = nc) ps).
  { clear Hne Hcl. induction recs as [|r recs IH]; [exists []; auto|].
    inversion Hrect as [|? ? L Hrect']; subst. destruct (IH Hrect') as (ps & -> & Hps).
    destruct (@exists_last _ r) as (row & l & ->); [intros ->; discriminate|].
    exists ((row, l) :: ps). split; auto. constructor; auto. rewrite app_length in L. simpl in *. lia. }
  destruct Hsplit as (ps & -> & Hps).
  rewrite mapM_map.
  rewrite (mapM_pure _ (fun p => p)).
  2:{ intros [r l] _. now apply pop_Ok. }
  rewrite map_id. cbn [bind sd_features sd_labels].
  destruct (create_multi_target_labels (map snd ps) k) as [r| |] eqn:E.
  2:{ exfalso. apply create_multi_target_labels_Panic in E as (l & Hin & Hge).
      apply in_map_iff in Hin as ((row & l') & <- & Hin). specialize (Hcl row l'). simpl in Hge.
      assert (In (row ++ [l']) (map (fun p => fst p ++ [snd p]) ps)).
      { apply in_map_iff. exists (row, l'). auto. }
      specialize (Hcl H). lia. }
  2:{ now apply create_multi_target_labels_fuel in E. }
  cbn [bind]. apply create_multi_target_labels_Ok in E.
  assert (Hrows : map fst ps <> []) by (intros Eq; apply map_eq_nil in Eq; subst; now apply Hne).
  assert (Hrec : rectangular nc (map fst ps)).
  { unfold rectangular. rewrite Forall_map. exact Hps. }
  destruct (create_feature_columns_rect nc (map fst ps) Hrows Hrec) as (cols & Ec & Ht).
  rewrite Ec. cbn [bind]. eexists. split; [reflexivity|]. cbn [feature_rows labels feature_columns].
  split; auto. split; [rewrite <- (Forall2_length _ _ _ E), !map_length; auto|].
  split; auto. split; auto.
  clear -E. unfold rectangular. induction E as [|x y l l' H _ IH]; constructor; auto. apply H.
Qed.

Lemma read_two_files ff fl d :
  read_csv_data_multi_target (Some ff) (Some fl) = Ok d <->
  csv_records ff = map Some (feature_rows d) /\ csv_records fl = map Some (labels d) /\
  exists first, nth_error (feature_rows d) 0 = Some first /\
    Forall (fun r => length first <= length r) (feature_rows d) /\
    is_transpose (length first) (feature_rows d) (feature_columns d).
Proof.
  unfold read_csv_data_multi_target. split.
  - intros H. destruct (csv_records_cases ff) as [Hn|(rf & Hf)].
    { rewrite (read_data_None ff Hn) in H. discriminate. }
    rewrite (read_data_Some ff rf Hf) in H. cbn [bind unwrap] in H.
    destruct (csv_records_cases fl) as [Hn|(rl & Hl)].
    { rewrite (read_data_None fl Hn) in H. discriminate. }
    rewrite (read_data_Some fl rl Hl) in H. cbn [bind unwrap] in H.
    inv_bind H. injection H as <-. cbn. apply create_feature_columns_Ok in E. auto.
  - intros (Hf & Hl & Hc). rewrite (read_data_Some _ _ Hf), (read_data_Some _ _ Hl). cbn [bind unwrap].
    apply create_feature_columns_Ok in Hc. rewrite Hc. destruct d; reflexivity.
Qed.

Lemma read_two_files_panics file_f file_l :
  match file_f with None => True | Some f => In None (csv_records f) \/ csv_records f = [] end \/
  match file_l with None => True | Some f => In None (csv_records f) end ->
  read_csv_data_multi_target file_f file_l = Panic.
Proof.
  unfold read_csv_data_multi_target. intros H.
  destruct file_f as [ff|]; [|reflexivity].
  destruct (csv_records_cases ff) as [Hn|(rf & Hf)].
  { rewrite (read_data_None ff Hn). reflexivity. }
  rewrite (read_data_Some ff rf Hf). cbn [bind unwrap].
  destruct file_l as [fl|]; [|reflexivity].
  destruct (csv_records_cases fl) as [Hn|(rl & Hl)].
  { rewrite (read_data_None fl Hn). reflexivity. }
  rewrite (read_data_Some fl rl Hl). cbn [bind unwrap].
  rewrite Hf, Hl in H. destruct H as [[H|H]|H].
  - apply in_map_iff in H as (? & ? & _). discriminate.
  - apply map_eq_nil in H. subst. reflexivity.
  - apply in_map_iff in H as (? & ? & _). discriminate.
Qed.

Lemma get_feature_names_spec (file : option (csv_file)) :
  get_feature_names file = match file with Some f => Ok (csv_header f) | None => Panic end.
Proof.
  unfold get_feature_names. destruct file as [f|]; [|reflexivity]. cbn [bind unwrap].
  rewrite for_range_push, mapM_idx_seq. reflexivity.
Qed.

Lemma zip_with_spec f a b r :
  zip_with f a b = Ok r <->
  length a = length b /\ length r = length a /\
  forall i x y, nth_error a i = Some x -> nth_error b i = Some y -> nth_error r i = Some (f x y).
Proof.
  rewrite zip_with_Ok. split.
  - intros [L ->]. split; auto. split; [rewrite map2_length; lia|].
    intros i x y Ha Hb. now rewrite nth_error_map2, Ha, Hb.
  - intros (L & Lr & H). split; auto. apply nth_error_ext. intros i. rewrite nth_error_map2.
    destruct (nth_error a i) as [x|] eqn:Ea.
    + destruct (nth_error b i) as [y|] eqn:Eb; [eauto|].
      apply nth_error_None in Eb. assert (i < length a) by (apply nth_error_Some; congruence). lia.
    + apply nth_error_None. apply nth_error_None in Ea. lia.
Qed.

Lemma flat_map_column (vv : list (list F)) j col :
  Forall2 (fun v x => nth_error v j = Some x) vv col ->
  flat_map (fun v => match nth_error v j with Some x => [x] | None => [] end) vv = col.
Proof. induction 1 as [|v x vv col H _ IH]; simpl; auto. now rewrite H, IH. Qed.

Lemma sum_of_f64_vectors_spec vv k :
  vv <> [] -> rectangular k vv ->
  exists r, sum_of_f64_vectors vv = Ok r /\ length r = k /\
    forall j col, j < k -> Forall2 (fun v x => nth_error v j = Some x) vv col ->
      nth_error r j = Some (fold_left fadd col f0).
Proof.
  intros Hne Hr. exists (colsum k vv). split; [now apply sum_of_f64_vectors_eq|].
  split; [apply colsum_length; now apply rect_ge|].
  intros j col Hj Hc. rewrite colsum_nth; auto using rect_ge. now rewrite (flat_map_column _ _ _ Hc).
Qed.

Lemma calculate_average_spec vv first :
  nth_error vv 0 = Some first -> Forall (fun v => length first <= length v) vv ->
  exists r, calculate_average_f64_vector vv = Ok r /\ length r = length first /\
    forall j col, j < length first -> Forall2 (fun v x => nth_error v j = Some x) vv col ->
      nth_error r j = Some (fdiv (fold_left fadd col f0) (f_of_nat (length vv))).
Proof.
  intros Hf H. exists (colmean (length first) vv). split; [now apply calculate_average_f64_vector_Ok|].
  unfold colmean. split; [rewrite map_length; now apply colsum_length|].
  intros j col Hj Hc. rewrite nth_error_map, colsum_nth by auto. now rewrite (flat_map_column _ _ _ Hc).
Qed.

End Csv.

Lemma f64_to_usize_spec (x : f64) :
  (is_nan x = true -> f64_to_usize x = 0%N) /\
  (x = B754_infinity true -> f64_to_usize x = 0%N) /\
  (x = B754_infinity false -> f64_to_usize x = (2 ^ 64 - 1)%N) /\
  (is_finite x = true -> (B2R x < 1)%R -> f64_to_usize x = 0%N) /\
  (is_finite x = true -> (0 <= B2R x < IZR (2 ^ 64))%R ->
     (IZR (Z.of_N (f64_to_usize x)) <= B2R x < IZR (Z.of_N (f64_to_usize x)) + 1)%R) /\
  (is_finite x = true -> (IZR (2 ^ 64) <= B2R x)%R -> f64_to_usize x = (2 ^ 64 - 1)%N).
Proof.
  assert (HB : is_finite x = true -> Btrunc x = Ztrunc (B2R x)).
  { intros _. apply eq_IZR. rewrite (Btrunc_correct 53 1024 prec_lt_emax_53 x).
    rewrite round_FIX_IZR. reflexivity. }
  assert (HC : is_finite x = true -> f64_to_usize x = N.min (Z.to_N (Ztrunc (B2R x))) (2 ^ 64 - 1)).
  { intros Hf. rewrite <- HB by auto. destruct x; try discriminate; reflexivity. }
  split; [destruct x; try discriminate; reflexivity|].
  split; [intros ->; reflexivity|]. split; [intros ->; reflexivity|].
  split; [|split].
  - intros Hf Hx. rewrite HC by auto.
    assert (Ht : (Ztrunc (B2R x) <= 0)%Z).
    { destruct (Rle_or_lt 0 (B2R x)) as [H0|H0].
      - rewrite Ztrunc_floor by auto. apply Z.lt_succ_r. apply lt_IZR.
        eapply Rle_lt_trans; [apply Zfloor_lb|]. exact Hx.
      - rewrite Ztrunc_ceil by lra. apply Zceil_glb. simpl. lra. }
    replace (Z.to_N (Ztrunc (B2R x))) with 0%N by lia. reflexivity.
  - intros Hf [H0 H1]. rewrite HC by auto. rewrite Ztrunc_floor by auto.
    assert (Hz : (0 <= Zfloor (B2R x))%Z) by (apply Zfloor_lub; exact H0).
    assert (Hz1 : (Zfloor (B2R x) < 2 ^ 64)%Z).
    { apply lt_IZR. eapply Rle_lt_trans; [apply Zfloor_lb|exact H1]. }
    rewrite N.min_l by lia. rewrite Z2N.id by auto. split; [apply Zfloor_lb|].
    pose proof (Zfloor_ub (B2R x)). lra.
  - intros Hf H1. rewrite HC by auto.
    assert (H0 : (0 <= B2R x)%R) by (eapply Rle_trans; [|exact H1]; now apply IZR_le).
    rewrite Ztrunc_floor by auto.
    assert (Hz1 : (2 ^ 64 <= Zfloor (B2R x))%Z) by (apply Zfloor_lub; exact H1).
    rewrite N.min_r; [reflexivity|]. lia.
Qed.

Lemma f64_is_num {P : platform} (x : f64) : is_num (O := f64_ops P) x <-> is_nan x = false.
Proof.
  unfold is_num. cbn [fleb f64_ops]. rewrite Bleb_rank. rewrite Rle_bool_true by apply Rle_refl.
  destruct (is_nan x); simpl; split; congruence.
Qed.
