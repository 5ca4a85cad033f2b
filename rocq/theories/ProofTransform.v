(** Increasing feature transforms commute with tree building. *)
From Coq Require Import Permutation Sorted.
From Verif Require Import Base Num ModelCommon ModelTree Lib Spec SpecTree ProofData ProofSort ProofSplit ProofSplit2 ProofTree ProofTree2.

Section Transform.
Context {O : NumOps} (LW : NumLaws O).
Variables (D : nat -> F -> Prop) (phi : nat -> F -> F).
Hypothesis Hphi : increasing_on D phi.

Lemma phi_num j x : D j x -> is_num x -> is_num (phi j x).
Proof. intros Hd Hn. unfold is_num in *. now rewrite Hphi. Qed.
Lemma phi_lt j x y : D j x -> D j y -> fltb (phi j x) (phi j y) = fltb x y.
Proof. intros Hx Hy. rewrite !(fltb_fleb _ LW), !Hphi; auto. Qed.
Lemma phi_eq j x y : D j x -> D j y -> feqb (phi j x) (phi j y) = feqb x y.
Proof. intros Hx Hy. rewrite !(feqb_fleb _ LW), !Hphi; auto. Qed.

Lemma transform_row_length row : length (transform_row phi row) = length row.
Proof. unfold transform_row. rewrite map_length. unfold enumerate. rewrite combine_length, seq_length. lia. Qed.

Lemma transform_row_nth row j : nth_error (transform_row phi row) j = option_map (phi j) (nth_error row j).
Proof. unfold transform_row. rewrite nth_error_map, nth_error_enumerate. now destruct (nth_error row j). Qed.

Lemma transform_columns_nth d j :
  nth_error (feature_columns (transform phi d)) j = option_map (map (phi j)) (nth_error (feature_columns d) j).
Proof. cbn. rewrite nth_error_map, nth_error_enumerate. now destruct (nth_error _ j). Qed.

Definition rows_in (rows : list (list F)) : Prop := Forall (row_in D) rows.

Lemma transform_wf nc nt d :
  wf_dataset nc nt d -> rows_in (feature_rows d) -> wf_dataset nc nt (transform phi d).
Proof.
  intros W Hin. destruct (wf_columns _ _ _ W) as [Lc Ht]. constructor.
  - cbn. pose proof (wf_nonempty _ _ _ W). destruct (feature_rows d); [congruence|discriminate].
  - cbn. rewrite map_length. apply (wf_lengths _ _ _ W).
  - cbn. apply Forall_map. eapply Forall_impl; [|exact (wf_rows _ _ _ W)]. cbn. intros r <-. apply transform_row_length.
  - cbn. apply (wf_labels _ _ _ W).
  - split.
    + cbn. rewrite map_length. unfold enumerate. rewrite combine_length, seq_length. lia.
    + intros j col Hj. rewrite transform_columns_nth in Hj.
      destruct (nth_error (feature_columns d) j) as [c|] eqn:Ec; [|discriminate]. injection Hj as <-.
      destruct (Ht _ _ Ec) as [Ll Hc]. cbn. rewrite !map_length. split; auto.
      intros i row Hi. rewrite nth_error_map in Hi. destruct (nth_error (feature_rows d) i) as [r|] eqn:Er; [|discriminate].
      injection Hi as <-. destruct (Hc _ _ Er) as [Hlt He]. rewrite transform_row_length, transform_row_nth, nth_error_map, He. auto.
  - cbn. apply Forall_map. pose proof (wf_nonan _ _ _ W) as Hn. unfold rows_in in Hin. rewrite Forall_forall in *.
    intros row Hr. specialize (Hn row Hr). specialize (Hin row Hr). apply Forall_forall. intros x Hx.
    apply In_nth_error in Hx as (j & Hj). rewrite transform_row_nth in Hj.
    destruct (nth_error row j) as [y|] eqn:Ey; [|discriminate]. injection Hj as <-.
    apply phi_num; [now apply Hin|]. rewrite Forall_forall in Hn. apply Hn. eapply nth_error_In; eauto.
  - apply (wf_u32 _ _ _ W).
Qed.

Lemma column_in nc nt d j col :
  wf_dataset nc nt d -> rows_in (feature_rows d) -> nth_error (feature_columns d) j = Some col -> Forall (D j) col.
Proof.
  intros W Hin Ec. destruct (wf_columns _ _ _ W) as [Lc Ht]. destruct (Ht _ _ Ec) as [Ll Hc].
  apply Forall_forall. intros x Hx. apply In_nth_error in Hx as (i & Hi).
  assert (Hlt : i < length (feature_rows d)) by (rewrite <- Ll; apply nth_error_Some; congruence).
  destruct (lt_nth _ _ Hlt) as (row & Hr). destruct (Hc _ _ Hr) as [_ He]. rewrite Hi in He.
  unfold rows_in in Hin. rewrite Forall_forall in Hin. apply (Hin row (nth_error_In _ _ Hr)). auto.
Qed.

Lemma the_sort_map j col :
  Forall is_num col -> Forall (D j) col ->
  the_sort (map (phi j) col) = map (fun p => (phi j (fst p), snd p)) (the_sort col).
Proof.
  intros Hn Hd. destruct (the_sort_spec LW col Hn) as [_ [P S]].
  assert (Hn' : Forall is_num (map (phi j) col)).
  { apply Forall_map. rewrite Forall_forall in *. intros x Hx. apply phi_num; auto. }
  destruct (the_sort_spec LW _ Hn') as [_ S'].
  apply (sorted_version_unique LW (map (phi j) col)); auto. split.
  - transitivity (map (fun p => (phi j (fst p), snd p)) (value_positions col)); [now apply Permutation_map|].
    apply perm_eq. apply nth_error_ext. intros i. rewrite nth_error_map, !nth_error_value_positions, nth_error_map.
    now destruct (nth_error col i).
  - eapply StronglySorted_map; [|exact S]. intros [x i] [y i'] Hx Hy H. cbn.
    apply (Permutation_in _ P), value_positions_In in Hx. apply (Permutation_in _ P), value_positions_In in Hy. cbn in *.
    assert (D j x) by (rewrite Forall_forall in Hd; apply Hd; eapply nth_error_In; eauto).
    assert (D j y) by (rewrite Forall_forall in Hd; apply Hd; eapply nth_error_In; eauto).
    unfold pair_lt in *. cbn in *. rewrite phi_lt, phi_eq; auto.
Qed.

(** Thresholds are transformed unless no candidate was found. *)
Definition RB (j : nat) (b b' : best_threshold) : Prop :=
  bt_loss b' = bt_loss b /\
  ((D j (bt_threshold b) /\ bt_threshold b' = phi j (bt_threshold b)) \/ (b = mkBT finf f0 /\ b' = b)).

Lemma pscan_map j k total vls :
  Forall (D j) (map fst vls) ->
  RB j (sc_best (pscan k total vls)) (sc_best (pscan k total (map (fun p => (phi j (fst p), snd p)) vls))).
Proof.
  intros Hd. unfold pscan. destruct vls as [|[prev l0] vls]; cbn [map].
  { split; auto. }
  set (s0 := mkScan _ _ _).
  assert (Hprev : D j prev) by (now inversion Hd).
  cbn [fst snd]. change ((phi j prev, l0) :: map (fun p => (phi j (fst p), snd p)) vls)
    with (map (fun p : F * list F => (phi j (fst p), snd p)) ((prev, l0) :: vls)).
  revert Hd. generalize ((prev, l0) :: vls) as l. intros l Hd.
  cut (forall s s', RB j (sc_best s) (sc_best s') -> sc_left s' = sc_left s -> sc_right s' = sc_right s ->
    RB j (sc_best (fold_left (pstep prev) l s))
         (sc_best (fold_left (pstep (phi j prev)) (map (fun p => (phi j (fst p), snd p)) l) s'))).
  { intros H. apply H; auto. split; auto. }
  clear s0. induction l as [|[v lb] l IH]; intros s s' HB HL HR; cbn [map fold_left]; auto.
  cbn [map] in Hd. inversion Hd as [|? ? Hv Hd']; subst. cbn in Hv. apply IH; auto.
  - unfold pstep. cbn [fst snd sc_best]. rewrite phi_eq by auto. rewrite HL, HR.
    destruct (feqb v prev); cbn [negb]; auto. destruct HB as [E1 E2]. rewrite E1.
    destruct (fltb _ _); [|split; auto]. split; cbn; auto.
  - unfold pstep. cbn. now rewrite HL.
  - unfold pstep. cbn. now rewrite HR.
Qed.

Definition RS (b b' : best_split) : Prop :=
  (b = no_split /\ b' = no_split) \/
  (exists i, bs_gain b' = bs_gain b /\ q_column (bs_question b) = as_u32 i /\ q_column (bs_question b') = as_u32 i /\
     D i (q_value (bs_question b)) /\ q_value (bs_question b') = phi i (q_value (bs_question b))).

Lemma pselect_map tv rs rs' :
  length rs' = length rs ->
  (forall i r r', nth_error rs i = Some r -> nth_error rs' i = Some r' -> RB i r r') ->
  let b := pselect tv rs in let b' := pselect tv rs' in
  (b = no_split /\ b' = no_split) \/
  (exists i, i < length rs /\ bs_gain b' = bs_gain b /\ q_column (bs_question b) = as_u32 i /\ q_column (bs_question b') = as_u32 i /\
     D i (q_value (bs_question b)) /\ q_value (bs_question b') = phi i (q_value (bs_question b))).
Proof.
  revert rs'. induction rs as [|r rs IH] using rev_ind; intros rs' HL H.
  - destruct rs'; [left; auto|discriminate].
  - destruct (@exists_last _ rs') as (rs0 & r' & ->).
    { intros ->. rewrite app_length in HL. cbn in HL. lia. }
    rewrite !app_length in HL. cbn in HL. assert (HL' : length rs0 = length rs) by lia. clear HL.
    assert (Hr : RB (length rs) r r').
    { apply H; [rewrite nth_error_app2, Nat.sub_diag by lia|rewrite nth_error_app2, HL', Nat.sub_diag by lia]; reflexivity. }
    specialize (IH rs0 HL'). cbv zeta in *. unfold pselect in *. rewrite !enumerate_snoc, !fold_left_app. cbn [fold_left].
    set (b := fold_left (pselect_step tv) (enumerate rs) no_split) in *.
    set (b' := fold_left (pselect_step tv) (enumerate rs0) no_split) in *.
    assert (Hb : fleb f0 (bs_gain b) = true).
    { destruct (pselect_spec LW tv rs) as [[E _]|(i & r'' & _ & _ & Hp & _)].
      - unfold pselect in E. fold b in E. rewrite E. apply (f0_num _ LW).
      - unfold pselect in Hp. fold b in Hp. now apply (fltb_le LW). }
    clearbody b b'.
    assert (IH' : bs_gain b' = bs_gain b /\ ((b = no_split /\ b' = no_split) \/
      (exists i, i < length (rs ++ [r]) /\ bs_gain b' = bs_gain b /\ q_column (bs_question b) = as_u32 i /\ q_column (bs_question b') = as_u32 i /\
        D i (q_value (bs_question b)) /\ q_value (bs_question b') = phi i (q_value (bs_question b))))).
    { destruct IH as [[-> ->]|(i & Hi & Hg & Hrest)].
      - intros i ri ri' Hi Hi'. apply H; rewrite nth_error_app1; auto; apply nth_error_Some; congruence.
      - auto.
      - split; auto. right. exists i. rewrite app_length. split; [lia|]. auto. }
    destruct IH' as [Eg IH']. unfold pselect_step. cbn [fst snd]. destruct Hr as [El Ht]. rewrite El, Eg, HL'.
    destruct (fltb (bs_gain b) (fsub tv (bt_loss r))) eqn:E; auto.
    right. exists (length rs). cbn. rewrite app_length. cbn. split; [lia|].
    destruct Ht as [[Ht Ht']|[-> _]]; auto.
    exfalso. cbn in E. assert (Hc := fle_ltb_trans LW _ _ _ Hb E). rewrite (fsub_inf _ LW) in Hc. discriminate.
Qed.

Lemma split_transform nc nt d :
  wf_dataset nc nt d -> rows_in (feature_rows d) ->
  exists b b', find_best_split d (N.of_nat nt) = Ok b /\ find_best_split (transform phi d) (N.of_nat nt) = Ok b' /\
  ((b = no_split /\ b' = no_split) \/
   (bs_gain b' = bs_gain b /\ q_column (bs_question b') = q_column (bs_question b) /\
    D (N.to_nat (q_column (bs_question b))) (q_value (bs_question b)) /\
    q_value (bs_question b') = phi (N.to_nat (q_column (bs_question b))) (q_value (bs_question b)))).
Proof.
  intros W Hin. pose proof (transform_wf nc nt d W Hin) as W'.
  rewrite (find_best_split_eq LW nc nt d W), (find_best_split_eq LW nc nt _ W').
  do 2 eexists. split; [reflexivity|]. split; [reflexivity|]. unfold pfind. change (labels (transform phi d)) with (labels d).
  set (tv := ptotal_variance nt (labels d)).
  destruct (wf_columns _ _ _ W) as [Lc _]. 
  destruct (pselect_map tv (map (pcolumn nt (labels d)) (dvls d)) (map (pcolumn nt (labels d)) (dvls (transform phi d))))
    as [H|(i & Hi & H1 & H2 & H3 & H4 & H5)].
  - unfold dvls. cbn. rewrite !map_length. unfold enumerate. rewrite combine_length, seq_length. lia.
  - intros i r r' Hr Hr'. unfold dvls in *. rewrite !map_map, !nth_error_map in *. rewrite transform_columns_nth in Hr'.
    destruct (nth_error (feature_columns d) i) as [col|] eqn:Ec; [|discriminate]. cbn in Hr, Hr'.
    injection Hr as <-. injection Hr' as <-.
    pose proof (column_in nc nt d i col W Hin Ec) as Hcd.
    pose proof (wf_column_num _ _ _ _ W (nth_error_In _ _ Ec)) as Hnum.
    rewrite (the_sort_map i col Hnum Hcd). unfold pcolumn. change (labels (transform phi d)) with (labels d).
    replace (vls_of (labels d) (map (fun p => (phi i (fst p), snd p)) (the_sort col)))
      with (map (fun p : F * list F => (phi i (fst p), snd p)) (vls_of (labels d) (the_sort col))).
    2:{ unfold vls_of. rewrite !map_map. reflexivity. }
    apply pscan_map. unfold vls_of. rewrite map_map. cbn.
    destruct (the_sort_spec LW col Hnum) as [_ [P _]]. apply Forall_map. rewrite Forall_forall in *.
    intros [x p] Hx. apply (Permutation_in _ P), value_positions_In in Hx. cbn in *. apply Hcd. eapply nth_error_In; eauto.
  - now left.
  - right. unfold dvls in Hi. rewrite !map_length in Hi.
    assert (Ei : N.to_nat (as_u32 i) = i).
    { rewrite (as_u32_small i nc); [apply Nat2N.id|lia|apply (wf_u32 _ _ _ W)]. }
    rewrite H2, Ei, H3. auto.
Qed.

Lemma answers_transform c v row :
  D (N.to_nat c) v -> row_in D row ->
  answers (Question c (phi (N.to_nat c) v)) (transform_row phi row) = answers (Question c v) row.
Proof.
  intros Hv Hr. unfold answers. cbn [q_column q_value]. rewrite transform_row_nth.
  destruct (nth_error row (N.to_nat c)) eqn:E; cbn; auto.
Qed.

Lemma samples_transform d : samples (transform phi d) = map (fun p => (transform_row phi (fst p), snd p)) (samples d).
Proof.
  unfold samples. cbn. apply nth_error_ext. intros i. rewrite nth_error_map, !nth_error_combine, nth_error_map.
  destruct (nth_error (feature_rows d) i), (nth_error (labels d) i); reflexivity.
Qed.

Lemma dataset_eq nc nt a b : wf_dataset nc nt a -> wf_dataset nc nt b -> samples a = samples b -> a = b.
Proof.
  intros Wa Wb H. destruct a as [ra la ca], b as [rb lb cb]. unfold samples in H. cbn in H.
  pose proof (wf_lengths _ _ _ Wa) as La. pose proof (wf_lengths _ _ _ Wb) as Lb. cbn in La, Lb.
  assert (ra = rb).
  { rewrite <- (map_fst_combine ra la) by auto. rewrite H. apply map_fst_combine. auto. }
  assert (la = lb).
  { rewrite <- (map_snd_combine ra la) by auto. rewrite H. apply map_snd_combine. auto. }
  subst. f_equal. apply (is_transpose_unique nc rb).
  - apply (wf_columns _ _ _ Wa).
  - apply (wf_columns _ _ _ Wb).
Qed.

Lemma samples_rows_in d d' (p : list F * list F -> bool) :
  length (labels d') = length (feature_rows d') -> samples d' = filter p (samples d) ->
  rows_in (feature_rows d) -> rows_in (feature_rows d').
Proof.
  intros HL Hs H. unfold rows_in in *. rewrite Forall_forall in *. intros r Hr.
  rewrite <- (map_fst_combine (feature_rows d') (labels d')) in Hr by auto. fold (samples d') in Hr. rewrite Hs in Hr.
  apply in_map_iff in Hr as ([r' l'] & <- & Hr). apply filter_In in Hr as [Hr _]. apply in_combine_l in Hr. now apply H.
Qed.

Lemma partition_transform nc nt d c v fd td :
  wf_dataset nc nt d -> rows_in (feature_rows d) -> D (N.to_nat c) v ->
  partition d (Question c v) = Ok (fd, td) ->
  partition (transform phi d) (Question c (phi (N.to_nat c) v)) = Ok (transform phi fd, transform phi td).
Proof.
  intros W Hin Hv Ep. pose proof (transform_wf nc nt d W Hin) as W'.
  destruct (partition_wf nc nt d _ fd td W Ep) as (Hq & Wf & Wt & St & Sf).
  assert (Rf : rows_in (feature_rows fd)) by (eapply samples_rows_in; eauto; apply (wf_lengths _ _ _ Wf)).
  assert (Rt : rows_in (feature_rows td)) by (eapply samples_rows_in; eauto; apply (wf_lengths _ _ _ Wt)).
  set (q' := Question c (phi (N.to_nat c) v)).
  assert (Hrow : forall p, In p (samples d) -> row_in D (fst p)).
  { intros [r l] Hp. unfold rows_in in Hin. rewrite Forall_forall in Hin. apply Hin. now apply in_combine_l in Hp. }
  assert (St' : filter (fun p => answers q' (fst p)) (samples (transform phi d)) = samples (transform phi td)).
  { rewrite !samples_transform, St. apply filter_map_comb. intros p Hp. cbn. apply answers_transform; auto. }
  assert (Sf' : filter (fun p => negb (answers q' (fst p))) (samples (transform phi d)) = samples (transform phi fd)).
  { rewrite !samples_transform, Sf. apply (filter_map_comb _ _ (fun p => negb (answers q' (fst p)))).
    intros p Hp. cbn. f_equal. apply answers_transform; auto. }
  assert (NE : forall x, wf_dataset nc nt x -> samples x <> []).
  { intros x Wx. pose proof (wf_nonempty _ _ _ Wx). pose proof (wf_lengths _ _ _ Wx). unfold samples.
    destruct (feature_rows x); [congruence|]. destruct (labels x); discriminate. }
  destruct (partition_Ok nc (transform phi d) q') as (fd' & td' & E' & _); auto.
  - apply (wf_lengths _ _ _ W').
  - apply (wf_rows _ _ _ W').
  - rewrite St'. apply NE. now apply transform_wf.
  - rewrite Sf'. apply NE. now apply transform_wf.
  - rewrite E'. destruct (partition_wf nc nt _ _ fd' td' W' E') as (_ & Wf' & Wt' & St'' & Sf'').
    assert (fd' = transform phi fd) by (apply (dataset_eq nc nt); [auto|now apply transform_wf|congruence]).
    assert (td' = transform phi td) by (apply (dataset_eq nc nt); [auto|now apply transform_wf|congruence]).
    now subst.
Qed.

Lemma built_transform cfg nc nt level d t :
  standard cfg -> tc_number_of_classes cfg = N.of_nat nt ->
  built mk_reg cfg level d t -> wf_dataset nc nt d -> rows_in (feature_rows d) ->
  exists t', built mk_reg cfg level (transform phi d) t' /\ transformed phi t t' /\
    forall row, row_in D row -> nc <= length row ->
    exists ld, find_leaf_node_for_data row t = Ok (mkRL (Some ld)) /\
      find_leaf_node_for_data (transform_row phi row) t' = Ok (mkRL (Some (transform phi ld))).
Proof.
  intros Hs Hk B. induction B as [level d s l Es Est El|level d s fd td t f Es Est Ep Bt IHt Bf IHf]; intros W Hin.
  - destruct (split_transform nc nt d W Hin) as (b & b' & E & E' & H).
    rewrite Hs, Hk in Es. change (find_best_split d (N.of_nat nt) = Ok s) in Es. rewrite Es in E. injection E as <-.
    injection El as <-. exists (leaf_node (bs_question b') (mkRL (Some (transform phi d)))). split; [|split].
    + eapply built_leaf; [rewrite Hs, Hk; exact E'| |reflexivity].
      unfold stop_here in *. destruct H as [[-> ->]|(Hg & _)]; [auto|now rewrite Hg].
    + constructor.
    + intros row _ _. exists d. split; reflexivity.
  - destruct (split_transform nc nt d W Hin) as (b & b' & E & E' & H).
    rewrite Hs, Hk in Es. change (find_best_split d (N.of_nat nt) = Ok s) in Es. rewrite Es in E. injection E as <-.
    assert (Hst := Est). unfold stop_here in Hst. apply orb_false_iff in Hst as [Hg0 _].
    destruct H as [[-> ->]|(Hg & Hc & Hd & Hv)].
    { exfalso. cbn in Hg0. rewrite (feqb_fleb _ LW), (f0_num _ LW) in Hg0. discriminate. }
    destruct s as [g [c v]], b' as [g' [c' v']]. cbn [bs_gain bs_question q_column q_value] in *. subst g' c' v'.
    pose proof (partition_transform nc nt d c v fd td W Hin Hd Ep) as Ep'.
    destruct (partition_wf nc nt d _ fd td W Ep) as (Hq & Wf & Wt & St & Sf).
    destruct (IHt Wt) as (t' & Bt' & Tt & Lt). { eapply samples_rows_in; eauto. apply (wf_lengths _ _ _ Wt). }
    destruct (IHf Wf) as (f' & Bf' & Tf & Lf). { eapply samples_rows_in; eauto. apply (wf_lengths _ _ _ Wf). }
    exists (node_new (Question c (phi (N.to_nat c) v)) t' f'). split; [|split].
    + eapply (built_node mk_reg cfg level (transform phi d) (mkBS g (Question c (phi (N.to_nat c) v)))); eauto.
      rewrite Hs, Hk. exact E'.
    + constructor; auto.
    + intros row Hr Hlen. cbn -[solve]. rewrite solve_Ok by (cbn in *; lia).
      rewrite solve_Ok by (rewrite transform_row_length; cbn in *; lia).
      rewrite answers_transform by auto. cbn [bind]. destruct (answers _ row); auto.
Qed.

End Transform.
