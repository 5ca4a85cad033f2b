(** The split finder on well-formed data: usability, tie-breaking, panics, increasing transforms. *)
From Coq Require Import Permutation Sorted.
From Verif Require Import Base Num ModelCommon ModelTree Lib Spec ProofData ProofSort ProofSplit.

Section Split2.
Context {O : NumOps} (LW : NumLaws O).

(** The sorted form of a column (total wrapper for proofs). *)
Definition the_sort (col : list F) : list (F * nat) :=
  match get_sorted_feature_tuple_vector col with Ok r => r | _ => [] end.

Lemma the_sort_spec col :
  Forall is_num col ->
  get_sorted_feature_tuple_vector col = Ok (the_sort col) /\ sorted_version col (the_sort col).
Proof.
  intros H. destruct (get_sorted_Ok LW col (or_intror H)) as (r & E & S).
  unfold the_sort. now rewrite E.
Qed.

Lemma sorted_version_length col r : sorted_version col r -> length r = length col.
Proof.
  intros [Hp _]. apply Permutation_length in Hp. rewrite Hp. unfold value_positions.
  rewrite combine_length, seq_length. lia.
Qed.

Lemma wf_column_num nc nt d col :
  wf_dataset nc nt d -> In col (feature_columns d) -> Forall is_num col.
Proof.
  intros W Hin. apply In_nth_error in Hin as (j & Hj).
  destruct (wf_columns _ _ _ W) as [_ Ht]. destruct (Ht _ _ Hj) as [Hl Hr].
  apply Forall_forall. intros x Hx. apply In_nth_error in Hx as (i & Hi).
  assert (Hlt : i < length (feature_rows d)) by (rewrite <- Hl; apply nth_error_Some; congruence).
  destruct (nth_error (feature_rows d) i) as [row|] eqn:E; [|apply nth_error_None in E; lia].
  destruct (Hr _ _ E) as [_ Hx]. rewrite Hi in Hx. symmetry in Hx.
  pose proof (wf_nonan _ _ _ W) as Hn. rewrite Forall_forall in Hn.
  specialize (Hn row (nth_error_In _ _ E)). rewrite Forall_forall in Hn.
  exact (Hn x (nth_error_In _ _ Hx)).
Qed.

Definition sorted_ds (d : dataset) : sorted_dataset :=
  mkSDS (labels d) (map the_sort (feature_columns d)).

Lemma wf_row0 nc nt d : wf_dataset nc nt d -> exists r, idx (feature_rows d) 0 = Ok r /\ length r = nc.
Proof.
  intros W. pose proof (wf_nonempty _ _ _ W) as Hne. pose proof (wf_rows _ _ _ W) as Hr.
  destruct (feature_rows d) as [|r rows]; [congruence|]. exists r. split; auto.
  now inversion Hr.
Qed.

Lemma find_best_split_sorted nc nt d k :
  wf_dataset nc nt d ->
  find_best_split d k = find_best_split_new_partition (sorted_ds d) (labels d) k nc.
Proof.
  intros W. unfold find_best_split, find_best_split_new_partition, sorted_ds. cbn [s_labels s_columns].
  destruct (get_multi_target_label_metrics _ _) as [total| |]; cbn [bind]; auto.
  destruct (get_total_variance_sum _ _ _) as [tv| |]; cbn [bind]; auto.
  destruct (wf_row0 nc nt d W) as (r & E & L). rewrite E. cbn [bind]. rewrite L.
  rewrite mapM_map. f_equal. apply mapM_ext. intros col Hin.
  destruct (the_sort_spec col (wf_column_num _ _ _ _ W Hin)) as [E' _].
  unfold determine_best_threshold. now rewrite E'.
Qed.

(** The (value, label) lists of the columns, ascending. *)
Definition dvls (d : dataset) : list (list (F * list F)) :=
  map (fun col => vls_of (labels d) (the_sort col)) (feature_columns d).

Lemma sorted_ds_node nc nt d :
  wf_dataset nc nt d -> node_data nc (feature_rows d) (labels d) (seq 0 (length (labels d))) (sorted_ds d).
Proof.
  intros W. apply (sorted_root_node LW nc nt d (sorted_ds d) W).
  apply create_dataset_with_sorted_features_Ok; auto. split; auto. cbn [sorted_ds s_columns].
  assert (H : forall col, In col (feature_columns d) -> Forall is_num col)
    by (intros col; apply (wf_column_num _ _ _ _ W)).
  induction (feature_columns d) as [|col cols IH]; cbn; constructor.
  - split; [right; apply H; now left|]. apply the_sort_spec. apply H. now left.
  - apply IH. intros c Hc. apply H. now right.
Qed.

Lemma node_pfind nc nt rows all_labels ids s :
  node_data nc rows all_labels ids s -> ids <> [] -> rectangular nt all_labels ->
  find_best_split_new_partition s all_labels (N.of_nat nt) nc =
  Ok (pfind nt (map (fun i => nth i all_labels []) ids) (map (vls_of all_labels) (s_columns s))).
Proof.
  intros Hn Hne Hr. pose proof (node_labels_eq _ _ _ _ _ Hn) as El.
  pose proof Hn as [H1 H2 H3 H4 H5]. rewrite <- H4 at 1.
  apply find_best_split_new_eq.
  - exact El.
  - destruct ids; [congruence|discriminate].
  - apply Forall_forall. intros l Hl. apply in_map_iff in Hl as (i & <- & Hi).
    rewrite Forall_forall in H2. specialize (H2 i Hi).
    unfold rectangular in Hr. rewrite Forall_forall in Hr. apply Hr. now apply nth_In.
  - apply Forall_forall. intros col Hc. split.
    + apply In_nth_error in Hc as (j & Hj). destruct (H5 _ _ Hj) as (_ & Hp & _).
      intros ->. apply Permutation_nil in Hp. congruence.
    + pose proof (node_data_col_bound _ _ _ _ _ _ Hn Hc) as Hb.
      eapply Forall_impl; [|exact Hb]. cbn. intros p Hp.
      destruct (lt_nth all_labels (snd p) Hp) as (l & Hl). exists l. split; auto.
      unfold rectangular in Hr. rewrite Forall_forall in Hr. rewrite (Hr l (nth_error_In _ _ Hl)). lia.
Qed.

Lemma map_nth_seq_all {A} (l : list A) dflt : map (fun i => nth i l dflt) (seq 0 (length l)) = l.
Proof.
  apply nth_error_ext. intros i. rewrite nth_error_map, nth_error_seq.
  destruct (Nat.ltb_spec i (length l)); cbn.
  - symmetry. now apply nth_error_nth'.
  - symmetry. now apply nth_error_None.
Qed.

Theorem find_best_split_eq nc nt d :
  wf_dataset nc nt d -> find_best_split d (N.of_nat nt) = Ok (pfind nt (labels d) (dvls d)).
Proof.
  intros W. rewrite (find_best_split_sorted nc nt) by auto.
  rewrite (node_pfind nc nt (feature_rows d) (labels d) (seq 0 (length (labels d)))).
  - rewrite map_nth_seq_all. unfold dvls, sorted_ds. cbn [s_columns]. now rewrite map_map.
  - now apply (sorted_ds_node nc nt).
  - pose proof (wf_lengths _ _ _ W). pose proof (wf_nonempty _ _ _ W).
    destruct (labels d); [|discriminate]. destruct (feature_rows d); [congruence|discriminate].
  - apply (wf_labels _ _ _ W).
Qed.

(* ------------------------------------------------------------------ *)
(** ** What a column scan can return *)

Lemma pscan_best_cases k total vls :
  let b := sc_best (pscan k total vls) in
  (b = mkBT finf f0) \/
  exists pre v l post prev, vls = pre ++ (v, l) :: post /\ hd_error (map fst vls) = Some prev /\
    feqb v prev = false /\ bt_threshold b = v.
Proof.
  unfold pscan. destruct vls as [|[prev l0] vls]; [now left|].
  set (all := (prev, l0) :: vls). cbv zeta.
  set (s0 := mkScan _ _ _).
  assert (H0 : sc_best s0 = mkBT finf f0 \/
    exists pre v l post, all = pre ++ (v, l) :: post /\ feqb v prev = false /\ bt_threshold (sc_best s0) = v)
    by now left.
  cut (forall todo done s, all = done ++ todo ->
    (sc_best s = mkBT finf f0 \/
      exists pre v l post, all = pre ++ (v, l) :: post /\ feqb v prev = false /\ bt_threshold (sc_best s) = v) ->
    let b := sc_best (fold_left (pstep prev) todo s) in
    b = mkBT finf f0 \/
      exists pre v l post, all = pre ++ (v, l) :: post /\ feqb v prev = false /\ bt_threshold b = v).
  { intros Hc. destruct (Hc all [] s0 eq_refl H0) as [H|(pre & v & l & post & A & B & C)]; [now left|right].
    exists pre, v, l, post, prev. repeat split; auto. }
  clear s0 H0. induction todo as [|[v l] todo IH]; intros done s E Hs; [exact Hs|].
  cbn [fold_left]. apply (IH (done ++ [(v, l)])); [now rewrite <- app_assoc|].
  unfold pstep. cbn [fst snd sc_best]. destruct (feqb v prev) eqn:Ev; cbn [negb]; auto.
  destruct (fltb _ _); auto. right. exists done, v, l, todo. auto.
Qed.

(** Gain of a column taken alone: 0 unless positive. *)
Definition col_gain (tv : F) (r : best_threshold) : F :=
  if fltb f0 (fsub tv (bt_loss r)) then fsub tv (bt_loss r) else f0.

Lemma enumerate_snoc {A} (l : list A) x : enumerate (l ++ [x]) = enumerate l ++ [(length l, x)].
Proof.
  unfold enumerate. rewrite app_length, seq_app. cbn [length seq plus].
  rewrite combine_app by now rewrite seq_length. reflexivity.
Qed.

Lemma fltb_num x y : fltb x y = true -> is_num x /\ is_num y.
Proof.
  intros H. apply (fltb_le LW) in H. split.
  - exact (fleb_nan_l _ LW _ _ H).
  - exact (fleb_nan_r _ LW _ _ H).
Qed.

Lemma fltb_false_le x y : is_num x -> is_num y -> fltb x y = false -> fleb y x = true.
Proof. intros Hx Hy H. rewrite (fltb_nle LW) in H by auto. now apply negb_false_iff in H. Qed.

Lemma col_gain_num tv r : is_num (col_gain tv r) /\ fleb f0 (col_gain tv r) = true.
Proof.
  unfold col_gain. destruct (fltb _ _) eqn:E.
  - split; [now apply fltb_num in E|now apply (fltb_le LW)].
  - split; apply (f0_num _ LW).
Qed.

Lemma pselect_spec tv rs :
  let b := pselect tv rs in
  (b = no_split /\ Forall (fun r => fltb f0 (fsub tv (bt_loss r)) = false) rs) \/
  (exists i r, nth_error rs i = Some r /\
     b = mkBS (fsub tv (bt_loss r)) (Question (as_u32 i) (bt_threshold r)) /\
     fltb f0 (bs_gain b) = true /\
     (forall j r', j < i -> nth_error rs j = Some r' -> fltb (col_gain tv r') (bs_gain b) = true) /\
     (forall j r', nth_error rs j = Some r' -> fleb (col_gain tv r') (bs_gain b) = true)).
Proof.
  cbv zeta. unfold pselect. induction rs as [|r rs IH] using rev_ind; [left; split; [reflexivity|constructor]|].
  rewrite enumerate_snoc, fold_left_app. cbn [fold_left].
  set (b := fold_left (pselect_step tv) (enumerate rs) no_split) in *. clearbody b.
  unfold pselect_step at 1 2 3 4 5. cbn [fst snd].
  assert (Hb : is_num (bs_gain b) /\ fleb f0 (bs_gain b) = true).
  { destruct IH as [[-> _]|(i & r' & _ & _ & H & _)].
    - split; apply (f0_num _ LW).
    - split; [now apply fltb_num in H|now apply (fltb_le LW)]. }
  assert (Hall : forall j r', nth_error rs j = Some r' -> fleb (col_gain tv r') (bs_gain b) = true).
  { destruct IH as [[-> H]|(i & r'' & _ & _ & _ & _ & H)]; auto. intros j r' Hj.
    rewrite Forall_forall in H. specialize (H r' (nth_error_In _ _ Hj)). unfold col_gain. rewrite H.
    apply (f0_num _ LW). }
  destruct (fltb (bs_gain b) (fsub tv (bt_loss r))) eqn:E.
  - right. exists (length rs), r. cbn [bs_gain].
    assert (Hpos : fltb f0 (fsub tv (bt_loss r)) = true).
    { eapply (fle_ltb_trans LW); [|exact E]. apply Hb. }
    repeat split; auto.
    + rewrite nth_error_app2, Nat.sub_diag by lia. reflexivity.
    + intros j r' Hj Hr. rewrite nth_error_app1 in Hr by auto.
      eapply (fle_ltb_trans LW); [|exact E]. now apply (Hall j).
    + intros j r' Hr. destruct (Nat.lt_ge_cases j (length rs)) as [Hj|Hj].
      * rewrite nth_error_app1 in Hr by auto. apply (fltb_le LW).
        eapply (fle_ltb_trans LW); [|exact E]. now apply (Hall j).
      * rewrite nth_error_app2 in Hr by auto. destruct (j - length rs) as [|m]; cbn in Hr.
        2:{ destruct m; discriminate. }
        injection Hr as <-. unfold col_gain. rewrite Hpos. now apply fltb_num in Hpos.
  - assert (Hr : fleb (col_gain tv r) (bs_gain b) = true).
    { unfold col_gain. destruct (fltb f0 (fsub tv (bt_loss r))) eqn:E0; [|apply Hb].
      apply fltb_false_le; [apply Hb|now apply fltb_num in E0|exact E]. }
    destruct IH as [[-> H]|(i & r'' & H1 & H2 & H3 & H4 & H5)].
    + left. split; auto. apply Forall_app. split; auto.
    + right. exists i, r''. assert (Hi : i < length rs) by (apply nth_error_Some; congruence).
      repeat split; auto.
      * now rewrite nth_error_app1.
      * intros j r' Hj Hr'. rewrite nth_error_app1 in Hr' by lia. now apply (H4 j).
      * intros j r' Hr'. destruct (Nat.lt_ge_cases j (length rs)) as [Hj|Hj].
        -- rewrite nth_error_app1 in Hr' by auto. now apply (H5 j).
        -- rewrite nth_error_app2 in Hr' by auto. destruct (j - length rs) as [|m]; cbn in Hr'.
           2:{ destruct m; discriminate. }
           injection Hr' as <-. exact Hr.
Qed.

(* ------------------------------------------------------------------ *)
(** ** C09: usable splits *)

Lemma as_u32_small i nc : i < nc -> (N.of_nat nc <= 2 ^ 32)%N -> as_u32 i = N.of_nat i.
Proof. intros H1 H2. unfold as_u32. apply N.mod_small. lia. Qed.

Lemma gain_zero_cases b :
  fltb f0 (bs_gain b) = true -> feqb (bs_gain b) f0 = false.
Proof.
  intros H. rewrite (feqb_fleb _ LW). rewrite (fltb_fleb _ LW) in H. apply andb_true_iff in H as [_ H].
  apply negb_true_iff in H. now rewrite H.
Qed.

Theorem split_usable nc nt d :
  wf_dataset nc nt d ->
  exists b, find_best_split d (N.of_nat nt) = Ok b /\
    fleb f0 (bs_gain b) = true /\
    (feqb (bs_gain b) f0 = true -> b = no_split) /\
    (feqb (bs_gain b) f0 = false ->
     fltb f0 (bs_gain b) = true /\
     let c := N.to_nat (q_column (bs_question b)) in
     let v := q_value (bs_question b) in
     c < nc /\
     (exists i row, nth_error (feature_rows d) i = Some row /\ nth_error row c = Some v) /\
     (exists i row u, nth_error (feature_rows d) i = Some row /\ nth_error row c = Some u /\
        fltb u v = true)).
Proof.
  intros W. rewrite (find_best_split_eq nc nt d W). eexists. split; [reflexivity|].
  unfold pfind. set (tv := ptotal_variance nt (labels d)).
  destruct (pselect_spec tv (map (pcolumn nt (labels d)) (dvls d)))
    as [[-> H]|(i & r & Hi & Eb & Hpos & _ & _)].
  - cbn [no_split bs_gain]. split; [apply (f0_num _ LW)|]. split; [reflexivity|].
    intros H0. rewrite (feqb_fleb _ LW), (f0_num _ LW) in H0. discriminate.
  - split; [now apply (fltb_le LW)|]. split.
    { intros H0. rewrite (gain_zero_cases _ Hpos) in H0. discriminate. }
    intros _. split; auto.
    rewrite Eb in *. cbn [bs_question bs_gain q_column q_value] in *. cbv zeta.
    unfold dvls in Hi. rewrite map_map, nth_error_map in Hi.
    destruct (nth_error (feature_columns d) i) as [col|] eqn:Ec; [|discriminate]. cbn in Hi. injection Hi as <-.
    destruct (wf_columns _ _ _ W) as [Lc Ht].
    assert (Hic : i < nc) by (rewrite <- Lc; apply nth_error_Some; congruence).
    rewrite (as_u32_small i nc) by (auto; apply (wf_u32 _ _ _ W)). rewrite Nat2N.id. split; auto.
    pose proof (wf_column_num _ _ _ _ W (nth_error_In _ _ Ec)) as Hnum.
    destruct (the_sort_spec col Hnum) as [_ [Hp Hs]].
    destruct (pscan_best_cases nt (ptotal nt (labels d)) (vls_of (labels d) (the_sort col)))
      as [H|(pre & v & l & post & prev & E & Hprev & Hneq & Hthr)].
    { unfold pcolumn in Hpos. rewrite H in Hpos. cbn [bt_loss] in Hpos. rewrite (fsub_inf _ LW) in Hpos.
      discriminate. }
    unfold pcolumn. rewrite Hthr.
    assert (Hin : forall x, In x (map fst (the_sort col)) ->
      exists i' row, nth_error (feature_rows d) i' = Some row /\ nth_error row i = Some x).
    { intros x Hx. apply in_map_iff in Hx as ([x' p] & <- & Hx). 
      apply (Permutation_in _ Hp) in Hx. apply value_positions_In in Hx. cbn [fst snd] in *.
      destruct (Ht _ _ Ec) as [Ll Hr].
      assert (Hlt : p < length (feature_rows d)) by (rewrite <- Ll; apply nth_error_Some; congruence).
      destruct (nth_error (feature_rows d) p) as [row|] eqn:Er; [|apply nth_error_None in Er; lia].
      exists p, row. split; auto. destruct (Hr _ _ Er) as [_ <-]. exact Hx. }
    assert (Efst : map fst (vls_of (labels d) (the_sort col)) = map fst (the_sort col)).
    { unfold vls_of. rewrite map_map. reflexivity. }
    split.
    + apply Hin. rewrite <- Efst, E, map_app. apply in_or_app. right. now left.
    + destruct (the_sort col) as [|[p0 i0] rest] eqn:Es; [discriminate|].
      cbn in Hprev. injection Hprev as ->.
      destruct (Hin prev (or_introl eq_refl)) as (i' & row & A & B).
      exists i', row, prev. repeat split; auto.
      assert (Hv : In v (map fst ((prev, i0) :: rest))).
      { rewrite <- Efst, E, map_app. apply in_or_app. right. now left. }
      cbn in Hv. destruct Hv as [->|Hv].
      * rewrite (feqb_fleb _ LW) in Hneq.
        assert (Hnv : is_num v).
        { rewrite Forall_forall in Hnum. apply Hnum.
          assert (Hx : In (v, i0) (value_positions col)) by (apply (Permutation_in _ Hp); now left).
          apply value_positions_In in Hx. eapply nth_error_In; exact Hx. }
        unfold is_num in Hnv. rewrite Hnv in Hneq. discriminate.
      * apply in_map_iff in Hv as ([v' iv] & Hv' & Hv). cbn in Hv'. subst v'.
        inversion Hs as [|? ? _ Hf]; subst. rewrite Forall_forall in Hf. specialize (Hf _ Hv).
        destruct Hf as [Hf|[Hf _]]; auto. cbn [fst] in Hf. rewrite (feqb_sym LW) in Hf. rewrite Hf in Hneq. discriminate.
Qed.

(** Both sides of a usable question are inhabited. *)
Lemma usable_sides nc nt d q i j ri rj u :
  wf_dataset nc nt d ->
  nth_error (feature_rows d) i = Some ri -> nth_error ri (N.to_nat (q_column q)) = Some (q_value q) ->
  nth_error (feature_rows d) j = Some rj -> nth_error rj (N.to_nat (q_column q)) = Some u ->
  fltb u (q_value q) = true ->
  filter (fun p => answers q (fst p)) (samples d) <> [] /\
  filter (fun p => negb (answers q (fst p))) (samples d) <> [].
Proof.
  intros W Hi Hci Hj Hcj Hlt. pose proof (wf_lengths _ _ _ W) as HL.
  assert (Hs : forall k r, nth_error (feature_rows d) k = Some r -> exists l, In (r, l) (samples d)).
  { intros k r Hk. assert (Hkl : k < length (labels d)) by (rewrite HL; apply nth_error_Some; congruence).
    destruct (lt_nth _ _ Hkl) as (l & El). exists l. apply nth_error_In with (n := k).
    unfold samples. rewrite nth_error_combine, Hk, El. reflexivity. }
  destruct (Hs _ _ Hi) as (li & Ii). destruct (Hs _ _ Hj) as (lj & Ij).
  assert (Ai : answers q ri = true).
  { unfold answers. rewrite Hci. now apply fltb_num in Hlt. }
  assert (Aj : answers q rj = false).
  { unfold answers. rewrite Hcj. rewrite (fltb_fleb _ LW) in Hlt. apply andb_true_iff in Hlt as [_ H].
    now apply negb_true_iff. }
  split; intros H.
  - assert (In (ri, li) []) by (rewrite <- H; apply filter_In; auto). auto.
  - assert (In (rj, lj) []) by (rewrite <- H; apply filter_In; cbn [fst]; rewrite Aj; auto). auto.
Qed.

(* ------------------------------------------------------------------ *)
(** ** C13: best of the columns taken one at a time *)

Lemma only_column_wf nc nt d j :
  wf_dataset nc nt d -> j < nc -> wf_dataset 1 nt (only_column j d).
Proof.
  intros W Hj. pose proof (wf_rows _ _ _ W) as Hr. unfold rectangular in Hr.
  destruct (wf_columns _ _ _ W) as [Lc Ht].
  destruct (nth_error (feature_columns d) j) as [col|] eqn:Ec.
  2:{ apply nth_error_None in Ec. lia. }
  destruct (Ht _ _ Ec) as [Ll Hc].
  constructor; cbn [only_column feature_rows labels feature_columns].
  - pose proof (wf_nonempty _ _ _ W). destruct (feature_rows d); [congruence|discriminate].
  - rewrite map_length. apply (wf_lengths _ _ _ W).
  - apply Forall_map. eapply Forall_impl; [|exact Hr]. cbn. intros row L.
    destruct (nth_error row j) eqn:E; [reflexivity|]. apply nth_error_None in E. lia.
  - apply (wf_labels _ _ _ W).
  - rewrite Ec. split; [reflexivity|]. intros [|j'] c E; [|destruct j'; discriminate].
    injection E as <-. split; [now rewrite map_length|].
    intros i row Hi. rewrite nth_error_map in Hi.
    destruct (nth_error (feature_rows d) i) as [row'|] eqn:E; [|discriminate]. cbn in Hi. injection Hi as <-.
    destruct (Hc _ _ E) as [Hlt ->]. destruct (nth_error row' j) eqn:E'.
    + cbn. split; auto.
    + apply nth_error_None in E'. lia.
  - apply Forall_map. eapply Forall_impl; [|exact (wf_nonan _ _ _ W)]. cbn. intros row H.
    destruct (nth_error row j) eqn:E; constructor; auto.
    rewrite Forall_forall in H. apply H. eapply nth_error_In; eauto.
  - lia.
Qed.

Lemma pselect_single tv r :
  bs_gain (pselect tv [r]) = col_gain tv r /\
  (fltb f0 (col_gain tv r) = true -> q_value (bs_question (pselect tv [r])) = bt_threshold r).
Proof.
  unfold pselect, col_gain. cbn. unfold pselect_step. cbn. destruct (fltb f0 (fsub _ _)) eqn:E; cbn.
  - split; auto.
  - split; auto. intros H. rewrite (fltb_irrefl LW) in H. discriminate.
Qed.

Lemma only_column_split nc nt d j :
  wf_dataset nc nt d -> j < nc ->
  exists r, nth_error (map (pcolumn nt (labels d)) (dvls d)) j = Some r /\
    find_best_split (only_column j d) (N.of_nat nt) = Ok (pselect (ptotal_variance nt (labels d)) [r]).
Proof.
  intros W Hj. rewrite (find_best_split_eq 1 nt _ (only_column_wf nc nt d j W Hj)).
  unfold pfind, dvls. cbn [only_column feature_columns labels].
  destruct (wf_columns _ _ _ W) as [Lc _].
  destruct (nth_error (feature_columns d) j) as [col|] eqn:Ec.
  2:{ apply nth_error_None in Ec. lia. }
  rewrite map_map, nth_error_map, Ec. cbn. eexists. split; reflexivity.
Qed.

Theorem split_is_best_column nc nt d b :
  wf_dataset nc nt d -> find_best_split d (N.of_nat nt) = Ok b ->
  (forall j, j < nc -> exists bj, find_best_split (only_column j d) (N.of_nat nt) = Ok bj /\
     fleb (bs_gain bj) (bs_gain b) = true) /\
  (b = no_split \/
   exists j bj, j < nc /\ find_best_split (only_column j d) (N.of_nat nt) = Ok bj /\
     fltb f0 (bs_gain b) = true /\
     bs_gain b = bs_gain bj /\ q_column (bs_question b) = N.of_nat j /\
     q_value (bs_question b) = q_value (bs_question bj) /\
     forall i bi, i < j -> find_best_split (only_column i d) (N.of_nat nt) = Ok bi ->
       fltb (bs_gain bi) (bs_gain b) = true).
Proof.
  intros W E. rewrite (find_best_split_eq nc nt d W) in E. injection E as <-. unfold pfind.
  set (tv := ptotal_variance nt (labels d)).
  destruct (pselect_spec tv (map (pcolumn nt (labels d)) (dvls d)))
    as [[-> H]|(i & r & Hi & Eb & Hpos & Hlt & Hle)].
  - split; [|now left]. intros j Hj. destruct (only_column_split nc nt d j W Hj) as (r & Hr & ->).
    eexists. split; [reflexivity|]. fold tv. rewrite (proj1 (pselect_single tv r)).
    rewrite Forall_forall in H. unfold col_gain. rewrite (H r (nth_error_In _ _ Hr)). apply (f0_num _ LW).
  - split.
    + intros j Hj. destruct (only_column_split nc nt d j W Hj) as (r' & Hr & ->).
      eexists. split; [reflexivity|]. fold tv. rewrite (proj1 (pselect_single tv r')). now apply (Hle j).
    + right. assert (Hic : i < nc).
      { assert (i < length (map (pcolumn nt (labels d)) (dvls d))) by (apply nth_error_Some; congruence).
        unfold dvls in H. rewrite !map_length in H. destruct (wf_columns _ _ _ W) as [Lc _]. lia. }
      destruct (only_column_split nc nt d i W Hic) as (r' & Hr & E'). rewrite Hi in Hr. injection Hr as <-.
      exists i. eexists. split; [exact Hic|]. split; [exact E'|]. fold tv. split; [exact Hpos|].
      pose proof (pselect_single tv r) as [Hg Hq]. rewrite Eb in Hpos. cbn [bs_gain] in Hpos.
      assert (Eg : col_gain tv r = fsub tv (bt_loss r)) by (unfold col_gain; now rewrite Hpos).
      rewrite Hg, Eg. rewrite Eb. cbn [bs_gain bs_question q_column q_value].
      rewrite Hq by (rewrite Eg; auto). repeat split; auto.
      * apply (as_u32_small i nc); auto. apply (wf_u32 _ _ _ W).
      * intros k bk Hk Ek. destruct (only_column_split nc nt d k W) as (rk & Hrk & Ek'); [lia|].
        fold tv in Ek'. rewrite Ek' in Ek. injection Ek as <-.
        rewrite (proj1 (pselect_single tv rk)). rewrite Eb in Hlt. now apply (Hlt k).
Qed.

(* ------------------------------------------------------------------ *)
(** ** Class-count mismatch *)

Theorem split_panics_on_mismatch nc nt d k :
  wf_dataset nc nt d -> 0 < nc -> nt <> k -> find_best_split d (N.of_nat k) = Panic.
Proof.
  intros W Hnc Hne. pose proof (wf_labels _ _ _ W) as Hl. pose proof (wf_lengths _ _ _ W) as HL.
  pose proof (wf_nonempty _ _ _ W) as Hn.
  assert (Hlab : exists l lbls, labels d = l :: lbls /\ length l = nt).
  { destruct (labels d) as [|l lbls]; [destruct (feature_rows d); [congruence|discriminate]|].
    exists l, lbls. split; auto. now inversion Hl. }
  destruct Hlab as (l & lbls & El & Ll).
  unfold find_best_split. rewrite Nat2N.id.
  destruct (Nat.lt_total nt k) as [H|[H|H]]; [|lia|].
  - destruct (metrics_short k (labels d)) as (m & Em & Hm).
    { eapply Forall_impl; [|exact Hl]. cbn. intros; lia. }
    rewrite Em. cbn [bind]. unfold get_total_variance_sum. rewrite calculate_variance_vector_eq by auto.
    cbn [bind]. destruct (wf_row0 nc nt d W) as (r & E & Lr). rewrite E. cbn [bind].
    destruct (wf_columns _ _ _ W) as [Lc Ht].
    destruct (feature_columns d) as [|col cols] eqn:Ec; [cbn in Lc; lia|]. cbn [mapM].
    pose proof (wf_column_num nc nt d col W) as Hnum. rewrite Ec in Hnum. specialize (Hnum (or_introl eq_refl)).
    destruct (the_sort_spec col Hnum) as [Es [Hp Hs]].
    unfold determine_best_threshold. rewrite Es. cbn [bind].
    assert (Lcol : length col = length (feature_rows d)) by (apply (Ht 0 col eq_refl)).
    pose proof (sorted_version_length _ _ (conj Hp Hs)) as Lsort.
    destruct (the_sort col) as [|[v i] rest] eqn:Erest.
    { cbn in Lsort. rewrite <- Lsort in Lcol. destruct (feature_rows d); [congruence|discriminate]. }
    unfold determine_best_threshold_new. cbn [idx nth_error bind fst foldM].
    assert (Hv : nth_error col i = Some v).
    { assert (Hx : In (v, i) (value_positions col)) by (apply (Permutation_in _ Hp); now left).
      now apply value_positions_In in Hx. }
    assert (Hnv : is_num v).
    { rewrite Forall_forall in Hnum. apply Hnum. eapply nth_error_In; eauto. }
    assert (Hi : i < length (labels d)).
    { rewrite HL, <- Lcol. apply nth_error_Some. congruence. }
    destruct (lt_nth _ _ Hi) as (li & Eli).
    unfold scan_step at 1. cbn [fst snd]. rewrite (feqb_fleb _ LW).
    unfold is_num in Hnv. rewrite Hnv. cbn [andb negb bind].
    rewrite (proj2 (idx_Ok _ _ _) Eli). cbn [bind].
    unfold update_left_value_tracker. cbn [sc_left tr_m tr_n].
    assert (Lli : length li = nt).
    { unfold rectangular in Hl. rewrite Forall_forall in Hl. apply Hl. eapply nth_error_In; eauto. }
    pose proof (tracker_loop_short fadd sqacc (fadd f0 f1) k (mkLM (repeat f0 k) (repeat f0 k) (repeat f0 k)) li) as HP.
    unfold sqacc in HP. rewrite HP; [reflexivity| |lia].
    unfold lm_ok. cbn. rewrite !repeat_length. auto.
  - unfold get_multi_target_label_metrics. rewrite (get_label_sum_vectors_long k (labels d) l lbls El) by lia.
    reflexivity.
Qed.

(* ------------------------------------------------------------------ *)
(** ** Fuel: no split search runs out of fuel *)

Lemma bind_fuel {A B} (m : res A) (f : A -> res B) :
  m <> OutOfFuel -> (forall a, m = Ok a -> f a <> OutOfFuel) -> bind m f <> OutOfFuel.
Proof. intros H1 H2. destruct m; cbn; auto; discriminate. Qed.

Lemma idx_fuel {A} (l : list A) i : idx l i <> OutOfFuel.
Proof. unfold idx. destruct (nth_error l i); discriminate. Qed.
Lemma upd_fuel {A} (l : list A) i x : upd l i x <> OutOfFuel.
Proof. unfold upd. destruct (_ <? _); discriminate. Qed.

Ltac nofuel :=
  repeat first
    [ discriminate
    | apply idx_fuel | apply upd_fuel
    | apply bind_fuel; [|intros ? _]
    | apply for_range_fuel; intros
    | apply foldM_fuel; intros
    | apply mapM_fuel; intros
    | apply get_sorted_fuel
    | match goal with
      | |- (if ?b then _ else _) <> _ => destruct b
      | |- (let '(_, _) := ?p in _) <> _ => destruct p
      end
    | progress cbv zeta ].

Lemma find_best_split_fuel d k : find_best_split d k <> OutOfFuel.
Proof.
  unfold find_best_split, get_multi_target_label_metrics, get_label_sum_vectors, get_mean_of_labels_vector,
    get_total_variance_sum, calculate_variance_vector, determine_best_threshold, determine_best_threshold_new,
    scan_step, calculate_loss_vector, update_left_value_tracker, update_right_value_tracker,
    select_best_column, calculate_variance_vector.
  nofuel.
Qed.

End Split2.
