(** The feature columns in another order (C70). *)
From Coq Require Import Permutation Sorted.
From Verif Require Import Base Num ModelCommon ModelTree ModelBoost Lib Spec SpecTree SpecColumns ProofData ProofSort ProofSplit
  ProofSplit2 ProofTree ProofTree2 ProofTransform ProofTree3 ProofScore ProofBoost ProofRedundant.

Lemma position_spec order c : In c order -> position order c < length order /\ nth_error order (position order c) = Some c.
Proof.
  induction order as [|j order IH]; [easy|]. intros [->|H]; cbn.
  - rewrite Nat.eqb_refl. split; [lia|reflexivity].
  - destruct (Nat.eqb_spec j c) as [->|N]; cbn; [split; [lia|reflexivity]|]. destruct (IH H). split; [lia|auto].
Qed.

Section Columns.
Context {O : NumOps} (LW : NumLaws O).
(** Equal positive numbers are the same number (not so for the two zeros). *)
Context (Hpos : forall x y, fltb f0 x = true -> feqb x y = true -> x = y).
Context (order : list nat) (nc : nat) (Ho : column_order nc order).

Lemma order_in c : In c order <-> c < nc.
Proof. split; intros H; [apply (Permutation_in _ Ho) in H|apply (Permutation_in _ (Permutation_sym Ho))]; rewrite in_seq in *; lia. Qed.
Lemma order_length : length order = nc.
Proof. rewrite (Permutation_length Ho). apply seq_length. Qed.
Lemma order_nth i j : nth_error order i = Some j -> j < nc.
Proof. intros H. apply order_in. eapply nth_error_In; eauto. Qed.

Lemma order_position i c : nth_error order i = Some c -> position order c = i.
Proof.
  intros H. destruct (position_spec order c (nth_error_In _ _ H)) as [Hp Hn].
  assert (ND : NoDup order) by (eapply Permutation_NoDup; [apply Permutation_sym; exact Ho|apply seq_NoDup]).
  rewrite NoDup_nth_error in ND. apply ND; auto. congruence.
Qed.

Lemma nth_nth_error {A} (l : list A) i x : i < length l -> nth_error l i = Some (nth i l x).
Proof. intros H. now apply nth_error_nth'. Qed.

Lemma reorder_row_nth row i j : length row = nc -> nth_error order i = Some j ->
  nth_error (reorder_row order row) i = nth_error row j.
Proof.
  intros L H. unfold reorder_row. rewrite nth_error_map, H. cbn. symmetry. apply nth_nth_error. rewrite L. eapply order_nth; eauto.
Qed.

Lemma reorder_row_length row : length (reorder_row order row) = nc.
Proof. unfold reorder_row. rewrite map_length. apply order_length. Qed.

Lemma reorder_column nt d i j : wf_dataset nc nt d -> nth_error order i = Some j ->
  nth_error (feature_columns (reorder order d)) i = nth_error (feature_columns d) j.
Proof.
  intros W H. cbn. rewrite nth_error_map, H. cbn. symmetry. apply nth_nth_error.
  destruct (wf_columns _ _ _ W) as [-> _]. eapply order_nth; eauto.
Qed.

Lemma reorder_wf nt d : wf_dataset nc nt d -> wf_dataset nc nt (reorder order d).
Proof.
  intros W. destruct (wf_columns _ _ _ W) as [Lc Ht]. pose proof (wf_rows _ _ _ W) as HR.
  constructor; try (cbn [reorder feature_rows labels]).
  - pose proof (wf_nonempty _ _ _ W). destruct (feature_rows d); [congruence|discriminate].
  - rewrite map_length. apply (wf_lengths _ _ _ W).
  - apply Forall_map, Forall_forall. intros r _. apply reorder_row_length.
  - apply (wf_labels _ _ _ W).
  - split.
    + cbn. rewrite map_length. apply order_length.
    + intros i col Hi. destruct (nth_error order i) as [j|] eqn:Ej.
      2:{ cbn in Hi. rewrite nth_error_map, Ej in Hi. discriminate. }
      rewrite (reorder_column nt d i j W Ej) in Hi. destruct (Ht _ _ Hi) as [Hl Hc]. split; [now rewrite map_length|].
      intros k row Hk. rewrite nth_error_map in Hk. destruct (nth_error (feature_rows d) k) as [r|] eqn:Er; [|discriminate].
      injection Hk as <-. destruct (Hc _ _ Er) as [H1 H2]. rewrite reorder_row_length. split.
      * rewrite <- order_length. apply nth_error_Some. congruence.
      * rewrite (reorder_row_nth r i j); auto. eapply wf_row_length; eauto using nth_error_In.
  - apply Forall_map, Forall_forall. intros r Hr. apply Forall_forall. intros x Hx.
    apply In_nth_error in Hx as (i & Hi). destruct (nth_error order i) as [j|] eqn:Ej.
    2:{ unfold reorder_row in Hi. rewrite nth_error_map, Ej in Hi. discriminate. }
    rewrite (reorder_row_nth r i j) in Hi; [|eapply wf_row_length; eauto|auto].
    pose proof (wf_nonan _ _ _ W) as Hn. rewrite Forall_forall in Hn. specialize (Hn r Hr). rewrite Forall_forall in Hn.
    eapply Hn, nth_error_In; eauto.
  - apply (wf_u32 _ _ _ W).
Qed.

Lemma only_column_reorder nt d i j : wf_dataset nc nt d -> nth_error order i = Some j ->
  only_column i (reorder order d) = only_column j d.
Proof.
  intros W H. unfold only_column. rewrite (reorder_column nt d i j W H). cbn [reorder feature_rows labels]. f_equal.
  rewrite map_map. apply map_ext_in. intros r Hr. rewrite (reorder_row_nth r i j); auto. eapply wf_row_length; eauto.
Qed.

Lemma fleb_fltb_false x y : fleb x y = true -> fltb y x = false.
Proof. intros H. rewrite (fltb_fleb _ LW), H. apply andb_false_r. Qed.

Lemma best_gain_le nt d b b' : wf_dataset nc nt d ->
  find_best_split d (N.of_nat nt) = Ok b -> find_best_split (reorder order d) (N.of_nat nt) = Ok b' ->
  b = no_split /\ b' = no_split \/ fltb f0 (bs_gain b) = true /\ bs_gain b' = bs_gain b.
Proof.
  intros W E E'. pose proof (reorder_wf nt d W) as W'.
  destruct (split_is_best_column LW nc nt _ b W E) as [Hle Hc]. destruct (split_is_best_column LW nc nt _ b' W' E') as [Hle' Hc'].
  assert (A : forall j bj, j < nc -> find_best_split (only_column j d) (N.of_nat nt) = Ok bj -> fleb (bs_gain bj) (bs_gain b') = true).
  { intros j bj Hj Ej. destruct (position_spec order j (proj2 (order_in j) Hj)) as [Hp Hn]. rewrite order_length in Hp.
    destruct (Hle' _ Hp) as (b2 & E2 & H2). rewrite (only_column_reorder nt d _ j W Hn), Ej in E2. injection E2 as <-. exact H2. }
  assert (A' : forall i bi, i < nc -> find_best_split (only_column i (reorder order d)) (N.of_nat nt) = Ok bi -> fleb (bs_gain bi) (bs_gain b) = true).
  { intros i bi Hi Ei. destruct (nth_error order i) as [j|] eqn:En; [|apply nth_error_None in En; rewrite order_length in En; lia].
    rewrite (only_column_reorder nt d _ j W En) in Ei. destruct (Hle j (order_nth _ _ En)) as (b2 & E2 & H2). congruence. }
  destruct Hc as [->|(j & bj & Hj & Ej & P & G & _)], Hc' as [->|(i & bi & Hi & Ei & P' & G' & _)]; auto.
  - specialize (A' i bi Hi Ei). rewrite <- G' in A'. apply fleb_fltb_false in A'. cbn in A'. congruence.
  - specialize (A j bj Hj Ej). rewrite <- G in A. apply fleb_fltb_false in A. cbn in A. congruence.
  - right. split; auto. symmetry. apply Hpos; auto. rewrite (feqb_fleb _ LW). specialize (A j bj Hj Ej). specialize (A' i bi Hi Ei).
    rewrite <- G in A. rewrite <- G' in A'. now rewrite A, A'.
Qed.

Theorem reorder_gain nt d b b' : wf_dataset nc nt d ->
  find_best_split d (N.of_nat nt) = Ok b -> find_best_split (reorder order d) (N.of_nat nt) = Ok b' ->
  bs_gain b' = bs_gain b.
Proof. intros W E E'. destruct (best_gain_le nt d b b' W E E') as [[-> ->]|[_ H]]; auto. Qed.

Theorem reorder_question nt d b c : wf_dataset nc nt d -> clear_winner nc nt d c ->
  find_best_split d (N.of_nat nt) = Ok b -> fltb f0 (bs_gain b) = true ->
  q_column (bs_question b) = N.of_nat c /\ c < nc /\
  find_best_split (reorder order d) (N.of_nat nt) =
    Ok (mkBS (bs_gain b) (Question (N.of_nat (position order c)) (q_value (bs_question b)))).
Proof.
  intros W (Hc & bc & Ec & Hw) E P. pose proof (reorder_wf nt d W) as W'.
  rewrite (find_best_split_eq LW nc nt _ W'). set (b' := pfind _ _ _).
  assert (E' : find_best_split (reorder order d) (N.of_nat nt) = Ok b') by apply (find_best_split_eq LW nc nt _ W').
  clearbody b'. pose proof (reorder_gain nt d b b' W E E') as Hg.
  destruct (split_is_best_column LW nc nt _ b W E) as [Hle [->|(j & bj & Hj & Ej & _ & Gj & Cj & Vj & _)]].
  { cbn in P. rewrite (fltb_irrefl LW) in P. discriminate. }
  destruct (split_is_best_column LW nc nt _ b' W' E') as [_ [->|(i & bi & Hi & Ei & P' & Gi & Ci & Vi & _)]].
  { rewrite <- Hg in P. cbn in P. rewrite (fltb_irrefl LW) in P. discriminate. }
  destruct (nth_error order i) as [k|] eqn:En; [|apply nth_error_None in En; rewrite order_length in En; lia].
  rewrite (only_column_reorder nt d _ k W En) in Ei. pose proof (order_nth _ _ En) as Hk.
  assert (Hmax : fleb (bs_gain bc) (bs_gain b) = true).
  { destruct (Hle c Hc) as (b2 & E2 & H2). congruence. }
  assert (j = c).
  { destruct (Nat.eq_dec j c) as [|N]; auto. specialize (Hw j bj Hj N Ej). rewrite <- Gj in Hw.
    apply fleb_fltb_false in Hmax. congruence. }
  assert (k = c).
  { destruct (Nat.eq_dec k c) as [|N]; auto. specialize (Hw k bi Hk N Ei). rewrite <- Gi, Hg in Hw.
    apply fleb_fltb_false in Hmax. congruence. }
  subst j k. split; auto. split; auto. f_equal.
  destruct b' as [g' [c' v']]. cbn in *. subst g' c' v'. rewrite (order_position i c En).
  f_equal. f_equal. congruence.
Qed.

Lemma answers_reorder c v row : length row = nc -> c < nc ->
  answers (Question (N.of_nat (position order c)) v) (reorder_row order row) = answers (Question (N.of_nat c) v) row.
Proof.
  intros L Hc. destruct (position_spec order c (proj2 (order_in c) Hc)) as [_ Hn]. unfold answers. cbn [q_column q_value].
  now rewrite !Nat2N.id, (reorder_row_nth row _ c L Hn).
Qed.

Lemma samples_reorder d : samples (reorder order d) = map (fun p => (reorder_row order (fst p), snd p)) (samples d).
Proof.
  unfold samples. cbn. apply nth_error_ext. intros i. rewrite nth_error_map, !nth_error_combine, nth_error_map.
  destruct (nth_error (feature_rows d) i), (nth_error (labels d) i); reflexivity.
Qed.

Lemma partition_reorder nt d c v fd td : wf_dataset nc nt d ->
  partition d (Question (N.of_nat c) v) = Ok (fd, td) ->
  partition (reorder order d) (Question (N.of_nat (position order c)) v) = Ok (reorder order fd, reorder order td).
Proof.
  intros W Ep. set (q := Question _ v) in Ep. set (q' := Question _ v). pose proof (reorder_wf nt d W) as W'.
  destruct (partition_wf nc nt d _ fd td W Ep) as (Hq & Wf & Wt & St & Sf).
  unfold q in Hq. cbn in Hq. rewrite Nat2N.id in Hq.
  assert (Ha : forall p, In p (samples d) -> answers q' (reorder_row order (fst p)) = answers q (fst p)).
  { intros [r l] Hp. apply in_combine_l in Hp. apply answers_reorder; auto. cbn. apply (wf_row_length _ _ _ _ W Hp). }
  assert (St' : filter (fun p => answers q' (fst p)) (samples (reorder order d)) = samples (reorder order td)).
  { rewrite !samples_reorder, St. apply filter_map_comb. intros p Hp. cbn. auto. }
  assert (Sf' : filter (fun p => negb (answers q' (fst p))) (samples (reorder order d)) = samples (reorder order fd)).
  { rewrite !samples_reorder, Sf. apply filter_map_comb. intros p Hp. cbn. f_equal. auto. }
  assert (NE : forall c x, wf_dataset c nt x -> samples x <> []).
  { intros e x Wx. pose proof (wf_nonempty _ _ _ Wx). pose proof (wf_lengths _ _ _ Wx). unfold samples.
    destruct (feature_rows x); [congruence|]. destruct (labels x); discriminate. }
  destruct (partition_Ok nc (reorder order d) q') as (fd' & td' & E' & _).
  - apply (wf_lengths _ _ _ W').
  - apply (wf_rows _ _ _ W').
  - unfold q'. cbn. rewrite Nat2N.id, <- order_length. apply position_spec. now apply order_in.
  - rewrite St'. apply (NE nc). now apply reorder_wf.
  - rewrite Sf'. apply (NE nc). now apply reorder_wf.
  - rewrite E'. destruct (partition_wf _ nt _ _ fd' td' W' E') as (_ & Wf' & Wt' & St'' & Sf'').
    assert (fd' = reorder order fd) by (apply (dataset_eq nc nt); [auto|now apply reorder_wf|congruence]).
    assert (td' = reorder order td) by (apply (dataset_eq nc nt); [auto|now apply reorder_wf|congruence]).
    now subst.
Qed.

Lemma stop_gain s s' level m : bs_gain s' = bs_gain s -> stop_here s' level m = stop_here s level m.
Proof. intros H. unfold stop_here. now rewrite H. Qed.

Lemma built_reorder {L} (mk : dataset -> res L) (R : L -> L -> Prop) cfg nt :
  (forall x l, mk x = Ok l -> exists l', mk (reorder order x) = Ok l' /\ R l l') ->
  standard cfg -> tc_number_of_classes cfg = N.of_nat nt ->
  forall level d t, built mk cfg level d t -> wf_dataset nc nt d -> decisive nc nt d t ->
  exists t', built mk cfg level (reorder order d) t' /\ same_but_columns order R t t'.
Proof.
  intros HR Hs Hk level d t B. induction B as [level d s l Es Est El|level d s fd td t f Es Est Ep Bt IHt Bf IHf]; intros W D.
  - rewrite Hs, Hk in Es. change (find_best_split d (N.of_nat nt) = Ok s) in Es.
    pose proof (find_best_split_eq LW nc nt _ (reorder_wf nt d W)) as E'. set (s' := pfind _ _ _) in E'. clearbody s'.
    destruct (HR d l El) as (l' & El' & Rl). exists (leaf_node (bs_question s') l'). split; [|now constructor].
    apply built_leaf; auto.
    + now rewrite Hs, Hk.
    + rewrite <- Est. apply stop_gain. exact (reorder_gain nt d s s' W Es E').
  - rewrite Hs, Hk in Es. change (find_best_split d (N.of_nat nt) = Ok s) in Es.
    inversion D as [|d0 q0 t0 f0' fd0 td0 Hw Ep0 Dt Df]; subst. rewrite Ep in Ep0. injection Ep0 as <- <-.
    assert (P : fltb f0 (bs_gain s) = true).
    { destruct (split_is_best_column LW nc nt _ s W Es) as [_ [->|(j & bj & _ & _ & P & _)]]; auto.
      unfold stop_here in Est. cbn in Est. rewrite (feqb_fleb _ LW), (f0_num _ LW) in Est. discriminate. }
    destruct (reorder_question nt d s _ W Hw Es P) as (Ec & Hc & E').
    destruct (partition_wf nc nt d _ fd td W Ep) as (_ & Wf & Wt & _).
    destruct (IHt Wt Dt) as (t' & Bt' & St'). destruct (IHf Wf Df) as (f' & Bf' & Sf').
    destruct (bs_question s) as [c v] eqn:Eq. cbn [q_column q_value] in *. rewrite Ec in *. rewrite Nat2N.id in *.
    exists (node_new (Question (N.of_nat (position order (N.to_nat c))) v) t' f'). split.
    + eapply (built_node mk cfg level _ (mkBS (bs_gain s) (Question (N.of_nat (position order (N.to_nat c))) v))); cbn [bs_question].
      * rewrite Hs, Hk. exact E'.
      * rewrite <- Est. now apply stop_gain.
      * eapply partition_reorder; eauto.
      * exact Bt'.
      * exact Bf'.
    + now constructor.
Qed.

Lemma calc_reorder kind x : leaf_output_calculator_new kind (reorder order x) = leaf_output_calculator_new kind x.
Proof. destruct kind; reflexivity. Qed.

Section Trees.
Context (nt : nat) (d : dataset) (cfg : tree_config).
Hypotheses (W : wf_dataset nc nt d) (Hs : standard cfg) (Hk : tc_number_of_classes cfg = N.of_nat nt).

Theorem regression_reorder t : regression_tree_new d cfg = Ok t -> decisive nc nt d t ->
  exists t', regression_tree_new (reorder order d) cfg = Ok t' /\ same_but_columns order (reordered_leaf order) t t'.
Proof.
  rewrite !regression_tree_new_eq. intros E D. apply build_with_built in E.
  edestruct (built_reorder mk_reg (reordered_leaf order) cfg nt) as (t' & B & S); eauto.
  - intros x l El. injection El as <-. eexists. split; [reflexivity|]. exists x. split; reflexivity.
  - exists t'. split; auto. apply built_build_with; [exact B|unfold fuel_for; lia].
Qed.

Theorem grad_boost_reorder kind t : grad_boost_tree_new d cfg (leaf_output_calculator_new kind) = Ok t -> decisive nc nt d t ->
  exists t', grad_boost_tree_new (reorder order d) cfg (leaf_output_calculator_new kind) = Ok t' /\ same_but_columns order eq t t'.
Proof.
  rewrite !grad_boost_tree_new_eq. intros E D. apply build_with_built in E.
  edestruct (built_reorder (mk_gb (leaf_output_calculator_new kind)) eq cfg nt) as (t' & B & S); eauto.
  - intros x l El. exists l. split; auto. unfold mk_gb in *. now rewrite calc_reorder.
  - exists t'. split; auto. apply built_build_with; [exact B|unfold fuel_for; lia].
Qed.

Theorem amg_reorder kind t : amg_boost_tree_new d cfg (leaf_output_calculator_new kind) = Ok t -> decisive nc nt d t ->
  exists t', amg_boost_tree_new (reorder order d) cfg (leaf_output_calculator_new kind) = Ok t' /\ same_but_columns order eq t t'.
Proof.
  rewrite !amg_boost_tree_new_eq. intros E D. apply build_with_built in E.
  edestruct (built_reorder (mk_amg (leaf_output_calculator_new kind)) eq cfg nt) as (t' & B & S); eauto.
  - intros x l El. exists l. split; auto. unfold mk_amg in *. now rewrite calc_reorder.
  - exists t'. split; auto. apply built_build_with; [exact B|unfold fuel_for; lia].
Qed.
End Trees.

(** A row and its reordering reach corresponding leaves. *)
Theorem lookup_reorder {L} (R : L -> L -> Prop) t t' row : same_but_columns order R t t' -> length row = nc ->
  forall l, find_leaf_node_for_data row t = Ok l ->
  exists l', find_leaf_node_for_data (reorder_row order row) t' = Ok l' /\ R l l'.
Proof.
  intros S Lr. induction S as [q q' l l' Rl|c v t f t' f' St IHt Sf IHf]; intros x E.
  - injection E as <-. exists l'. split; [reflexivity|exact Rl].
  - cbn in *. destruct (le_lt_dec nc c) as [Hc|Hc].
    { rewrite (proj2 (solve_Panic (Question (N.of_nat c) v) row)) in E by (cbn; rewrite Nat2N.id; lia). discriminate. }
    rewrite solve_Ok in E by (cbn; rewrite Nat2N.id; lia). cbn [bind] in E.
    rewrite solve_Ok.
    2:{ cbn. rewrite Nat2N.id, reorder_row_length, <- order_length. apply position_spec. now apply order_in. }
    cbn [bind]. rewrite answers_reorder by auto. destruct (answers _ row); auto.
Qed.

Theorem predict_class_reorder t t' row p : same_but_columns order (reordered_leaf order) t t' -> length row = nc ->
  predict_class row t = Ok p -> predict_class (reorder_row order row) t' = Ok p.
Proof.
  unfold predict_class. intros S Lr H. apply bind_Ok in H as (l & E & H). apply bind_Ok in H as (x & Ex & H).
  destruct (lookup_reorder _ t t' row S Lr l E) as (l' & E' & y & Ey & Ey'). rewrite E'. cbn [bind].
  destruct (rl_data l) as [z|]; [|discriminate]. injection Ex as ->. injection Ey as ->. rewrite Ey'. exact H.
Qed.

Lemma idx_reorder test i r : idx (feature_rows test) i = Ok r -> idx (feature_rows (reorder order test)) i = Ok (reorder_row order r).
Proof. unfold idx. cbn. rewrite nth_error_map. destruct (nth_error (feature_rows test) i); [|discriminate]. intros E. injection E as <-. reflexivity. Qed.

Lemma idx_in {A} (l : list A) i x : idx l i = Ok x -> In x l.
Proof. unfold idx. destruct (nth_error l i) eqn:E; [|discriminate]. intros H. injection H as <-. eapply nth_error_In; eauto. Qed.

Theorem scores_reorder t t' test : same_but_columns order (reordered_leaf order) t t' -> rectangular nc (feature_rows test) ->
  (forall a, calculate_accuracy test t = Ok a -> calculate_accuracy (reorder order test) t' = Ok a) /\
  (forall e, calculate_overall_mean_squared_error test t = Ok e -> calculate_overall_mean_squared_error (reorder order test) t' = Ok e).
Proof.
  intros S HR. unfold rectangular in HR. rewrite Forall_forall in HR. split; intros a.
  - unfold calculate_accuracy. cbn [reorder feature_rows labels]. rewrite map_length. intros E. apply bind_Ok in E as (c & E & E').
    apply bind_Ok. exists c. split; [|exact E']. eapply for_range_impl; [|exact E]. cbn beta. intros i s r Ei.
    apply bind_Ok in Ei as (row & Er & Ei). pose proof (HR _ (idx_in _ _ _ Er)) as Lr. apply idx_reorder in Er. cbn [reorder feature_rows] in Er.
    rewrite Er. cbn [bind]. apply bind_Ok in Ei as (p & Ep & Ei). now rewrite (predict_class_reorder t t' row p S Lr Ep).
  - unfold calculate_overall_mean_squared_error. cbn [reorder feature_rows labels]. rewrite map_length. intros E. apply bind_Ok in E as (c & E & E').
    apply bind_Ok. exists c. split; [|exact E']. eapply for_range_impl; [|exact E]. cbn beta. intros i s r Ei.
    apply bind_Ok in Ei as (row & Er & Ei). pose proof (HR _ (idx_in _ _ _ Er)) as Lr. apply idx_reorder in Er. cbn [reorder feature_rows] in Er.
    rewrite Er. cbn [bind]. apply bind_Ok in Ei as (l & El & Ei). apply bind_Ok in Ei as (x & Ex & Ei).
    destruct (lookup_reorder _ t t' row S Lr l El) as (l' & El' & y & Ey & Ey'). rewrite El'. cbn [bind].
    destruct (rl_data l) as [z|]; [|discriminate]. injection Ex as ->. injection Ey as ->. rewrite Ey'. exact Ei.
Qed.

(** All at once. *)
Theorem reorder_tree nt d cfg t t' : wf_dataset nc nt d -> standard cfg -> tc_number_of_classes cfg = N.of_nat nt ->
  regression_tree_new d cfg = Ok t -> decisive nc nt d t -> regression_tree_new (reorder order d) cfg = Ok t' ->
  same_but_columns order (reordered_leaf order) t t' /\
  (forall row p, length row = nc -> predict_class row t = Ok p -> predict_class (reorder_row order row) t' = Ok p) /\
  (forall test, rectangular nc (feature_rows test) ->
    (forall a, calculate_accuracy test t = Ok a -> calculate_accuracy (reorder order test) t' = Ok a) /\
    (forall e, calculate_overall_mean_squared_error test t = Ok e -> calculate_overall_mean_squared_error (reorder order test) t' = Ok e)).
Proof.
  intros W Hs Hk E D E'. destruct (regression_reorder nt d cfg W Hs Hk t E D) as (t2 & E2 & S). rewrite E2 in E'. injection E' as <-.
  split; [exact S|]. split; [intros row p; now apply predict_class_reorder|]. intros test. now apply scores_reorder.
Qed.

Theorem reorder_gb nt d cfg kind t t' : wf_dataset nc nt d -> standard cfg -> tc_number_of_classes cfg = N.of_nat nt ->
  grad_boost_tree_new d cfg (leaf_output_calculator_new kind) = Ok t -> decisive nc nt d t ->
  grad_boost_tree_new (reorder order d) cfg (leaf_output_calculator_new kind) = Ok t' ->
  same_but_columns order eq t t' /\
  (forall row l, length row = nc -> find_leaf_node_for_data row t = Ok l -> find_leaf_node_for_data (reorder_row order row) t' = Ok l).
Proof.
  intros W Hs Hk E D E'. destruct (grad_boost_reorder nt d cfg W Hs Hk kind t E D) as (t2 & E2 & S). rewrite E2 in E'. injection E' as <-.
  split; [exact S|]. intros row l Lr El. destruct (lookup_reorder _ _ _ row S Lr l El) as (l' & El' & ->). exact El'.
Qed.

Theorem reorder_amg nt d cfg kind t t' : wf_dataset nc nt d -> standard cfg -> tc_number_of_classes cfg = N.of_nat nt ->
  amg_boost_tree_new d cfg (leaf_output_calculator_new kind) = Ok t -> decisive nc nt d t ->
  amg_boost_tree_new (reorder order d) cfg (leaf_output_calculator_new kind) = Ok t' ->
  same_but_columns order eq t t' /\
  (forall row l, length row = nc -> find_leaf_node_for_data row t = Ok l -> find_leaf_node_for_data (reorder_row order row) t' = Ok l).
Proof.
  intros W Hs Hk E D E'. destruct (amg_reorder nt d cfg W Hs Hk kind t E D) as (t2 & E2 & S). rewrite E2 in E'. injection E' as <-.
  split; [exact S|]. intros row l Lr El. destruct (lookup_reorder _ _ _ row S Lr l El) as (l' & El' & ->). exact El'.
Qed.

End Columns.

(** Checking [decisive] by computation. *)
Section Check.
Context {O : NumOps}.

Definition winner_b (nc nt : nat) (d : dataset) (c : nat) : bool :=
  (c <? nc) &&
  match find_best_split (only_column c d) (N.of_nat nt) with
  | Ok bc => forallb (fun j => (j =? c) ||
      match find_best_split (only_column j d) (N.of_nat nt) with Ok bj => fltb (bs_gain bj) (bs_gain bc) | _ => true end) (seq 0 nc)
  | _ => false
  end.

Lemma winner_b_ok nc nt d c : winner_b nc nt d c = true -> clear_winner nc nt d c.
Proof.
  unfold winner_b. rewrite andb_true_iff. intros [Hc H]. apply Nat.ltb_lt in Hc. split; auto.
  destruct (find_best_split (only_column c d) _) as [bc| |]; try discriminate. exists bc. split; auto.
  intros j bj Hj N E. rewrite forallb_forall in H. specialize (H j ltac:(apply in_seq; lia)).
  rewrite E in H. apply orb_prop in H as [H|H]; auto. apply Nat.eqb_eq in H. congruence.
Qed.

Fixpoint decisive_b (nc nt : nat) {L} (d : dataset) (t : tree_node L) : bool :=
  match t with
  | TreeNode _ _ None None (Some _) => true
  | TreeNode _ q (Some t) (Some f) None =>
      winner_b nc nt d (N.to_nat (q_column q)) &&
      match partition d q with Ok (fd, td) => decisive_b nc nt td t && decisive_b nc nt fd f | _ => false end
  | _ => false
  end.

Lemma decisive_b_ok nc nt {L} : forall (t : tree_node L) d, decisive_b nc nt d t = true -> decisive nc nt d t.
Proof.
  induction t as [q t f l IHt IHf] using tree_ind'. intros d H. destruct t as [t|], f as [f|], l as [l|]; try discriminate; cbn in H.
  - apply andb_prop in H as [H1 H]. destruct (partition d q) as [[fd td]| |] eqn:E; try discriminate. apply andb_prop in H as [H2 H3].
    eapply (decisive_node nc nt d q t f fd td); eauto using winner_b_ok.
  - apply (decisive_leaf nc nt d q l).
Qed.
End Check.
