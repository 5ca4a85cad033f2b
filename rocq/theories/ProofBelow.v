(** The subtree at a node is the tree of the rows that reach it, for any arithmetic. *)
From Verif Require Import Base Num ModelCommon ModelTree Lib Spec SpecTree SpecBelow ProofData ProofSort ProofTree.

Section Below.
Context {O : NumOps}.

Lemma filter_twice {A} (p q : A -> bool) l : filter p (filter q l) = filter (fun x => q x && p x) l.
Proof.
  induction l as [|x l IH]; simpl; auto. destruct (q x) eqn:Eq; simpl; [destruct (p x)|]; rewrite ?IH; reflexivity.
Qed.

Lemma dataset_ext nc nt d d' :
  wf_dataset nc nt d -> wf_dataset nc nt d' -> samples d = samples d' -> d = d'.
Proof.
  intros W W' E.
  assert (Er : feature_rows d = feature_rows d').
  { pose proof (f_equal (map fst) E) as H. unfold samples in H.
    rewrite !map_fst_combine in H; auto; symmetry; first [exact (wf_lengths _ _ _ W)|exact (wf_lengths _ _ _ W')]. }
  assert (El : labels d = labels d').
  { pose proof (f_equal (map snd) E) as H. unfold samples in H.
    rewrite !map_snd_combine in H; auto; symmetry; first [exact (wf_lengths _ _ _ W)|exact (wf_lengths _ _ _ W')]. }
  destruct d as [r l c], d' as [r' l' c']. simpl in *. subst. f_equal.
  exact (is_transpose_unique nc r' c c' (wf_columns _ _ _ W) (wf_columns _ _ _ W')).
Qed.

Lemma filter_fst {A B} (keep : A -> bool) (a : list A) : forall (b : list B), length b = length a ->
  map fst (filter (fun p => keep (fst p)) (combine a b)) = filter keep a.
Proof.
  induction a as [|x a IH]; intros [|y b] H; simpl in *; try discriminate; auto.
  destruct (keep x); simpl; rewrite IH by lia; reflexivity.
Qed.

Lemma column_filter (keep : list F -> bool) j (rows : list (list F)) : forall col,
  length col = length rows ->
  (forall i row, nth_error rows i = Some row -> j < length row /\ nth_error col i = nth_error row j) ->
  let col' := map snd (filter (fun p => keep (fst p)) (combine rows col)) in
  length col' = length (filter keep rows) /\
  forall i row, nth_error (filter keep rows) i = Some row -> j < length row /\ nth_error col' i = nth_error row j.
Proof.
  induction rows as [|r rows IH]; intros [|x col] HL H; simpl in HL; try discriminate.
  - split; [reflexivity|exact H].
  - destruct (IH col) as [L' H']; [lia| |].
    { intros i row E. exact (H (S i) row E). }
    cbn [combine filter fst]. destruct (keep r) eqn:Ek; cbn; rewrite ?Ek; cbn; [|split; auto; fail].
    split; [f_equal; exact L'|]. intros [|i] row E; [|exact (H' i row E)].
    injection E as <-. exact (H 0 r eq_refl).
Qed.

Lemma only_rows_wf nc nt keep d :
  wf_dataset nc nt d -> filter (fun p => keep (fst p)) (samples d) <> [] ->
  wf_dataset nc nt (only_rows keep d) /\ samples (only_rows keep d) = filter (fun p => keep (fst p)) (samples d).
Proof.
  intros W Hne. assert (Es : samples (only_rows keep d) = filter (fun p => keep (fst p)) (samples d)).
  { unfold samples at 1, only_rows. simpl. apply combine_map_fst_snd. }
  split; [|exact Es]. unfold only_rows.
  assert (Er : map fst (filter (fun p => keep (fst p)) (samples d)) = filter keep (feature_rows d)).
  { apply filter_fst. apply (wf_lengths _ _ _ W). }
  constructor; cbn [feature_rows labels feature_columns].
  - intros E. apply Hne. now apply map_eq_nil in E.
  - now rewrite !map_length.
  - rewrite Er. apply Forall_forall. intros r H. apply filter_In in H as [H _].
    exact (proj1 (Forall_forall _ _) (wf_rows _ _ _ W) r H).
  - apply Forall_forall. intros l H. apply in_map_iff in H as ((r, l') & <- & H). apply filter_In in H as [H _].
    apply in_combine_r in H. exact (proj1 (Forall_forall _ _) (wf_labels _ _ _ W) l' H).
  - rewrite Er. destruct (wf_columns _ _ _ W) as [HL HC]. split; [now rewrite map_length|].
    intros j col E. rewrite nth_error_map in E. destruct (nth_error (feature_columns d) j) as [c|] eqn:Ec; [|discriminate E].
    injection E as <-. destruct (HC j c Ec) as [H1 H2]. exact (column_filter keep j (feature_rows d) c H1 H2).
  - rewrite Er. apply Forall_forall. intros r H. apply filter_In in H as [H _].
    exact (proj1 (Forall_forall _ _) (wf_nonan _ _ _ W) r H).
  - apply (wf_u32 _ _ _ W).
Qed.

Lemma stop_here_shift s level k max :
  (k <= level)%N -> (level <= max)%N -> stop_here s level max = stop_here s (level - k) (max - k).
Proof.
  intros H1 H2. unfold stop_here. f_equal.
  destruct (N.eqb_spec level max) as [->|N]; [symmetry; apply N.eqb_refl|]. symmetry. apply N.eqb_neq. lia.
Qed.

Lemma built_shift {L} (mk : dataset -> res L) cfg k level d t :
  built mk cfg level d t -> (N.of_nat k <= level)%N -> (level <= tc_max_levels cfg)%N ->
  built mk (levels_left k cfg) (level - N.of_nat k) d t.
Proof.
  induction 1 as [level d s l Es Est El|level d s fd td t f Es Est Ep Bt IHt Bf IHf]; intros Hk Hm.
  - apply (built_leaf mk (levels_left k cfg) _ d s l); auto. cbn. now rewrite <- stop_here_shift.
  - assert (level <> tc_max_levels cfg).
    { intros ->. rewrite stop_here_max in Est. discriminate. }
    assert (El : (level - N.of_nat k + 1 = level + 1 - N.of_nat k)%N) by lia.
    apply (built_node mk (levels_left k cfg) _ d s fd td t f); auto.
    + cbn. now rewrite <- stop_here_shift.
    + rewrite El. apply IHt; lia.
    + rewrite El. apply IHf; lia.
Qed.

Lemma built_below {L} (mk : dataset -> res L) cfg nc nt steps t s :
  below steps t s -> forall level d, built mk cfg level d t -> wf_dataset nc nt d -> (level <= tc_max_levels cfg)%N ->
  (level + N.of_nat (length steps) <= tc_max_levels cfg)%N /\
  exists d', wf_dataset nc nt d' /\ samples d' = filter (fun p => takes steps (fst p)) (samples d) /\
    built mk cfg (level + N.of_nat (length steps)) d' s.
Proof.
  assert (Hstop : forall b level, stop_here b level (tc_max_levels cfg) = false -> level <> tc_max_levels cfg).
  { intros b level E ->. rewrite stop_here_max in E. discriminate. }
  induction 1 as [t|q steps t f s Hb IH|q steps t f s Hb IH]; intros level d B W Hm.
  - cbn [length]. rewrite N.add_0_r. split; [exact Hm|]. exists d. split; [exact W|]. split; [|exact B].
    unfold takes. cbn. clear. induction (samples d) as [|x l IH]; simpl; auto. now rewrite <- IH.
  - inversion B as [|? ? b fd td ? ? Es Est Ep Bt Bf]; subst.
    destruct (partition_wf nc nt d _ fd td W Ep) as (_ & Wf & Wt & St & Sf). pose proof (Hstop _ _ Est) as Hne.
    destruct (IH _ _ Bt Wt ltac:(lia)) as (H1 & d' & W' & S' & B').
    cbn [length]. replace (level + N.of_nat (S (length steps)))%N with (level + 1 + N.of_nat (length steps))%N by lia.
    split; [exact H1|]. exists d'. split; [exact W'|]. split; [|exact B'].
    rewrite S', St, filter_twice. apply filter_ext. intros x. unfold takes. cbn [forallb fst snd].
    destruct (answers (bs_question b) (fst x)); reflexivity.
  - inversion B as [|? ? b fd td ? ? Es Est Ep Bt Bf]; subst.
    destruct (partition_wf nc nt d _ fd td W Ep) as (_ & Wf & Wt & St & Sf). pose proof (Hstop _ _ Est) as Hne.
    destruct (IH _ _ Bf Wf ltac:(lia)) as (H1 & d' & W' & S' & B').
    cbn [length]. replace (level + N.of_nat (S (length steps)))%N with (level + 1 + N.of_nat (length steps))%N by lia.
    split; [exact H1|]. exists d'. split; [exact W'|]. split; [|exact B'].
    rewrite S', Sf, filter_twice. apply filter_ext. intros x. unfold takes. cbn [forallb fst snd].
    destruct (answers (bs_question b) (fst x)); reflexivity.
Qed.

Lemma build_below {L} (mk : dataset -> res L) cfg nc nt d t steps s :
  wf_dataset nc nt d -> build_with mk (fuel_for d) d cfg 0 = Ok t -> below steps t s ->
  let d' := only_rows (takes steps) d in
  (N.of_nat (length steps) <= tc_max_levels cfg)%N /\ wf_dataset nc nt d' /\
  build_with mk (fuel_for d') d' (levels_left (length steps) cfg) 0 = Ok s.
Proof.
  intros W E Hb d'. apply build_with_built in E.
  destruct (built_below mk cfg nc nt steps t s Hb 0 d E W ltac:(lia)) as (H1 & x & Wx & Sx & Bx).
  rewrite N.add_0_l in H1, Bx. split; [exact H1|].
  assert (Hne : filter (fun p => takes steps (fst p)) (samples d) <> []).
  { rewrite <- Sx. unfold samples. intros E0. apply (wf_nonempty _ _ _ Wx).
    pose proof (wf_lengths _ _ _ Wx) as HL. destruct (feature_rows x), (labels x); simpl in *; try discriminate; auto. }
  destruct (only_rows_wf nc nt (takes steps) d W Hne) as [W' S'].
  assert (Ed : x = d') by (apply (dataset_ext nc nt); auto; unfold d'; rewrite S'; exact Sx).
  subst x. split; [exact Wx|]. apply built_build_with; [|unfold fuel_for; lia].
  pose proof (built_shift mk cfg (length steps) _ d' s Bx ltac:(lia) H1) as B. now rewrite N.sub_diag in B.
Qed.

Theorem regression_below nc nt d cfg t steps s :
  wf_dataset nc nt d -> regression_tree_new d cfg = Ok t -> below steps t s ->
  (N.of_nat (length steps) <= tc_max_levels cfg)%N /\ wf_dataset nc nt (only_rows (takes steps) d) /\
  regression_tree_new (only_rows (takes steps) d) (levels_left (length steps) cfg) = Ok s.
Proof. rewrite !regression_tree_new_eq. apply build_below. Qed.

Theorem grad_boost_below nc nt d cfg calc t steps s :
  wf_dataset nc nt d -> grad_boost_tree_new d cfg calc = Ok t -> below steps t s ->
  (N.of_nat (length steps) <= tc_max_levels cfg)%N /\ wf_dataset nc nt (only_rows (takes steps) d) /\
  grad_boost_tree_new (only_rows (takes steps) d) (levels_left (length steps) cfg) calc = Ok s.
Proof. rewrite !grad_boost_tree_new_eq. apply build_below. Qed.

Theorem amg_below nc nt d cfg calc t steps s :
  wf_dataset nc nt d -> amg_boost_tree_new d cfg calc = Ok t -> below steps t s ->
  (N.of_nat (length steps) <= tc_max_levels cfg)%N /\ wf_dataset nc nt (only_rows (takes steps) d) /\
  amg_boost_tree_new (only_rows (takes steps) d) (levels_left (length steps) cfg) calc = Ok s.
Proof. rewrite !amg_boost_tree_new_eq. apply build_below. Qed.

(** Two training sets that have the same rows at a node have the same subtree there. *)
Theorem others_irrelevant nc nt d d' cfg t t' steps s s' :
  wf_dataset nc nt d -> wf_dataset nc nt d' -> regression_tree_new d cfg = Ok t -> regression_tree_new d' cfg = Ok t' ->
  below steps t s -> below steps t' s' ->
  filter (fun p => takes steps (fst p)) (samples d) = filter (fun p => takes steps (fst p)) (samples d') ->
  s = s'.
Proof.
  intros W W' E E' B B' Es.
  destruct (regression_below nc nt d cfg t steps s W E B) as (_ & W1 & R1).
  destruct (regression_below nc nt d' cfg t' steps s' W' E' B') as (_ & W2 & R2).
  assert (Hd : only_rows (takes steps) d = only_rows (takes steps) d').
  { apply (dataset_ext nc nt); auto. unfold samples, only_rows. cbn. now rewrite Es. }
  rewrite Hd, R2 in R1. now injection R1 as ->.
Qed.

End Below.
