(** How many training rows a tree classifies correctly (C95). *)
From Coq Require Import Permutation Lia Reals Lra.
From Flocq Require Import IEEE754.BinarySingleNaN Core.
From Verif Require Import Base Num ModelCommon ModelTree Spec SpecTree SpecScore SpecFit SpecVote Lib ProofData ProofSort ProofSplit ProofSplit2 ProofTree ProofTree2 ProofTree3
  ProofScore ProofScore2.
Local Open Scope nat_scope.

Lemma list_max_ge (l : list nat) x : In x l -> x <= list_max l.
Proof. intros H. pose proof (proj1 (list_max_le l (list_max l)) (le_n _)) as Q. rewrite Forall_forall in Q. auto. Qed.

Section Vote.
Context {O : NumOps} (LW : NumLaws O).
Hypothesis one_num : feqb f1 f1 = true.
Hypothesis zero_num : feqb f0 f0 = true.
Hypothesis zero_not_one : feqb f0 f1 = false.
Hypothesis one_not_zero : feqb f1 f0 = false.

Definition hitsOn (S : list (list F * list F)) (t : tree_node regression_leaf) : nat :=
  length (filter (fun p => match predict_class (fst p) t with Ok v => equal_vectors v (snd p) | _ => false end) S).

Lemma equal_vectors_nth a b : equal_vectors a b = true <->
  length a = length b /\ forall i x y, nth_error a i = Some x -> nth_error b i = Some y -> feqb x y = true.
Proof.
  unfold equal_vectors. rewrite andb_true_iff, Nat.eqb_eq. split; intros [L H]; split; auto.
  - clear L. revert b H. induction a as [|u a IH]; intros [|w b] H [|i] x y Hx Hy; cbn in *; try discriminate;
      apply andb_true_iff in H as [H1 H2].
    + injection Hx as <-. injection Hy as <-. exact H1.
    + exact (IH b H2 i x y Hx Hy).
  - clear L. revert b H. induction a as [|u a IH]; intros [|w b] H; cbn; auto. apply andb_true_iff. split.
    + exact (H 0 u w eq_refl eq_refl).
    + apply IH. intros i x y Hx Hy. exact (H (S i) x y Hx Hy).
Qed.

Lemma hot_vote k (c : nat) v y : one_hot k (N.of_nat c) v -> (exists c', one_hot k c' y) ->
  equal_vectors v y = match nth_error y c with Some x => feqb x f1 | None => false end.
Proof.
  intros (Hc & Lv & Hv) (c' & Hc' & Ly & Hy). assert (Hck : c < k) by lia.
  rewrite (Hy c Hck). destruct (N.eqb_spec (N.of_nat c) c') as [E|E].
  - rewrite one_num. apply equal_vectors_nth. split; [congruence|]. intros i x z Hx Hz.
    assert (Hi : i < k) by (rewrite <- Lv; apply nth_error_Some; congruence).
    rewrite (Hv i Hi) in Hx. rewrite (Hy i Hi) in Hz. injection Hx as <-. injection Hz as <-. subst c'.
    destruct (N.of_nat i =? N.of_nat c)%N; auto.
  - rewrite zero_not_one. apply not_true_is_false. intros H. apply equal_vectors_nth in H as [_ H].
    specialize (H c _ _ (Hv c Hck) (Hy c Hck)). rewrite N.eqb_refl in H. destruct (N.eqb_spec (N.of_nat c) c'); [contradiction|].
    rewrite one_not_zero in H. discriminate.
Qed.

Lemma votes_filter S i (p : list F * list F -> bool) :
  votes (map snd S) i = votes (map snd (filter p S)) i + votes (map snd (filter (fun x => negb (p x)) S)) i.
Proof.
  unfold votes. induction S as [|x S IH]; cbn [map filter]; [reflexivity|].
  destruct (p x); cbn [negb map filter]; destruct (match nth_error (snd x) i with Some _ => _ | None => _ end); cbn [length]; lia.
Qed.

Lemma samples_snd nc nt d : wf_dataset nc nt d -> map snd (samples d) = labels d.
Proof.
  intros W. pose proof (wf_lengths _ _ _ W) as L. unfold samples. revert L. generalize (feature_rows d). generalize (labels d).
  induction l as [|x l IH]; intros [|y r] L; cbn in *; try discriminate; auto. f_equal. apply IH. lia.
Qed.

Lemma class_sub k d d' : class_labels k d -> incl (samples d') (samples d) -> map snd (samples d') = labels d' -> class_labels k d'.
Proof.
  unfold class_labels. rewrite !Forall_forall. intros H Hi E y Hy. rewrite <- E in Hy. apply in_map_iff in Hy as ([r y'] & <- & Hp).
  apply H. exact (in_combine_r _ _ _ _ (Hi _ Hp)).
Qed.

Lemma hits_leaf nc nt q d : wf_dataset nc nt d -> class_labels nt d -> 0 < nt -> (Z.of_nat nt <= 2 ^ 53)%Z ->
  hitsOn (samples d) (leaf_node q (mkRL (Some d))) = largest_class nt (labels d).
Proof.
  intros W HC Hk Hk2.
  assert (NE : labels d <> []) by (pose proof (wf_lengths _ _ _ W); pose proof (wf_nonempty _ _ _ W); destruct (labels d), (feature_rows d); cbn in *; congruence).
  destruct (predict_class_leaf LW nt (leaf_node q (mkRL (Some d))) [] d eq_refl NE (wf_labels _ _ _ W) Hk Hk2) as (c & v & Ev & Hv & Hc).
  assert (E : hitsOn (samples d) (leaf_node q (mkRL (Some d))) = votes (map snd (samples d)) c).
  { unfold hitsOn, votes.
    assert (G : forall S, (forall p, In p S -> exists c', one_hot nt c' (snd p)) ->
      length (filter (fun p => match predict_class (fst p) (leaf_node q (mkRL (Some d))) with Ok v => equal_vectors v (snd p) | _ => false end) S) =
      length (filter (fun l => match nth_error l c with Some x => feqb x f1 | None => false end) (map snd S))).
    { induction S as [|p S IH]; intros HS; [reflexivity|]. cbn [filter map].
      change (predict_class (fst p) (leaf_node q (mkRL (Some d)))) with (predict_class [] (leaf_node q (mkRL (Some d)))). rewrite Ev.
      rewrite (hot_vote nt c v (snd p) Hv (HS p (or_introl eq_refl))).
      destruct (match nth_error (snd p) c with Some _ => _ | None => _ end); cbn [length]; rewrite IH; auto; intros; apply HS; now right. }
    apply G. intros [r y] Hp. unfold class_labels in HC. rewrite Forall_forall in HC. apply HC. exact (in_combine_r _ _ _ _ Hp). }
  rewrite E, (samples_snd nc nt d W). destruct Hc as [Hck Hc]. unfold largest_class. apply Nat.le_antisymm.
  - apply list_max_ge, in_map, in_seq. lia.
  - apply list_max_le. apply Forall_forall. intros x Hx. apply in_map_iff in Hx as (i & <- & Hi). apply in_seq in Hi. apply Hc. lia.
Qed.

Lemma predict_class_node q a b row : N.to_nat (q_column q) < length row ->
  predict_class row (node_new q a b) = if answers q row then predict_class row a else predict_class row b.
Proof.
  intros H. unfold predict_class at 1. cbn [node_new find_leaf_node_for_data]. rewrite solve_Ok by auto. cbn [bind].
  destruct (answers q row); reflexivity.
Qed.

Lemma hits_node nc S q a b : (forall p, In p S -> length (fst p) = nc) -> N.to_nat (q_column q) < nc ->
  hitsOn S (node_new q a b) = hitsOn (filter (fun p => answers q (fst p)) S) a + hitsOn (filter (fun p => negb (answers q (fst p))) S) b.
Proof.
  intros HS Hq. unfold hitsOn. induction S as [|p S IH]; [reflexivity|]. cbn [filter].
  rewrite predict_class_node by (rewrite (HS p (or_introl eq_refl)); auto).
  specialize (IH (fun p H => HS p (or_intror H))).
  destruct (answers q (fst p)) eqn:E; cbn [filter negb]; rewrite ?E; destruct (match predict_class (fst p) _ with Ok _ => _ | _ => _ end); cbn [length]; rewrite IH; lia.
Qed.

Lemma samples_width nc nt d : wf_dataset nc nt d -> forall p, In p (samples d) -> length (fst p) = nc.
Proof.
  intros W [r y] Hp. pose proof (wf_rows _ _ _ W) as R. unfold rectangular in R. rewrite Forall_forall in R. apply R. exact (in_combine_l _ _ _ _ Hp).
Qed.

Section Built.
Variables nc nt : nat.
Hypothesis Hk : 0 < nt.
Hypothesis Hk2 : (Z.of_nat nt <= 2 ^ 53)%Z.

Lemma sub_class d q fd td : wf_dataset nc nt d -> class_labels nt d -> partition d q = Ok (fd, td) ->
  N.to_nat (q_column q) < nc /\ wf_dataset nc nt fd /\ wf_dataset nc nt td /\ class_labels nt fd /\ class_labels nt td /\
  samples td = filter (fun p => answers q (fst p)) (samples d) /\ samples fd = filter (fun p => negb (answers q (fst p))) (samples d).
Proof.
  intros W HC Ep. destruct (partition_wf nc nt d q fd td W Ep) as (Hq & Wf & Wt & St & Sf).
  split; [exact Hq|]. split; [exact Wf|]. split; [exact Wt|]. split; [|split; [|split; [exact St|exact Sf]]].
  - apply (class_sub nt d); [exact HC| |exact (samples_snd _ _ _ Wf)]. rewrite Sf. intros x Hx. now apply filter_In in Hx.
  - apply (class_sub nt d); [exact HC| |exact (samples_snd _ _ _ Wt)]. rewrite St. intros x Hx. now apply filter_In in Hx.
Qed.

(** Every tree classifies at least the rows of any one class. *)
Lemma hits_class cfg level d t i : built mk_reg cfg level d t -> wf_dataset nc nt d -> class_labels nt d -> i < nt ->
  votes (labels d) i <= hitsOn (samples d) t.
Proof.
  intros B. induction B as [level d s lf Es Est El|level d s fd td t f Es Est Ep Bt IHt Bf IHf]; intros W HC Hi.
  - injection El as <-. rewrite (hits_leaf nc nt) by auto. apply list_max_ge, in_map, in_seq. lia.
  - destruct (sub_class d _ fd td W HC Ep) as (Hq & Wf & Wt & Cf & Ct & St & Sf).
    rewrite (hits_node nc) by (auto; eapply samples_width; eauto). rewrite <- St, <- Sf.
    specialize (IHt Wt Ct Hi). specialize (IHf Wf Cf Hi).
    rewrite <- (samples_snd nc nt d W), (votes_filter _ i (fun p => answers (bs_question s) (fst p))), <- St, <- Sf,
      (samples_snd nc nt td Wt), (samples_snd nc nt fd Wf). lia.
Qed.

Lemma hits_mono cfg m m' level d t t' :
  (m <= m')%N -> (level <= m)%N -> built mk_reg (with_levels m cfg) level d t -> built mk_reg (with_levels m' cfg) level d t' ->
  wf_dataset nc nt d -> class_labels nt d -> hitsOn (samples d) t <= hitsOn (samples d) t'.
Proof.
  intros Hm Hlev B. revert t' Hlev. remember (with_levels m cfg) as c eqn:Ec.
  induction B as [level d s lf Es Est El|level d s fd td t f Es Est Ep Bt IHt Bf IHf]; intros t' Hlev B' W HC.
  - injection El as <-. rewrite (hits_leaf nc nt) by auto. apply list_max_le. apply Forall_forall. intros x Hx.
    apply in_map_iff in Hx as (i & <- & Hi). apply in_seq in Hi. eapply hits_class; eauto. lia.
  - destruct (sub_class d _ fd td W HC Ep) as (Hq & Wf & Wt & Cf & Ct & St & Sf).
    rewrite Ec in Es, Est. cbn [with_levels tc_split_finder tc_number_of_classes tc_max_levels] in Es, Est.
    assert (Hlt : (level < m)%N).
    { unfold stop_here in Est. apply orb_false_iff in Est as [_ H]. apply N.eqb_neq in H. lia. }
    inversion B' as [level' d' s' lf' Es' Est' El'|level' d' s' fd' td' a b Es' Est' Ep' Ba Bb]; subst.
    + exfalso. cbn [with_levels tc_split_finder tc_number_of_classes tc_max_levels] in Es', Est'. rewrite Es in Es'. injection Es' as <-.
      unfold stop_here in *. apply orb_false_iff in Est as [Hg _]. rewrite Hg in Est'. cbn [orb] in Est'. apply N.eqb_eq in Est'. lia.
    + cbn [with_levels tc_split_finder tc_number_of_classes tc_max_levels] in Es', Est'. rewrite Es in Es'. injection Es' as <-.
      rewrite Ep in Ep'. injection Ep' as <- <-.
      rewrite !(hits_node nc) by (auto; eapply samples_width; eauto). rewrite <- St, <- Sf.
      specialize (IHt a ltac:(lia) Ba Wt Ct). specialize (IHf b ltac:(lia) Bb Wf Cf). lia.
Qed.

Definition leaf_share (l : regression_leaf) : nat := match rl_data l with Some ld => largest_class nt (labels ld) | None => 0 end.

Lemma hits_leaves cfg level d t : built mk_reg cfg level d t -> wf_dataset nc nt d -> class_labels nt d ->
  hitsOn (samples d) t = list_sum (map leaf_share (leaves t)).
Proof.
  intros B. induction B as [level d s lf Es Est El|level d s fd td t f Es Est Ep Bt IHt Bf IHf]; intros W HC.
  - injection El as <-. rewrite (hits_leaf nc nt) by auto. cbn. lia.
  - destruct (sub_class d _ fd td W HC Ep) as (Hq & Wf & Wt & Cf & Ct & St & Sf).
    rewrite (hits_node nc) by (auto; eapply samples_width; eauto). rewrite <- St, <- Sf, (IHt Wt Ct), (IHf Wf Cf).
    cbn [node_new leaves app]. rewrite map_app, list_sum_app. reflexivity.
Qed.

Lemma built_of d cfg t : regression_tree_new d cfg = Ok t -> built mk_reg cfg 0 d t.
Proof. rewrite regression_tree_new_eq. apply build_with_built. Qed.

Lemma same_answers_leaf d cfg t r' row : wf_dataset nc nt d -> regression_tree_new d cfg = Ok t -> nc <= length r' -> nc <= length row ->
  forallb (fun q => Bool.eqb (answers q r') (answers q row)) (path row t) = true ->
  find_leaf_node_for_data r' t = find_leaf_node_for_data row t.
Proof.
  intros W E Hr' Hr. apply built_of in E. revert W.
  induction E as [level d s lf Es Est El|level d s fd td t f Es Est Ep Bt IHt Bf IHf]; intros W; [reflexivity|].
  destruct (partition_wf nc nt d _ fd td W Ep) as (Hq & Wf & Wt & _). cbn [node_new path forallb find_leaf_node_for_data].
  rewrite !solve_Ok by lia. cbn [bind]. intros H. apply andb_true_iff in H as [H1 H2]. apply Bool.eqb_prop in H1. rewrite H1.
  destruct (answers (bs_question s) row); auto.
Qed.

Theorem hits_by_leaf d cfg t : wf_dataset nc nt d -> class_labels nt d -> regression_tree_new d cfg = Ok t ->
  hits d t = list_sum (map leaf_share (leaves t)).
Proof. intros W HC E. exact (hits_leaves cfg 0 d t (built_of d cfg t E) W HC). Qed.

Theorem hits_at_least d cfg t : wf_dataset nc nt d -> class_labels nt d -> regression_tree_new d cfg = Ok t ->
  largest_class nt (labels d) <= hits d t.
Proof.
  intros W HC E. apply list_max_le. apply Forall_forall. intros x Hx. apply in_map_iff in Hx as (i & <- & Hi). apply in_seq in Hi.
  apply (hits_class cfg 0 d t i (built_of d cfg t E) W HC). lia.
Qed.

Theorem hits_deeper d cfg m m' t t' : wf_dataset nc nt d -> class_labels nt d -> (m <= m')%N ->
  regression_tree_new d (with_levels m cfg) = Ok t -> regression_tree_new d (with_levels m' cfg) = Ok t' -> hits d t <= hits d t'.
Proof.
  intros W HC Hm E E'. apply (hits_mono cfg m m' 0 d t t'); auto using built_of. lia.
Qed.

Lemma answers_everything d cfg t : wf_dataset nc nt d -> regression_tree_new d cfg = Ok t ->
  Forall (fun row => exists v, predict_class row t = Ok v) (feature_rows d).
Proof.
  intros W E. apply Forall_forall. intros row Hr. pose proof (wf_rows _ _ _ W) as R. unfold rectangular in R. rewrite Forall_forall in R.
  destruct (majority_class LW nc nt d cfg t row W Hk Hk2 E) as (c & v & Ev & _); [rewrite (R row Hr); lia|]. eauto.
Qed.
End Built.
End Vote.

(** Binary64. *)
From Verif Require Import F64 SpecF64 SpecInt ProofScoreF64 ProofInt5.

Section Vote64.
Variable P : platform.
Notation O := (f64_ops P).
Variables nc nt : nat.
Hypothesis Hk : 0 < nt.
Hypothesis Hk2 : (Z.of_nat nt <= 2 ^ 53)%Z.

Lemma accuracy_of d cfg t : @wf_dataset O nc nt d -> (Z.of_nat (length (feature_rows d)) <= 2 ^ 53)%Z -> regression_tree_new d cfg = Ok t ->
  exists a, calculate_accuracy d t = Ok a /\ is_fraction (hits d t) (length (feature_rows d)) a.
Proof.
  intros W Hn E. apply (tree_accuracy_f64 P); auto.
  - exact (wf_lengths _ _ _ W).
  - exact (wf_nonempty _ _ _ W).
  - exact (answers_everything (f64_laws P) nc nt Hk Hk2 d cfg t W E).
Qed.

Lemma fraction_mono k k' n a a' : is_fraction k n a -> is_fraction k' n a' -> k <= k' -> (B2R a <= B2R a')%R.
Proof.
  intros (_ & E & _) (_ & E' & _) H. rewrite E, E'. unfold nearest_f64. apply round_le; [typeclasses eauto|typeclasses eauto|].
  apply Rmult_le_compat_r; [|now apply le_INR].
  destruct n; [cbn [INR]; rewrite Rinv_0; lra|]. apply Rlt_le, Rinv_0_lt_compat, lt_0_INR. lia.
Qed.

Theorem training_accuracy d cfg t : @wf_dataset O nc nt d -> class_labels nt d -> (Z.of_nat (length (feature_rows d)) <= 2 ^ 53)%Z ->
  regression_tree_new d cfg = Ok t ->
  exists a, calculate_accuracy d t = Ok a /\ is_fraction (hits d t) (length (feature_rows d)) a /\
    hits d t = list_sum (map (leaf_share nt) (leaves t)) /\ largest_class nt (labels d) <= hits d t.
Proof.
  intros W HC Hn E. destruct (accuracy_of d cfg t W Hn E) as (a & Ea & Ha). exists a. split; [exact Ea|]. split; [exact Ha|]. split.
  - exact (hits_by_leaf (f64_laws P) eq_refl eq_refl eq_refl eq_refl nc nt Hk Hk2 d cfg t W HC E).
  - exact (hits_at_least (f64_laws P) eq_refl eq_refl eq_refl eq_refl nc nt Hk Hk2 d cfg t W HC E).
Qed.

Theorem deeper_classifies_no_worse d cfg m m' t t' : @wf_dataset O nc nt d -> class_labels nt d -> (Z.of_nat (length (feature_rows d)) <= 2 ^ 53)%Z ->
  (m <= m')%N -> regression_tree_new d (with_levels m cfg) = Ok t -> regression_tree_new d (with_levels m' cfg) = Ok t' ->
  hits d t <= hits d t' /\ exists a a', calculate_accuracy d t = Ok a /\ calculate_accuracy d t' = Ok a' /\ (B2R a <= B2R a')%R.
Proof.
  intros W HC Hn Hm E E'.
  pose proof (hits_deeper (f64_laws P) eq_refl eq_refl eq_refl eq_refl nc nt Hk Hk2 d cfg m m' t t' W HC Hm E E') as H. split; [exact H|].
  destruct (accuracy_of d _ t W Hn E) as (a & Ea & Ha). destruct (accuracy_of d _ t' W Hn E') as (a' & Ea' & Ha').
  exists a, a'. split; [exact Ea|]. split; [exact Ea'|]. exact (fraction_mono _ _ _ _ _ Ha Ha' H).
Qed.

Lemma class_integer (d : @dataset O) : class_labels nt d -> integer_labels 1 d.
Proof.
  unfold class_labels. rewrite Forall_forall. intros H l x Hl Hx. destruct (H l Hl) as (c & _ & L & Hc).
  destruct (In_nth_error _ _ Hx) as (i & Hi). assert (Hlt : i < nt) by (rewrite <- L; apply nth_error_Some; rewrite Hi; discriminate).
  pose proof (eq_trans (eq_sym Hi) (Hc i Hlt)) as Q. injection Q as ->.
  destruct (N.of_nat i =? c)%N; [exists 1%Z|exists 0%Z]; (split; [reflexivity|lia]).
Qed.

(** A deep enough tree on data without contradictions. *)
Theorem deep_tree_classifies d cfg t : @wf_dataset O nc nt d -> class_labels nt d -> (Z.of_nat (length (feature_rows d)) <= 2 ^ 53)%Z ->
  small_table 1 nt d -> consistent_rows d -> standard cfg -> tc_number_of_classes cfg = N.of_nat nt ->
  regression_tree_new d cfg = Ok t -> (N.of_nat (length (feature_rows d)) <= tc_max_levels cfg + 1)%N ->
  exists a, calculate_accuracy d t = Ok a /\ B2R a = 1%R /\ is_finite a = true /\
    forall row l, In (row, l) (samples d) -> predict_class row t = Ok l.
Proof.
  intros W HC Hn HT HR Hs Hc E Hd. pose proof (class_integer d HC) as HI.
  assert (G : forall row l, In (row, l) (samples d) -> predict_class row t = Ok l).
  { intros row l Hin.
    assert (Hrow : nc <= length row) by (pose proof (samples_width nc nt d W _ Hin) as Q; cbn [fst] in Q; lia).
    pose proof (deep_tree_fits_int P 1 (proj1 HT) nc nt d cfg t row l W HI HT HR Hs Hc E Hd Hin) as Hfit.
    destruct (leaf_on_path nc nt d cfg t row W E Hrow) as (ld & Ef & Es).
    assert (All : forall r' l', In (r', l') (samples ld) -> l' = l).
    { intros r' l' H'. pose proof H' as H2. rewrite Es in H2. apply filter_In in H2 as [Hin' Hans]. cbn [fst] in Hans.
      pose proof (deep_tree_fits_int P 1 (proj1 HT) nc nt d cfg t r' l' W HI HT HR Hs Hc E Hd Hin') as Hfit'.
      assert (Hr' : nc <= length r') by (pose proof (samples_width nc nt d W _ Hin') as Q; cbn [fst] in Q; lia).
      assert (Ep : find_leaf_node_for_data r' t = find_leaf_node_for_data row t)
        by (refine (same_answers_leaf nc nt _ d cfg t r' row W E Hr' Hrow Hans); assumption).
      unfold tree_prediction in Hfit, Hfit'. rewrite Ep in Hfit'. rewrite Hfit in Hfit'. now injection Hfit' as ->. }
    destruct (majority_class (f64_laws P) nc nt d cfg t row W Hk Hk2 E Hrow) as (c & v & Ev & Hv & Hck & Hmv). rewrite Ev. f_equal.
    assert (Hl : exists c', one_hot nt c' l) by (unfold class_labels in HC; rewrite Forall_forall in HC; exact (HC l (in_combine_r _ _ _ _ Hin))).
    destruct Hl as (c0 & Hl). pose proof Hl as (Hc0 & _ & Hl1).
    change (samples_like row t d) with (filter (fun p => forallb (fun q => Bool.eqb (answers q (fst p)) (answers q row)) (path row t)) (samples d)) in Hmv.
    rewrite <- Es in Hmv.
    assert (Hself : In (row, l) (samples ld)).
    { rewrite Es. apply filter_In. split; [exact Hin|]. apply forallb_forall. intros q _. apply Bool.eqb_reflx. }
    assert (V : forall i, votes (map snd (samples ld)) i = if match nth_error l i with Some x => @feqb O x f1 | None => false end then length (samples ld) else 0).
    { intros i. unfold votes. clear - All. induction (samples ld) as [|[r y] S IH]; cbn [map filter snd].
      - destruct (match nth_error l i with Some _ => _ | None => _ end); reflexivity.
      - rewrite (All r y (or_introl eq_refl)). specialize (IH (fun r' l' H => All r' l' (or_intror H))).
        destruct (match nth_error l i with Some _ => _ | None => _ end); cbn [length]; rewrite IH; reflexivity. }
    assert (Lp : 0 < length (samples ld)) by (destruct (samples ld); [destruct Hself|cbn; lia]).
    destruct (Hmv (N.to_nat c0) ltac:(lia)) as [Hle _]. rewrite !V in Hle. rewrite (Hl1 (N.to_nat c0)) in Hle by lia.
    rewrite (Hl1 c Hck) in Hle. rewrite N2Nat.id, N.eqb_refl in Hle.
    destruct (N.eqb_spec (N.of_nat c) c0) as [Q|Q].
    - apply (one_hot_unique nt c0); [rewrite <- Q; exact Hv|exact Hl].
    - change (@feqb O f1 f1) with true in Hle. change (@feqb O f0 f1) with false in Hle. cbv iota in Hle. exfalso. exact (Nat.lt_irrefl _ (Nat.lt_le_trans _ _ _ Lp Hle)). }
  destruct (accuracy_of d cfg t W Hn E) as (a & Ea & Hf). exists a. split; [exact Ea|].
  assert (A : hits d t = length (feature_rows d)).
  { unfold hits, correct_samples. rewrite (proj2 (filter_all _ _)).
    - unfold samples. rewrite combine_length, (wf_lengths _ _ _ W). apply Nat.min_id.
    - apply Forall_forall. intros [row l] Hin. cbn [fst snd]. rewrite (G row l Hin). unfold class_labels in HC. rewrite Forall_forall in HC.
      destruct (HC l (in_combine_r _ _ _ _ Hin)) as (c & Hc1 & Hc2 & Hc3). apply equal_vectors_nth. split; [reflexivity|].
      intros i x y Hx Hy. rewrite Hx in Hy. injection Hy as <-.
      assert (Hi : i < nt) by (rewrite <- Hc2; apply nth_error_Some; congruence). rewrite (Hc3 i Hi) in Hx. injection Hx as <-.
      destruct (N.of_nat i =? c)%N; reflexivity. }
  destruct Hf as (F1 & _ & _ & F2 & _). split; [apply F2; exact A|]. split; [exact F1|exact G].
Qed.
End Vote64.
