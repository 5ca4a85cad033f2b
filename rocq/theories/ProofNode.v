(** The samples behind every node of a built tree, and what that says about split quality in binary64. *)
From Coq Require Import Reals Lra Lia ZArith.
From Flocq Require Import Core.
From Flocq Require Import IEEE754.BinarySingleNaN.
From Verif Require Import Base Num ModelCommon ModelTree ModelBoost Lib Spec SpecTree F64 XR SpecExact SpecInt SpecNear SpecNode ProofData ProofTree
  ProofScore ProofNear3.

Section Node.
Context {O : NumOps}.

Lemma filter_twice {A} (f g : A -> bool) l : filter f (filter g l) = filter (fun x => g x && f x) l.
Proof.
  induction l as [|a l IH]; auto. cbn [filter]. destruct (g a); cbn [filter andb]; [destruct (f a)|]; now rewrite IH.
Qed.

Lemma filter_shorter {A} (f : A -> bool) l : (length (filter f l) <= length l)%nat.
Proof. induction l as [|a l IH]; cbn; [lia|destruct (f a); cbn; lia]. Qed.

Lemma answering_cons q qs row S :
  answering_like (q :: qs) row S =
  answering_like qs row (if answers q row then filter (fun p => answers q (fst p)) S else filter (fun p => negb (answers q (fst p))) S).
Proof.
  unfold answering_like. destruct (answers q row) eqn:E; rewrite filter_twice; apply filter_ext; intros p; cbn [forallb]; rewrite E;
    destruct (answers q (fst p)); reflexivity.
Qed.

Lemma answering_nil row S : answering_like [] row S = S.
Proof. unfold answering_like. cbn [forallb]. induction S as [|a S IH]; cbn; congruence. Qed.

Lemma table_of_rows nc nt d : wf_dataset nc nt d -> feature_rows (table_of (samples d)) = feature_rows d.
Proof.
  intros W. pose proof (wf_lengths _ _ _ W) as H. unfold table_of, samples. cbn [feature_rows].
  revert H. generalize (labels d). induction (feature_rows d) as [|r rs IH]; intros [|l ls]; cbn; intros; try discriminate; auto.
  f_equal. apply IH. lia.
Qed.

Lemma table_of_labels nc nt d : wf_dataset nc nt d -> labels (table_of (samples d)) = labels d.
Proof.
  intros W. pose proof (wf_lengths _ _ _ W) as H. unfold table_of, samples. cbn [labels].
  revert H. generalize (feature_rows d). induction (labels d) as [|r rs IH]; intros [|l ls]; cbn; intros; try discriminate; auto.
  f_equal. apply IH. lia.
Qed.

(** Every question a row meets was chosen by the split finder on exactly the samples answering like the row. *)
Lemma node_split {L} (mk : dataset -> res L) cfg nc nt level d t x n q :
  standard cfg -> tc_number_of_classes cfg = N.of_nat nt -> built mk cfg level d t -> wf_dataset nc nt d ->
  nth_error (path x t) n = Some q ->
  exists d' s, wf_dataset nc nt d' /\ samples d' = answering_like (firstn n (path x t)) x (samples d) /\
    find_best_split d' (N.of_nat nt) = Ok s /\ bs_question s = q /\ feqb (bs_gain s) f0 = false.
Proof.
  intros Hs Hk B. revert n. induction B as [level d s lf Es Est El|level d s fd td t f Es Est Ep Bt IHt Bf IHf]; intros n W Hn.
  - cbn in Hn. destruct n; discriminate.
  - rewrite Hs, Hk in Es. change (find_best_split d (N.of_nat nt) = Ok s) in Es.
    destruct (partition_wf nc nt d _ fd td W Ep) as (Hq & Wf & Wt & St & Sf).
    cbn [node_new path] in Hn |- *. destruct n as [|n].
    + cbn in Hn. injection Hn as <-. exists d, s. cbn [firstn]. rewrite answering_nil.
      unfold stop_here in Est. apply orb_false_iff in Est as [Hg _]. repeat (split; auto).
    + cbn [nth_error firstn] in Hn |- *. rewrite answering_cons.
      destruct (answers (bs_question s) x); [rewrite <- St|rewrite <- Sf]; auto.
Qed.

(** A leaf is where the split finder reported no gain on the samples answering like the row, or at the limit. *)
Lemma leaf_split {L} (mk : dataset -> res L) cfg nc nt level d t x :
  standard cfg -> tc_number_of_classes cfg = N.of_nat nt -> built mk cfg level d t -> wf_dataset nc nt d ->
  exists d' s, wf_dataset nc nt d' /\ samples d' = answering_like (path x t) x (samples d) /\
    find_best_split d' (N.of_nat nt) = Ok s /\
    (feqb (bs_gain s) f0 = true \/ (level + N.of_nat (length (path x t)) = tc_max_levels cfg)%N).
Proof.
  intros Hs Hk B. induction B as [level d s lf Es Est El|level d s fd td t f Es Est Ep Bt IHt Bf IHf]; intros W.
  - rewrite Hs, Hk in Es. change (find_best_split d (N.of_nat nt) = Ok s) in Es. exists d, s. cbn [leaf_node path].
    rewrite answering_nil. repeat (split; auto). unfold stop_here in Est. apply orb_true_iff in Est as [Hg|Hg]; auto.
    right. apply N.eqb_eq in Hg. cbn. lia.
  - destruct (partition_wf nc nt d _ fd td W Ep) as (Hq & Wf & Wt & St & Sf).
    cbn [node_new path]. rewrite answering_cons.
    destruct (answers (bs_question s) x); [rewrite <- St; destruct (IHt Wt) as (d' & s' & A1 & A2 & A3 & A4)
      |rewrite <- Sf; destruct (IHf Wf) as (d' & s' & A1 & A2 & A3 & A4)];
      exists d', s'; repeat (split; auto); (destruct A4 as [A4|A4]; [now left|right; cbn [length]; lia]).
Qed.

End Node.

Local Open Scope R_scope.

Section NodeNear.
Context (P : platform) (B : R).
Local Existing Instance f64_ops.
Local Remove Hints xr_ops : typeclass_instances.

Lemma node_bounded (d d' : @dataset (f64_ops P)) nc nt qs x :
  wf_dataset nc nt d -> wf_dataset nc nt d' -> samples d' = answering_like qs x (samples d) ->
  bounded_labels B d -> ordinary_table B d -> bounded_labels B d' /\ ordinary_table B d'.
Proof.
  intros W W' E Hb [Ho Hn]. split; [|split; auto].
  - intros l v Hl Hv. apply (Hb l v); auto. rewrite <- (table_of_labels _ _ _ W') in Hl. rewrite <- (table_of_labels _ _ _ W).
    unfold table_of in *. cbn [labels] in *. rewrite E in Hl. apply in_map_iff in Hl as (p & <- & Hp). apply in_map.
    unfold answering_like in Hp. now apply filter_In in Hp.
  - assert (length (labels d') <= length (labels d))%nat; [|lia].
    rewrite <- (table_of_labels _ _ _ W'), <- (table_of_labels _ _ _ W). unfold table_of. cbn [labels]. rewrite !map_length, E.
    unfold answering_like. apply filter_shorter.
Qed.

Context (nc nt : nat) (d : @dataset (f64_ops P)) (W : wf_dataset nc nt d) (Hb : bounded_labels B d) (Ho : ordinary_table B d)
  (Hk : (Z.of_nat nt <= 2 ^ 40)%Z) (cfg : @tree_config (f64_ops P)) (Hs : standard cfg) (HK : tc_number_of_classes cfg = N.of_nat nt).

Lemma same_rows d' qs x : wf_dataset nc nt d' -> samples d' = answering_like qs x (samples d) ->
  feature_rows (exact_data (table_of (answering_like qs x (samples d)))) = feature_rows (exact_data d') /\
  real_values (table_of (answering_like qs x (samples d))) = real_values d' /\
  length (labels (table_of (answering_like qs x (samples d)))) = length (labels d').
Proof.
  intros W' E. rewrite <- E. unfold exact_data, real_values. cbn [feature_rows].
  rewrite (table_of_rows _ _ _ W'), (table_of_labels _ _ _ W'). auto.
Qed.

Lemma built_nearly_best {L} (mk : dataset -> res L) t : built mk cfg 0 d t -> nearly_best_questions B nt d t.
Proof.
  intros Bt x n q q' Hn here Ho1.
  destruct (node_split mk cfg nc nt 0 d t x n q Hs HK Bt W Hn) as (d' & s & W' & E & Es & <- & _).
  destruct (node_bounded d d' nc nt _ x W W' E Hb Ho) as [Hb' Ho'].
  destruct (same_rows d' _ x W' E) as (R1 & R2 & R3). unfold here in *.
  rewrite R1, R2, R3. apply (near_optimal P B nc nt d' W' Hb' Ho' Hk s q' Es).
  unfold occurs_once in Ho1 |- *. rewrite R1 in Ho1. exact Ho1.
Qed.

Lemma built_little_left {L} (mk : dataset -> res L) t : built mk cfg 0 d t -> little_left B nt (tc_max_levels cfg) d t.
Proof.
  intros Bt x q' Hl here.
  destruct (leaf_split mk cfg nc nt 0 d t x Hs HK Bt W) as (d' & s & W' & E & Es & [Hg|Hg]); [|lia].
  destruct (node_bounded d d' nc nt _ x W W' E Hb Ho) as [Hb' Ho'].
  destruct (same_rows d' _ x W' E) as (R1 & R2 & R3). unfold here in *.
  rewrite R1, R2, R3. pose proof (near_bounds_questions P B nc nt d' W' Hb' Ho' Hk s q' Es) as H.
  assert (G : B2R (bs_gain s) = 0); [|rewrite G, Rplus_0_l in H; exact H].
  revert Hg. generalize (bs_gain s : f64). intros g Hg. destruct (split_near P B nc nt d' W' Hb' Ho' Hk s Es) as (Fg & _).
  clear -Hg. change (Beqb g (B754_zero false) = true) in Hg. destruct g as [sg|sg| |[|] m e Hm]; try reflexivity; try (destruct sg; discriminate); discriminate.
Qed.

Theorem questions_nearly_best calc :
  (forall t, regression_tree_new d cfg = Ok t -> nearly_best_questions B nt d t) /\
  (forall t, grad_boost_tree_new d cfg calc = Ok t -> nearly_best_questions B nt d t) /\
  (forall t, amg_boost_tree_new d cfg calc = Ok t -> nearly_best_questions B nt d t).
Proof.
  repeat split; intros t E; [rewrite regression_tree_new_eq in E|rewrite grad_boost_tree_new_eq in E|rewrite amg_boost_tree_new_eq in E];
    apply build_with_built in E; eapply built_nearly_best; eauto.
Qed.

Theorem leaves_little_left calc :
  (forall t, regression_tree_new d cfg = Ok t -> little_left B nt (tc_max_levels cfg) d t) /\
  (forall t, grad_boost_tree_new d cfg calc = Ok t -> little_left B nt (tc_max_levels cfg) d t) /\
  (forall t, amg_boost_tree_new d cfg calc = Ok t -> little_left B nt (tc_max_levels cfg) d t).
Proof.
  repeat split; intros t E; [rewrite regression_tree_new_eq in E|rewrite grad_boost_tree_new_eq in E|rewrite amg_boost_tree_new_eq in E];
    apply build_with_built in E; eapply built_little_left; eauto.
Qed.

End NodeNear.
