(** Training that cannot ask anything (C112). *)
From Coq Require Import Lia.
From Verif Require Import Base Num ModelCommon ModelTree ModelBoost Lib Spec SpecTree SpecScore SpecStep SpecQuiet ProofSort ProofData ProofSplit ProofTree ProofTree3
  ProofBoost ProofScore ProofScore2 ProofStep.
Local Open Scope nat_scope.

Lemma keep_all {A} (l : list A) : filter (fun _ => true) l = l.
Proof. induction l as [|x l IH]; [reflexivity|]. cbn [filter]. now rewrite IH. Qed.

Section Quiet.
Context {O : NumOps} (Lw : NumLaws O).

(** A tree that is a leaf. *)
Definition one_leaf {L} (t : tree_node L) : Prop := exists q l, t = leaf_node q l.

Lemma one_leaf_same {L} (t : tree_node L) x y : one_leaf t -> find_leaf_node_for_data x t = find_leaf_node_for_data y t.
Proof. intros (q & l & ->). reflexivity. Qed.

Lemma no_split_value rows j v : (forall r r', In r rows -> In r' rows -> r = r') -> ~ split_value rows j v.
Proof.
  intros H ((r & Hr & E) & m & (r' & Hr' & E') & Hl). rewrite (H r r' Hr Hr'), E' in E. injection E as ->.
  rewrite (@fltb_fleb O Lw), Bool.andb_negb_r in Hl. discriminate.
Qed.

Lemma built_quiet {L} (mk : dataset -> res L) nc nt cfg d t :
  built mk cfg 0 d t -> wf_dataset nc nt d -> standard cfg -> tc_number_of_classes cfg = N.of_nat nt -> nothing_to_ask cfg (feature_rows d) -> one_leaf t.
Proof.
  intros B W Hs Hk Q. pose proof (built_asks_training Lw mk cfg nc nt 0 d t Hs Hk B W) as A.
  inversion B as [level d' s l Es Est El|level d' s fd td a b Es Est Ep Ba Bb]; subst; [now exists (bs_question s), l|]. exfalso.
  destruct Q as [Q|Q].
  - unfold stop_here in Est. rewrite Q, N.eqb_refl, Bool.orb_true_r in Est. discriminate.
  - cbn [node_new asked] in A. inversion A as [|q qs Hq]; subst. destruct Hq as [_ Hq]. now apply (no_split_value _ _ _ Q) in Hq.
Qed.

Section Runs.
Context (nc nt : nat) (d : dataset) (cfg : tree_config) (n : nat) (lr : F).
Hypotheses (W : wf_dataset nc nt d) (Hs : standard cfg) (Hk : tc_number_of_classes cfg = N.of_nat nt) (Q : nothing_to_ask cfg (feature_rows d)).

Lemma regression_quiet t : regression_tree_new d cfg = Ok t -> one_leaf t.
Proof. rewrite regression_tree_new_eq. intros E. apply build_with_built in E. eapply built_quiet; eauto. Qed.

Lemma regression_boost_quiet m : regression_boost_train d cfg n lr = Ok m -> Forall one_leaf (m_trees m).
Proof.
  intros E. apply Forall_forall. intros t Ht. apply In_nth_error in Ht as (k & Ht).
  assert (Hn : k < n).
  { pose proof E as E0. apply boosting_loop_Ok in E0 as (_ & _ & td & E3). rewrite <- (iter_length _ _ _ _ _ _ _ E3). apply nth_error_Some. congruence. }
  destruct (regression_stage d cfg n lr m k (wf_lengths _ _ _ W) E Hn) as (preds & t' & _ & HF & Ht' & Eb).
  rewrite Ht in Ht'. injection Ht' as <-. rewrite <- (map_id preds) in Eb. rewrite grad_boost_tree_new_eq in Eb. apply build_with_built in Eb.
  exact (built_quiet _ nc nt cfg _ t Eb (residual_wf nc nt d (fun s => s) preds (fun _ => eq_refl) W HF) Hs Hk Q).
Qed.

Lemma multi_class_boost_quiet m : multi_class_boost_train d cfg n lr = Ok m -> Forall one_leaf (m_trees m).
Proof.
  intros E. apply Forall_forall. intros t Ht. apply In_nth_error in Ht as (k & Ht).
  assert (Hn : k < n).
  { pose proof E as E0. apply boosting_loop_Ok in E0 as (_ & _ & td & E3). rewrite <- (iter_length _ _ _ _ _ _ _ E3). apply nth_error_Some. congruence. }
  destruct (multi_class_stage d cfg n lr m k (wf_lengths _ _ _ W) E Hn) as (preds & t' & _ & HF & Ht' & Eb).
  rewrite Ht in Ht'. injection Ht' as <-. rewrite grad_boost_tree_new_eq in Eb. apply build_with_built in Eb.
  exact (built_quiet _ nc nt cfg _ t Eb (residual_wf nc nt d softmax preds softmax_length W HF) Hs Hk Q).
Qed.

Lemma amg_boost_quiet m : amg_boost_train d cfg n lr = Ok m -> Forall one_leaf (m_trees m).
Proof.
  intros E. apply Forall_forall. intros t Ht. apply In_nth_error in Ht as (k & Ht).
  assert (Hn : k < n).
  { pose proof E as E0. apply boosting_loop_Ok in E0 as (_ & _ & td & E3). rewrite <- (iter_length _ _ _ _ _ _ _ E3). apply nth_error_Some. congruence. }
  destruct (amg_stage d cfg n lr m k (wf_lengths _ _ _ W) E Hn) as (preds & t' & _ & HF & Ht' & Eb).
  rewrite Ht in Ht'. injection Ht' as <-. rewrite amg_boost_tree_new_eq in Eb. apply build_with_built in Eb.
  exact (built_quiet _ nc nt cfg _ t Eb (residual_wf nc nt d softmax preds softmax_length W HF) Hs Hk Q).
Qed.

Theorem quiet_answers x y :
  (forall t, regression_tree_new d cfg = Ok t -> predict_class x t = predict_class y t) /\
  (forall m, regression_boost_train d cfg n lr = Ok m -> regression_boost_predict m x = regression_boost_predict m y) /\
  (forall m, multi_class_boost_train d cfg n lr = Ok m -> multi_class_boost_predict m x = multi_class_boost_predict m y) /\
  (forall m, amg_boost_train d cfg n lr = Ok m -> amg_boost_predict m x = amg_boost_predict m y).
Proof.
  split; [|split; [|split]].
  - intros t E. unfold predict_class. now rewrite (one_leaf_same t x y (regression_quiet t E)).
  - intros m E. unfold regression_boost_predict. rewrite !predict_instance_raw. apply raw_same.
    eapply Forall_impl; [|exact (regression_boost_quiet m E)]. intros t H. unfold gb_out. now rewrite (one_leaf_same t x y H).
  - intros m E. unfold multi_class_boost_predict, multi_class_boost_raw. rewrite !predict_instance_raw. f_equal. apply raw_same.
    eapply Forall_impl; [|exact (multi_class_boost_quiet m E)]. intros t H. unfold gb_out. now rewrite (one_leaf_same t x y H).
  - intros m E. unfold amg_boost_predict, amg_boost_raw. rewrite !amg_predict_instance_raw. f_equal. apply raw_same.
    eapply Forall_impl; [|exact (amg_boost_quiet m E)]. intros t H. unfold amg_out. now rewrite (one_leaf_same t x y H).
Qed.

(** The tree's answer is the class that most training rows have. *)
Theorem quiet_class t row : 0 < nt -> (Z.of_nat nt <= 2 ^ 53)%Z -> nc <= length row -> regression_tree_new d cfg = Ok t ->
  exists c v, predict_class row t = Ok v /\ one_hot nt (N.of_nat c) v /\ most_votes nt (labels d) c.
Proof.
  intros Hp Hz Hr E. destruct (majority_class Lw nc nt d cfg t row W Hp Hz E Hr) as (c & v & E1 & E2 & E3). exists c, v. split; [exact E1|]. split; [exact E2|].
  destruct (regression_quiet t E) as (q & l & ->). unfold samples_like in E3. cbn [path leaf_node forallb] in E3.
  rewrite keep_all in E3. unfold samples in E3. rewrite map_snd_combine in E3 by (symmetry; apply (wf_lengths _ _ _ W)). exact E3.
Qed.

End Runs.
End Quiet.
