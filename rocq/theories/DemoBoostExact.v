(** Concrete exact-arithmetic ensembles for the examples. *)
From Coq Require Import Reals Lra Permutation.
From Verif Require Import Base Num ModelCommon ModelTree ModelBoost Lib XR Spec SpecTree SpecExact SpecScore SpecFit SpecError SpecClass SpecAffine
  ProofReal ProofData ProofTree ProofTree3 ProofBoost ProofSplitExact ProofSplitExact2 ProofWitness ProofTreeExact ProofScoreExact ProofLeaf ProofBoostExact ProofClassExact ProofClassRun
  DemoExact.
Local Open Scope R_scope.

Lemma plain_trained m n lr : exists e, regression_boost_train plain (plain_cfg m) n lr = Ok e.
Proof.
  destruct (regression_total_run xr_laws 1 1 plain (plain_cfg m) n lr (proj1 plain_wf) eq_refl eq_refl) as (e & E & _); [vm_compute; discriminate|].
  eauto.
Qed.

Definition two : @dataset xr_ops := real_data [[0]; [1]] [[0; 1]] [[1; 0]; [0; 1]].
Definition two_cfg (m : N) : @tree_config xr_ops := mkTC (split_finder_new Variance) false 2 m.

Lemma two_wf : wf_dataset 1 2 two /\ real_labels [[1; 0]; [0; 1]] two.
Proof. unfold two. real_wf. Qed.

Lemma two_one_hot : one_hot_labels 2 two.
Proof.
  constructor; [exists 0%N|constructor; [exists 1%N|constructor]].
  all: split; [lia|]; split; [reflexivity|]; intros [|[|j]] Hj; try lia; reflexivity.
Qed.

Lemma two_multi m n lr : exists e, multi_class_boost_train two (two_cfg m) n lr = Ok e.
Proof.
  destruct (multi_class_total_run xr_laws 1 2 two (two_cfg m) n lr (proj1 two_wf) ltac:(lia) eq_refl eq_refl) as (e & E & _);
    [vm_compute; discriminate|]. eauto.
Qed.

Lemma two_amg m n lr : exists e, amg_boost_train two (two_cfg m) n lr = Ok e.
Proof.
  destruct (amg_total_run xr_laws 1 2 two (two_cfg m) n lr (proj1 two_wf) ltac:(lia) eq_refl eq_refl) as (e & E & _);
    [vm_compute; discriminate|]. eauto.
Qed.

(** One class. *)
Definition one : @dataset xr_ops := real_data [[0]; [1]] [[0; 1]] [[1]; [1]].
Definition one_cfg (m : N) : @tree_config xr_ops := mkTC (split_finder_new Variance) false 1 m.
Lemma one_wf : wf_dataset 1 1 one /\ real_labels [[1]; [1]] one.
Proof. unfold one. real_wf. Qed.
Lemma one_one_hot : one_hot_labels 1 one.
Proof. constructor; [exists 0%N|constructor; [exists 0%N|constructor]]; (split; [lia|]; split; [reflexivity|]; intros [|j] Hj; try lia; reflexivity). Qed.
Lemma one_multi m n lr : exists e, multi_class_boost_train one (one_cfg m) n lr = Ok e.
Proof.
  destruct (multi_class_total_run xr_laws 1 1 one (one_cfg m) n lr (proj1 one_wf) ltac:(lia) eq_refl eq_refl) as (e & E & _);
    [vm_compute; discriminate|]. eauto.
Qed.
Lemma one_amg m n lr : exists e, amg_boost_train one (one_cfg m) n lr = Ok e.
Proof.
  destruct (amg_total_run xr_laws 1 1 one (one_cfg m) n lr (proj1 one_wf) ltac:(lia) eq_refl eq_refl) as (e & E & _);
    [vm_compute; discriminate|]. eauto.
Qed.

Lemma plain_start lr m : regression_boost_train plain (plain_cfg 2) 0 (Fin lr) = Ok m -> regression_boost_score m plain = Ok (Fin 18).
Proof.
  intros E. destruct plain_wf as [W Hl].
  destruct (guess_real _ _ _ _ _ _ _ _ W Hl E) as (Hg & Hlr & HT).
  destruct (trained_predictions 1 1 plain plain_labels (plain_cfg 2) 0 lr m (feature_rows plain) W Hl E) as (ps & HP).
  { intros row [<-|[<-|[<-|[]]]]; cbn; lia. }
  destruct (boost_score_spec 1 m plain plain_labels ps) as (e & Es & Ee & _); auto; try lia; try discriminate; [repeat constructor|].
  rewrite Es. do 2 f_equal. rewrite Ee.
  assert (Ep : ps = [[3]; [3]; [3]]).
  { assert (H3 : forall row p, regression_boost_predict m row = Ok (map Fin p) -> p = [3]).
    { intros row p Hp. unfold regression_boost_predict in Hp. rewrite (@predict_instance_raw xr_ops) in Hp.
      assert (HT' : m_trees m = []) by (destruct (m_trees m); [reflexivity|discriminate]).
      rewrite HT', Hg in Hp. cbn in Hp. injection Hp as Hp. destruct p as [|x [|]]; try discriminate. cbn in Hp. injection Hp as Hp.
      f_equal. rewrite <- Hp. unfold mean, target, plain_labels. cbn. field. }
    revert HP. unfold plain, real_data. cbn [feature_rows map]. intros HP.
    inversion HP as [|? p1 ? ? [A1 _] HP1]; subst. inversion HP1 as [|? p2 ? ? [A2 _] HP2]; subst. inversion HP2 as [|? p3 ? ? [A3 _] HP3]; subst.
    inversion HP3; subst. now rewrite (H3 _ _ A1), (H3 _ _ A2), (H3 _ _ A3). }
  rewrite Ep. unfold mean_squared_error, row_error, mean, plain_labels. cbn. field.
Qed.

(** One more iteration multiplies the score of the guess by [(1 - lr)^2]. *)
Lemma plain_step lr : exists m m',
  regression_boost_train plain (plain_cfg 2) 0 (Fin lr) = Ok m /\ regression_boost_train plain (plain_cfg 2) 1 (Fin lr) = Ok m' /\
  regression_boost_score m plain = Ok (Fin 18) /\ regression_boost_score m' plain = Ok (Fin ((1 - lr) * (1 - lr) * 18)).
Proof.
  destruct (plain_trained 2 0 (Fin lr)) as (m & E), (plain_trained 2 1 (Fin lr)) as (m' & E'). destruct plain_wf as [W Hl].
  exists m, m'. split; auto. split; auto. pose proof (plain_start lr m E) as S. split; auto.
  destruct (deep_boosting 1 1 plain plain_labels (plain_cfg 2) 0 lr m m') as (e & S1 & S2); auto; try lia; try reflexivity; try exact plain_consistent.
  rewrite S in S1. injection S1 as <-. exact S2.
Qed.

Lemma plain_above_two : exists m m',
  regression_boost_train plain (plain_cfg 2) 0 (Fin 3) = Ok m /\ regression_boost_train plain (plain_cfg 2) 1 (Fin 3) = Ok m' /\
  regression_boost_score m plain = Ok (Fin 18) /\ regression_boost_score m' plain = Ok (Fin 72).
Proof.
  destruct (plain_step 3) as (m & m' & E & E' & S & S'). exists m, m'. repeat split; auto. rewrite S'. do 2 f_equal. lra.
Qed.

Lemma plain_relabelled (n : nat) (lr : R) ls : length ls = 3%nat -> rectangular 1 ls -> exists m t, 
  regression_boost_train (relabel plain ls) (plain_cfg 2) n (Fin lr) = Ok m /\ regression_tree_new (relabel plain ls) (plain_cfg 2) = Ok t.
Proof.
  intros L Hr.
  assert (W : wf_dataset 1 1 (relabel plain ls)).
  { destruct ls as [|a [|b [|c [|? ?]]]]; try discriminate.
    apply (real_data_wf 1 1 [[2]; [0]; [1]] [[2; 0; 1]] [a; b; c]); try discriminate; try reflexivity; auto; repeat constructor. }
  destruct (regression_total_run xr_laws 1 1 _ (plain_cfg 2) n (Fin lr) W eq_refl eq_refl) as (m & E & _); [vm_compute; discriminate|].
  destruct (regression_total xr_laws 1 1 _ (plain_cfg 2) W eq_refl eq_refl) as (t & Et). exists m, t. auto.
Qed.

Definition two_scores : list (list R) := [[0; 0]; [5; 5]].
Definition two_td : @training_data xr_ops := mkTD two (map (map Fin) two_scores) 2.

Lemma two_residuals :
  calculate_residuals_multi_class two_td = Ok (map (map Fin) [[1/2; -1/2]; [-1/2; 1/2]]).
Proof.
  destruct (residuals_exact 2 two_td two_scores) as (r & E & L & H & _); try reflexivity; try lia; [exact two_one_hot|repeat constructor|].
  rewrite E. do 2 f_equal. destruct r as [|a [|b [|? ?]]]; try discriminate.
  assert (HE : forall x, exp x / (exp x + (exp x + 0)) = 1/2) by (intros x; pose proof (exp_pos x); field; lra).
  destruct (H 0%nat _ _ _ eq_refl eq_refl eq_refl) as [La Ha]. destruct (H 1%nat _ _ _ eq_refl eq_refl eq_refl) as [Lb Hb].
  destruct a as [|a0 [|a1 [|? ?]]]; try discriminate. destruct b as [|b0 [|b1 [|? ?]]]; try discriminate.
  pose proof (Ha 0%nat ltac:(lia)) as A0. pose proof (Ha 1%nat ltac:(lia)) as A1. pose proof (Hb 0%nat ltac:(lia)) as B0. pose proof (Hb 1%nat ltac:(lia)) as B1.
  unfold probability in *. cbn in A0, A1, B0, B1. rewrite HE in *.
  injection A0 as A0. injection A1 as A1. injection B0 as B0. injection B1 as B1. repeat (f_equal; try lra).
Qed.

Lemma two_output : class_output 2 [[1/2; -1/2]] = [1; -1].
Proof.
  unfold class_output, curvature, target. cbn. rewrite (Rabs_pos_eq (1/2)) by lra. rewrite (Rabs_left (-1/2)) by lra.
  f_equal; [field|f_equal; field].
Qed.

Lemma minus_three : - 6 / (INR 3 - 1) = -3.
Proof. cbn. field. Qed.

Definition plain_reordered := real_data [[0]; [1]; [2]] [[0; 1; 2]] [[0]; [0]; [9]].
Lemma plain_reordered_perm : Permutation (samples plain) (samples plain_reordered).
Proof.
  unfold samples, plain, plain_reordered, real_data. cbn.
  eapply perm_trans; [apply perm_swap|]. apply perm_skip. apply perm_swap.
Qed.

Lemma three_rows : rectangular 1 [[9 + 5]; [0 + 5]; [0 + 5]].
Proof. repeat constructor. Qed.
Lemma three_rows' : rectangular 1 [[-2 * 9 + 5]; [-2 * 0 + 5]; [-2 * 0 + 5]].
Proof. repeat constructor. Qed.
