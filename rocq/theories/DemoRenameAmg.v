(** Example data for the renaming of classes in AMG ensembles (C66). *)
From Coq Require Import Reals Lra Lia ZArith Permutation.
From Flocq Require Import IEEE754.BinarySingleNaN.
From Verif Require Import Base Num ModelCommon ModelTree ModelBoost Spec SpecTree SpecOrder F64 XR SpecExact SpecScore SpecFit SpecClass SpecAffine SpecRename
  SpecRenameAmg Lib ProofReal ProofTree ProofTree3 ProofScoreExact ProofTreeExact ProofClassExact ProofClassRun ProofBoostExact ProofBoost ProofRename ProofRenameAmg ProofWitness Decide Demo DemoExact DemoBoostExact DemoOrder.
Local Open Scope R_scope.

(** Three classes, seen two, one and no times, in a single leaf. *)
Definition triple := real_data [[2]; [0]; [1]] [[2; 0; 1]] [[1; 0; 0]; [0; 1; 0]; [1; 0; 0]].
Definition triple_labels : list (list R) := [[1; 0; 0]; [0; 1; 0]; [1; 0; 0]].
Definition triple_cfg : @tree_config xr_ops := mkTC (split_finder_new Variance) false 3 0.

Lemma triple_wf : wf_dataset 1 3 triple /\ real_labels triple_labels triple.
Proof. unfold triple. real_wf. Qed.

Lemma triple_one_hot : one_hot_labels 3 triple.
Proof.
  constructor; [exists 0%N|constructor; [exists 1%N|constructor; [exists 0%N|constructor]]].
  all: split; [lia|]; split; [reflexivity|]; intros [|[|[|j]]] Hj; try lia; reflexivity.
Qed.

Lemma rsoft_three x : rsoft [x; x; x] = [1 / 3; 1 / 3; 1 / 3].
Proof.
  unfold rsoft. cbn [map]. pose proof (exp_pos x) as H.
  assert (E : exp x / Rsum [exp x; exp x; exp x] = 1 / 3) by (unfold Rsum; cbn [fold_right]; field; lra).
  rewrite E. reflexivity.
Qed.

Lemma rsoft_even3 : rsoft (even 3) = [1 / 3; 1 / 3; 1 / 3].
Proof. exact (rsoft_three (1 / INR 3)). Qed.

Lemma triple_undisputed lr m : amg_boost_train triple triple_cfg 1 (Fin lr) = Ok m -> undisputed_leaves 1 3 triple m.
Proof.
  intros E k t scores gs row Ht Es Hr Eg. destruct triple_wf as [W Hl].
  destruct (amg_guess 1 3 triple triple_cfg 1 (Fin lr) m) as (Hg & Hlr & HT); auto; [vm_compute; discriminate|].
  assert (Hk : (k < 1)%nat) by (rewrite <- HT; apply nth_error_Some; congruence).
  assert (k = 0%nat) by lia. subst k.
  destruct (amg_stage_exact 1 3 triple triple_cfg 1 lr m 0) as (ss & t0 & Es0 & Ht0 & Rs & Ls & B); auto; [vm_compute; discriminate|exact triple_one_hot|].
  assert (Ess : ss = [even 3; even 3; even 3]).
  { assert (Er : forall r, amg_boost_raw (first_trees 0 m) r = Ok (map Fin (even 3))).
    { intros r. rewrite amg_raw, Hg. reflexivity. }
    rewrite (mapM_ext _ (fun _ => Ok (map Fin (even 3)))) in Es0 by (intros; apply Er). cbn [triple real_data feature_rows map mapM bind] in Es0.
    apply (f_equal (fun r => match r with Ok l => map (map xval) l | _ => [] end)) in Es0. cbn [map] in Es0. rewrite !map_xval_Fin in Es0.
    rewrite Es0, map_map. rewrite (map_ext _ (fun x => x)) by (intros; apply map_xval_Fin). symmetry. apply map_id. }
  subst ss. assert (scores = map (map Fin) [even 3; even 3; even 3]) by congruence. subst scores. clear Es. rewrite Ht0 in Ht. injection Ht as <-.
  assert (Ep : path row t0 = []).
  { inversion B as [? ? ? ? ? Hs|? ? ? ? ? ? ? ? Hs]; subst; [reflexivity|].
    rewrite stop_here_max in Hs. discriminate. }
  assert (Eg' : map (map Fin) gs = map (map Fin) (map2 vsub triple_labels (map rsoft [even 3; even 3; even 3]))).
  { rewrite <- Eg.
    assert (Sm : map (@softmax xr_ops) (map (map Fin) [even 3; even 3; even 3]) = map (map Fin) (map rsoft [even 3; even 3; even 3])).
    { apply (softmax_rows 3); [lia|]. exact Rs. }
    assert (D : @differences xr_ops (labels triple) (map (@softmax xr_ops) (map (map Fin) [even 3; even 3; even 3])) = map (map Fin) (map2 vsub triple_labels (map rsoft [even 3; even 3; even 3]))).
    { etransitivity; [apply (f_equal2 (@differences xr_ops) Hl Sm)|]. apply differences_Fin. }
    rewrite D. unfold samples_like. rewrite Ep. reflexivity. }
  apply map_Fin_inj2 in Eg'. rewrite Eg'. cbn [map]. rewrite rsoft_even3. unfold triple_labels, vsub. cbn [map2].
  set (g := [_; _; _]).
  assert (C : forall j, (j < 3)%nat -> 0 < curvature (target j g)).
  { intros j Hj. unfold curvature, target, g. destruct j as [|[|[|j]]]; try lia; cbn [map nth Rsum fold_right fold_left];
      unfold Rsum; cbn [fold_right fold_left]; rewrite ?(Rabs_right (1 - 1 / 3)), ?(Rabs_left (0 - 1 / 3)) by lra; lra. }
  assert (V : forall j, (j < 3)%nat -> nth j (class_output 3 g) 0 = (INR 3 - 1) / INR 3 * (Rsum (target j g) / curvature (target j g))).
  { intros j Hj. destruct j as [|[|[|j]]]; try lia; reflexivity. }
  assert (S0 : Rsum (target 0 g) = 1) by (unfold target, g; cbn [map nth]; unfold Rsum; cbn [fold_right fold_left]; lra).
  assert (S1 : Rsum (target 1 g) = 0) by (unfold target, g; cbn [map nth]; unfold Rsum; cbn [fold_right fold_left]; lra).
  assert (S2 : Rsum (target 2 g) = -1) by (unfold target, g; cbn [map nth]; unfold Rsum; cbn [fold_right fold_left]; lra).
  assert (P : forall x, 0 < x -> 0 < / x) by (intros; now apply Rinv_0_lt_compat).
  assert (K : 0 < (INR 3 - 1) / INR 3) by (cbn; lra).
  assert (V0 : 0 < nth 0 (class_output 3 g) 0).
  { rewrite V, S0 by lia. apply Rmult_lt_0_compat; auto. unfold Rdiv. rewrite Rmult_1_l. apply P, C. lia. }
  assert (V1 : nth 1 (class_output 3 g) 0 = 0).
  { rewrite V, S1 by lia. unfold Rdiv. ring. }
  assert (V2 : nth 2 (class_output 3 g) 0 < 0).
  { rewrite V, S2 by lia. pose proof (Rmult_lt_0_compat _ _ K (P _ (C 2%nat ltac:(lia)))). unfold Rdiv in *. lra. }
  intros i j Hi Hj A1 A2. pose proof (A1 0%nat ltac:(lia)). pose proof (A2 0%nat ltac:(lia)).
  destruct i as [|[|[|i]]], j as [|[|[|j]]]; try lia; auto; lra.
Qed.

Lemma triple_renamed :
  target_order 3 [2%nat; 0%nat; 1%nat] /\ wf_dataset 1 3 triple /\ real_labels triple_labels triple /\ one_hot_labels 3 triple /\
  standard triple_cfg /\ tc_number_of_classes triple_cfg = N.of_nat 3 /\
  map (rename [2%nat; 0%nat; 1%nat]) triple_labels = [[0; 1; 0]; [0; 0; 1]; [0; 1; 0]] /\
  forall lr, exists m m', amg_boost_train triple triple_cfg 1 (Fin lr) = Ok m /\ undisputed_leaves 1 3 triple m /\
    amg_boost_train (relabel triple [[0; 1; 0]; [0; 0; 1]; [0; 1; 0]]) triple_cfg 1 (Fin lr) = Ok m'.
Proof.
  destruct triple_wf as [W Hl].
  assert (W' : wf_dataset 1 3 (relabel triple [[0; 1; 0]; [0; 0; 1]; [0; 1; 0]])).
  { refine (proj1 (_ : _ /\ real_labels [[0; 1; 0]; [0; 0; 1]; [0; 1; 0]] _)).
    apply (real_data_wf 1 3 [[2]; [0]; [1]] [[2; 0; 1]] [[0; 1; 0]; [0; 0; 1]; [0; 1; 0]]); try discriminate; try reflexivity; auto; repeat constructor. }
  split; [exact (proj1 (rename_example 0 0 0))|]. split; [exact W|]. split; [exact Hl|]. split; [exact triple_one_hot|]. do 3 (split; [reflexivity|]).
  intros lr. destruct (amg_total_run xr_laws 1 3 _ triple_cfg 1 (Fin lr) W ltac:(lia) eq_refl eq_refl) as (m & E & _); [vm_compute; discriminate|].
  destruct (amg_total_run xr_laws 1 3 _ triple_cfg 1 (Fin lr) W' ltac:(lia) eq_refl eq_refl) as (m' & E' & _); [vm_compute; discriminate|].
  exists m, m'. split; [exact E|]. split; [|exact E']. exact (triple_undisputed lr m E).
Qed.

Lemma blooms_renamed_amg n lr : exists m m', amg_boost_train blooms (two_cfg 3) n (Fin lr) = Ok m /\
  amg_boost_train (relabel blooms [[0; 1]; [1; 0]; [0; 1]]) (two_cfg 3) n (Fin lr) = Ok m'.
Proof.
  destruct blooms_wf as [W Hl].
  assert (W' : wf_dataset 2 2 (relabel blooms [[0; 1]; [1; 0]; [0; 1]])).
  { refine (proj1 (_ : _ /\ real_labels [[0; 1]; [1; 0]; [0; 1]] _)).
    apply (real_data_wf 2 2 [[2; 5]; [0; 5]; [1; 7]] [[2; 0; 1]; [5; 5; 7]] [[0; 1]; [1; 0]; [0; 1]]); try discriminate; try reflexivity; auto; repeat constructor. }
  destruct (amg_total_run xr_laws 2 2 _ (two_cfg 3) n (Fin lr) W ltac:(lia) eq_refl eq_refl) as (m & E & _); [vm_compute; discriminate|].
  destruct (amg_total_run xr_laws 2 2 _ (two_cfg 3) n (Fin lr) W' ltac:(lia) eq_refl eq_refl) as (m' & E' & _); [vm_compute; discriminate|]. exists m, m'. auto.
Qed.

(** Two of three classes, seen once each, in one leaf: a tie. The second set has their names exchanged. *)
Definition tied : @dataset (f64_ops taylor_platform) :=
  @mkDS (f64_ops taylor_platform) [[n64 0]; [n64 1]] [[n64 1; n64 0; n64 0]; [n64 0; n64 1; n64 0]] [[n64 0; n64 1]].
Definition tied' : @dataset (f64_ops taylor_platform) :=
  @mkDS (f64_ops taylor_platform) [[n64 0]; [n64 1]] [[n64 0; n64 1; n64 0]; [n64 1; n64 0; n64 0]] [[n64 0; n64 1]].
Definition tied_cfg : @tree_config (f64_ops taylor_platform) := @mkTC (f64_ops taylor_platform) (split_finder_new Variance) false 3 0.
