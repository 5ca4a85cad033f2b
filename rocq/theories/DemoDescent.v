(** An example run for C69: one row of class 0 among two classes. *)
From Coq Require Import Reals Lra Lia.
From Verif Require Import Base Num ModelCommon ModelTree ModelBoost Lib XR Spec SpecTree SpecExact SpecScore SpecFit SpecError SpecClass SpecAffine SpecGradient ProofReal ProofSort ProofData
  ProofSplit ProofSplit2 ProofTree ProofTree3 ProofScore ProofSplitExact ProofSplitExact2 ProofTreeExact ProofScoreExact ProofBoost ProofBoost2 ProofLeaf ProofBoostExact
  ProofBalance ProofClassExact ProofClassRun ProofGradient ProofDescent ProofWitness DemoExact DemoBoostExact.
Local Open Scope R_scope.

Definition lone : @dataset xr_ops := real_data [[0]] [[0]] [[1; 0]].

Lemma lone_wf : wf_dataset 1 2 lone /\ real_labels [[1; 0]] lone.
Proof. unfold lone. real_wf. Qed.

Lemma lone_one_hot : one_hot_labels 2 lone.
Proof. constructor; [exists 0%N|constructor]. split; [lia|]; split; [reflexivity|]; intros [|[|j]] Hj; try lia; reflexivity. Qed.

Lemma lone_multi m n lr : exists e, multi_class_boost_train lone (two_cfg m) n lr = Ok e.
Proof.
  destruct (multi_class_total_run xr_laws 1 2 lone (two_cfg m) n lr (proj1 lone_wf) ltac:(lia) eq_refl eq_refl) as (e & E & _);
    [vm_compute; discriminate|]. eauto.
Qed.

Lemma lone_amg m n lr : exists e, amg_boost_train lone (two_cfg m) n lr = Ok e.
Proof.
  destruct (amg_total_run xr_laws 1 2 lone (two_cfg m) n lr (proj1 lone_wf) ltac:(lia) eq_refl eq_refl) as (e & E & _);
    [vm_compute; discriminate|]. eauto.
Qed.

(** Its scores do move. *)
Lemma lone_moves lr m ss : 0 < lr -> multi_class_boost_train lone (two_cfg 3) 1 (Fin lr) = Ok m ->
  mapM (multi_class_boost_raw (first_trees 0 m)) (feature_rows lone) = Ok (map (map Fin) ss) ->
  mapM (multi_class_boost_raw m) (feature_rows lone) <> Ok (map (map Fin) ss).
Proof.
  intros Hlr E H0 H. destruct lone_wf as [W Hl].
  destruct (multi_core 1 2 lone (two_cfg 3) 1 lr m 0 [0%nat] ltac:(lia) ltac:(lia) W lone_one_hot Hl E ltac:(lia)) as (ss' & t & os & S1 & S2 & Eb & Eo & Rs & Ro & Ls & D).
  destruct (multi_guess 1 2 lone (two_cfg 3) 1 (Fin lr) m ltac:(lia) ltac:(lia) W E) as (Hg & _ & HT). rewrite (first_all m 1 HT) in S2.
  assert (F : forall a b : list (list R), map (map Fin) a = map (map Fin) b -> a = b) by apply map_Fin_inj2.
  rewrite H0 in S1. injection S1 as S1. apply F in S1. subst ss'. rewrite H in S2. injection S2 as S2. apply F in S2.
  rewrite grad_boost_tree_new_eq in Eb. apply build_with_built in Eb.
  destruct (fitted_ok 1 2 lone ss ltac:(lia) W lone_one_hot Rs Ls) as (r & _ & Wr & Lr & Rr & _).
  destruct (gb_class_out 1 2 _ _ _ _ [Fin 0] ltac:(lia) Wr Lr Rr Eb ltac:(cbn; lia)) as (x & Ef & _ & Sx & Wx & Lx).
  destruct (leaf_group 1 2 lone [0%nat] ss ltac:(lia) W Hl Rs Ls [Fin 0] t x Wx Lx Sx) as [Eg Hne].
  destruct ss as [|s [|s2 ss]]; try discriminate Ls. pose proof (Forall_inv Rs) as L2. cbv beta in L2.
  assert (Er : map snd (reaching lone [0%nat] [s] [Fin 0] t) = [(s, 0%nat)]).
  { revert Hne. clear. unfold reaching. cbn [feature_rows lone real_data map combine filter]. destruct (forallb _ _); [reflexivity|]. intros Hne. exfalso. now apply Hne. }
  assert (Hos : os = [class_output 2 (rl x)]).
  { rewrite Eo. cbn [feature_rows lone real_data map]. unfold looked_up. xr. rewrite Ef. unfold gl_val. cbn [gl_output]. now rewrite map_xval_Fin. }
  assert (Hpos : 0 < nth 0 (class_output 2 (rl x)) 0).
  { rewrite class_output_nth by lia. rewrite Eg, Er. unfold target, curvature. cbn [map]. rewrite residual_nth by (cbn [fst]; auto; lia). cbn [Nat.eqb fst snd].
    rewrite !Rsum_cons. change (Rsum []) with 0. pose proof (probability_bounds s 0 ltac:(lia) ltac:(lia)) as Hp. set (p := probability s 0) in *.
    rewrite Rabs_right by lra. apply Rmult_lt_0_compat; [cbn; lra|]. apply Rdiv_lt_0_compat; nra. }
  rewrite Hos in S2. cbn [map2] in S2. injection S2 as S2. apply (f_equal (fun l => nth 0 l 0)) in S2. unfold vstep in S2.
  rewrite nth_map2 in S2 by (rewrite ?class_output_length; lia). nra.
Qed.

Lemma lone_falls : exists ss cs delta, 0 < delta /\ forall lr m, 0 < lr < delta -> multi_class_boost_train lone (two_cfg 3) 1 (Fin lr) = Ok m ->
  exists ss', mapM (multi_class_boost_raw m) (feature_rows lone) = Ok (map (map Fin) ss') /\ total_loss (combine ss' cs) < total_loss (combine ss cs).
Proof.
  destruct lone_wf as [W Hl]. destruct (lone_multi 3 0 (Fin 1)) as (m0 & E0). destruct (lone_multi 3 1 (Fin 1)) as (m1 & E1).
  destruct (multi_class_first_iteration 1 2 lone (two_cfg 3) 1 m0 m1 ltac:(lia) ltac:(lia) W lone_one_hot E0 E1) as (ss & cs & S0 & _ & [H|(delta & Hd & H)]).
  - exfalso. pose proof (multi_class_prefix lone (two_cfg 3) 1 0 (Fin 1) m1 ltac:(lia) E1) as P. rewrite E0 in P. injection P as P. rewrite P in S0.
    exact (lone_moves 1 m1 ss ltac:(lra) E1 S0 (H 1 m1 E1)).
  - exists ss, cs, delta. auto.
Qed.
