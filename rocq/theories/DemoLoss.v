(** Example runs for C102: three rows in one leaf, two of class 0 and one of class 1. *)
From Coq Require Import Reals Lra Lia.
From Verif Require Import Base Num ModelCommon ModelTree ModelBoost Lib XR Spec SpecTree SpecExact SpecScore SpecFit SpecError SpecClass SpecAffine SpecGradient SpecLoss ProofReal ProofSort ProofData
  ProofSplit ProofSplit2 ProofTree ProofTree3 ProofScore ProofSplitExact ProofSplitExact2 ProofTreeExact ProofScoreExact ProofBoost ProofBoost2 ProofLeaf ProofBoostExact
  ProofBalance ProofClassExact ProofClassRun ProofGradient ProofDescent ProofLoss ProofWitness DemoExact DemoBoostExact.
Local Open Scope R_scope.

Definition trio : @dataset xr_ops := real_data [[0]; [0]; [0]] [[0; 0; 0]] [[1; 0]; [1; 0]; [0; 1]].

Lemma trio_wf : wf_dataset 1 2 trio /\ real_labels [[1; 0]; [1; 0]; [0; 1]] trio.
Proof. unfold trio. real_wf. Qed.

Lemma trio_one_hot : one_hot_labels 2 trio.
Proof.
  repeat apply Forall_cons; [exists 0%N|exists 0%N|exists 1%N|apply Forall_nil]; (split; [lia|]; split; [reflexivity|]; intros [|[|j]] Hj; try lia; reflexivity).
Qed.

Lemma trio_multi m n lr : exists e, multi_class_boost_train trio (two_cfg m) n lr = Ok e.
Proof.
  destruct (multi_class_total_run xr_laws 1 2 trio (two_cfg m) n lr (proj1 trio_wf) ltac:(lia) eq_refl eq_refl) as (e & E & _);
    [vm_compute; discriminate|]. eauto.
Qed.

Lemma trio_amg m n lr : exists e, amg_boost_train trio (two_cfg m) n lr = Ok e.
Proof.
  destruct (amg_total_run xr_laws 1 2 trio (two_cfg m) n lr (proj1 trio_wf) ltac:(lia) eq_refl eq_refl) as (e & E & _);
    [vm_compute; discriminate|]. eauto.
Qed.

(** The scores of every row after the first iteration. *)
Lemma trio_scores lr m : multi_class_boost_train trio (two_cfg 3) 1 (Fin lr) = Ok m ->
  mapM (multi_class_boost_raw m) (feature_rows trio) = Ok (map (map Fin) (repeat [1 / 2 + lr / 3; 1 / 2 - lr / 3] 3)).
Proof.
  intros E. destruct trio_wf as [W Hl].
  assert (Hl' : real_labels (map (hot 2) [0%nat; 0%nat; 1%nat]) trio) by exact Hl.
  destruct (multi_core 1 2 trio (two_cfg 3) 1 lr m 0 [0%nat; 0%nat; 1%nat] ltac:(lia) ltac:(lia) W trio_one_hot Hl' E ltac:(lia)) as (ss & t & os & S1 & S2 & Eb & Eo & Rs & Ro & Ls & D).
  destruct (multi_guess 1 2 trio (two_cfg 3) 1 (Fin lr) m ltac:(lia) ltac:(lia) W E) as (Hg & _ & HT). rewrite (first_all m 1 HT) in S2.
  pose proof (multi_class_start 2 trio (two_cfg 3) 1 lr m 1 ltac:(lia) ltac:(lia) W E) as S0. rewrite S0 in S1. injection S1 as S1.
  assert (F : forall a b : list (list R), map (map Fin) a = map (map Fin) b -> a = b) by apply map_Fin_inj2. 
  assert (Ess : ss = [even 2; even 2; even 2]) by (symmetry; apply F; exact S1). clear S0 S1. subst ss.
  rewrite grad_boost_tree_new_eq in Eb. apply build_with_built in Eb.
  destruct (fitted_ok 1 2 trio _ ltac:(lia) W trio_one_hot Rs Ls) as (r & _ & Wr & Lr & Rr & _).
  destruct (gb_class_out 1 2 _ _ _ _ [Fin 0] ltac:(lia) Wr Lr Rr Eb ltac:(cbn; lia)) as (x & Ef & _ & Sx & Wx & Lx).
  destruct (leaf_group 1 2 trio [0%nat; 0%nat; 1%nat] _ ltac:(lia) W Hl' Rs Ls [Fin 0] t x Wx Lx Sx) as [Eg Hne].
  assert (Er : map snd (reaching trio [0%nat; 0%nat; 1%nat] [even 2; even 2; even 2] [Fin 0] t) = [(even 2, 0%nat); (even 2, 0%nat); (even 2, 1%nat)]).
  { revert Hne. clear. unfold reaching. cbn [feature_rows trio real_data map combine filter]. destruct (forallb _ _); [reflexivity|]. intros Hne. exfalso. now apply Hne. }
  assert (Hos : os = repeat (class_output 2 (rl x)) 3).
  { rewrite Eo. cbn [feature_rows trio real_data map repeat]. unfold looked_up. xr. rewrite Ef. unfold gl_val. cbn [gl_output]. now rewrite map_xval_Fin. }
  assert (Hc : class_output 2 (rl x) = [1 / 3; - (1 / 3)]).
  { apply (nth_ext _ _ 0 0); [now rewrite class_output_length|]. rewrite class_output_length. intros j Hj. rewrite class_output_nth by lia.
    rewrite Eg, Er. unfold target, curvature. cbn [map].
    destruct j as [|[|j]]; try lia; rewrite !residual_nth by (cbn [fst]; auto; lia); cbn [Nat.eqb fst snd];
      rewrite !even_probability by lia; rewrite !Rsum_cons; change (Rsum []) with 0; cbn [nth INR];
      repeat match goal with |- context [Rabs ?e] => first [rewrite (Rabs_right e) by lra | rewrite (Rabs_left e) by lra] end; field. }
  rewrite Hos, Hc in S2. rewrite S2. unfold even. cbn [repeat map2 map vstep]. unfold vstep. cbn [map2 INR].
  replace (1 / (1 + 1) + lr * (1 / 3)) with (1 / 2 + lr / 3) by field. replace (1 / (1 + 1) + lr * - (1 / 3)) with (1 / 2 - lr / 3) by field. reflexivity.
Qed.

Lemma ln2_lt : ln 2 < 1.
Proof. rewrite <- (ln_exp 1). apply ln_increasing; [lra|]. pose proof (exp_ineq1 1 ltac:(lra)). lra. Qed.

Lemma prob2 a b j : (j < 2)%nat -> probability [a; b] j = exp (nth j [a; b] 0) / (exp a + exp b).
Proof. intros H. unfold probability, Rsum. cbn [map fold_right]. now rewrite Rplus_0_r. Qed.

Lemma loss2_nonneg a b j : (j < 2)%nat -> 0 <= log_loss [a; b] j.
Proof.
  intros H. unfold log_loss. pose proof (probability_bounds [a; b] j ltac:(cbn; lia) ltac:(cbn; lia)) as Hp.
  pose proof (ln_increasing _ 1 (proj1 Hp) (proj2 Hp)) as L. rewrite ln_1 in L. lra.
Qed.

(** With rate 6 the first iteration raises the log-loss. *)
Lemma trio_rises : exists m m' ss ss' cs, multi_class_boost_train trio (two_cfg 3) 0 (Fin 6) = Ok m /\ multi_class_boost_train trio (two_cfg 3) 1 (Fin 6) = Ok m' /\
  mapM (multi_class_boost_raw m) (feature_rows trio) = Ok (map (map Fin) ss) /\
  mapM (multi_class_boost_raw m') (feature_rows trio) = Ok (map (map Fin) ss') /\ classes 2 trio cs /\
  total_loss (combine ss cs) < total_loss (combine ss' cs).
Proof.
  destruct (trio_multi 3 1 (Fin 6)) as (m' & E). destruct trio_wf as [W Hl].
  pose proof (multi_class_start 2 trio (two_cfg 3) 1 6 m' 1 ltac:(lia) ltac:(lia) W E) as S0.
  pose proof (multi_class_prefix trio (two_cfg 3) 1 0 (Fin 6) m' ltac:(lia) E) as P.
  exists (first_trees 0 m'), m', (map (fun _ => even 2) (feature_rows trio)), (repeat [1 / 2 + 6 / 3; 1 / 2 - 6 / 3] 3), [0%nat; 0%nat; 1%nat].
  assert (Hcs : Forall (fun c => (c < 2)%nat) [0%nat; 0%nat; 1%nat]) by (repeat constructor).
  split; [exact P|]. split; [exact E|]. split; [exact S0|]. split; [exact (trio_scores 6 m' E)|].
  split; [exact (classes_hot 2 trio [0%nat; 0%nat; 1%nat] Hl Hcs)|].
  pose proof (even_scores_loss 2 [0%nat; 0%nat; 1%nat] (feature_rows trio) ltac:(lia) Hcs eq_refl) as E0. 
  eapply Rle_lt_trans; [apply Req_le; exact E0|]. change (length (feature_rows trio)) with 3%nat.
  unfold total_loss. cbn [repeat combine map fst snd]. rewrite !Rsum_cons. change (Rsum []) with 0.
  pose proof (loss2_nonneg (1 / 2 + 6 / 3) (1 / 2 - 6 / 3) 0 ltac:(lia)) as H0. set (l0 := log_loss _ 0) in *.
  assert (H1 : 4 < log_loss [1 / 2 + 6 / 3; 1 / 2 - 6 / 3] 1).
  { unfold log_loss. rewrite prob2 by lia. cbn [nth]. set (a := exp (1 / 2 + 6 / 3)). set (b := exp (1 / 2 - 6 / 3)).
    assert (Ha : 0 < a) by apply exp_pos. assert (Hb : 0 < b) by apply exp_pos. pose proof (exp_pos (-4)) as H4.
    assert (Eb : b = exp (-4) * a) by (unfold a, b; rewrite <- exp_plus; f_equal; lra).
    assert (L : b / (a + b) < exp (-4)).
    { apply Rmult_lt_reg_r with (a + b); [lra|]. unfold Rdiv. rewrite Rmult_assoc, Rinv_l by lra. nra. }
    apply ln_increasing in L; [|apply Rdiv_lt_0_compat; lra]. rewrite ln_exp in L. lra. }
  pose proof ln2_lt as H2. cbn [INR]. replace (1 + 1) with 2 by ring. lra.
Qed.

(** With rate 1/2 it lowers it. *)
Lemma trio_falls : exists m ss cs, multi_class_boost_train trio (two_cfg 3) 1 (Fin (1 / 2)) = Ok m /\
  mapM (multi_class_boost_raw m) (feature_rows trio) = Ok (map (map Fin) ss) /\ classes 2 trio cs /\
  total_loss (combine ss cs) < 3 * ln 2.
Proof.
  destruct (trio_multi 3 1 (Fin (1 / 2))) as (m & E). destruct trio_wf as [W Hl].
  destruct (multi_class_first_drop 1 2 trio (two_cfg 3) (1 / 2) m ltac:(lia) ltac:(lia) W trio_one_hot ltac:(cbn; lra) E) as (ss & cs & S & Hc & H).
  exists m, ss, cs. split; [exact E|]. split; [exact S|]. split; [exact Hc|].
  rewrite (trio_scores (1 / 2) m E) in S. injection S as S.
  assert (F : forall a b : list (list R), map (map Fin) a = map (map Fin) b -> a = b) by apply map_Fin_inj2.
  assert (Es : repeat [1 / 2 + 1 / 2 / 3; 1 / 2 - 1 / 2 / 3] 3 = ss) by (apply F; exact S).
  destruct H as [H|H].
  - exfalso. rewrite <- Es in H. cbn [repeat feature_rows trio real_data map INR] in H. injection H as H _. lra.
  - change (length (feature_rows trio)) with 3%nat in H. cbn [INR] in H. replace (1 + 1) with 2 in H by ring. lra.
Qed.

(** And the first step is small enough for the bounds. *)
Lemma trio_small m m' sa sb : multi_class_boost_train trio (two_cfg 3) 0 (Fin (1 / 2)) = Ok m -> multi_class_boost_train trio (two_cfg 3) 1 (Fin (1 / 2)) = Ok m' ->
  mapM (multi_class_boost_raw m) (feature_rows trio) = Ok (map (map Fin) sa) -> mapM (multi_class_boost_raw m') (feature_rows trio) = Ok (map (map Fin) sb) ->
  moves_at_most (1 / 2) sa sb.
Proof.
  intros E0 E Sa Sb. destruct trio_wf as [W Hl]. rewrite (multi_class_prefix trio (two_cfg 3) 1 0 _ m' ltac:(lia) E) in E0. injection E0 as <-.
  rewrite (multi_class_start 2 trio (two_cfg 3) 1 _ m' 1 ltac:(lia) ltac:(lia) W E) in Sa. rewrite (trio_scores (1 / 2) m' E) in Sb.
  injection Sa as Sa. injection Sb as Sb.
  assert (F : forall a b : list (list R), map (map Fin) a = map (map Fin) b -> a = b) by apply map_Fin_inj2.
  assert (Ea : [even 2; even 2; even 2] = sa) by (apply F; exact Sa).
  assert (Eb : repeat [1 / 2 + 1 / 2 / 3; 1 / 2 - 1 / 2 / 3] 3 = sb) by (apply F; exact Sb).
  subst sa sb. unfold even. cbn [repeat INR]. unfold moves_at_most. repeat (apply Forall2_nil || apply Forall2_cons); apply Rabs_le; lra.
Qed.
