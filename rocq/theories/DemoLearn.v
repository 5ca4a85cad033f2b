(** Example runs for C96: the three-row table, and exclusive or, which trees of one level never learn. *)
From Coq Require Import Reals Lra Lia.
From Verif Require Import Base Num ModelCommon ModelTree ModelBoost Lib XR Spec SpecTree SpecExact SpecScore SpecFit SpecLearn ProofReal ProofTree ProofTree3 ProofSplitExact ProofSplitExact2 ProofTreeExact
  ProofBoost ProofBoost2 ProofBoostExact ProofStage ProofBound ProofLearn ProofWitness DemoExact DemoBoostExact.
Local Open Scope R_scope.

Lemma plain_apart : tells_apart 0 plain.
Proof.
  intros i i' r r' v Hi Hi' Hv Hv'.
  destruct i as [|[|[|i]]], i' as [|[|[|i']]]; try reflexivity; cbn in Hi, Hi'; try (destruct i; discriminate); try (destruct i'; discriminate);
    injection Hi as <-; injection Hi' as <-; cbn in Hv, Hv'; injection Hv as <-; injection Hv' as E; exfalso; lra.
Qed.

(* ------------------------------------------------------------------ *)
(** ** Exclusive or *)

Definition xor_table (a b : R) := real_data [[0; 0]; [0; 1]; [1; 0]; [1; 1]] [[0; 0; 1; 1]; [0; 1; 0; 1]] [[a]; [b]; [b]; [a]].
Definition xor_cfg : @tree_config xr_ops := mkTC (split_finder_new Variance) false 1 1.

Lemma xor_wf a b : wf_dataset 2 1 (xor_table a b) /\ real_labels [[a]; [b]; [b]; [a]] (xor_table a b).
Proof. real_wf. Qed.

Lemma tsse_four a b : tsse 1 [[a]; [b]; [b]; [a]] = (a - b) * (a - b).
Proof. unfold tsse, sse, dev, mean, target, Rsum. cbn. field. Qed.

Lemma xor_split a b q fd td : partition (xor_table a b) q = Ok (fd, td) -> tsse 1 (rl td) + tsse 1 (rl fd) = (a - b) * (a - b).
Proof.
  intros Ep. destruct (xor_wf a b) as [W Hl]. pose proof (real_rl _ _ Hl) as Erl.
  assert (Hl' : real_labels (rl (xor_table a b)) (xor_table a b)) by (rewrite Erl; exact Hl).
  destruct (labels_by_answer 2 1 _ q fd td W Hl' Ep) as [<- <-]. rewrite Erl. clear Erl Hl'.
  destruct (sub_true 2 1 (xor_table a b) q fd td W Ep) as (_ & _ & _ & _ & _ & _ & Hq); [rewrite (real_rl _ _ Hl); exact Hl|].
  unfold labels_answering, answers. destruct q as [c v]. cbn [q_column q_value] in *.
  destruct (N.to_nat c) as [|[|k]] eqn:Ec; [| |exfalso; lia]; cbn;
    change (@fleb xr_ops) with xleb in *; destruct (xleb v (Fin 0)), (xleb v (Fin 1)); cbn;
    unfold mean; cbn; field.
Qed.

Lemma xor_tree a b t : regression_tree_new (xor_table a b) xor_cfg = Ok t ->
  calculate_overall_mean_squared_error (xor_table a b) t = Ok (Fin ((a - b) * (a - b) / 4)).
Proof.
  intros E. destruct (xor_wf a b) as [W Hl]. pose proof (real_rl _ _ Hl) as Erl.
  assert (Hl' : real_labels (rl (xor_table a b)) (xor_table a b)) by (rewrite Erl; exact Hl).
  rewrite regression_tree_new_eq in E. apply build_with_built in E.
  rewrite (training_error_exact _ 2 1 _ _ _ E W Hl' ltac:(lia)). do 2 f_equal.
  assert (K : sum_err 1 t (rs (xor_table a b)) = (a - b) * (a - b)).
  { inversion E as [level d' s lf Es Est El|level d' s fd td x y Es Est Ep Bx By]; subst.
    - injection El as <-. rewrite (sum_err_leaf 2) by (auto; lia). rewrite Erl, tsse_four. cbn. field.
    - destruct (sub_true 2 1 _ _ fd td W Ep Hl') as (Wf & Wt & Lf & Lt & Et & Ef & Hq).
      rewrite sum_err_node, <- Et, <- Ef.
      inversion Bx as [level1 d1 s1 lf1 Es1 Est1 El1|level1 d1 s1 fd1 td1 x1 y1 Es1 Est1 Ep1 Bx1 By1]; subst.
      2:{ unfold stop_here in Est1. apply orb_false_iff in Est1 as [_ H]. discriminate. }
      inversion By as [level2 d2 s2 lf2 Es2 Est2 El2|level2 d2 s2 fd2 td2 x2 y2 Es2 Est2 Ep2 Bx2 By2]; subst.
      2:{ unfold stop_here in Est2. apply orb_false_iff in Est2 as [_ H]. discriminate. }
      injection El1 as <-. injection El2 as <-. rewrite !(sum_err_leaf 2) by (auto; lia).
      rewrite <- (xor_split a b _ fd td Ep). cbn. field. }
  rewrite K. cbn. field.
Qed.

Lemma xor_trained n lr : exists m, regression_boost_train (xor_table 0 1) xor_cfg n (Fin lr) = Ok m.
Proof. apply (learn_exists 2 1 (xor_table 0 1) xor_cfg lr (proj1 (xor_wf 0 1)) eq_refl eq_refl). lia. Qed.

(** Trees of one level never learn it. *)
Lemma xor_never lr n m : regression_boost_train (xor_table 0 1) xor_cfg n (Fin lr) = Ok m -> regression_boost_score m (xor_table 0 1) = Ok (Fin (1/4)).
Proof.
  intros E. destruct (xor_wf 0 1) as [W Hl].
  destruct (xor_trained 0 lr) as (m0 & E0). destruct (xor_trained 1 lr) as (m1 & E1).
  assert (S0 : regression_boost_score m0 (xor_table 0 1) = Ok (Fin (1/4))).
  { rewrite (learn_start 2 1 (xor_table 0 1) _ xor_cfg lr W Hl ltac:(lia) eq_refl eq_refl ltac:(lia) m0 E0). do 2 f_equal.
    rewrite total_variance_tsse by discriminate. rewrite tsse_four. cbn. field. }
  apply (stalled 2 1 (xor_table 0 1) [[0]; [1]; [1]; [0]] xor_cfg lr W Hl ltac:(lia) 0 n m0 m1 m (1/4) E0 E1 S0); [|exact E].
  destruct (learn_tree 2 1 (xor_table 0 1) _ xor_cfg lr W Hl ltac:(lia) eq_refl eq_refl 0 m0 m1 E0 E1)
    as (ps & rt & e & et & HP & HL & Rp & (Wr & Ert & Em) & He & Ee & S1 & S2).
  rewrite S2. do 2 f_equal. pose proof (eq_trans (eq_sym S0) S1) as Q. injection Q as <-.
  assert (Hps : forall p, In p ps -> p = means 1 [[0]; [1]; [1]; [0]]).
  { apply (predicts_const 1 (xor_table 0 1) m0 ps); auto. intros row. exact (base_prediction 2 1 (xor_table 0 1) _ xor_cfg lr W Hl m0 row E0). }
  destruct ps as [|p1 [|p2 [|p3 [|p4 [|p5 ps]]]]]; try discriminate.
  rewrite (Hps p1), (Hps p2), (Hps p3), (Hps p4) in Ert, Em by (cbn; auto). clear Hps.
  set (c := mean [0; 1; 1; 0]).
  change (regression_tree_new (xor_table (0 - c) (1 - c)) xor_cfg = Ok rt) in Ert.
  change (calculate_overall_mean_squared_error (xor_table (0 - c) (1 - c)) rt = Ok (Fin et)) in Em.
  pose proof (eq_trans (eq_sym Em) (xor_tree _ _ _ Ert)) as Q. injection Q as ->. field.
Qed.
