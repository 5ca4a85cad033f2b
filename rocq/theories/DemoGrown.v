(** A concrete ensemble of fully grown trees for the example of C94. *)
From Coq Require Import Reals Lra Lia.
From Verif Require Import Base Num ModelCommon ModelTree ModelBoost Spec SpecTree SpecScore SpecFit SpecGrown XR SpecExact ProofTree3 ProofBoost
  ProofWitness ProofTreeExact ProofGrown DemoExact.
Local Open Scope R_scope.

(** Two trees at rate 1/2 on [plain]: rows that were never seen get answers three quarters of the way from the mean 3 to the tree's answers. *)
Lemma plain_grown : exists t m, regression_tree_new plain (plain_cfg 2) = Ok t /\ fits_training plain t /\
  regression_boost_train plain (plain_cfg 2) 2 (Fin (1/2)) = Ok m /\ length (m_trees m) = 2%nat /\
  tree_prediction [Fin 7] t = Ok [Fin 9] /\ regression_boost_predict m [Fin 7] = Ok [Fin (15/2)] /\
  regression_boost_predict m [Fin (3/2)] = Ok [Fin (3/4)].
Proof.
  destruct plain_predicts as (t & ET & P1 & P2 & _). destruct plain_wf as [W Hl].
  destruct (regression_train_total xr_laws 1 1 plain (plain_cfg 2) 2 (Fin (1/2)) W eq_refl eq_refl ltac:(lia)) as (m & E & _).
  assert (Hfit : fits_training plain t)
    by (intros r l' Hs; exact (deep_tree_fits 1 1 plain _ (plain_cfg 2) t r l' W Hl plain_consistent eq_refl eq_refl ET (N.le_refl 3) Hs)).
  exists t, m. split; [exact ET|]. split; [exact Hfit|]. split; [exact E|].
  split; [exact (proj2 (proj2 (ProofBoostExact.guess_real _ _ _ _ _ _ _ _ W Hl E)))|]. split; [exact P1|].
  pose proof (proj1 (grown_ensemble 1 1 plain _ (plain_cfg 2) 2 (1/2) t m W Hl eq_refl eq_refl ET Hfit E)) as H.
  assert (G : mean (target 0 plain_labels) = 3) by (unfold plain_labels, mean, target, Rsum; cbn; lra).
  assert (A : forall x y z, tree_prediction [x] t = Ok [Fin y] -> 3 + 3 / 4 * (y - 3) = z -> regression_boost_predict m [x] = Ok [Fin z]).
  { intros x y z P Ez. destruct (H [x] (le_n 1)) as (p & Ep & _ & R). pose proof (eq_trans (eq_sym P) Ep) as Q.
    injection Q as Q. apply (f_equal (map xval)) in Q. rewrite map_xval_Fin in Q. cbn [map xval] in Q. subst p.
    refine (eq_trans R _). unfold towards. cbn [seq map combine fst snd]. rewrite G. replace (3 + (1 - (1 - 1 / 2) ^ 2) * (y - 3)) with z by (rewrite <- Ez; field).
    reflexivity. }
  split; [exact (A _ 9 (15/2) P1 ltac:(lra))|exact (A _ 0 (3/4) P2 ltac:(lra))].
Qed.
