(** Training that cannot ask anything: every row is answered with the mean label, in exact arithmetic (C112). *)
From Coq Require Import Reals Lra Lia.
From Verif Require Import Base Num ModelCommon ModelTree ModelBoost Lib XR Spec SpecTree SpecExact SpecScore SpecFit SpecTwins SpecQuiet ProofReal ProofData ProofTree
  ProofTreeExact ProofBoostExact ProofBalance ProofTwins ProofQuiet.
Local Open Scope R_scope.

Lemma same_mean {A} (f : A -> R) c l : l <> [] -> (forall x, In x l -> f x = c) -> mean (map f l) = c.
Proof.
  intros Hne H. unfold mean. rewrite map_length, (Rsum_map_ext f (fun _ => c)) by auto. rewrite Rsum_map_const. pose proof (INR_pos l Hne). field. lra.
Qed.

(** Equal predictions for the training rows that average to the labels are the mean label. *)
Lemma equal_predictions nt (f : list xr -> res (list xr)) (rows : list (list xr)) (ls ps : list (list R)) row :
  rows <> [] -> (forall x y, f x = f y) -> mapM f rows = Ok (map (map Fin) ps) -> rectangular nt ps ->
  (forall j, (j < nt)%nat -> mean (target j ps) = mean (target j ls)) -> f row = Ok (map Fin (mean_label nt ls)).
Proof.
  intros Hne Hf Em Hr Hm. destruct rows as [|r0 rows]; [congruence|]. cbn [mapM] in Em.
  destruct (f r0) as [v| |] eqn:E0; try discriminate. cbn [bind] in Em. destruct (mapM f rows) as [vs| |] eqn:Es; try discriminate. cbn [bind] in Em.
  injection Em as Em. destruct ps as [|p ps]; [discriminate|]. cbn [map] in Em. injection Em as -> Es'.
  assert (HA : forall q, In q (p :: ps) -> q = p).
  { intros q [->|Hq]; auto. assert (HI : In (map Fin q) vs) by (rewrite Es'; now apply in_map). clear - Es HI Hf E0. revert vs Es HI.
    induction rows as [|r rows IH]; intros vs Es HI; cbn [mapM] in Es; [injection Es as <-; destruct HI|].
    rewrite (Hf r r0), E0 in Es. cbn [bind] in Es. destruct (mapM f rows) as [ws| |]; try discriminate. cbn [bind] in Es. injection Es as <-.
    destruct HI as [HI|HI]; [|now apply (IH ws)]. rewrite <- (reals_back q), <- (reals_back p). now rewrite HI. }
  rewrite (Hf row r0), E0. do 2 f_equal. inversion Hr as [|? ? Hp Hps]; subst.
  apply (nth_ext _ _ 0 0); [now rewrite mean_label_length|]. intros j Hj. rewrite mean_label_nth, <- Hm by auto. symmetry.
  unfold target. apply same_mean; [discriminate|]. intros q Hq. now rewrite (HA q Hq).
Qed.

Theorem quiet_boost nc nt (d : dataset) ls cfg n lr (m : regression_boost_model) row :
  wf_dataset nc nt d -> real_labels ls d -> standard cfg -> tc_number_of_classes cfg = N.of_nat nt -> nothing_to_ask cfg (feature_rows d) ->
  regression_boost_train d cfg n (Fin lr) = Ok m -> regression_boost_predict m row = Ok (map Fin (mean_label nt ls)).
Proof.
  intros W Hl Hs Hk Q E. destruct (ensemble_balance nc nt d ls cfg n lr m W Hl E) as (ps & E1 & E2 & E3).
  apply (equal_predictions nt (regression_boost_predict m) (feature_rows d) ls ps row (wf_nonempty _ _ _ W)); auto.
  intros x y. exact (proj1 (proj2 (quiet_answers xr_laws nc nt d cfg n (Fin lr) W Hs Hk Q x y)) m E).
Qed.

Theorem quiet_tree nc nt (d : dataset) ls cfg (t : tree_node regression_leaf) row :
  wf_dataset nc nt d -> real_labels ls d -> standard cfg -> tc_number_of_classes cfg = N.of_nat nt -> nothing_to_ask cfg (feature_rows d) ->
  regression_tree_new d cfg = Ok t -> tree_prediction row t = Ok (map Fin (mean_label nt ls)).
Proof.
  intros W Hl Hs Hk Q E. destruct (tree_balance nc nt d ls cfg t W Hl E) as (ps & E1 & E2 & E3 & _).
  apply (equal_predictions nt (fun row => @tree_prediction xr_ops row t) (feature_rows d) ls ps row (wf_nonempty _ _ _ W)); auto.
  intros x y. unfold tree_prediction. now rewrite (one_leaf_same t x y (regression_quiet xr_laws nc nt d cfg W Hs Hk Q t E)).
Qed.
