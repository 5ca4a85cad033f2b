(** Final forms of the score and prediction theorems, for any arithmetic. *)
From Coq Require Import Permutation.
From Verif Require Import Base Num ModelCommon ModelTree ModelBoost Spec SpecTree SpecScore Lib ProofData
  ProofTree ProofTree3 ProofScore ProofBoost.

Section Score2.
Context {O : NumOps} (LW : NumLaws O).

Theorem majority_class nc nt d cfg t row :
  wf_dataset nc nt d -> 0 < nt -> (Z.of_nat nt <= 2 ^ 53)%Z ->
  regression_tree_new d cfg = Ok t -> nc <= length row ->
  exists c v, predict_class row t = Ok v /\ one_hot nt (N.of_nat c) v /\
    most_votes nt (map snd (samples_like row t d)) c.
Proof.
  intros W H1 H2 Et Hr.
  destruct (predict_class_tree LW nc nt d cfg t row W H1 H2 Et Hr) as (ld & c & v & Ef & Ep & Ho & Hm).
  exists c, v. split; auto. split; auto.
  rewrite regression_tree_new_eq in Et. apply build_with_built in Et.
  destruct (built_lookup _ _ _ _ _ _ row Et W Hr) as (ld' & Ef' & Es & Wl).
  rewrite Ef in Ef'. inversion Ef'; subst ld'.
  assert (E : map snd (samples ld) = labels ld).
  { unfold samples. apply map_snd_combine. symmetry. apply (wf_lengths _ _ _ Wl). }
  unfold samples_like. change (fun p => _) with (fun p : list F * list F => same_answers (path row t) row (fst p)).
  rewrite <- Es, E. exact Hm.
Qed.

Lemma no_votes k ls c : (forall i, i < k -> votes ls i = 0) -> most_votes k ls c -> c = 0.
Proof.
  intros H [H1 H2]. destruct (Nat.eq_dec c 0) as [|Hc]; auto. exfalso.
  destruct (H2 0) as [_ Hb]; [lia|]. specialize (Hb ltac:(lia)). rewrite !H in Hb by lia. lia.
Qed.

Theorem multi_class_one_class m row s :
  multi_class_boost_raw m row = Ok s -> s <> [] ->
  exists c v, multi_class_boost_predict m row = Ok v /\ one_hot (length s) (N.of_nat c) v /\ first_largest s c.
Proof. intros E NE. unfold multi_class_boost_predict. rewrite E. now apply binary_prediction. Qed.

Theorem amg_one_class m row s :
  amg_boost_raw m row = Ok s -> s <> [] ->
  exists c v, amg_boost_predict m row = Ok v /\ one_hot (length s) (N.of_nat c) v /\ first_largest s c.
Proof. intros E NE. unfold amg_boost_predict. rewrite E. now apply binary_prediction. Qed.

Theorem empty_scores (m : multi_class_boost_model) (a : amg_boost_model) row :
  (multi_class_boost_raw m row = Ok [] -> multi_class_boost_predict m row = Panic) /\
  (amg_boost_raw a row = Ok [] -> amg_boost_predict a row = Panic).
Proof. unfold multi_class_boost_predict, amg_boost_predict. split; intros ->; reflexivity. Qed.

Theorem pointwise predict test ps :
  calculate_all_predictions predict test = Ok ps <-> Forall2 (fun row p => predict row = Ok p) (feature_rows test) ps.
Proof. rewrite all_predictions_eq. apply mapM_Forall2. Qed.

End Score2.
