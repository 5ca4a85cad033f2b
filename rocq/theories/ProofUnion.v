(** Scores of two test sets taken together (C111). *)
From Coq Require Import Reals Lra Lia.
From Verif Require Import Base Num ModelCommon ModelTree ModelBoost Lib XR Spec SpecTree SpecExact SpecScore SpecFit SpecError SpecUnion ProofReal ProofData ProofTree
  ProofTreeExact ProofScore ProofScoreExact ProofBoostExact ProofTwins ProofUnion2 ProofSplitExact ProofSplitExact2.
Local Open Scope R_scope.

Lemma error_together nt ps ps' ls ls' : length ps = length ls -> length ps' = length ls' -> ls <> [] -> ls' <> [] ->
  mean_squared_error nt (ps ++ ps') (ls ++ ls') =
  (INR (length ls) * mean_squared_error nt ps ls + INR (length ls') * mean_squared_error nt ps' ls') / (INR (length ls) + INR (length ls')).
Proof.
  intros H H' Hne Hne'. unfold mean_squared_error. rewrite combine_app_eq by auto. rewrite map_app. unfold mean. rewrite Rsum_app, app_length, plus_INR, !map_length, !combine_length, H, H', !Nat.min_id.
  pose proof (INR_pos _ Hne). pose proof (INR_pos _ Hne'). field. lra.
Qed.

Lemma real_together ls ls' (a b c : @dataset xr_ops) : real_labels ls a -> real_labels ls' b -> together a b c -> real_labels (ls ++ ls') c.
Proof. unfold real_labels. intros Ha Hb [_ Hc]. rewrite map_app. xr. rewrite Hc, Ha, Hb. reflexivity. Qed.

Lemma boost_together nc nt (d : dataset) ls cfg n lr (m : regression_boost_model) (a b c : dataset) las lbs :
  wf_dataset nc nt d -> real_labels ls d -> (0 < nt)%nat -> regression_boost_train d cfg n (Fin lr) = Ok m ->
  wf_dataset nc nt a -> wf_dataset nc nt b -> real_labels las a -> real_labels lbs b -> together a b c ->
  exists ea eb, regression_boost_score m a = Ok (Fin ea) /\ regression_boost_score m b = Ok (Fin eb) /\
    regression_boost_score m c = Ok (Fin ((INR (length las) * ea + INR (length lbs) * eb) / (INR (length las) + INR (length lbs)))).
Proof.
  intros W Hl Hk E Wa Wb Ha Hb HT. destruct (real_rect _ _ _ _ Wa Ha) as [Ra Na]. destruct (real_rect _ _ _ _ Wb Hb) as [Rb Nb].
  pose proof (xr_len nc nt a las Wa Ha) as La. pose proof (xr_len nc nt b lbs Wb Hb) as Lb.
  destruct (trained_predictions nc nt d ls cfg n lr m (feature_rows a) W Hl E (fun row => ProofBoostExact.row_long nc nt a row Wa)) as (pa & Pa).
  destruct (trained_predictions nc nt d ls cfg n lr m (feature_rows b) W Hl E (fun row => ProofBoostExact.row_long nc nt b row Wb)) as (pb & Pb).
  destruct (boost_score_spec nt m a las pa Hk Ha Na Ra La Pa) as (ea & Ea & Eqa & _).
  destruct (boost_score_spec nt m b lbs pb Hk Hb Nb Rb Lb Pb) as (eb & Eb & Eqb & _).
  exists ea, eb. split; [exact Ea|]. split; [exact Eb|]. pose proof (real_together _ _ _ _ _ Ha Hb HT) as Hc. destruct HT as [HT _].
  destruct (boost_score_spec nt m c (las ++ lbs) (pa ++ pb) Hk Hc) as (e & Ee & Eq & _).
  - now destruct las.
  - now apply Forall_app.
  - rewrite HT, !app_length. congruence.
  - rewrite HT. now apply Forall2_app.
  - rewrite Ee, Eq, error_together; auto.
    + rewrite <- Eqa, <- Eqb. reflexivity.
    + rewrite <- (Forall2_length _ _ _ Pa). exact La.
    + rewrite <- (Forall2_length _ _ _ Pb). exact Lb.
Qed.

Lemma tree_together nc nt (d : dataset) ls cfg (t : tree_node regression_leaf) (a b c : dataset) las lbs :
  wf_dataset nc nt d -> real_labels ls d -> (0 < nt)%nat -> regression_tree_new d cfg = Ok t ->
  wf_dataset nc nt a -> wf_dataset nc nt b -> real_labels las a -> real_labels lbs b -> together a b c ->
  exists ea eb, calculate_overall_mean_squared_error a t = Ok (Fin ea) /\ calculate_overall_mean_squared_error b t = Ok (Fin eb) /\
    calculate_overall_mean_squared_error c t = Ok (Fin ((INR (length las) * ea + INR (length lbs) * eb) / (INR (length las) + INR (length lbs)))).
Proof.
  intros W Hl Hk E Wa Wb Ha Hb HT. destruct (real_rect _ _ _ _ Wa Ha) as [Ra Na]. destruct (real_rect _ _ _ _ Wb Hb) as [Rb Nb].
  pose proof (xr_len nc nt a las Wa Ha) as La. pose proof (xr_len nc nt b lbs Wb Hb) as Lb.
  assert (HF : forall rows, (forall row, In row rows -> (nc <= length row)%nat) ->
    exists ps, Forall2 (fun row p => tree_prediction row t = Ok (map Fin p) /\ length p = nt) rows ps).
  { intros rows. clear - W Hl E. induction rows as [|row rows IH]; intros HR; [exists []; constructor|].
    destruct IH as (ps & HF); [intros r Hi; apply HR; now right|]. destruct (tree_predicts nc nt d ls cfg t row W Hl E (HR row (or_introl eq_refl))) as (p & Ep & Lp).
    exists (p :: ps). constructor; auto. }
  destruct (HF (feature_rows a) (fun row => ProofBoostExact.row_long nc nt a row Wa)) as (pa & Pa).
  destruct (HF (feature_rows b) (fun row => ProofBoostExact.row_long nc nt b row Wb)) as (pb & Pb).
  destruct (tree_score_spec nt t a las pa Hk Ha Na Ra La Pa) as (ea & Ea & Eqa & _).
  destruct (tree_score_spec nt t b lbs pb Hk Hb Nb Rb Lb Pb) as (eb & Eb & Eqb & _).
  exists ea, eb. split; [exact Ea|]. split; [exact Eb|]. pose proof (real_together _ _ _ _ _ Ha Hb HT) as Hc. destruct HT as [HT _].
  destruct (tree_score_spec nt t c (las ++ lbs) (pa ++ pb) Hk Hc) as (e & Ee & Eq & _).
  - now destruct las.
  - now apply Forall_app.
  - rewrite HT, !app_length. congruence.
  - rewrite HT. now apply Forall2_app.
  - rewrite Ee, Eq, error_together; auto.
    + rewrite <- Eqa, <- Eqb. reflexivity.
    + rewrite <- (Forall2_length _ _ _ Pa). exact La.
    + rewrite <- (Forall2_length _ _ _ Pb). exact Lb.
Qed.
