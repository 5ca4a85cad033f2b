(** Test rows with the same features cannot be told apart (C110). *)
From Coq Require Import Reals Lra Lia Permutation.
From Verif Require Import Base Num ModelCommon ModelTree ModelBoost Lib XR Spec SpecTree SpecExact SpecScore SpecFit SpecError SpecTwins ProofReal ProofData ProofTree
  ProofTreeExact ProofScore ProofScoreExact ProofBoostExact ProofBalance.
Local Open Scope R_scope.

(** Squared distance of two vectors. *)
Definition gap2 (k : nat) (a b : list R) : R := Rsum (map (fun j => (nth j a 0 - nth j b 0) * (nth j a 0 - nth j b 0)) (seq 0 k)).

Lemma gap2_nonneg k a b : 0 <= gap2 k a b.
Proof. apply Rsum_nonneg. intros x Hx. apply in_map_iff in Hx as (j & <- & _). apply Rle_0_sqr. Qed.

Lemma gap2_zero k a b : length a = k -> length b = k -> (gap2 k a b = 0 <-> a = b).
Proof.
  intros Ha Hb. split.
  - intros H. apply (nth_ext _ _ 0 0); [congruence|]. intros j Hj.
    assert (Z : (nth j a 0 - nth j b 0) * (nth j a 0 - nth j b 0) = 0).
    { apply (Rsum_zero_all _) with (x := (nth j a 0 - nth j b 0) * (nth j a 0 - nth j b 0)) in H; auto.
      - intros x Hx. apply in_map_iff in Hx as (i & <- & _). apply Rle_0_sqr.
      - apply in_map_iff. exists j. split; [reflexivity|apply in_seq; lia]. }
    apply Rmult_integral in Z. destruct Z; lra.
  - intros ->. unfold gap2. rewrite (Rsum_map_ext _ (fun _ => 0)) by (intros; ring). rewrite Rsum_map_const. ring.
Qed.

Lemma mean_label_nth k ls j : (j < k)%nat -> nth j (mean_label k ls) 0 = mean (target j ls).
Proof.
  intros H. unfold mean_label. rewrite (nth_indep _ 0 (mean (target 0 ls))) by (rewrite map_length, seq_length; lia).
  rewrite (map_nth (fun j => mean (target j ls))), seq_nth by lia. reflexivity.
Qed.

Lemma mean_label_length k ls : length (mean_label k ls) = k.
Proof. unfold mean_label. now rewrite map_length, seq_length. Qed.

(** One answer for a whole group: the group's variance plus its distance from the group's mean. *)
Lemma group_error k p ys : (0 < k)%nat ->
  Rsum (map (row_error k p) ys) = (INR (length ys) * total_variance k ys + INR (length ys) * gap2 k p (mean_label k ys)) / INR k.
Proof.
  intros Hk. assert (HK : INR k <> 0) by (apply not_0_INR; lia).
  assert (A : Rsum (map (row_error k p) ys) = Rsum (map (fun j => dev (nth j p 0) (target j ys)) (seq 0 k)) / INR k).
  { transitivity (Rsum (map (fun y => / INR k * Rsum (map (fun j => (nth j p 0 - nth j y 0) * (nth j p 0 - nth j y 0)) (seq 0 k))) ys)).
    - apply Rsum_map_ext. intros y _. unfold row_error, mean. rewrite map_length, seq_length. unfold Rdiv. ring.
    - rewrite Rsum_map_mult, Rsum_swap. unfold Rdiv. rewrite (Rmult_comm _ (/ INR k)). f_equal. apply Rsum_map_ext. intros j _.
      unfold dev, target. rewrite map_map. apply Rsum_map_ext. intros y _. ring. }
  rewrite A. f_equal. rewrite tsse_total. unfold tsse, gap2. rewrite <- Rsum_map_mult, <- Rsum_map_plus. apply Rsum_map_ext. intros j Hj. apply in_seq in Hj.
  rewrite dev_mean, target_length, mean_label_nth by lia. reflexivity.
Qed.

Lemma Rsum_flat_map {A B} (f : A -> list B) (h : B -> R) l : Rsum (map h (flat_map f l)) = Rsum (map (fun a => Rsum (map h (f a))) l).
Proof. induction l as [|a l IH]; [reflexivity|]. cbn [flat_map map]. rewrite map_app, Rsum_app, Rsum_cons, IH. reflexivity. Qed.

Lemma groups_error {X} k (out : X -> list R) (groups : list (X * list (list R))) : (0 < k)%nat ->
  mean (map (fun s => row_error k (out (fst s)) (snd s)) (listed groups)) =
  irreducible_error k groups +
  Rsum (map (fun g => INR (length (snd g)) * gap2 k (out (fst g)) (mean_label k (snd g))) groups) / (INR k * INR (length (listed groups))).
Proof.
  intros Hk. unfold mean at 1. rewrite map_length. unfold listed at 1. rewrite Rsum_flat_map. unfold irreducible_error.
  rewrite (Rsum_map_ext _ (fun g => / INR k * (INR (length (snd g)) * total_variance k (snd g) + INR (length (snd g)) * gap2 k (out (fst g)) (mean_label k (snd g))))).
  - rewrite Rsum_map_mult, Rsum_map_plus. unfold Rdiv. rewrite Rinv_mult. ring.
  - intros g _. rewrite map_map. transitivity (Rsum (map (row_error k (out (fst g))) (snd g))); [reflexivity|].
    rewrite (group_error k (out (fst g)) (snd g) Hk). unfold Rdiv. ring.
Qed.

Definition real_of (x : xr) : R := match x with Fin r => r | _ => 0 end.

Lemma reals_back l : map real_of (map Fin l) = l.
Proof. rewrite map_map. apply map_id. Qed.

(** For any way of answering. *)
Lemma twins_any (f : list xr -> res (list xr)) nt (rows : list (list xr)) (ls ps : list (list R)) (groups : list (list xr * list (list R))) :
  (0 < nt)%nat -> length rows = length ls -> ls <> [] -> Permutation (combine rows ls) (listed groups) ->
  Forall2 (fun row p => f row = Ok (map Fin p) /\ length p = nt) rows ps ->
  irreducible_error nt groups <= mean_squared_error nt ps ls /\
  (mean_squared_error nt ps ls = irreducible_error nt groups <->
   forall g, In g groups -> snd g <> [] -> f (fst g) = Ok (map Fin (mean_label nt (snd g)))).
Proof.
  intros Hk HL Hne HP HF. set (out := fun row => match f row with Ok v => map real_of v | _ => [] end).
  assert (Eo : forall row p, f row = Ok (map Fin p) -> out row = p). { intros row p E. unfold out. rewrite E. apply reals_back. }
  assert (Em : mean_squared_error nt ps ls = mean (map (fun s => row_error nt (out (fst s)) (snd s)) (combine rows ls))).
  { unfold mean_squared_error. f_equal. clear HP Hne. revert ls HL. induction HF as [|row p rows ps [E _] _ IH]; intros [|l ls] HL; try discriminate; [reflexivity|].
    cbn [combine map fst snd]. rewrite (Eo _ _ E). f_equal. apply IH. now injection HL. }
  rewrite (mean_perm _ _ (Permutation_map _ HP)), (groups_error nt out groups Hk) in Em.
  assert (HN : 0 < INR (length (listed groups))).
  { rewrite <- (Permutation_length HP), combine_length, HL, Nat.min_id. now apply INR_pos. }
  assert (HK : 0 < INR nt) by (apply lt_0_INR; lia).
  assert (HX : forall g, In g groups -> snd g <> [] -> exists p, f (fst g) = Ok (map Fin p) /\ length p = nt).
  { intros [x ys] Hg Hy. destruct ys as [|y ys]; [exfalso; now apply Hy|]. assert (HI : In (x, y) (combine rows ls)).
    { eapply Permutation_in; [symmetry; exact HP|]. apply in_flat_map. exists (x, y :: ys). split; auto. now left. }
    apply in_combine_l in HI. clear - HF HI. induction HF as [|row p rows ps H _ IH]; [destruct HI|]. destruct HI as [->|HI]; eauto. }
  assert (Hpos : forall z, In z (map (fun g => INR (length (snd g)) * gap2 nt (out (fst g)) (mean_label nt (snd g))) groups) -> 0 <= z).
  { intros z Hz. apply in_map_iff in Hz as (g & <- & _). apply Rmult_le_pos; [apply pos_INR|apply gap2_nonneg]. }
  set (S := Rsum _) in Em. assert (HS : 0 <= S) by (apply Rsum_nonneg; exact Hpos).
  assert (HD : 0 < INR nt * INR (length (listed groups))) by (apply Rmult_lt_0_compat; auto).
  split; [|split].
  - rewrite Em. assert (0 <= S / (INR nt * INR (length (listed groups)))). { apply Rmult_le_pos; auto. left. now apply Rinv_0_lt_compat. } lra.
  - intros E g Hg Hy. assert (S0 : S = 0).
    { assert (Z : S / (INR nt * INR (length (listed groups))) = 0) by lra. unfold Rdiv in Z. apply Rmult_integral in Z. destruct Z as [Z|Z]; auto.
      exfalso. apply Rinv_neq_0_compat in Z; [auto|lra]. }
    pose proof (Rsum_zero_all _ Hpos S0 (INR (length (snd g)) * gap2 nt (out (fst g)) (mean_label nt (snd g))) (in_map _ _ _ Hg)) as Z.
    apply Rmult_integral in Z. destruct Z as [Z|Z]; [exfalso; pose proof (INR_pos _ Hy); lra|].
    destruct (HX g Hg Hy) as (p & Ep & Hp). rewrite (Eo _ _ Ep) in Z. apply gap2_zero in Z; [|exact Hp|apply mean_label_length]. subst p. exact Ep.
  - intros H. assert (S0 : S = 0).
    { unfold S. rewrite (Rsum_map_ext _ (fun _ => 0)); [rewrite Rsum_map_const; ring|]. intros g Hg.
      destruct (snd g) as [|y ys] eqn:Eg; [cbn [length INR]; ring|]. specialize (H g Hg). rewrite Eg in H. rewrite (Eo _ _ (H ltac:(discriminate))).
      rewrite (proj2 (gap2_zero nt _ _ (mean_label_length _ _) (mean_label_length _ _)) eq_refl). ring. }
    rewrite Em, S0. unfold Rdiv. ring.
Qed.

Theorem twins_boost nc nt (d : dataset) ls cfg n lr (m : regression_boost_model) (test : dataset) tls groups :
  wf_dataset nc nt d -> real_labels ls d -> (0 < nt)%nat -> regression_boost_train d cfg n (Fin lr) = Ok m ->
  real_labels tls test -> tls <> [] -> rectangular nt tls -> length (feature_rows test) = length tls ->
  (forall row, In row (feature_rows test) -> (nc <= length row)%nat) ->
  Permutation (combine (feature_rows test) tls) (listed groups) ->
  exists e, regression_boost_score m test = Ok (Fin e) /\ irreducible_error nt groups <= e /\
    (e = irreducible_error nt groups <-> forall g, In g groups -> snd g <> [] -> regression_boost_predict m (fst g) = Ok (map Fin (mean_label nt (snd g)))).
Proof.
  intros W Hl Hk E Ht Hne Hr HL HR HP. destruct (trained_predictions nc nt d ls cfg n lr m (feature_rows test) W Hl E HR) as (ps & HF).
  destruct (boost_score_spec nt m test tls ps Hk Ht Hne Hr HL HF) as (e & Ee & -> & _). exists (mean_squared_error nt ps tls). split; [exact Ee|].
  apply (twins_any (regression_boost_predict m) nt (feature_rows test) tls ps groups); auto.
Qed.

Lemma tree_predicts nc nt (d : dataset) ls cfg (t : tree_node regression_leaf) row :
  wf_dataset nc nt d -> real_labels ls d -> regression_tree_new d cfg = Ok t -> (nc <= length row)%nat ->
  exists p, tree_prediction row t = Ok (map Fin p) /\ length p = nt.
Proof.
  intros W Hl E Hr. pose proof (real_rl _ _ Hl) as Erl. rewrite <- Erl in Hl. rewrite regression_tree_new_eq in E. apply build_with_built in E.
  eexists. exact (looked_up_prediction nc nt cfg _ d t row E W Hl Hr).
Qed.

Theorem twins_tree nc nt (d : dataset) ls cfg (t : tree_node regression_leaf) (test : dataset) tls groups :
  wf_dataset nc nt d -> real_labels ls d -> (0 < nt)%nat -> regression_tree_new d cfg = Ok t ->
  real_labels tls test -> tls <> [] -> rectangular nt tls -> length (feature_rows test) = length tls ->
  (forall row, In row (feature_rows test) -> (nc <= length row)%nat) ->
  Permutation (combine (feature_rows test) tls) (listed groups) ->
  exists e, calculate_overall_mean_squared_error test t = Ok (Fin e) /\ irreducible_error nt groups <= e /\
    (e = irreducible_error nt groups <-> forall g, In g groups -> snd g <> [] -> tree_prediction (fst g) t = Ok (map Fin (mean_label nt (snd g)))).
Proof.
  intros W Hl Hk E Ht Hne Hr HL HR HP.
  assert (HF : exists ps, Forall2 (fun row p => tree_prediction row t = Ok (map Fin p) /\ length p = nt) (feature_rows test) ps).
  { clear - W Hl E HR. induction (feature_rows test) as [|row rows IH]; [exists []; constructor|].
    destruct IH as (ps & HF); [intros r Hi; apply HR; now right|]. destruct (tree_predicts nc nt d ls cfg t row W Hl E (HR row (or_introl eq_refl))) as (p & Ep & Lp).
    exists (p :: ps). constructor; auto. }
  destruct HF as (ps & HF). destruct (tree_score_spec nt t test tls ps Hk Ht Hne Hr HL HF) as (e & Ee & -> & _). exists (mean_squared_error nt ps tls). split; [exact Ee|].
  apply (twins_any (fun row => @tree_prediction xr_ops row t) nt (feature_rows test) tls ps groups); auto.
Qed.
