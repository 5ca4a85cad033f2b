(** The scores of an AMG ensemble always add up to 1, in exact arithmetic (C42). *)
From Coq Require Import Reals Lra Lia.
From Verif Require Import Base Num ModelCommon ModelTree ModelBoost Lib XR Spec SpecTree SpecExact SpecScore SpecFit SpecError SpecClass SpecAffine ProofReal ProofSort ProofData
  ProofSplit ProofSplit2 ProofTree ProofTree3 ProofScore ProofSplitExact ProofSplitExact2 ProofTreeExact ProofScoreExact ProofBoost ProofBoost2 ProofLeaf ProofBoostExact
  ProofBalance ProofClassExact ProofClassRun ProofShift.
Local Open Scope R_scope.

Lemma vstep_sum lr : forall p o, length o = length p -> Rsum (vstep lr p o) = Rsum p + lr * Rsum o.
Proof.
  unfold vstep. induction p as [|x p IH]; intros [|y o] H; try discriminate; [unfold Rsum; cbn; ring|].
  cbn [map2]. rewrite !Rsum_cons, IH by auto. ring.
Qed.

Lemma even_total k : (0 < k)%nat -> Rsum (even k) = 1.
Proof.
  intros H. unfold even. assert (0 < INR k) by now apply lt_0_INR.
  assert (E : forall n x, Rsum (repeat x n) = INR n * x).
  { induction n as [|n IH]; intros x; [unfold Rsum; cbn; ring|]. cbn [repeat]. rewrite Rsum_cons, IH, S_INR. ring. }
  rewrite E. field. lra.
Qed.

Lemma raw_any {L} (out : list xr -> tree_node L -> res (list xr)) k lr g row ts os : length g = k -> Forall (fun o => length o = k) os ->
  Forall2 (fun t o => out row t = Ok (map Fin o)) ts os -> @raw xr_ops L out (Fin lr) (map Fin g) row ts = Ok (map Fin (fold_left (vstep lr) os g)).
Proof.
  intros Hg Ho H. rewrite (@raw_outs xr_ops _ out (Fin lr) (map Fin g) row ts (map (map Fin) os)).
  - rewrite add_leaf_outputs_eq.
    + f_equal. apply (fold_step_Fin k lr os g Hg Ho).
    + rewrite Forall_map, Forall_map. eapply Forall_impl; [|exact Ho]. intros o E. unfold weighted. rewrite !map_length. rewrite E, Hg. reflexivity.
  - clear Ho. induction H; cbn [map]; constructor; auto.
Qed.

Theorem amg_outputs_cancel nc nt d cfg n lr m :
  (2 <= nt)%nat -> (Z.of_nat nt <= 2 ^ 53)%Z -> wf_dataset nc nt d -> one_hot_labels nt d -> amg_boost_train d cfg n (Fin lr) = Ok m ->
  forall row, (nc <= length row)%nat -> forall k, (k <= n)%nat ->
  exists os, Forall2 (fun t o => @amg_out xr_ops nt row t = Ok (map Fin o)) (firstn k (m_trees m)) os /\ Forall (fun o => length o = nt /\ Rsum o = 0) os.
Proof.
  intros Hk Hz W HO E row Hrow. induction k as [|k IH]; intros Hkn; [exists []; split; constructor|].
  destruct (IH ltac:(lia)) as (os & A & B).
  destruct (amg_stage_exact nc nt d cfg n lr m k Hk Hz W HO E Hkn) as (ss & t & Es & Ht & Rs & Ls & Bt).
  destruct (fitted_ok nc nt d ss Hk W HO Rs Ls) as (r & _ & Wr & Lr & Rr & _).
  destruct (amg_class_out nc nt _ _ _ _ row Hk Wr Lr Rr Bt Hrow) as (x & c & Hc & Ef & _).
  rewrite (firstn_snoc _ _ _ Ht). exists (os ++ [approx nt c (nth c (class_output nt (rl x)) 0)]). split.
  - apply Forall2_app; auto. constructor; [|constructor]. unfold amg_out. rewrite Ef. cbn [bind]. now apply construct_Fin.
  - apply Forall_app. split; auto. constructor; [|constructor]. split; [apply approx_length|now apply approx_sum].
Qed.

Theorem amg_scores_total nc nt d cfg n lr m row :
  (2 <= nt)%nat -> (Z.of_nat nt <= 2 ^ 53)%Z -> wf_dataset nc nt d -> one_hot_labels nt d -> amg_boost_train d cfg n (Fin lr) = Ok m ->
  (nc <= length row)%nat -> exists s, amg_boost_raw m row = Ok (map Fin s) /\ length s = nt /\ Rsum s = 1.
Proof.
  intros Hk Hz W HO E Hrow. destruct (amg_guess nc nt d cfg n (Fin lr) m ltac:(lia) Hz W E) as (Hg & Hlr & HT).
  destruct (amg_outputs_cancel nc nt d cfg n lr m Hk Hz W HO E row Hrow n (le_n n)) as (os & A & B). rewrite <- HT, firstn_all in A.
  exists (fold_left (vstep lr) os (even nt)). split.
  - unfold amg_boost_raw. rewrite amg_predict_instance_raw, Hg, Hlr, map_length, even_length.
    apply (raw_any (@amg_out xr_ops nt) nt); auto using even_length. eapply Forall_impl; [|exact B]. now intros o [H _].
  - assert (G : forall p, length p = nt -> length (fold_left (vstep lr) os p) = nt /\ Rsum (fold_left (vstep lr) os p) = Rsum p).
    { clear -B. induction B as [|o os [Lo So] B IH]; intros p Lp; auto. cbn [fold_left]. destruct (IH (vstep lr p o)) as [I1 I2]; [rewrite vstep_length; congruence|].
      split; [exact I1|]. rewrite I2, vstep_sum, So by congruence. ring. }
    destruct (G (even nt) (even_length nt)) as [G1 G2]. split; [exact G1|]. rewrite G2. apply even_total. lia.
Qed.
