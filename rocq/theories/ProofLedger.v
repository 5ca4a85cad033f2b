(** The training error is the label variance minus what the trees explain, in exact arithmetic (C109). *)
From Coq Require Import Reals Lra Lia.
From Verif Require Import Base Num ModelCommon ModelTree ModelBoost Lib XR Spec SpecTree SpecExact SpecScore SpecFit SpecError SpecStage ProofReal ProofData
  ProofSplit ProofSplit2 ProofTree ProofTree3 ProofScore ProofSplitExact ProofSplitExact2 ProofTreeExact ProofScoreExact ProofBoost ProofBoost2 ProofLeaf ProofBoostExact ProofBalance
  ProofStage ProofLearn ProofStall.
Local Open Scope R_scope.

Section Ledger.
Variables (nc nt : nat) (d : @dataset xr_ops) (ls : list (list R)) (cfg : @tree_config xr_ops) (lr : R).
Hypotheses (W : wf_dataset nc nt d) (Hl : real_labels ls d) (Hk : (0 < nt)%nat).

Let nt_pos : 0 < INR nt.
Proof. apply lt_0_INR. lia. Qed.

Lemma ledger_start m : regression_boost_train d cfg 0 (Fin lr) = Ok m -> regression_boost_score m d = Ok (Fin (total_variance nt ls / INR nt)).
Proof.
  intros E. destruct (guess_real _ _ _ _ _ _ _ _ W Hl E) as (Hg & _ & HT). apply length_zero_iff_nil in HT.
  destruct (real_rect nc nt d ls W Hl) as [Rl Hne]. pose proof (xr_len _ _ _ _ W Hl) as HLr.
  assert (HP : Forall2 (fun row p => regression_boost_predict m row = Ok (map Fin p) /\ length p = nt) (feature_rows d) (repeat (means nt ls) (length ls))).
  { rewrite <- HLr. generalize (feature_rows d). induction l as [|row rows IH]; cbn [length repeat]; constructor; auto. split; [|apply means_length].
    unfold regression_boost_predict. rewrite predict_instance_raw, HT, Hg. reflexivity. }
  rewrite (boost_score_exact nt m d ls _ Hk Hl Hne Rl HP HLr). do 2 f_equal. unfold mean_squared_error.
  assert (M : forall v (l : list (list R)), map (fun p => row_error nt (fst p) (snd p)) (combine (repeat v (length l)) l) = map (row_error nt v) l).
  { intros v. induction l as [|a l IH]; auto. cbn [length repeat combine map fst snd]. now rewrite IH. }
  rewrite M. unfold mean. rewrite map_length, total_variance_tsse by auto.
  assert (HN : INR (length ls) <> 0) by (apply not_0_INR; destruct ls; [congruence|discriminate]).
  assert (T : Rsum (map (row_error nt (means nt ls)) ls) = / INR nt * tsse nt ls).
  { unfold tsse, row_error, mean.
    rewrite (Rsum_map_ext _ (fun l => / INR nt * Rsum (map (fun j => (nth j (means nt ls) 0 - nth j l 0) * (nth j (means nt ls) 0 - nth j l 0)) (seq 0 nt))))
      by (intros l _; rewrite map_length, seq_length; unfold Rdiv; ring).
    rewrite Rsum_map_mult. f_equal. rewrite (Rsum_swap (fun l j => (nth j (means nt ls) 0 - nth j l 0) * (nth j (means nt ls) 0 - nth j l 0))).
    apply Rsum_map_ext. intros j Hj. apply in_seq in Hj. rewrite (mean_nth j) by (auto; lia). unfold sse, dev. set (c := mean (target j ls)). unfold target. rewrite map_map.
    apply Rsum_map_ext. intros l _. ring. }
  rewrite T. field. split; lra.
Qed.

Theorem ledger n m : regression_boost_train d cfg n (Fin lr) = Ok m ->
  exists oss, Forall2 (fun t os => outputs t (feature_rows d) os /\ rectangular nt os) (m_trees m) oss /\
    regression_boost_score m d = Ok (Fin ((total_variance nt ls - lr * (2 - lr) * Rsum (map (total_variance nt) oss)) / INR nt)).
Proof.
  intros E. destruct (guess_real _ _ _ _ _ _ _ _ W Hl E) as (_ & _ & HT).
  assert (G : forall k, (k <= n)%nat -> exists oss, Forall2 (fun t os => outputs t (feature_rows d) os /\ rectangular nt os) (firstn k (m_trees m)) oss /\
    regression_boost_score (first_trees k m) d = Ok (Fin ((total_variance nt ls - lr * (2 - lr) * Rsum (map (total_variance nt) oss)) / INR nt))).
  { induction k as [|k IH]; intros Hkn; pose proof (regression_prefix d cfg n _ (Fin lr) m Hkn E) as P.
    - exists []. split; [constructor|]. rewrite (ledger_start _ P). f_equal. f_equal. unfold Rsum. cbn. field. lra.
    - destruct (IH ltac:(lia)) as (oss & A & B). pose proof (regression_prefix d cfg n k (Fin lr) m ltac:(lia) E) as P0.
      destruct (stage_error nc nt d ls cfg lr W Hl Hk k _ _ P0 P) as (t & ps & os & e & Ht & _ & _ & HO & Ro & _ & _ & S1 & S2).
      cbn [first_trees m_trees] in Ht. rewrite nth_firstn_lt in Ht by lia.
      rewrite B in S1. injection S1 as <-. exists (oss ++ [os]). split.
      + rewrite (firstn_snoc _ _ _ Ht). apply Forall2_app; auto.
      + rewrite S2. f_equal. f_equal. rewrite map_app, Rsum_app. cbn [map]. rewrite Rsum_cons. replace (Rsum []) with 0 by reflexivity. field. lra. }
  destruct (G n (le_n n)) as (oss & A & B). rewrite <- HT, firstn_all in A. exists oss. split; [exact A|].
  assert (Em : first_trees n m = m) by (unfold first_trees; rewrite <- HT, firstn_all; now destruct m). now rewrite Em in B.
Qed.

Lemma score_nonneg n m e : regression_boost_train d cfg n (Fin lr) = Ok m -> regression_boost_score m d = Ok (Fin e) -> 0 <= e.
Proof.
  intros E S. destruct (real_rect nc nt d ls W Hl) as [Rl Hne]. pose proof (xr_len _ _ _ _ W Hl) as HLr.
  destruct (trained_predictions nc nt d ls cfg n lr m (feature_rows d) W Hl E) as (ps & HP). { intros row Hin. eapply row_long; eauto. }
  rewrite (boost_score_exact nt m d ls ps Hk Hl Hne Rl HP HLr) in S. injection S as <-. unfold mean_squared_error, mean at 1, Rdiv.
  assert (Hn : forall k : nat, 0 <= / INR k). { intros [|k]; [cbn; rewrite Rinv_0; lra|]. left. apply Rinv_0_lt_compat, lt_0_INR. lia. }
  apply Rmult_le_pos; [|apply Hn]. apply Rsum_nonneg. intros x Hx. apply in_map_iff in Hx as (p & <- & _). unfold row_error, mean, Rdiv.
  apply Rmult_le_pos; [|apply Hn]. apply Rsum_nonneg. intros y Hy. apply in_map_iff in Hy as (j & <- & _). apply Rle_0_sqr.
Qed.

(** All trees together explain at most a fixed multiple of the label variance. *)
Theorem ledger_bound n m oss : 0 < lr < 2 -> regression_boost_train d cfg n (Fin lr) = Ok m ->
  Forall2 (fun t os => outputs t (feature_rows d) os) (m_trees m) oss ->
  Rsum (map (total_variance nt) oss) <= total_variance nt ls / (lr * (2 - lr)).
Proof.
  intros Hr E HO. destruct (ledger n m E) as (oss' & A & B). pose proof (score_nonneg n m _ E B) as P.
  assert (oss' = oss).
  { clear B P E. revert A HO. generalize (m_trees m). intros ts A. revert oss. induction A as [|t os ts oss' [H1 _] A IH]; intros oss HO; inversion HO as [|? os2 ? oss2 H2 HO2]; subst; auto.
    f_equal; [now apply (outputs_unique t (feature_rows d))|now apply IH]. }
  subst oss'. set (S := Rsum _) in *. assert (Q : 0 < lr * (2 - lr)) by (apply Rmult_lt_0_compat; lra).
  assert (P' : 0 <= total_variance nt ls - lr * (2 - lr) * S).
  { apply (Rmult_le_compat_r (INR nt)) in P; [|lra]. unfold Rdiv in P. rewrite Rmult_assoc, Rinv_l, Rmult_1_r, Rmult_0_l in P by lra. exact P. }
  apply Rmult_le_reg_r with (lr * (2 - lr)); auto. unfold Rdiv. rewrite Rmult_assoc, Rinv_l, Rmult_1_r by lra. lra.
Qed.

(** Among enough iterations one brings little. *)
Theorem some_small_step n m eps : 0 < eps -> total_variance nt ls / INR nt < INR n * eps -> regression_boost_train d cfg n (Fin lr) = Ok m ->
  exists k e e', (k < n)%nat /\ regression_boost_score (first_trees k m) d = Ok (Fin e) /\ regression_boost_score (first_trees (S k) m) d = Ok (Fin e') /\ e - eps < e'.
Proof.
  intros He Hn E.
  assert (G : forall k, (k <= n)%nat -> (exists i e e', (i < k)%nat /\ regression_boost_score (first_trees i m) d = Ok (Fin e) /\ regression_boost_score (first_trees (S i) m) d = Ok (Fin e') /\ e - eps < e') \/
    exists e, regression_boost_score (first_trees k m) d = Ok (Fin e) /\ e <= total_variance nt ls / INR nt - INR k * eps).
  { induction k as [|k IH]; intros Hkn.
    - right. exists (total_variance nt ls / INR nt). pose proof (regression_prefix d cfg n 0 (Fin lr) m Hkn E) as P. split; [exact (ledger_start _ P)|]. cbn [INR]. lra.
    - destruct (IH ltac:(lia)) as [(i & e & e' & Hi & H)|(e & S0 & Le)]; [left; exists i, e, e'; split; [lia|exact H]|].
      destruct (ledger (S k) _ (regression_prefix d cfg n (S k) (Fin lr) m Hkn E)) as (oss & _ & S1). set (e' := _ / _) in S1.
      destruct (Rlt_dec (e - eps) e') as [Hlt|Hge]; [left; exists k, e, e'; auto|]. right. exists e'. split; [exact S1|]. rewrite S_INR. lra. }
  destruct (G n (le_n n)) as [H|(e & S0 & Le)]; [exact H|]. exfalso. pose proof (score_nonneg n _ e (regression_prefix d cfg n n (Fin lr) m (le_n n) E) S0). lra.
Qed.

End Ledger.

Section Limit.
Variables (nc nt : nat) (d : @dataset xr_ops) (ls : list (list R)) (cfg : @tree_config xr_ops) (lr : R).
Hypotheses (W : wf_dataset nc nt d) (Hl : real_labels ls d) (Hk : (0 < nt)%nat) (Hs : standard cfg) (Hc : tc_number_of_classes cfg = N.of_nat nt)
  (Hz : (Z.of_nat nt <= 2 ^ 53)%Z) (Hr : 0 <= lr <= 2).

Let err (n : nat) : R :=
  match regression_boost_train d cfg n (Fin lr) with Ok m => match regression_boost_score m d with Ok x => xval x | _ => 0 end | _ => 0 end.

Lemma err_at n m x : regression_boost_train d cfg n (Fin lr) = Ok m -> regression_boost_score m d = Ok (Fin x) -> err n = x.
Proof. intros E S. unfold err. now rewrite E, S. Qed.

Lemma err_nonneg n : 0 <= err n.
Proof.
  destruct (regression_train_total xr_laws nc nt d cfg n (Fin lr) W Hs Hc Hz) as (m & E & _). destruct (ledger nc nt d ls cfg lr W Hl Hk n m E) as (oss & _ & S).
  rewrite (err_at n m _ E S). eapply score_nonneg; eauto.
Qed.

Lemma err_decreasing : Un_decreasing err.
Proof.
  intros n. destruct (regression_train_total xr_laws nc nt d cfg (S n) (Fin lr) W Hs Hc Hz) as (m' & E' & _).
  pose proof (regression_prefix d cfg (S n) n (Fin lr) m' ltac:(lia) E') as E.
  destruct (stage_error nc nt d ls cfg lr W Hl Hk n _ m' E E') as (t & ps & os & e & _ & _ & _ & _ & _ & _ & _ & S1 & S2).
  rewrite (err_at _ _ _ E S1), (err_at _ _ _ E' S2). assert (0 < INR nt) by (apply lt_0_INR; lia).
  assert (0 <= total_variance nt os / INR nt) by (apply Rmult_le_pos; [apply total_variance_nonneg|left; now apply Rinv_0_lt_compat]).
  assert (0 <= lr * (2 - lr)) by nra. nra.
Qed.

Theorem error_converges : exists e, 0 <= e <= total_variance nt ls / INR nt /\
  (forall n m, regression_boost_train d cfg n (Fin lr) = Ok m -> exists x, regression_boost_score m d = Ok (Fin x) /\ e <= x) /\
  forall eps, 0 < eps -> exists N, forall n m x, (N <= n)%nat -> regression_boost_train d cfg n (Fin lr) = Ok m -> regression_boost_score m d = Ok (Fin x) -> x < e + eps.
Proof.
  destruct (decreasing_cv err err_decreasing) as (e & He).
  { exists 0. intros x (i & ->). unfold opp_seq. pose proof (err_nonneg i). lra. }
  assert (Lo : forall n, e <= err n) by (apply decreasing_ineq; [exact err_decreasing|exact He]).
  exists e. split; [split|split].
  - apply Rnot_lt_le. intros Hlt. destruct (He (- e) ltac:(lra)) as (n & Hn). specialize (Hn n (le_n n)). unfold R_dist in Hn.
    pose proof (err_nonneg n). rewrite Rabs_right in Hn by lra. lra.
  - destruct (regression_train_total xr_laws nc nt d cfg 0 (Fin lr) W Hs Hc Hz) as (m & E & _).
    rewrite <- (err_at 0 m _ E (ledger_start nc nt d ls cfg lr W Hl Hk m E)). apply Lo.
  - intros n m E. destruct (ledger nc nt d ls cfg lr W Hl Hk n m E) as (oss & _ & S). eexists. split; [exact S|]. rewrite <- (err_at n m _ E S). apply Lo.
  - intros eps Heps. destruct (He eps Heps) as (N & HN). exists N. intros n m x Hn E S. specialize (HN n Hn). unfold R_dist in HN. rewrite (err_at n m x E S) in HN.
    apply Rabs_def2 in HN. lra.
Qed.

End Limit.
