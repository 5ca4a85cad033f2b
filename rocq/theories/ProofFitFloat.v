(** Boosting for regression in binary64: one more iteration increases the training error by at most rounding. *)
From Coq Require Import Reals Lra Lia ZArith.
From Flocq Require Import Core.
From Flocq Require Import IEEE754.BinarySingleNaN.
From Verif Require Import Base Num F64 ModelCommon ModelTree ModelBoost Lib Spec SpecTree SpecExact SpecScore SpecPredict SpecFitFloat
  ProofReal ProofRound ProofError ProofData ProofSort ProofTree ProofTree3 ProofScore ProofBoost ProofBoost2 ProofLeaf ProofPredict.
Local Open Scope R_scope.

(* ------------------------------------------------------------------ *)
(** ** Root mean squares *)

Lemma mean_nonneg l : (forall x, In x l -> 0 <= x) -> 0 <= mean l.
Proof.
  intros H. unfold mean. destruct l as [|a l]; [cbn; rewrite Rdiv_0_l || (unfold Rdiv; rewrite Rmult_0_l); lra|].
  apply Rmult_le_pos; [now apply Rsum_nonneg|]. left. apply Rinv_0_lt_compat, INR_pos. discriminate.
Qed.

Lemma squares_nonneg l x : In x (map (fun x => x * x) l) -> 0 <= x.
Proof. intros H. apply in_map_iff in H as (y & <- & _). apply Rle_0_sqr. Qed.

Lemma rms_nonneg l : 0 <= rms l.
Proof. apply sqrt_pos. Qed.

Lemma rms_square l : rms l * rms l = mean (map (fun x => x * x) l).
Proof. unfold rms. apply sqrt_sqrt, mean_nonneg. intros x H. eapply squares_nonneg; eauto. Qed.

Lemma mean_le_rms l : mean (map Rabs l) <= rms l.
Proof.
  destruct l as [|a l]; [unfold rms, mean, Rdiv; cbn; rewrite Rmult_0_l, sqrt_0; lra|]. set (q := a :: l). assert (Hq : q <> []) by discriminate.
  assert (E : sumsq (map Rabs q) = sumsq q).
  { unfold sumsq. rewrite map_map. apply Rsum_map_ext. intros x _. rewrite <- Rabs_mult. apply Rabs_pos_eq, Rle_0_sqr. }
  assert (L : length (map Rabs q) = length q) by apply map_length.
  pose proof (INR_pos q Hq) as Hp. pose proof (dev_nonneg (mean (map Rabs q)) (map Rabs q)) as D. rewrite dev_expand, E, L in D.
  assert (Hm : INR (length q) * mean (map Rabs q) = Rsum (map Rabs q)) by (rewrite <- L; apply mean_sum; discriminate).
  rewrite <- Hm in D. set (M := mean (map Rabs q)) in *.
  assert (HM : M * M <= rms q * rms q).
  { rewrite rms_square. unfold mean. rewrite map_length. change (Rsum (map (fun x => x * x) q)) with (sumsq q).
    apply Rmult_le_reg_l with (INR (length q)); [exact Hp|]. replace (INR (length q) * (sumsq q / INR (length q))) with (sumsq q) by (field; lra). lra. }
  pose proof (rms_nonneg q). apply Rnot_lt_le. intros Hlt.
  assert (rms q * rms q < M * M) by (apply Rmult_le_0_lt_compat; assumption). lra.
Qed.

Lemma rms_move (d : R) xs ys : 0 <= d -> Forall2 (fun x y => Rabs (x - y) <= d) xs ys -> rms xs <= rms ys + d.
Proof.
  intros Hd H. pose proof (Forall2_length _ _ _ H) as HL. pose proof (rms_nonneg ys) as Hy.
  destruct ys as [|y0 ys0] eqn:Ey.
  { destruct xs; [|discriminate]. lra. }
  rewrite <- Ey in *. assert (Hn : 0 < INR (length ys)) by (apply INR_pos; subst; discriminate). clear Ey y0 ys0.
  unfold rms at 1. rewrite <- (sqrt_square (rms ys + d)) by lra. apply sqrt_le_1_alt.
  replace ((rms ys + d) * (rms ys + d)) with (rms ys * rms ys + 2 * d * rms ys + d * d) by ring.
  pose proof (mean_le_rms ys) as Hm. rewrite rms_square.
  apply Rle_trans with (mean (map (fun x => x * x) ys) + 2 * d * mean (map Rabs ys) + d * d).
  2:{ assert (2 * d * mean (map Rabs ys) <= 2 * d * rms ys) by (apply Rmult_le_compat_l; lra). lra. }
  unfold mean. rewrite !map_length, HL. set (n := INR (length ys)) in *.
  assert (K : Rsum (map (fun x => x * x) xs) <= Rsum (map (fun x => x * x) ys) + 2 * d * Rsum (map Rabs ys) + n * (d * d)).
  { unfold n. clear -H Hd. induction H as [|x y xs ys Hxy H IH]; [cbn; lra|].
    cbn [map length]. rewrite !Rsum_cons, S_INR.
    assert (x * x <= y * y + 2 * d * Rabs y + d * d).
    { assert (Hx : Rabs x <= Rabs y + d) by (replace x with (y + (x - y)) by ring; eapply Rle_trans; [apply Rabs_triang|]; lra).
      replace (x * x) with (Rabs x * Rabs x) by (rewrite <- Rabs_mult; apply Rabs_pos_eq, Rle_0_sqr).
      replace (y * y) with (Rabs y * Rabs y) by (rewrite <- Rabs_mult; apply Rabs_pos_eq, Rle_0_sqr).
      pose proof (Rabs_pos x). apply Rle_trans with ((Rabs y + d) * (Rabs y + d)); [apply Rmult_le_compat; lra|lra]. }
    lra. }
  apply Rmult_le_reg_r with n; [exact Hn|]. unfold Rdiv. rewrite Rmult_assoc, Rinv_l by lra.
  replace ((Rsum (map (fun x => x * x) ys) * / n + 2 * d * (Rsum (map Rabs ys) * / n) + d * d) * n)
    with (Rsum (map (fun x => x * x) ys) + 2 * d * Rsum (map Rabs ys) + n * (d * d)) by (field; lra). lra.
Qed.

Lemma rms_le a b : length a = length b -> Rsum (map (fun x => x * x) a) <= Rsum (map (fun x => x * x) b) -> rms a <= rms b.
Proof.
  intros HL H. unfold rms. apply sqrt_le_1_alt. unfold mean. rewrite !map_length, HL.
  destruct b as [|y b]; [destruct a; [cbn; lra|discriminate]|]. apply Rmult_le_compat_r; [|exact H].
  left. apply Rinv_0_lt_compat, INR_pos. discriminate.
Qed.

Lemma entry_le_rms l x : In x l -> Rabs x <= sqrt (INR (length l)) * rms l.
Proof.
  intros H. assert (Hn : 0 < INR (length l)) by (apply INR_pos; intros ->; contradiction).
  unfold rms. rewrite <- sqrt_mult_alt by lra. rewrite <- sqrt_Rsqr_abs. apply sqrt_le_1_alt.
  unfold mean. rewrite map_length. replace (INR (length l) * (Rsum (map (fun x => x * x) l) / INR (length l))) with (Rsum (map (fun x => x * x) l)) by (field; lra).
  clear Hn. induction l as [|a l IH]; [contradiction|]. cbn [map]. rewrite Rsum_cons.
  assert (0 <= Rsum (map (fun x => x * x) l)) by (apply Rsum_nonneg; intros z Hz; eapply squares_nonneg; eauto).
  destruct H as [->|H]; [unfold Rsqr; lra|]. specialize (IH H). pose proof (Rle_0_sqr a) as Ha. unfold Rsqr in Ha. lra.
Qed.

Lemma rms_bound l b : (forall x, In x l -> Rabs x <= b) -> 0 <= b -> rms l <= b.
Proof.
  intros H Hb. unfold rms. rewrite <- (sqrt_square b) at 1 by exact Hb. apply sqrt_le_1_alt. unfold mean. rewrite map_length.
  destruct l as [|a l]; [unfold Rdiv; cbn; rewrite Rmult_0_l; apply Rle_0_sqr|]. set (q := a :: l) in *. pose proof (INR_pos q ltac:(discriminate)) as Hp.
  apply Rmult_le_reg_l with (INR (length q)); [exact Hp|]. replace (INR (length q) * (Rsum (map (fun x => x * x) q) / INR (length q))) with (Rsum (map (fun x => x * x) q)) by (field; lra).
  rewrite <- (Rsum_map_const (b * b) q). apply Rsum_map_le. intros x Hx. replace (x * x) with (Rabs x * Rabs x) by (rewrite <- Rabs_mult; apply Rabs_pos_eq, Rle_0_sqr).
  pose proof (Rabs_pos x). apply Rmult_le_compat; auto.
Qed.

(* ------------------------------------------------------------------ *)
(** ** Stepping towards the group means *)

Section Shrink.
Context {O : NumOps}.

Lemma Rsum_split {A} (f : A -> R) (p : A -> bool) l :
  Rsum (map f l) = Rsum (map f (filter p l)) + Rsum (map f (filter (fun x => negb (p x)) l)).
Proof. induction l as [|a l IH]; [cbn; lra|]. cbn [map filter]. rewrite Rsum_cons, IH. destruct (p a); cbn [negb map]; rewrite Rsum_cons; lra. Qed.

Lemma group_shrink {L} (mk : dataset -> res L) cfg nc nt (g : list F * list F -> R) (lr : R) level d t :
  0 <= lr <= 2 -> built mk cfg level d t -> wf_dataset nc nt d ->
  Rsum (map (fun s => (g s - lr * mean (map g (samples_like (fst s) t d))) * (g s - lr * mean (map g (samples_like (fst s) t d)))) (samples d))
  <= Rsum (map (fun s => g s * g s) (samples d)).
Proof.
  intros Hlr. induction 1 as [level d s l Es Est El|level d s fd td t f Es Est Ep Bt IHt Bf IHf]; intros W.
  - assert (E : forall x, samples_like x (leaf_node (bs_question s) l) d = samples d) by (intros x; apply filter_all; reflexivity).
    set (xs := map g (samples d)).
    rewrite (Rsum_map_ext _ (fun s => (g s - lr * mean xs) * (g s - lr * mean xs))) by (intros x _; now rewrite E).
    rewrite <- (map_map g (fun y => (y - lr * mean xs) * (y - lr * mean xs))), <- (map_map g (fun y => y * y)). fold xs.
    change (dev (lr * mean xs) xs <= sumsq xs). rewrite dev_expand. clearbody xs. destruct xs as [|x xs]; [cbn; lra|].
    assert (Hm : INR (length (x :: xs)) * mean (x :: xs) = Rsum (x :: xs)) by (apply mean_sum; discriminate).
    rewrite <- Hm. set (M := mean (x :: xs)). set (k := INR (length (x :: xs))).
    assert (0 <= k * (M * M)) by (apply Rmult_le_pos; [apply pos_INR|apply Rle_0_sqr]).
    assert (0 <= lr * (2 - lr)) by (apply Rmult_le_pos; lra).
    pose proof (Rmult_le_pos _ _ H H0). lra.
  - destruct (partition_wf nc nt d _ fd td W Ep) as (Hq & Wf & Wt & St & Sf).
    specialize (IHt Wt). specialize (IHf Wf). rewrite St in IHt. rewrite Sf in IHf.
    rewrite (Rsum_split _ (fun p => answers (bs_question s) (fst p))).
    rewrite (Rsum_split (fun s => g s * g s) (fun p => answers (bs_question s) (fst p))).
    apply Rplus_le_compat.
    + eapply Rle_trans; [|exact IHt]. right. apply Rsum_map_ext. intros p Hp. apply filter_In in Hp as [Hp Ha]. cbv beta in Ha.
      assert (E : samples_like (fst p) (node_new (bs_question s) t f) d = samples_like (fst p) t td).
      { unfold samples_like. simpl. rewrite Ha. rewrite St, filter_filter. apply filter_ext_In. intros z _. simpl. rewrite ?Ha. destruct (answers (bs_question s) (fst z)); reflexivity. }
      now rewrite E.
    + eapply Rle_trans; [|exact IHf]. right. apply Rsum_map_ext. intros p Hp. apply filter_In in Hp as [Hp Ha]. cbv beta in Ha. apply negb_true_iff in Ha.
      assert (E : samples_like (fst p) (node_new (bs_question s) t f) d = samples_like (fst p) f fd).
      { unfold samples_like. simpl. rewrite Ha. rewrite Sf, filter_filter. apply filter_ext_In. intros z _. simpl. rewrite ?Ha. destruct (answers (bs_question s) (fst z)); reflexivity. }
      now rewrite E.
Qed.

Lemma regression_step nc nt d cfg n lr (m : regression_boost_model) k t row p p' o j :
  wf_dataset nc nt d -> regression_boost_train d cfg n lr = Ok m -> (nc <= length row)%nat -> nth_error (m_trees m) k = Some t ->
  regression_boost_predict (first_trees k m) row = Ok p -> regression_boost_predict (first_trees (S k) m) row = Ok p' ->
  find_leaf_node_for_data row t = Ok (mkGL (Some o)) -> (j < nt)%nat ->
  length p = nt /\ length p' = nt /\ nth j p' f0 = fadd (nth j p f0) (fmul lr (nth j o f0)).
Proof.
  intros W E Hr Ht Hp Hp' Ho Hj. destruct (regression_shape nt d cfg n lr m (wf_labels _ _ _ W) E) as (HL & Hlr & Hg & Hgv).
  destruct (regression_trained_sum nc nt d cfg n lr m row W E Hr) as (outs & _ & HF & _ & _ & _).
  assert (S : forall i, exists q, regression_boost_predict (first_trees i m) row = Ok q /\ length q = nt /\
    nth_error q j = Some (fold_left (fun s o => fadd s (fmul lr (nth j o f0))) (firstn i outs) (average_of (labels d) j))).
  { intros i. destruct (regression_predict_sum (first_trees i m) row (firstn i outs)) as (q & Eq & Lq & Hn).
    - cbn. rewrite Hg. clear -HF. revert i. induction HF as [|a b ta tb [Ha Hb] HF IH]; intros [|i]; cbn [firstn]; constructor; auto. split; auto. lia.
    - exists q. split; auto. cbn in Lq. split; [lia|]. cbn in Hn. rewrite <- Hlr. apply Hn. auto. }
  destruct (S k) as (q & Eq & Lq & Nq). destruct (S (1 + k)%nat) as (q' & Eq' & Lq' & Nq').
  assert (q = p) by congruence. assert (q' = p') by (cbn [Nat.add] in Eq'; congruence). subst q q'. split; auto. split; auto.
  assert (Ek : nth_error outs k = Some o).
  { clear -HF Ht Ho. revert k Ht. induction HF as [|a b ta tb [Ha Hb] HF IH]; intros [|k] Ht; try discriminate; cbn in *; [|eauto]. congruence. }
  cbn [Nat.add] in Nq'. rewrite (firstn_snoc _ _ _ Ek), fold_left_app in Nq'. cbn [fold_left] in Nq'.
  rewrite (nth_error_nth _ _ f0 Nq'), (nth_error_nth _ _ f0 Nq). reflexivity.
Qed.

Lemma regression_prefix_ok nc nt (d : dataset) cfg n lr (m : regression_boost_model) row i :
  wf_dataset nc nt d -> regression_boost_train d cfg n lr = Ok m -> (nc <= length row)%nat ->
  exists q, regression_boost_predict (first_trees i m) row = Ok q /\ length q = nt.
Proof.
  intros W E Hr. destruct (regression_shape nt d cfg n lr m (wf_labels _ _ _ W) E) as (HL & Hlr & Hg & Hgv).
  destruct (regression_trained_sum nc nt d cfg n lr m row W E Hr) as (outs & _ & HF & _ & _ & _).
  destruct (regression_predict_sum (first_trees i m) row (firstn i outs)) as (q & Eq & Lq & Hn).
  - cbn. rewrite Hg. clear -HF. revert i. induction HF as [|a b ta tb [Ha Hb] HF IH]; intros [|i]; cbn [firstn]; constructor; auto. split; auto. lia.
  - exists q. split; auto. cbn in Lq. lia.
Qed.

Lemma regression_prefix_all nc nt (d : dataset) cfg n lr (m : regression_boost_model) i :
  wf_dataset nc nt d -> regression_boost_train d cfg n lr = Ok m ->
  exists ps, regression_boost_all_predictions (first_trees i m) d = Ok ps /\
    Forall2 (fun row p => regression_boost_predict (first_trees i m) row = Ok p) (feature_rows d) ps.
Proof.
  intros W E. assert (H : forall rows, (forall r, In r rows -> In r (feature_rows d)) ->
    exists ps, Forall2 (fun row p => regression_boost_predict (first_trees i m) row = Ok p) rows ps).
  { induction rows as [|r rows IH]; intros Hi; [now exists []|]. destruct IH as (ps & IH); [intros; apply Hi; now right|].
    destruct (regression_prefix_ok nc nt d cfg n lr m r i W E) as (q & Eq & _); [apply (row_long nc nt d); [exact W|apply Hi; now left]|].
    exists (q :: ps). constructor; auto. }
  destruct (H (feature_rows d) (fun _ h => h)) as (ps & HF). exists ps. split; [|exact HF].
  unfold regression_boost_all_predictions. rewrite all_predictions_eq. now apply mapM_Forall2.
Qed.

End Shrink.

(* ------------------------------------------------------------------ *)
(** ** One row in binary64 *)

Section Row.
Context (B : R) (HB : bpow radix2 (-400) <= B <= bpow radix2 400).

Lemma B_pos : 0 < B.
Proof. pose proof (bpow_gt_0 radix2 (-400)). lra. Qed.

Lemma eta_B : bpow radix2 (-1072) <= ulp1 * B.
Proof.
  apply Rle_trans with (ulp1 * bpow radix2 (-400)); [unfold ulp1; rewrite <- bpow_plus; apply bpow_le; lia|].
  apply Rmult_le_compat_l; [left; exact ulp1_pos|lra].
Qed.

Lemma eta1_B : eta1 <= ulp1 * B.
Proof. eapply Rle_trans; [|exact eta_B]. unfold eta1. apply bpow_le. lia. Qed.

Lemma small_rnd x : Rabs x <= 16 * B -> Rabs (rnd x) < bpow radix2 1024.
Proof.
  intros H. apply (pow_le_emax x 404); [lia| |lia]. eapply Rle_trans; [exact H|].
  replace (bpow radix2 404) with (16 * bpow radix2 400); [lra|]. change 404%Z with (4 + 400)%Z. rewrite bpow_plus. f_equal. 
Qed.

Lemma uB_small : 0 < ulp1 * B /\ ulp1 * B * 1000000 <= B.
Proof.
  pose proof B_pos. pose proof ulp1_pos. split; [now apply Rmult_lt_0_compat|].
  replace (ulp1 * B * 1000000) with (ulp1 * 1000000 * B) by ring. pose proof ulp1_small.
  replace B with (1 * B) at 2 by ring. apply Rmult_le_compat_r; lra.
Qed.

Lemma residual_step (y p : f64) : is_finite y = true -> is_finite p = true -> Rabs (B2R y) <= B -> Rabs (B2R p) <= B ->
  is_finite (Bminus mode_NE y p) = true /\ Rabs (B2R (Bminus mode_NE y p) - (B2R y - B2R p)) <= 3 * (ulp1 * B) /\
  Rabs (B2R (Bminus mode_NE y p)) <= 3 * B.
Proof.
  intros Fy Fp Hy Hp. pose proof B_pos. pose proof uB_small as [U1 U2]. pose proof eta1_B.
  assert (HD : Rabs (B2R y - B2R p) <= 2 * B) by (unfold Rminus; eapply Rle_trans; [apply Rabs_triang|]; rewrite Rabs_Ropp; lra).
  destruct (minus_value y p Fy Fp) as [Fr Vr]; [apply small_rnd; lra|]. split; [exact Fr|].
  pose proof (step_self _ _ _ HD Vr) as E. split; [lra|].
  replace (B2R (Bminus mode_NE y p)) with ((B2R (Bminus mode_NE y p) - (B2R y - B2R p)) + (B2R y - B2R p)) by ring.
  eapply Rle_trans; [apply Rabs_triang|]. lra.
Qed.

Lemma update_step (y p lr o : f64) (M c : R) :
  is_finite y = true -> is_finite p = true -> is_finite lr = true -> is_finite o = true ->
  Rabs (B2R y) <= B -> Rabs (B2R p) <= B -> 0 <= B2R lr <= 2 -> Rabs M <= 3 * B -> Rabs (B2R o - M) <= c -> c <= B ->
  let p' := Bplus mode_NE p (Bmult mode_NE lr o) in
  is_finite p' = true /\
  Rabs ((B2R y - B2R p') - (B2R (Bminus mode_NE y p) - B2R lr * M)) <= 23 * (ulp1 * B) + 2 * c.
Proof.
  intros Fy Fp Fl Fo Hy Hp Hlr HM Ho Hc p'. pose proof B_pos as B0. pose proof uB_small as [U1 U2]. pose proof eta1_B as Heta.
  destruct (residual_step y p Fy Fp Hy Hp) as (Fr & Er & _).
  assert (Ho' : Rabs (B2R o) <= 4 * B).
  { replace (B2R o) with ((B2R o - M) + M) by ring. eapply Rle_trans; [apply Rabs_triang|]. lra. }
  assert (Hlo : Rabs (B2R lr * B2R o) <= 8 * B).
  { rewrite Rabs_mult, (Rabs_pos_eq (B2R lr)) by lra. apply Rle_trans with (2 * (4 * B)); [|lra]. apply Rmult_le_compat; try lra. apply Rabs_pos. }
  destruct (mult_value lr o Fl Fo) as [Fw Vw]; [apply small_rnd; lra|]. pose proof (step_self _ _ _ Hlo Vw) as Ew.
  set (w := Bmult mode_NE lr o) in *.
  assert (Hw : Rabs (B2R w) <= 9 * B).
  { replace (B2R w) with ((B2R w - B2R lr * B2R o) + B2R lr * B2R o) by ring. eapply Rle_trans; [apply Rabs_triang|]. lra. }
  assert (Hpw : Rabs (B2R p + B2R w) <= 10 * B) by (eapply Rle_trans; [apply Rabs_triang|]; lra).
  destruct (plus_value p w Fp Fw) as [Fq Vq]; [apply small_rnd; lra|]. pose proof (step_self _ _ _ Hpw Vq) as Eq. fold p' in Fq, Eq |- *.
  split; [exact Fq|].
  assert (Elr : Rabs (B2R lr * (B2R o - M)) <= 2 * c).
  { rewrite Rabs_mult, (Rabs_pos_eq (B2R lr)) by lra. pose proof (Rabs_pos (B2R o - M)). apply Rmult_le_compat; lra. }
  replace (B2R y - B2R p' - (B2R (Bminus mode_NE y p) - B2R lr * M)) with
    (- (B2R p' - (B2R p + B2R w)) + (- (B2R w - B2R lr * B2R o) + (- (B2R lr * (B2R o - M)) + - (B2R (Bminus mode_NE y p) - (B2R y - B2R p))))) by ring.
  eapply Rle_trans; [apply Rabs_triang|]. rewrite Rabs_Ropp.
  eapply Rle_trans; [apply Rplus_le_compat_l, Rabs_triang|]. rewrite Rabs_Ropp.
  eapply Rle_trans; [apply Rplus_le_compat_l, Rplus_le_compat_l, Rabs_triang|]. rewrite !Rabs_Ropp. lra.
Qed.

End Row.

(* ------------------------------------------------------------------ *)
(** ** One iteration *)

Lemma some_nth {A} (l : list A) i : (i < length l)%nat -> exists x, nth_error l i = Some x.
Proof. intros H. destruct (nth_error l i) eqn:E; [eauto|]. apply nth_error_None in E. lia. Qed.

Lemma nth_lt {A} (l : list A) i x : nth_error l i = Some x -> (i < length l)%nat.
Proof. intros H. apply nth_error_Some. congruence. Qed.

Lemma some_inj {A} (o : option A) x y : o = Some x -> o = Some y -> x = y.
Proof. congruence. Qed.

Lemma ok_inj {A} (o : res A) x y : o = Ok x -> o = Ok y -> x = y.
Proof. congruence. Qed.

Lemma Forall2_map_same {A B C} (R : B -> C -> Prop) (f : A -> B) (g : A -> C) l : (forall x, In x l -> R (f x) (g x)) -> Forall2 R (map f l) (map g l).
Proof. induction l as [|a l IH]; intros H; cbn [map]; constructor; [apply H; now left|]. apply IH. intros; apply H; now right. Qed.

Lemma mean_map {A} (f : A -> R) l : mean (map f l) = Rsum (map f l) / INR (length l).
Proof. unfold mean. now rewrite map_length. Qed.

Lemma pair_nth {A B} (l : list A) (l' : list B) i x y : nth_error l i = Some x -> nth_error l' i = Some y -> nth_error (combine l l') i = Some (x, y).
Proof. revert l l'. induction i as [|i IH]; intros [|a l] [|b l'] H H'; try discriminate; cbn in *; [congruence|auto]. Qed.

Section Stage.
Context (P : platform).
Local Existing Instance f64_ops.

Lemma differences_within B (ls ps : list (list f64)) : bpow radix2 (-400) <= B <= bpow radix2 400 ->
  within B ls -> within B ps -> within (3 * B) (@differences (f64_ops P) ls ps).
Proof.
  intros HB Hl Hp. unfold within in *. rewrite Forall_forall in *. intros v Hv.
  apply in_map_iff in Hv as ([y p] & <- & Hin). cbn [fst snd].
  pose proof (Hl _ (in_combine_l _ _ _ _ Hin)) as Hy. pose proof (Hp _ (in_combine_r _ _ _ _ Hin)) as Hq.
  rewrite Forall_forall in *. intros x Hx. apply in_map_iff in Hx as ([a b] & <- & Hab). cbn [fst snd].
  destruct (Hy _ (in_combine_l _ _ _ _ Hab)) as [Fa Ba]. destruct (Hq _ (in_combine_r _ _ _ _ Hab)) as [Fb Bb].
  destruct (residual_step B HB a b Fa Fb Ba Bb) as (F1 & _ & F3). exact (conj F1 F3).
Qed.

Lemma within_nth B (vs : list (list f64)) v j : 0 <= B -> within B vs -> In v vs ->
  is_finite (nth j v (B754_zero false)) = true /\ Rabs (B2R (nth j v (B754_zero false))) <= B.
Proof.
  intros HB H Hv. unfold within in H. rewrite Forall_forall in H. specialize (H v Hv). rewrite Forall_forall in H.
  destruct (Nat.lt_ge_cases j (length v)) as [Hj|Hj]; [apply H; now apply nth_In|]. rewrite nth_overflow by exact Hj. cbn. rewrite Rabs_R0. auto.
Qed.

Lemma mean_le b l : 0 <= b -> (forall x, In x l -> x <= b) -> mean l <= b.
Proof.
  intros Hb H. unfold mean. destruct l as [|a l]; [unfold Rdiv; cbn; rewrite Rmult_0_l; exact Hb|]. set (q := a :: l) in *.
  pose proof (INR_pos q ltac:(discriminate)) as Hp. apply Rmult_le_reg_l with (INR (length q)); [exact Hp|].
  replace (INR (length q) * (Rsum q / INR (length q))) with (Rsum q) by (field; lra).
  rewrite <- (Rsum_map_const b q), <- (map_id q) at 1. now apply Rsum_map_le.
Qed.

Lemma mean_abs l : Rabs (mean l) <= mean (map Rabs l).
Proof.
  unfold mean. rewrite map_length. unfold Rdiv. rewrite Rabs_mult. 
  assert (Ha : Rabs (Rsum l) <= Rsum (map Rabs l)).
  { induction l as [|a l IH]; [cbn; rewrite Rabs_R0; lra|]. cbn [map]. rewrite !Rsum_cons. eapply Rle_trans; [apply Rabs_triang|]. lra. }
  destruct l as [|a l]; [cbn; rewrite Rabs_R0; lra|]. rewrite (Rabs_pos_eq (/ _)) by (left; apply Rinv_0_lt_compat, INR_pos; discriminate).
  apply Rmult_le_compat_r; [left; apply Rinv_0_lt_compat, INR_pos; discriminate|exact Ha].
Qed.

Lemma step_near nc nt (d : @dataset (f64_ops P)) cfg n (lr : f64) (m : regression_boost_model) k B ps :
  wf_dataset nc nt d -> (Z.of_nat (length (labels d)) <= 2 ^ 40)%Z -> is_finite lr = true -> 0 <= B2R lr <= 2 ->
  bpow radix2 (-400) <= B <= bpow radix2 400 -> within B (labels d) ->
  regression_boost_train d cfg n lr = Ok m -> (k < n)%nat ->
  regression_boost_all_predictions (first_trees k m) d = Ok ps -> within B ps ->
  exists ps' t, regression_boost_all_predictions (first_trees (S k) m) d = Ok ps' /\
    let D := mkDS (feature_rows d) (differences (labels d) ps) (feature_columns d) in
    grad_boost_tree_new D cfg (leaf_output_calculator_new Regression) = Ok t /\ wf_dataset nc nt D /\ within (3 * B) (labels D) /\
    length (labels D) = length (labels d) /\ length ps = length (labels d) /\ length ps' = length (labels d) /\
    Forall (Forall (fun x : f64 => is_finite x = true)) ps' /\
    forall j, (j < nt)%nat ->
      let g := fun s : list (@F (f64_ops P)) * list (@F (f64_ops P)) => B2R (nth j (snd s : list f64) (B754_zero false)) in
      Forall2 (fun x y => Rabs (x - y) <= (24 * INR (length (labels d)) + 49) * (ulp1 * B)) (errors j (labels d) ps')
        (map (fun s => g s - B2R lr * mean (map g (samples_like (fst s) t D))) (samples D)) /\
      Forall2 (fun x y => Rabs (x - y) <= 3 * (ulp1 * B)) (map g (samples D)) (errors j (labels d) ps).
Proof.
  intros W HN Fl Hlr HB HL E Hk Eps Hps.
  destruct (regression_stage d cfg n lr m k (wf_lengths _ _ _ W) E Hk) as (ps0 & t & Eps0 & Hs & Ht & Eb).
  rewrite Eps in Eps0. injection Eps0 as <-.
  destruct (regression_prefix_all nc nt d cfg n lr m (S k) W E) as (ps' & Eps' & HF'). exists ps', t. split; [exact Eps'|]. cbv zeta.
  assert (HF : Forall2 (fun row p => regression_boost_predict (first_trees k m) row = Ok p) (feature_rows d) ps).
  { unfold regression_boost_all_predictions in Eps. rewrite all_predictions_eq in Eps. now apply mapM_Forall2 in Eps. }
  set (D := mkDS (feature_rows d) (differences (labels d) ps) (feature_columns d)) in *.
  assert (WD : wf_dataset nc nt D).
  { assert (Rp : rectangular nt ps).
    { pose proof (wf_labels _ _ _ W) as R. clear -Hs R. unfold rectangular in *. induction Hs; constructor; inversion R; subst; auto; congruence. }
    destruct (differences_rect nt (labels d) ps) as [Q1 Q2]; [exact (Forall2_length _ _ _ Hs)|apply (wf_labels _ _ _ W)|exact Rp|].
    apply (with_labels_wf nc nt d (differences (labels d) ps) W); auto. rewrite Q1. apply (wf_lengths _ _ _ W). }
  pose proof (B_pos B HB) as B0. pose proof (uB_small B HB) as [U1 U2].
  assert (HD : within (3 * B) (labels D)) by exact (differences_within B (labels d) ps HB HL Hps).
  assert (TD : tame (labels D)).
  { eapply Forall_impl; [|exact HD]. intros v Hv. eapply Forall_impl; [|exact Hv]. intros x [Fx Bx]. split; [exact Fx|].
    eapply Rle_trans; [exact Bx|]. apply Rle_trans with (bpow radix2 2 * bpow radix2 400); [change (bpow radix2 2) with 4; lra|].
    rewrite <- bpow_plus. apply bpow_le. lia. }
  assert (LD : length (labels D) = length (labels d)).
  { cbn. unfold differences. rewrite map_length, combine_length, <- (Forall2_length _ _ _ Hs). apply Nat.min_id. }
  assert (HND : (Z.of_nat (length (labels D)) <= 2 ^ 40)%Z) by (rewrite LD; exact HN).
  set (N := length (labels d)) in *.
  (* one entry *)
  assert (Entry : forall i row y p p' j, nth_error (feature_rows d) i = Some row -> nth_error (labels d) i = Some y -> nth_error ps i = Some p ->
    nth_error ps' i = Some p' -> (j < nt)%nat ->
    let r := map (fun q => fsub (fst q) (snd q)) (combine y p) in
    let g := fun s : list F * list F => B2R (nth j (snd s) (B754_zero false) : f64) in
    length p' = nt /\ is_finite (nth j p' (B754_zero false) : f64) = true /\
    Rabs ((B2R (nth j y (B754_zero false) : f64) - B2R (nth j p' (B754_zero false) : f64)) - (g (row, r) - B2R lr * mean (map g (samples_like row t D)))) <=
      (24 * INR N + 49) * (ulp1 * B) /\
    Rabs (g (row, r) - (B2R (nth j y (B754_zero false) : f64) - B2R (nth j p (B754_zero false) : f64))) <= 3 * (ulp1 * B)).
  { intros i row y p p' j Hrow Hy Hp Hp' Hj r g.
    assert (Hrl : (nc <= length row)%nat) by (apply (row_long nc nt d); [exact W|exact (nth_error_In _ _ Hrow)]).
    assert (Ep : regression_boost_predict (first_trees k m) row = Ok p) by exact (proj2 (proj1 (Forall2_nth _ _ _) HF) i row p Hrow Hp).
    assert (Ep' : regression_boost_predict (first_trees (S k) m) row = Ok p') by exact (proj2 (proj1 (Forall2_nth _ _ _) HF') i row p' Hrow Hp').
    destruct (leaf_output_error nc nt D cfg t row j WD Eb Hrl Hj TD HND) as (o & v & Eo & Ev & Fv & Herr).
    destruct (regression_step nc nt d cfg n lr m k t row p p' o j W E Hrl Ht Ep Ep' Eo Hj) as (Lp & Lp' & Estep).
    assert (Hv : nth j o (B754_zero false : f64) = v) by exact (nth_error_nth _ _ _ Ev).
    assert (Estep' : (nth j p' (B754_zero false) : f64) = Bplus mode_NE (nth j p (B754_zero false) : f64) (Bmult mode_NE lr v)).
    { rewrite <- Hv. exact Estep. }
    assert (Emean : target j (map (map B2R) (map snd (samples_like row t D))) = map g (samples_like row t D)).
    { unfold target. rewrite !map_map. apply map_ext. intros s. unfold g. change 0 with (B2R (B754_zero false : f64)). apply map_nth. }
    rewrite Emean in Herr.
    set (G := samples_like row t D) in *.
    assert (HG : forall s, In s G -> is_finite (nth j (snd s) (B754_zero false) : f64) = true /\ Rabs (g s) <= 3 * B).
    { intros s HsG. unfold g. apply (within_nth (3 * B) (labels D)); [lra|exact HD|]. unfold G, samples_like in HsG. apply filter_In in HsG as [HsG _].
      destruct s as [a b]. exact (in_combine_r _ _ _ _ HsG). }
    assert (HLG : (length G <= N)%nat).
    { unfold G, samples_like. eapply Nat.le_trans; [apply ProofScoreF64.filter_le|]. unfold samples. rewrite combine_length, LD. lia. }
    assert (Hma : mean (map Rabs (map g G)) <= 3 * B).
    { apply mean_le; [lra|]. intros x Hx. rewrite map_map in Hx. apply in_map_iff in Hx as (s & <- & HsG). exact (proj2 (HG s HsG)). }
    assert (HM : Rabs (mean (map g G)) <= 3 * B) by (eapply Rle_trans; [apply mean_abs|exact Hma]).
    rewrite map_length in Herr.
    assert (Hc : Rabs (B2R v - mean (map g G)) <= (12 * (INR N + 1) + 1) * (ulp1 * B)).
    { eapply Rle_trans; [exact Herr|]. pose proof (eta_B B HB) as He.
      replace (bpow radix2 (-51)) with (4 * ulp1) by (unfold ulp1; change 4 with (bpow radix2 2); rewrite <- bpow_plus; reflexivity).
      assert (INR (length G + 1) <= INR N + 1) by (rewrite plus_INR; cbn [INR]; apply le_INR in HLG; lra).
      assert (4 * ulp1 * INR (length G + 1) * mean (map Rabs (map g G)) <= 4 * ulp1 * (INR N + 1) * (3 * B)).
      { pose proof ulp1_pos. pose proof (pos_INR (length G + 1)). pose proof (pos_INR N).
        apply Rmult_le_compat; [apply Rmult_le_pos; lra| |apply Rmult_le_compat_l; lra|exact Hma].
        apply mean_nonneg. intros x Hx. apply in_map_iff in Hx as (z & <- & _). apply Rabs_pos. }
      lra. }
    assert (Hc1 : (12 * (INR N + 1) + 1) * (ulp1 * B) <= B).
    { pose proof (count_small N HN) as Hcs. replace ((12 * (INR N + 1) + 1) * (ulp1 * B)) with (12 * (ulp1 * INR N) * B + 13 * (ulp1 * B)) by ring.
      assert (12 * (ulp1 * INR N) * B <= 12 * / 8192 * B) by (apply Rmult_le_compat_r; lra). lra. }
    destruct (within_nth B (labels d) y j (Rlt_le _ _ B0) HL (nth_error_In _ _ Hy)) as [Fy By].
    destruct (within_nth B ps p j (Rlt_le _ _ B0) Hps (nth_error_In _ _ Hp)) as [Fp Bp].
    destruct (update_step B HB _ _ lr v _ _ Fy Fp Fl Fv By Bp Hlr HM Hc Hc1) as [Fp' Ep2].
    destruct (residual_step B HB _ _ Fy Fp By Bp) as (_ & Er & _).
    assert (Gr : g (row, r) = B2R (Bminus mode_NE (nth j y (B754_zero false) : f64) (nth j p (B754_zero false) : f64))).
    { unfold g, r. cbn [snd]. f_equal.
      assert (Ly : length y = nt) by (pose proof (wf_labels _ _ _ W) as Rl; unfold rectangular in Rl; rewrite Forall_forall in Rl; exact (Rl _ (nth_error_In _ _ Hy))).
      transitivity ((fun q : f64 * f64 => Bminus mode_NE (fst q) (snd q)) (nth j (combine y p) (B754_zero false, B754_zero false))).
      - change (B754_zero false : f64) with ((fun q : f64 * f64 => Bminus mode_NE (fst q) (snd q)) (B754_zero false, B754_zero false)) at 1. apply map_nth.
      - cbv beta. rewrite combine_nth by (etransitivity; [exact Ly|symmetry; exact Lp]). reflexivity. }
    split; [exact Lp'|]. rewrite Estep', Gr. split; [exact Fp'|]. split; [|exact Er].
    eapply Rle_trans; [exact Ep2|]. lra. }
  assert (Lps : length ps = N) by (symmetry; exact (Forall2_length _ _ _ Hs)).
  assert (Lrow : length (feature_rows d) = N) by (symmetry; exact (wf_lengths _ _ _ W)).
  assert (Lps' : length ps' = N) by (rewrite <- Lrow; symmetry; exact (Forall2_length _ _ _ HF')).
  assert (IX : forall i, (i < N)%nat -> exists row y p p', nth_error (feature_rows d) i = Some row /\ nth_error (labels d) i = Some y /\
    nth_error ps i = Some p /\ nth_error ps' i = Some p').
  { intros i Hi. destruct (some_nth (feature_rows d) i ltac:(lia)) as (row & H1). destruct (some_nth (labels d) i Hi) as (y & H2).
    destruct (some_nth ps i ltac:(lia)) as (p & H3). destruct (some_nth ps' i ltac:(lia)) as (p' & H4). exists row, y, p, p'. auto. }
  split; [exact Eb|]. split; [exact WD|]. split; [exact HD|]. split; [exact LD|]. split; [exact Lps|]. split; [exact Lps'|].
  split.
  - apply Forall_forall. intros p' Hp'. apply In_nth_error in Hp' as [i Hi].
    assert (HiN : (i < N)%nat) by (rewrite <- Lps'; exact (nth_lt _ _ _ Hi)).
    destruct (IX i HiN) as (row & y & p & p2 & H1 & H2 & H3 & H4). assert (p2 = p') by exact (some_inj _ _ _ H4 Hi). subst p2.
    destruct (regression_prefix_ok nc nt d cfg n lr m row (S k) W E) as (q & Eq & Lq); [apply (row_long nc nt d); [exact W|exact (nth_error_In _ _ H1)]|].
    assert (Ep' : regression_boost_predict (first_trees (S k) m) row = Ok p') by exact (proj2 (proj1 (Forall2_nth _ _ _) HF') i row p' H1 H4).
    assert (q = p') by exact (ok_inj _ _ _ Eq Ep'). subst q.
    apply Forall_forall. intros x Hx. apply (In_nth _ _ (B754_zero false : f64)) in Hx as (j & Hj & <-). pose proof (eq_ind _ (fun z => (j < z)%nat) Hj _ Lq) as Hj'.
    exact (proj1 (proj2 (Entry i row y p p' j H1 H2 H3 H4 Hj'))).
  - intros j Hj. set (g := fun s : list (@F (f64_ops P)) * list (@F (f64_ops P)) => B2R (nth j (snd s : list f64) (B754_zero false))).
    assert (Ls : length (samples D) = N).
    { unfold samples. rewrite combine_length, LD. change (feature_rows D) with (feature_rows d). rewrite Lrow. apply Nat.min_id. }
    assert (NS : forall i row y p, nth_error (feature_rows d) i = Some row -> nth_error (labels d) i = Some y -> nth_error ps i = Some p ->
      nth_error (samples D) i = Some (row, map (fun q => fsub (fst q) (snd q)) (combine y p))).
    { intros i row y p H1 H2 H3. apply pair_nth; [exact H1|]. change (labels D) with (differences (labels d) ps). unfold differences.
      exact (map_nth_error _ _ _ (pair_nth _ _ _ _ _ H2 H3)). }
    assert (NE : forall (qs : list (list f64)) i y q, nth_error (labels d) i = Some y -> nth_error qs i = Some q ->
      nth_error (errors j (labels d) qs) i = Some (B2R (nth j (y : list f64) (B754_zero false)) - B2R (nth j (q : list f64) (B754_zero false)))).
    { intros qs i y q H1 H2. exact (map_nth_error _ _ _ (pair_nth _ _ _ _ _ H1 H2)). }
    assert (Le : forall qs : list (list f64), length qs = N -> length (errors j (labels d) qs) = N).
    { intros qs Hq. unfold errors. rewrite map_length, combine_length, Hq. apply Nat.min_id. }
    split.
    + apply Forall2_nth. split; [rewrite (Le ps' Lps'); now rewrite map_length|].
      intros i x z Hx Hz. assert (Hi : (i < N)%nat) by (rewrite <- (Le ps' Lps'); exact (nth_lt _ _ _ Hx)).
      destruct (IX i Hi) as (row & y & p & p' & H1 & H2 & H3 & H4).
      rewrite (NE ps' i y p' H2 H4) in Hx. injection Hx as <-.
      rewrite (map_nth_error _ _ _ (NS i row y p H1 H2 H3)) in Hz. injection Hz as <-.
      exact (proj1 (proj2 (proj2 (Entry i row y p p' j H1 H2 H3 H4 Hj)))).
    + apply Forall2_nth. split; [rewrite (Le ps Lps); now rewrite map_length|].
      intros i x z Hx Hz. assert (Hi : (i < N)%nat) by (rewrite <- (Le ps Lps); exact (nth_lt _ _ _ Hz)).
      destruct (IX i Hi) as (row & y & p & p' & H1 & H2 & H3 & H4).
      rewrite (NE ps i y p H2 H3) in Hz. injection Hz as <-.
      rewrite (map_nth_error _ _ _ (NS i row y p H1 H2 H3)) in Hx. injection Hx as <-.
      exact (proj2 (proj2 (proj2 (Entry i row y p p' j H1 H2 H3 H4 Hj)))).
Qed.

Theorem boosting_step nc nt (d : @dataset (f64_ops P)) cfg n (lr : f64) (m : regression_boost_model) k B ps :
  wf_dataset nc nt d -> (Z.of_nat (length (labels d)) <= 2 ^ 40)%Z -> is_finite lr = true -> 0 <= B2R lr <= 2 ->
  bpow radix2 (-400) <= B <= bpow radix2 400 -> within B (labels d) ->
  regression_boost_train d cfg n lr = Ok m -> (k < n)%nat ->
  regression_boost_all_predictions (first_trees k m) d = Ok ps -> within B ps ->
  exists ps', regression_boost_all_predictions (first_trees (S k) m) d = Ok ps' /\
    Forall (Forall (fun x : f64 => is_finite x = true)) ps' /\
    forall j, (j < nt)%nat -> rms (errors j (labels d) ps') <= rms (errors j (labels d) ps) + bpow radix2 (-48) * INR (length (labels d) + 2) * B.
Proof.
  intros W HN Fl Hlr HB HL E Hk Eps Hps.
  destruct (step_near nc nt d cfg n lr m k B ps W HN Fl Hlr HB HL E Hk Eps Hps) as (ps' & t & Eps' & Eb & WD & _ & _ & _ & _ & Ff & HE).
  exists ps'. split; [exact Eps'|]. split; [exact Ff|]. intros j Hj. destruct (HE j Hj) as [E1 E2]. clear HE.
  pose proof (uB_small B HB) as [U1 U2]. set (N := length (labels d)) in *. pose proof (pos_INR N) as HN0.
  apply rms_move in E1; [|apply Rmult_le_pos; lra]. apply rms_move in E2; [|lra].
  match type of E1 with _ <= rms ?b + _ => match type of E2 with rms ?a <= _ => assert (S2 : rms b <= rms a) end end.
  { apply rms_le; [now rewrite !map_length|]. rewrite !map_map.
    rewrite grad_boost_tree_new_eq in Eb. apply build_with_built in Eb.
    exact (group_shrink _ _ nc nt (fun s : list (@F (f64_ops P)) * list (@F (f64_ops P)) => B2R (nth j (snd s : list f64) (B754_zero false))) (B2R lr) _ _ _ Hlr Eb WD). }
  assert (E48 : bpow radix2 (-48) * INR (N + 2) * B = (32 * INR N + 64) * (ulp1 * B)).
  { replace (bpow radix2 (-48)) with (32 * ulp1) by (unfold ulp1; change 32 with (bpow radix2 5); rewrite <- bpow_plus; reflexivity).
    rewrite plus_INR. cbn [INR]. ring. }
  rewrite E48. assert (0 <= (8 * INR N + 12) * (ulp1 * B)) by (apply Rmult_le_pos; lra). lra.
Qed.

Lemma sqrt_count N : (1 <= N)%nat -> (Z.of_nat N <= 2 ^ 40)%Z -> 1 <= sqrt (INR N) <= bpow radix2 20.
Proof.
  intros H1 H2. split.
  - rewrite <- sqrt_1. apply sqrt_le_1_alt. apply (le_INR 1). exact H1.
  - rewrite <- (sqrt_square (bpow radix2 20)) by apply bpow_ge_0. apply sqrt_le_1_alt. rewrite <- bpow_plus. change (20 + 20)%Z with 40%Z.
    rewrite INR_IZR_INZ, <- (IZR_Zpower radix2 40) by lia. apply IZR_le. exact H2.
Qed.

Theorem boosting_run nc nt (d : @dataset (f64_ops P)) cfg n (lr : f64) (m : regression_boost_model) B k :
  let N := length (labels d) in let B' := (1 + 4 * sqrt (INR N)) * B in let e := bpow radix2 (-48) * INR (N + 2) * B' in
  wf_dataset nc nt d -> (Z.of_nat N <= 2 ^ 40)%Z -> is_finite lr = true -> 0 <= B2R lr <= 2 ->
  bpow radix2 (-400) <= B <= bpow radix2 300 -> within B (labels d) ->
  regression_boost_train d cfg n lr = Ok m -> INR n * e <= B -> (k <= n)%nat ->
  exists ps, regression_boost_all_predictions (first_trees k m) d = Ok ps /\ within B' ps /\
    forall j, (j < nt)%nat ->
      rms (errors j (labels d) ps) <= sqrt (variance (target j (map (map B2R) (labels d)))) + INR (k + 1) * e /\
      rms (errors j (labels d) ps) <= 3 * B + INR k * e /\
      forall k' ps', (k' = S k)%nat -> (k' <= n)%nat -> regression_boost_all_predictions (first_trees k' m) d = Ok ps' ->
        rms (errors j (labels d) ps') <= rms (errors j (labels d) ps) + e.
Proof.
  intros N B' e W HN Fl Hlr HB HL E Hn.
  assert (N1 : (1 <= N)%nat).
  { unfold N. rewrite (wf_lengths _ _ _ W). pose proof (wf_nonempty _ _ _ W) as H. destruct (feature_rows d); [now contradiction H|cbn; lia]. }
  destruct (sqrt_count N N1 HN) as [Q1 Q2].
  assert (B0 : 0 < B) by (pose proof (bpow_gt_0 radix2 (-400)); lra).
  assert (HBB : B <= B') by (unfold B'; replace B with (1 * B) at 1 by ring; apply Rmult_le_compat_r; lra).
  assert (HB' : bpow radix2 (-400) <= B' <= bpow radix2 400).
  { split; [lra|]. unfold B'. apply Rle_trans with (bpow radix2 23 * bpow radix2 300); [|rewrite <- bpow_plus; apply bpow_le; lia].
    apply Rmult_le_compat; try lra. replace (bpow radix2 23) with (8 * bpow radix2 20) by (change 23%Z with (3 + 20)%Z; rewrite bpow_plus; reflexivity). lra. }
  assert (HL' : within B' (labels d)).
  { eapply Forall_impl; [|exact HL]. intros v Hv. eapply Forall_impl; [|exact Hv]. intros x [Fx Bx]. split; [exact Fx|lra]. }
  assert (HB2 : bpow radix2 (-400) <= B <= bpow radix2 400) by (split; [lra|]; eapply Rle_trans; [apply HB|apply bpow_le; lia]).
  pose proof (uB_small B HB2) as [U1 U2]. pose proof (pos_INR N) as N0.
  assert (Ee : 5 * ((32 * INR N + 64) * (ulp1 * B)) <= e).
  { unfold e. replace (bpow radix2 (-48)) with (32 * ulp1) by (unfold ulp1; change 32 with (bpow radix2 5); rewrite <- bpow_plus; reflexivity).
    rewrite plus_INR. cbn [INR]. unfold B'.
    replace (32 * ulp1 * (INR N + (1 + 1)) * ((1 + 4 * sqrt (INR N)) * B)) with ((1 + 4 * sqrt (INR N)) * ((32 * INR N + 64) * (ulp1 * B))) by ring.
    apply Rmult_le_compat_r; [apply Rmult_le_pos; lra|lra]. }
  assert (e0 : 0 <= e).
  { eapply Rle_trans; [|exact Ee]. apply Rmult_le_pos; [lra|]. apply Rmult_le_pos; lra. }
  assert (Prev : forall k ps, (k < n)%nat -> regression_boost_all_predictions (first_trees k m) d = Ok ps -> within B' ps ->
    exists ps', regression_boost_all_predictions (first_trees (S k) m) d = Ok ps' /\
    Forall (Forall (fun x : f64 => is_finite x = true)) ps' /\
    forall j, (j < nt)%nat -> rms (errors j (labels d) ps') <= rms (errors j (labels d) ps) + e).
  { intros i ps Hi Eps Hps. exact (boosting_step nc nt d cfg n lr m i B' ps W HN Fl Hlr HB' HL' E Hi Eps Hps). }
  assert (Main : forall k, (k <= n)%nat -> exists ps, regression_boost_all_predictions (first_trees k m) d = Ok ps /\ within B' ps /\
    forall j, (j < nt)%nat ->
      rms (errors j (labels d) ps) <= sqrt (variance (target j (map (map B2R) (labels d)))) + INR (k + 1) * e /\
      rms (errors j (labels d) ps) <= 3 * B + INR k * e).
  2:{ intros Hk. destruct (Main k Hk) as (ps & Eps & Hps & Hj). exists ps. split; [exact Eps|]. split; [exact Hps|]. intros j Hjn.
      destruct (Hj j Hjn) as [H1 H2]. split; [exact H1|]. split; [exact H2|]. intros k' ps' -> Hk' Eps'.
      destruct (Prev k ps Hk' Eps Hps) as (ps2 & Eps2 & _ & H3). rewrite (ok_inj _ _ _ Eps' Eps2). now apply H3. }
  clear k. induction k as [|k IH]; intros Hk.
  - destruct (regression_prefix_all nc nt d cfg n lr m 0 W E) as (ps & Eps & HF). exists ps. split; [exact Eps|].
    assert (Hg : forall p, In p ps -> p = m_initial_guess m).
    { intros p Hp. apply In_nth_error in Hp as [i Hi]. destruct (some_nth (feature_rows d) i) as (row & Hr).
      { rewrite (Forall2_length _ _ _ HF). exact (nth_lt _ _ _ Hi). }
      pose proof (proj2 (proj1 (Forall2_nth _ _ _) HF) i row p Hr Hi) as Ep. cbv beta in Ep.
      unfold regression_boost_predict in Ep. rewrite predict_instance_raw in Ep. cbn in Ep. now injection Ep as <-. }
    destruct (regression_shape nt d cfg n lr m (wf_labels _ _ _ W) E) as (_ & _ & Lg & _).
    assert (Hne : labels d <> []) by (intros E0; unfold N in N1; rewrite E0 in N1; cbn in N1; lia).
    assert (T : tame (labels d)).
    { eapply Forall_impl; [|exact HL]. intros v Hv. eapply Forall_impl; [|exact Hv]. intros x [Fx Bx]. split; [exact Fx|].
      eapply Rle_trans; [exact Bx|]. eapply Rle_trans; [apply HB|]. apply bpow_le. lia. }
    assert (Gj : forall j, (j < nt)%nat -> let ys := target j (map (map B2R) (labels d)) in
      is_finite (nth j (m_initial_guess m) (B754_zero false) : f64) = true /\
      Rabs (B2R (nth j (m_initial_guess m) (B754_zero false) : f64) - mean ys) <= (4 * INR N + 5) * (ulp1 * B) /\ Rabs (mean ys) <= B /\
      forall y, In y (labels d) -> Rabs (B2R (nth j y (B754_zero false) : f64)) <= B).
    { intros j Hj ys. destruct (initial_guess_error nt d cfg n lr m j (wf_labels _ _ _ W) Hne E Hj T HN) as (v & Ev & Fv & Herr). fold ys in Herr.
      assert (Hv : nth j (m_initial_guess m) (B754_zero false : f64) = v) by exact (nth_error_nth _ _ _ Ev).
      assert (Hy : forall y, In y (labels d) -> Rabs (B2R (nth j y (B754_zero false) : f64)) <= B).
      { intros y Hy. exact (proj2 (within_nth B (labels d) y j (Rlt_le _ _ B0) HL Hy)). }
      assert (Hma : mean (map Rabs ys) <= B).
      { apply mean_le; [lra|]. intros x Hx. unfold ys, target in Hx. rewrite !map_map in Hx. apply in_map_iff in Hx as (y & <- & Hin).
        change 0 with (B2R (B754_zero false : f64)). rewrite map_nth. exact (Hy y Hin). }
      rewrite Hv. split; [exact Fv|]. split; [|split; [eapply Rle_trans; [apply mean_abs|exact Hma]|exact Hy]].
      eapply Rle_trans; [exact Herr|]. pose proof (eta_B B HB2) as He. fold N.
      replace (bpow radix2 (-51)) with (4 * ulp1) by (unfold ulp1; change 4 with (bpow radix2 2); rewrite <- bpow_plus; reflexivity).
      rewrite plus_INR. cbn [INR]. pose proof ulp1_pos.
      assert (4 * ulp1 * (INR N + 1) * mean (map Rabs ys) <= 4 * ulp1 * (INR N + 1) * B) by (apply Rmult_le_compat_l; [apply Rmult_le_pos; lra|exact Hma]).
      lra. }
    assert (Small : (4 * INR N + 5) * (ulp1 * B) <= B).
    { pose proof (count_small N HN) as Hcs. replace ((4 * INR N + 5) * (ulp1 * B)) with (4 * (ulp1 * INR N) * B + 5 * (ulp1 * B)) by ring.
      assert (4 * (ulp1 * INR N) * B <= 4 * / 8192 * B) by (apply Rmult_le_compat_r; lra). lra. }
    assert (Gb : forall j, (j < nt)%nat -> Rabs (B2R (nth j (m_initial_guess m) (B754_zero false) : f64)) <= 2 * B).
    { intros j Hj. destruct (Gj j Hj) as (_ & H1 & H2 & _). set (v := B2R (nth j (m_initial_guess m) (B754_zero false) : f64)) in *.
      set (M := mean (target j (map (map B2R) (labels d)))) in *. replace v with ((v - M) + M) by ring. eapply Rle_trans; [apply Rabs_triang|]. lra. }
    split.
    + apply Forall_forall. intros p Hp. rewrite (Hg p Hp). apply Forall_forall. intros x Hx. apply (In_nth _ _ (B754_zero false : f64)) in Hx as (j & Hj & <-).
      pose proof (eq_ind _ (fun z => (j < z)%nat) Hj _ Lg) as Hj'. split; [exact (proj1 (Gj j Hj'))|].
      pose proof (Gb j Hj') as Hb. eapply Rle_trans; [exact Hb|]. unfold B'. apply Rmult_le_compat_r; lra.
    + intros j Hj. destruct (Gj j Hj) as (Fv & Hv & HM & Hy).
      set (ys := target j (map (map B2R) (labels d))) in *. set (v := B2R (nth j (m_initial_guess m) (B754_zero false) : f64)) in *.
      assert (Lps : length ps = N) by (unfold N; rewrite (wf_lengths _ _ _ W); symmetry; exact (Forall2_length _ _ _ HF)).
      assert (Er : errors j (labels d) ps = map (fun y => B2R (nth j y (B754_zero false) : f64) - v) (labels d)).
      { unfold errors. clear -Hg Lps. unfold N in Lps. clear N. revert ps Hg Lps. induction (labels d) as [|y ys IH]; intros [|p ps] Hg Lps; try discriminate; [reflexivity|].
        cbn [combine map fst snd]. rewrite (Hg p (or_introl eq_refl)). f_equal. apply IH; [intros; apply Hg; now right|]. now injection Lps. }
      rewrite Er. cbn [Nat.add INR]. split.
      * rewrite Rmult_1_l.
        assert (Vs : sqrt (variance ys) = rms (map (fun y => y - mean ys) ys)).
        { unfold rms, variance. f_equal. rewrite map_map. symmetry. apply mean_map. }
        rewrite Vs. apply Rle_trans with (rms (map (fun y => y - mean ys) ys) + (4 * INR N + 5) * (ulp1 * B)).
        { apply rms_move; [apply Rmult_le_pos; lra|]. unfold ys at 2. unfold target. rewrite !map_map. apply Forall2_map_same. intros y Hin.
          change 0 with (B2R (B754_zero false : f64)). rewrite map_nth.
          replace (B2R (nth j y (B754_zero false) : f64) - v - (B2R (nth j y (B754_zero false) : f64) - mean ys)) with (- (v - mean ys)) by ring. rewrite Rabs_Ropp. exact Hv. }
        apply Rplus_le_compat_l. eapply Rle_trans; [|exact Ee].
        assert (0 <= (156 * INR N + 315) * (ulp1 * B)) by (apply Rmult_le_pos; lra). lra.
      * rewrite Rmult_0_l, Rplus_0_r. apply rms_bound; [|lra]. intros x Hx. apply in_map_iff in Hx as (y & <- & Hin).
        pose proof (Hy y Hin) as Hy1. pose proof (Gb j Hj) as Hg1. unfold Rminus. eapply Rle_trans; [apply Rabs_triang|]. rewrite Rabs_Ropp. apply Rle_trans with (B + 2 * B); [exact (Rplus_le_compat _ _ _ _ Hy1 Hg1)|lra].
  - destruct (IH ltac:(lia)) as (ps & Eps & Hps & Hj). destruct (Prev k ps ltac:(lia) Eps Hps) as (ps' & Eps' & Fps' & Hr'). exists ps'. split; [exact Eps'|].
    assert (Hj' : forall j, (j < nt)%nat ->
      rms (errors j (labels d) ps') <= sqrt (variance (target j (map (map B2R) (labels d)))) + INR (S k + 1) * e /\
      rms (errors j (labels d) ps') <= 3 * B + INR (S k) * e).
    { intros j Hjn. destruct (Hj j Hjn) as [H1 H2]. pose proof (Hr' j Hjn) as H3. rewrite S_INR. cbn [Nat.add]. rewrite S_INR. lra. }
    split; [|exact Hj'].
    destruct (regression_prefix_all nc nt d cfg n lr m (S k) W E) as (ps2 & Eps2 & HF).
    rewrite (ok_inj _ _ _ Eps2 Eps') in HF. clear ps2 Eps2.
    assert (Lps' : length ps' = N) by (unfold N; rewrite (wf_lengths _ _ _ W); symmetry; exact (Forall2_length _ _ _ HF)).
    apply Forall_forall. intros p Hp. apply Forall_forall. intros x Hx. split.
    { rewrite Forall_forall in Fps'. specialize (Fps' p Hp). rewrite Forall_forall in Fps'. exact (Fps' x Hx). }
    apply In_nth_error in Hp as [i Hi].
    destruct (some_nth (feature_rows d) i) as (row & Hrow). { rewrite (Forall2_length _ _ _ HF). exact (nth_lt _ _ _ Hi). }
    destruct (some_nth (labels d) i) as (y & Hy). { fold N. rewrite <- Lps'. exact (nth_lt _ _ _ Hi). }
    destruct (regression_prefix_ok nc nt d cfg n lr m row (S k) W E) as (q & Eq & Lq); [apply (row_long nc nt d); [exact W|exact (nth_error_In _ _ Hrow)]|].
    assert (Ep' : regression_boost_predict (first_trees (S k) m) row = Ok p) by exact (proj2 (proj1 (Forall2_nth _ _ _) HF) i row p Hrow Hi).
    rewrite (ok_inj _ _ _ Eq Ep') in Lq.
    apply (In_nth _ _ (B754_zero false : f64)) in Hx as (j & Hjx & <-). pose proof (eq_ind _ (fun z => (j < z)%nat) Hjx _ Lq) as Hjn.
    destruct (Hj' j Hjn) as [_ H2].
    assert (Hin : In (B2R (nth j (y : list f64) (B754_zero false)) - B2R (nth j (p : list f64) (B754_zero false))) (errors j (labels d) ps')).
    { apply nth_error_In with i. exact (map_nth_error _ _ _ (pair_nth _ _ _ _ _ Hy Hi)). }
    apply entry_le_rms in Hin.
    assert (Lerr : length (errors j (labels d) ps') = N).
    { unfold errors. rewrite map_length, combine_length. change (Nat.min N (length ps') = N). rewrite Lps'. apply Nat.min_id. }
    rewrite Lerr in Hin.
    assert (H4 : rms (errors j (labels d) ps') <= 4 * B).
    { assert (INR (S k) * e <= INR n * e) by (apply Rmult_le_compat_r; [exact e0|apply le_INR; lia]). lra. }
    assert (H5 : sqrt (INR N) * rms (errors j (labels d) ps') <= sqrt (INR N) * (4 * B)) by (apply Rmult_le_compat_l; lra).
    destruct (within_nth B (labels d) y j (Rlt_le _ _ B0) HL (nth_error_In _ _ Hy)) as [_ By].
    set (f := B2R (nth j (p : list f64) (B754_zero false))) in *. set (z := B2R (nth j (y : list f64) (B754_zero false))) in *.
    change (Rabs f <= B'). replace f with (z + - (z - f)) by ring.
    eapply Rle_trans; [apply Rabs_triang|]. rewrite Rabs_Ropp. unfold B'.
    apply Rle_trans with (B + sqrt (INR N) * (4 * B)); [|lra]. apply Rplus_le_compat; [exact By|exact (Rle_trans _ _ _ Hin H5)].
Qed.

End Stage.
