(** Proofs for C102: classification iterations with small steps lower the log-loss. *)
From Coq Require Import Reals Lra Lia.
From Verif Require Import Base Num ModelCommon ModelTree ModelBoost Lib XR Spec SpecTree SpecExact SpecScore SpecFit SpecError SpecClass SpecAffine SpecGradient SpecLoss ProofReal ProofSort ProofData
  ProofSplit ProofSplit2 ProofTree ProofTree3 ProofScore ProofSplitExact ProofSplitExact2 ProofTreeExact ProofScoreExact ProofBoost ProofBoost2 ProofLeaf ProofBoostExact
  ProofBalance ProofClassExact ProofClassRun ProofGradient ProofDescent.
Local Open Scope R_scope.

(* ------------------------------------------------------------------ *)
(** ** An upper bound on the exponential *)

Definition gap (x : R) : R := (1 + x + x * x) * exp (- x).

Lemma gap_derivable x : derivable_pt_lim gap x (x * (1 - x) * exp (- x)).
Proof.
  replace (x * (1 - x) * exp (- x)) with ((1 + 2 * x) * exp (- x) + (1 + x + x * x) * (exp (- x) * - 1)) by ring.
  apply (derivable_pt_lim_mult (fun x => 1 + x + x * x) (fun x => exp (- x))).
  - replace (1 + 2 * x) with (0 + 1 + (1 * x + x * 1)) by ring.
    apply (derivable_pt_lim_plus (fun x => 1 + x) (fun x => x * x)); [apply (derivable_pt_lim_plus (fct_cte 1) id)|apply (derivable_pt_lim_mult id id)].
    + apply derivable_pt_lim_const.
    + apply derivable_pt_lim_id.
    + apply derivable_pt_lim_id.
    + apply derivable_pt_lim_id.
  - apply (derivable_pt_lim_comp Ropp exp); [|apply derivable_pt_lim_exp]. apply (derivable_pt_lim_opp id), derivable_pt_lim_id.
Qed.

Lemma gap_ge x : x <= 1 -> 1 <= gap x.
Proof.
  intros Hx. assert (G0 : gap 0 = 1) by (unfold gap; rewrite Ropp_0, exp_0; ring).
  destruct (Rtotal_order x 0) as [H|[->|H]]; [| lra |].
  - destruct (MVT_cor2 gap (fun x => x * (1 - x) * exp (- x)) x 0 H (fun c _ => gap_derivable c)) as (c & E & Hc).
    pose proof (exp_pos (- c)). assert (0 <= - (c * (1 - c)) * exp (- c)) by (apply Rmult_le_pos; [nra|lra]). nra.
  - destruct (MVT_cor2 gap (fun x => x * (1 - x) * exp (- x)) 0 x H (fun c _ => gap_derivable c)) as (c & E & Hc).
    pose proof (exp_pos (- c)). assert (0 <= (c * (1 - c)) * exp (- c)) by (apply Rmult_le_pos; [nra|lra]). nra.
Qed.

Lemma exp_le x : x <= 1 -> exp x <= 1 + x + x * x.
Proof.
  intros Hx. pose proof (gap_ge x Hx) as G. unfold gap in G. pose proof (exp_pos x) as P.
  apply (Rmult_le_compat_r (exp x)) in G; [|lra]. rewrite Rmult_assoc, <- exp_plus, Rplus_opp_l, exp_0 in G. lra.
Qed.

(* ------------------------------------------------------------------ *)
(** ** Weighted sums *)

Section Weights.
Context (p o : nat -> R).
Let S0 (l : list nat) := Rsum (map p l).
Let S1 (l : list nat) := Rsum (map (fun j => p j * o j) l).
Let S2 (l : list nat) := Rsum (map (fun j => p j * (o j * o j)) l).

Lemma square_sum l x : Rsum (map (fun j => p j * ((o j + x) * (o j + x))) l) = S2 l + 2 * S1 l * x + S0 l * (x * x).
Proof. unfold S0, S1, S2. induction l as [|j l IH]; cbn [map]; rewrite ?Rsum_cons; [cbn; ring|]. rewrite IH. ring. Qed.

Lemma cross_bound l : (forall j, In j l -> 0 <= p j) -> 2 * Rsum (map (fun j => p j * p j * (o j * o j)) l) <= S0 l * S2 l + S1 l * S1 l.
Proof.
  induction l as [|j l IH]; intros H; [unfold S0, S1, S2; cbn; lra|].
  specialize (IH (fun i Hi => H i (or_intror Hi))). pose proof (H j (or_introl eq_refl)) as Hj.
  assert (Q : 0 <= S2 l + 2 * S1 l * o j + S0 l * (o j * o j)).
  { rewrite <- square_sum. apply Rsum_nonneg. intros y Hy. apply in_map_iff in Hy as (i & <- & Hi). apply Rmult_le_pos; [apply H; now right|exact (Rle_0_sqr (o i + o j))]. }
  unfold S0, S1, S2 in *. cbn [map]. rewrite !Rsum_cons. set (A := Rsum (map p l)) in *. set (B := Rsum (map (fun j => p j * o j) l)) in *.
  set (C := Rsum (map (fun j => p j * (o j * o j)) l)) in *. set (D := Rsum _) in *.
  pose proof (Rmult_le_pos _ _ Hj Q). nra.
Qed.

Lemma variance_square l : S0 l = 1 -> Rsum (map (fun j => p j * ((o j - S1 l) * (o j - S1 l))) l) = S2 l - S1 l * S1 l.
Proof.
  intros H. transitivity (Rsum (map (fun j => p j * ((o j + - S1 l) * (o j + - S1 l))) l)); [apply Rsum_map_ext; intros; ring|].
  rewrite square_sum, H. ring.
Qed.

Lemma variance_bound l : (forall j, In j l -> 0 <= p j) -> S0 l = 1 ->
  Rsum (map (fun j => p j * ((o j - S1 l) * (o j - S1 l))) l) <= 2 * Rsum (map (fun j => p j * (1 - p j) * (o j * o j)) l).
Proof.
  intros Hp H. rewrite variance_square by auto. pose proof (cross_bound l Hp) as C. rewrite H in C.
  assert (E : Rsum (map (fun j => p j * (1 - p j) * (o j * o j)) l) = S2 l - Rsum (map (fun j => p j * p j * (o j * o j)) l)).
  { unfold S2. clear. induction l as [|j l IH]; cbn [map]; rewrite ?Rsum_cons; [cbn; ring|]. rewrite IH. ring. }
  rewrite E. lra.
Qed.

(** The exponential moments, when no centred entry exceeds 1. *)
Lemma moment_bound l x : (forall j, In j l -> 0 <= p j) -> S0 l = 1 -> (forall j, In j l -> x * (o j - S1 l) <= 1) ->
  Rsum (map (fun j => p j * exp (x * o j)) l) <= exp (x * S1 l + x * x * Rsum (map (fun j => p j * ((o j - S1 l) * (o j - S1 l))) l)).
Proof.
  intros Hp H Hx. set (mu := S1 l) in *. set (V := Rsum (map (fun j => p j * ((o j - mu) * (o j - mu))) l)).
  assert (A : Rsum (map (fun j => p j * exp (x * o j)) l) <= exp (x * mu) * Rsum (map (fun j => p j * (1 + x * (o j - mu) + x * (o j - mu) * (x * (o j - mu)))) l)).
  { rewrite <- Rsum_map_mult. apply Rsum_map_le. intros j Hj. replace (x * o j) with (x * mu + x * (o j - mu)) by ring. rewrite exp_plus.
    pose proof (exp_le _ (Hx j Hj)) as E. pose proof (exp_pos (x * mu)) as P. pose proof (Hp j Hj) as Pj.
    apply (Rmult_le_compat_l (exp (x * mu) * p j)) in E; [lra|]. apply Rmult_le_pos; lra. }
  assert (B : Rsum (map (fun j => p j * (1 + x * (o j - mu) + x * (o j - mu) * (x * (o j - mu)))) l) = 1 + x * x * V).
  { transitivity (S0 l + x * (S1 l - mu * S0 l) + x * x * V); [|rewrite H; fold mu; ring]. unfold S0, S1, V. clearbody mu. clear.
    induction l as [|j l IH]; cbn [map]; rewrite ?Rsum_cons; [cbn; ring|]. rewrite IH. ring. }
  rewrite B in A. eapply Rle_trans; [exact A|]. rewrite exp_plus. apply Rmult_le_compat_l; [left; apply exp_pos|]. apply exp_ineq1_le.
Qed.
End Weights.

(* ------------------------------------------------------------------ *)
(** ** One row *)

(** The variance of the outputs [o] under the probabilities of [s]. *)
Definition prob_mean (s o : list R) : R := Rsum (map (fun j => probability s j * nth j o 0) (seq 0 (length s))).
Definition prob_var (s o : list R) : R :=
  Rsum (map (fun j => probability s j * ((nth j o 0 - prob_mean s o) * (nth j o 0 - prob_mean s o))) (seq 0 (length s))).

Lemma probability_sum s : s <> [] -> Rsum (map (probability s) (seq 0 (length s))) = 1.
Proof.
  intros H. rewrite <- (rsoft_sum s H). f_equal. rewrite <- (map_nth_seq_all (rsoft s) 0), rsoft_length.
  apply map_ext_in. intros j Hj. apply in_seq in Hj. symmetry. apply rsoft_nth. lia.
Qed.

Lemma probability_pos s j : s <> [] -> 0 < probability s j.
Proof. intros H. unfold probability. apply Rdiv_lt_0_compat; [apply exp_pos|now apply sum_exp_pos]. Qed.

Lemma log_loss_eq s c : s <> [] -> log_loss s c = ln (Rsum (map exp s)) - nth c s 0.
Proof.
  intros H. unfold log_loss, probability. pose proof (sum_exp_pos s H) as P. unfold Rdiv. rewrite ln_mult; [|apply exp_pos|now apply Rinv_0_lt_compat].
  rewrite ln_exp, ln_Rinv by auto. ring.
Qed.

Lemma ln_mono x y : 0 < x -> x <= y -> ln x <= ln y.
Proof. intros Hx [H|<-]; [left; now apply ln_increasing|lra]. Qed.

Lemma dot_residual s o c : (c < length s)%nat -> dot (length s) (residual (length s) (s, c)) o = nth c o 0 - prob_mean s o.
Proof.
  intros Hc. unfold dot, prob_mean.
  rewrite (Rsum_map_ext _ (fun j => (if (j =? c)%nat then 1 else 0) * nth j o 0 + -1 * (probability s j * nth j o 0))).
  2:{ intros j Hj. apply in_seq in Hj. rewrite residual_nth by (cbn [fst]; auto; lia). cbn [fst snd]. rewrite (Nat.eqb_sym c j). ring. }
  rewrite Rsum_map_plus, Rsum_map_mult.
  assert (E : Rsum (map (fun j => (if (j =? c)%nat then 1 else 0) * nth j o 0) (seq 0 (length s))) = nth c o 0).
  { rewrite (Rsum_map_ext _ (fun j => nth c o 0 * (if (j =? c)%nat then 1 else 0))).
    - rewrite Rsum_map_mult. pose proof (hot_sum (length s) c Hc) as Hh. unfold hot in Hh. rewrite Hh. ring.
    - intros j _. destruct (Nat.eqb_spec j c) as [->|_]; ring. }
  rewrite E. ring.
Qed.

Lemma row_step s o c x : length o = length s -> (c < length s)%nat ->
  (forall j, (j < length s)%nat -> x * (nth j o 0 - prob_mean s o) <= 1) ->
  log_loss (vstep x s o) c <= log_loss s c - x * dot (length s) (residual (length s) (s, c)) o + x * x * prob_var s o.
Proof.
  intros Ho Hc Hx. assert (Hne : s <> []) by (destruct s; [cbn in Hc; lia|discriminate]).
  assert (Lv : length (vstep x s o) = length s) by (unfold vstep; rewrite map2_length, Ho, Nat.min_id; reflexivity).
  assert (Hne' : vstep x s o <> []) by (intros H; rewrite H in Lv; cbn in Lv; lia).
  rewrite !log_loss_eq by auto. rewrite dot_residual by auto. pose proof (sum_exp_pos s Hne) as P. pose proof (sum_exp_pos _ Hne') as P'.
  assert (En : nth c (vstep x s o) 0 = nth c s 0 + x * nth c o 0) by (unfold vstep; rewrite nth_map2 by lia; reflexivity). rewrite En.
  assert (E : Rsum (map exp (vstep x s o)) = Rsum (map exp s) * Rsum (map (fun j => probability s j * exp (x * nth j o 0)) (seq 0 (length s)))).
  { rewrite direction_sum by auto. rewrite <- Rsum_map_mult. apply Rsum_map_ext. intros j _. unfold probability. rewrite exp_plus. field. lra. }
  pose proof (moment_bound (probability s) (fun j => nth j o 0) (seq 0 (length s)) x) as M. cbv beta in M.
  fold (prob_mean s o) in M. fold (prob_var s o) in M. specialize (M (fun j _ => Rlt_le _ _ (probability_pos s j Hne)) (probability_sum s Hne)).
  assert (Q : Rsum (map (fun j => probability s j * exp (x * nth j o 0)) (seq 0 (length s))) <= exp (x * prob_mean s o + x * x * prob_var s o)).
  { apply M. intros j Hj. apply in_seq in Hj. apply Hx. lia. }
  assert (T : ln (Rsum (map exp (vstep x s o))) <= ln (Rsum (map exp s)) + (x * prob_mean s o + x * x * prob_var s o)).
  { rewrite <- (ln_exp (x * prob_mean s o + x * x * prob_var s o)). rewrite <- ln_mult by (auto; apply exp_pos). apply ln_mono; [exact P'|].
    rewrite E. apply Rmult_le_compat_l; lra. }
  lra.
Qed.

Lemma abs_inv x b : Rabs x <= b -> - b <= x <= b.
Proof. intros H. pose proof (Rle_abs x). pose proof (Rle_abs (- x)). rewrite Rabs_Ropp in *. lra. Qed.

Lemma prob_mean_bound s o b : s <> [] -> (forall j, (j < length s)%nat -> Rabs (nth j o 0) <= b) -> Rabs (prob_mean s o) <= b.
Proof.
  intros H Hb. pose proof (probability_sum s H) as Hs. unfold prob_mean.
  assert (E : b = Rsum (map (fun j => b * probability s j) (seq 0 (length s)))) by (rewrite Rsum_map_mult, Hs; ring).
  apply Rabs_le. split.
  - replace (- b) with (Rsum (map (fun j => - b * probability s j) (seq 0 (length s)))) by (rewrite Rsum_map_mult, Hs; ring).
    apply Rsum_map_le. intros j Hj. apply in_seq in Hj. pose proof (probability_pos s j H). specialize (Hb j ltac:(lia)). apply abs_inv in Hb. nra.
  - rewrite E. apply Rsum_map_le. intros j Hj. apply in_seq in Hj. pose proof (probability_pos s j H). specialize (Hb j ltac:(lia)). apply abs_inv in Hb. nra.
Qed.

(* ------------------------------------------------------------------ *)
(** ** Leaves and trees *)

Section Sum.
Context {L : Type} (nc nt : nat) (mk : @dataset xr_ops -> res L) (f : list R -> L -> R).
Hypothesis mk_f : forall x l, wf_dataset nc nt x -> real_labels (rl x) x -> residual_labels nt x -> mk x = Ok l -> 0 <= Rsum (map (fun y => f y l) (rl x)).

Definition leaf_value (t : tree_node L) (p : list xr * list R) : R :=
  match @find_leaf_node_for_data xr_ops L (fst p) t with Ok l => f (snd p) l | _ => 0 end.

Lemma tree_sum cfg level d t : built mk cfg level d t -> wf_dataset nc nt d -> real_labels (rl d) d -> residual_labels nt d ->
  0 <= Rsum (map (leaf_value t) (rs d)).
Proof.
  intros B. induction B as [level d s l Es Est El|level d s fd td t fn Es Est Ep Bt IHt Bf IHf]; intros W Hl Hr.
  - assert (E : Rsum (map (leaf_value (leaf_node (bs_question s) l)) (rs d)) = Rsum (map (fun y => f y l) (rl d))).
    { rewrite <- (rs_snd nc nt d W), map_map. reflexivity. }
    rewrite E. exact (mk_f d l W Hl Hr El).
  - destruct (sub_true _ _ _ _ _ _ W Ep Hl) as (Wf & Wt & Lf & Lt & Et & Ef & Hq).
    assert (Hrt : residual_labels nt td /\ residual_labels nt fd).
    { pose proof (rs_snd nc nt td Wt) as St. pose proof (rs_snd nc nt fd Wf) as Sf. pose proof (rs_snd nc nt d W) as Sd.
      unfold residual_labels in *. rewrite <- St, <- Sf, Et, Ef. rewrite <- Sd in Hr. rewrite Forall_map in Hr. rewrite !Forall_map.
      split; apply Forall_forall; intros p Hp; apply filter_In in Hp as [Hp _]; exact (proj1 (Forall_forall _ _) Hr p Hp). }
    destruct Hrt as [Rt Rf]. specialize (IHt Wt Lt Rt). specialize (IHf Wf Lf Rf). rewrite Et in IHt. rewrite Ef in IHf.
    assert (Hroute : forall p, In p (rs d) -> leaf_value (node_new (bs_question s) t fn) p = if answers (bs_question s) (fst p) then leaf_value t p else leaf_value fn p).
    { intros p Hin. unfold rs in Hin. apply in_map_iff in Hin as ([r lab] & <- & Hin).
      apply in_combine_l in Hin. cbn [rp fst]. unfold leaf_value. cbn [node_new find_leaf_node_for_data fst snd rp].
      rewrite solve_Ok by (pose proof (ProofBoostExact.row_long _ _ _ _ W Hin); xr; lia). cbn [bind]. destruct (answers (bs_question s) r); reflexivity. }
    rewrite (Rsum_filter _ (fun p => answers (bs_question s) (fst p)) (rs d)). apply Rplus_le_le_0_compat.
    + erewrite Rsum_map_ext; [exact IHt|]. intros p Hp. apply filter_In in Hp as [Hp Ha]. xr; cbv beta in Ha; rewrite (Hroute p Hp), Ha; reflexivity.
    + erewrite Rsum_map_ext; [exact IHf|]. intros p Hp. apply filter_In in Hp as [Hp Ha]. apply negb_true_iff in Ha. xr; cbv beta in Ha; rewrite (Hroute p Hp), Ha; reflexivity.
Qed.

Lemma stage_sum d cs ss cfg t :
  (2 <= nt)%nat -> wf_dataset nc nt d -> one_hot_labels nt d -> real_labels (map (hot nt) cs) d -> rectangular nt ss -> length ss = length (feature_rows d) ->
  built mk cfg 0 (fitted d (map (map Fin) ss)) t ->
  0 <= Rsum (map (fun p => leaf_value t (fst p, residual nt (snd p))) (combine (feature_rows d) (combine ss cs))).
Proof.
  intros Hk W HO Hl Rs Ls B. destruct (fitted_ok nc nt d ss Hk W HO Rs Ls) as (r & Er & Wr & Lr & Rr & Erl).
  pose proof (tree_sum cfg 0 _ t B Wr Lr Rr) as P. pose proof (samples_fitted nc nt d cs ss Hk W Hl Rs Ls) as Sf.
  assert (Ers : rs (fitted d (map (map Fin) ss)) = map (fun p => (fst p, residual nt (snd p))) (combine (feature_rows d) (combine ss cs))).
  { unfold rs. rewrite Sf, map_map. apply map_ext. intros [r' p]. unfold rp. cbn [fst snd]. now rewrite map_xval_Fin. }
  rewrite Ers, map_map in P. exact P.
Qed.
End Sum.

(** [|y_j| (1 - |y_j|)] for each class, weighted with the squared outputs. *)
Definition weight (k : nat) (y o : list R) : R := Rsum (map (fun j => Rabs (nth j y 0) * (1 - Rabs (nth j y 0)) * (nth j o 0 * nth j o 0)) (seq 0 k)).

Lemma weight_sum k o group : Rsum (map (fun y => weight k y o) group) = Rsum (map (fun j => nth j o 0 * nth j o 0 * curvature (target j group)) (seq 0 k)).
Proof.
  unfold weight. rewrite Rsum_swap. apply Rsum_map_ext. intros j _. unfold curvature, target. rewrite map_map, <- Rsum_map_mult. apply Rsum_map_ext. intros; ring.
Qed.

Definition multi_f (k : nat) (y : list R) (l : @grad_boost_leaf xr_ops) : R := dot k y (gl_val l) - INR k / (INR k - 1) * weight k y (gl_val l).

Lemma multi_leaf_sum nc nt (x : @dataset xr_ops) l : (2 <= nt)%nat -> wf_dataset nc nt x -> real_labels (rl x) x -> residual_labels nt x ->
  mk_gb (leaf_output_calculator_new MultiClassClassification) x = Ok l -> 0 <= Rsum (map (fun y => multi_f nt y l) (rl x)).
Proof.
  intros Hk W Hl Hr E. pose proof (class_leaf_ok nc nt x Hk W Hl Hr) as [_ Hc]. apply (mk_gb_class nc nt) in E; auto. subst l.
  pose proof (INR_ge2 nt Hk) as Hn. unfold multi_f, gl_val. cbn [gl_output]. rewrite map_xval_Fin. set (o := class_output nt (rl x)).
  assert (E : Rsum (map (fun y => dot nt y o - INR nt / (INR nt - 1) * weight nt y o) (rl x)) =
    Rsum (map (fun y => dot nt y o) (rl x)) - INR nt / (INR nt - 1) * Rsum (map (fun y => weight nt y o) (rl x))).
  { rewrite <- Rsum_map_mult. generalize (rl x). intros g. induction g as [|y g IH]; cbn [map]; rewrite ?Rsum_cons; [cbn; ring|]. rewrite IH. ring. }
  rewrite E, dot_sum, weight_sum, <- Rsum_map_mult. apply Req_le. symmetry. apply Rminus_diag_eq. apply Rsum_map_ext. intros j Hj. apply in_seq in Hj.
  unfold o. rewrite class_output_nth by lia. specialize (Hc j ltac:(lia)). field. lra.
Qed.

Definition amg_f (k : nat) (y : list R) (l : @amg_leaf xr_ops) : R :=
  match al_max l, al_class l with
  | Some m, Some c => dot k y (approx k c (xval m)) - (INR k / (INR k - 1)) * (INR k / (INR k - 1)) * (xval m * xval m) * (Rabs (nth c y 0) * (1 - Rabs (nth c y 0)))
  | _, _ => 0
  end.

Lemma amg_leaf_sum nc nt (x : @dataset xr_ops) l : (2 <= nt)%nat -> wf_dataset nc nt x -> real_labels (rl x) x -> residual_labels nt x ->
  mk_amg (leaf_output_calculator_new MultiClassClassification) x = Ok l -> 0 <= Rsum (map (fun y => amg_f nt y l) (rl x)).
Proof.
  intros Hk W Hl Hr E. pose proof (class_leaf_ok nc nt x Hk W Hl Hr) as [_ Hc]. apply (mk_amg_class nc nt) in E as (c & Hcn & -> & _); auto.
  unfold amg_f. cbn [al_max al_class xval]. pose proof (INR_ge2 nt Hk) as Hn. set (m := nth c (class_output nt (rl x)) 0). set (q := INR nt / (INR nt - 1)).
  assert (E1 : Rsum (map (fun y => dot nt y (approx nt c m) - q * q * (m * m) * (Rabs (nth c y 0) * (1 - Rabs (nth c y 0)))) (rl x)) =
    Rsum (map (fun y => dot nt y (approx nt c m)) (rl x)) - q * q * (m * m) * curvature (target c (rl x))).
  { unfold curvature, target. rewrite map_map, <- Rsum_map_mult. generalize (rl x). intros g. induction g as [|y g IH]; cbn [map]; rewrite ?Rsum_cons; [cbn; ring|]. rewrite IH. ring. }
  rewrite E1, dot_sum.
  assert (E : Rsum (map (fun j => nth j (approx nt c m) 0 * Rsum (target j (rl x))) (seq 0 nt)) = m * (INR nt / (INR nt - 1)) * Rsum (target c (rl x))).
  { rewrite (Rsum_map_ext _ (fun j => (- m / (INR nt - 1)) * Rsum (target j (rl x)) + (m * (INR nt / (INR nt - 1)) * Rsum (target c (rl x))) * (if (j =? c)%nat then 1 else 0))).
    - rewrite Rsum_map_plus, !Rsum_map_mult. rewrite (residual_targets nt) by exact Hr. pose proof (hot_sum nt c Hcn) as Hh. unfold hot in Hh. rewrite Hh. ring.
    - intros j Hj. apply in_seq in Hj. rewrite approx_nth by lia. destruct (Nat.eqb_spec j c) as [->|_]; [field; lra|ring]. }
  rewrite E. apply Req_le. symmetry. apply Rminus_diag_eq. unfold m, q. rewrite class_output_nth by auto. specialize (Hc c Hcn). field. lra.
Qed.

(* ------------------------------------------------------------------ *)
(** ** A stage: the slope is at least a multiple of the variance *)

Lemma residual_weight k s c j : (2 <= k)%nat -> length s = k -> (j < k)%nat ->
  Rabs (nth j (residual k (s, c)) 0) * (1 - Rabs (nth j (residual k (s, c)) 0)) = probability s j * (1 - probability s j).
Proof.
  intros Hk Ls Hj. rewrite residual_nth by auto. cbn [fst snd]. pose proof (probability_bounds s j ltac:(lia) ltac:(lia)) as P.
  destruct (c =? j)%nat; [rewrite Rabs_right by lra|rewrite Rabs_left by lra]; ring.
Qed.

Lemma prob_var_weight k s o c : (2 <= k)%nat -> length s = k -> prob_var s o <= 2 * weight k (residual k (s, c)) o.
Proof.
  intros Hk Ls. assert (Hne : s <> []) by (destruct s; [cbn in Ls; lia|discriminate]).
  unfold prob_var, prob_mean. eapply Rle_trans; [apply (variance_bound (probability s) (fun j => nth j o 0))|].
  - intros j _. left. now apply probability_pos.
  - now apply probability_sum.
  - apply Req_le. f_equal. unfold weight. rewrite Ls. apply Rsum_map_ext. intros j Hj. apply in_seq in Hj. rewrite residual_weight by (auto; lia). reflexivity.
Qed.

Lemma prob_var_approx k s c m : (2 <= k)%nat -> length s = k -> (c < k)%nat ->
  prob_var s (approx k c m) = (INR k / (INR k - 1)) * (INR k / (INR k - 1)) * (m * m) * (probability s c * (1 - probability s c)).
Proof.
  intros Hk Ls Hc. assert (Hne : s <> []) by (destruct s; [cbn in Ls; lia|discriminate]). pose proof (INR_ge2 k Hk) as Hn.
  pose proof (probability_sum s Hne) as P. unfold prob_var, prob_mean. rewrite (variance_square (probability s) (fun j => nth j (approx k c m) 0)) by exact P.
  set (p := probability s c). set (b := - m / (INR k - 1)).
  assert (Q : forall g : R -> R, Rsum (map (fun j => probability s j * g (nth j (approx k c m) 0)) (seq 0 (length s))) = g b + p * (g m - g b)).
  { intros g. rewrite (Rsum_map_ext _ (fun j => g b * probability s j + p * (g m - g b) * (if (j =? c)%nat then 1 else 0))).
    - rewrite Rsum_map_plus, !Rsum_map_mult, P. rewrite Ls. pose proof (hot_sum k c Hc) as Hh. unfold hot in Hh. rewrite Hh. ring.
    - intros j Hj. apply in_seq in Hj. rewrite approx_nth by lia. fold b. destruct (Nat.eqb_spec j c) as [->|_]; [fold p; ring|ring]. }
  rewrite (Q (fun v => v * v)). rewrite (Q (fun v => v)). unfold b. field. lra.
Qed.

Lemma map_triples {A} (g : list R * (list R * nat) -> A) (h : list xr -> list R) (rows : list (list xr)) ss cs :
  map g (triples (map h rows) ss cs) = map (fun p => g (h (fst p), snd p)) (combine rows (combine ss cs)).
Proof. unfold triples. generalize (combine ss cs). induction rows as [|row rows IH]; intros [|q l]; cbn; auto. now rewrite IH. Qed.

Definition slope (k : nat) (tr : list (list R * (list R * nat))) : R := Rsum (map (fun p => dot k (residual k (snd p)) (fst p)) tr).
Definition spread (tr : list (list R * (list R * nat))) : R := Rsum (map (fun p => prob_var (fst (snd p)) (fst p)) tr).

Lemma multi_slope nc nt d cs ss cfg t :
  (2 <= nt)%nat -> wf_dataset nc nt d -> one_hot_labels nt d -> real_labels (map (hot nt) cs) d -> rectangular nt ss -> length ss = length (feature_rows d) ->
  grad_boost_tree_new (fitted d (map (map Fin) ss)) cfg (leaf_output_calculator_new MultiClassClassification) = Ok t ->
  INR nt / (2 * (INR nt - 1)) * spread (triples (map (looked_up gl_val t) (feature_rows d)) ss cs) <=
  slope nt (triples (map (looked_up gl_val t) (feature_rows d)) ss cs).
Proof.
  intros Hk W HO Hl Rs Ls E. rewrite grad_boost_tree_new_eq in E. apply build_with_built in E.
  pose proof (INR_ge2 nt Hk) as Hn.
  pose proof (stage_sum nc nt _ (multi_f nt) (fun x l Wx Lx Rx => multi_leaf_sum nc nt x l Hk Wx Lx Rx) d cs ss cfg t Hk W HO Hl Rs Ls E) as P.
  destruct (fitted_ok nc nt d ss Hk W HO Rs Ls) as (r & _ & Wr & Lr & Rr & _).
  unfold spread, slope. rewrite !map_triples. cbn [fst snd]. rewrite <- Rsum_map_mult.
  match goal with |- ?a <= ?b => assert (D : 0 <= b + -1 * a); [|lra] end. rewrite <- Rsum_map_mult, <- Rsum_map_plus. eapply Rle_trans; [exact P|].
  apply Rsum_map_le. intros [row [s c]] Hin. pose proof (in_combine_l _ _ _ _ Hin) as Hrow. pose proof (in_combine_l _ _ _ _ (in_combine_r _ _ _ _ Hin)) as Hs.
  pose proof (proj1 (Forall_forall _ _) Rs s Hs) as Hls. cbv beta in Hls. cbn [fst snd]. unfold leaf_value, looked_up. cbn [fst snd].
  destruct (gb_class_out nc nt _ _ _ _ row Hk Wr Lr Rr E (row_long _ _ _ _ W Hrow)) as (x & Ef & _). xr. rewrite Ef. unfold multi_f.
  set (o := gl_val _). pose proof (prob_var_weight nt s o c Hk Hls) as V.
  apply (Rmult_le_compat_l (INR nt / (2 * (INR nt - 1)))) in V; [|left; apply Rdiv_lt_0_compat; lra].
  replace (INR nt / (2 * (INR nt - 1)) * (2 * weight nt (residual nt (s, c)) o)) with (INR nt / (INR nt - 1) * weight nt (residual nt (s, c)) o) in V by (field; lra). lra.
Qed.

Lemma amg_slope nc nt d cs ss cfg t :
  (2 <= nt)%nat -> wf_dataset nc nt d -> one_hot_labels nt d -> real_labels (map (hot nt) cs) d -> rectangular nt ss -> length ss = length (feature_rows d) ->
  amg_boost_tree_new (fitted d (map (map Fin) ss)) cfg (leaf_output_calculator_new MultiClassClassification) = Ok t ->
  1 * spread (triples (map (looked_up (al_val nt) t) (feature_rows d)) ss cs) <= slope nt (triples (map (looked_up (al_val nt) t) (feature_rows d)) ss cs).
Proof.
  intros Hk W HO Hl Rs Ls E. rewrite amg_boost_tree_new_eq in E. apply build_with_built in E.
  pose proof (INR_ge2 nt Hk) as Hn.
  pose proof (stage_sum nc nt _ (amg_f nt) (fun x l Wx Lx Rx => amg_leaf_sum nc nt x l Hk Wx Lx Rx) d cs ss cfg t Hk W HO Hl Rs Ls E) as P.
  destruct (fitted_ok nc nt d ss Hk W HO Rs Ls) as (r & _ & Wr & Lr & Rr & _).
  unfold spread, slope. rewrite !map_triples. cbn [fst snd]. rewrite <- Rsum_map_mult.
  match goal with |- ?a <= ?b => assert (D : 0 <= b + -1 * a); [|lra] end. rewrite <- Rsum_map_mult, <- Rsum_map_plus. eapply Rle_trans; [exact P|].
  apply Rsum_map_le. intros [row [s c]] Hin. pose proof (in_combine_l _ _ _ _ Hin) as Hrow. pose proof (in_combine_l _ _ _ _ (in_combine_r _ _ _ _ Hin)) as Hs.
  pose proof (proj1 (Forall_forall _ _) Rs s Hs) as Hls. cbv beta in Hls. cbn [fst snd]. unfold leaf_value, looked_up. cbn [fst snd].
  destruct (amg_class_out nc nt _ _ _ _ row Hk Wr Lr Rr E (row_long _ _ _ _ W Hrow)) as (x & c' & Hc' & Ef & _). xr. rewrite Ef. unfold amg_f, al_val. cbn [al_max al_class xval].
  rewrite residual_weight by auto. rewrite prob_var_approx by auto. apply Req_le. ring.
Qed.

(* ------------------------------------------------------------------ *)
(** ** The loss after a step *)

Lemma prob_var_nonneg s o : s <> [] -> 0 <= prob_var s o.
Proof.
  intros H. apply Rsum_nonneg. intros y Hy. apply in_map_iff in Hy as (j & <- & _). apply Rmult_le_pos; [left; now apply probability_pos|].
  exact (Rle_0_sqr (nth j o 0 - prob_mean s o)).
Qed.

Lemma step_variance_eq lr s o : length o = length s -> step_variance s (vstep lr s o) = lr * lr * prob_var s o.
Proof.
  intros L. unfold step_variance, prob_var.
  assert (E : forall j, In j (seq 0 (length s)) -> nth j (vstep lr s o) 0 - nth j s 0 = lr * nth j o 0).
  { intros j Hj. apply in_seq in Hj. unfold vstep. rewrite nth_map2 by lia. ring. }
  assert (M : Rsum (map (fun j => probability s j * (nth j (vstep lr s o) 0 - nth j s 0)) (seq 0 (length s))) = lr * prob_mean s o).
  { unfold prob_mean. rewrite <- Rsum_map_mult. apply Rsum_map_ext. intros j Hj. rewrite (E j Hj). ring. }
  rewrite M, <- Rsum_map_mult. apply Rsum_map_ext. intros j Hj. rewrite (E j Hj). ring.
Qed.

Lemma Forall2_nth {A} (P : A -> A -> Prop) (l l' : list A) x j : Forall2 P l l' -> (j < length l)%nat -> P (nth j l x) (nth j l' x).
Proof. intros H. revert j. induction H as [|a b l l' Hab H IH]; intros [|j] Hj; cbn in *; try lia; auto. apply IH. lia. Qed.

Lemma small_step lr s o j : length o = length s -> (j < length s)%nat -> Forall2 (fun a b => Rabs (b - a) <= 1 / 2) s (vstep lr s o) ->
  lr * (nth j o 0 - prob_mean s o) <= 1.
Proof.
  intros L Hj H. assert (Hne : s <> []) by (destruct s; [cbn in Hj; lia|discriminate]).
  assert (B : forall i, (i < length s)%nat -> Rabs (nth i (map (Rmult lr) o) 0) <= 1 / 2).
  { intros i Hi. pose proof (Forall2_nth _ _ _ 0 i H Hi) as Q. cbv beta in Q. unfold vstep in Q. rewrite nth_map2 in Q by lia.
    replace (nth i s 0 + lr * nth i o 0 - nth i s 0) with (lr * nth i o 0) in Q by ring.
    rewrite (nth_indep _ 0 (lr * 0)) by (rewrite map_length; lia). rewrite (map_nth (Rmult lr)). exact Q. }
  pose proof (prob_mean_bound s _ (1 / 2) Hne B) as M. pose proof (B j Hj) as Bj. apply abs_inv in M. apply abs_inv in Bj.
  rewrite (nth_indep _ 0 (lr * 0)) in Bj by (rewrite map_length; lia). rewrite (map_nth (Rmult lr)) in Bj.
  assert (E : prob_mean s (map (Rmult lr) o) = lr * prob_mean s o).
  { unfold prob_mean. rewrite <- Rsum_map_mult. apply Rsum_map_ext. intros i Hi. apply in_seq in Hi.
    rewrite (nth_indep _ 0 (lr * 0)) by (rewrite map_length; lia). rewrite (map_nth (Rmult lr)). ring. }
  rewrite E in M. lra.
Qed.

Lemma steps_loss nt lr ss os cs : rectangular nt ss -> rectangular nt os -> length os = length ss -> Forall (fun c => (c < nt)%nat) cs -> length cs = length ss ->
  moves_at_most (1 / 2) ss (map2 (vstep lr) ss os) ->
  total_loss (combine (map2 (vstep lr) ss os) cs) <= total_loss (combine ss cs) - lr * slope nt (triples os ss cs) + lr * lr * spread (triples os ss cs) /\
  steps_variance ss (map2 (vstep lr) ss os) = lr * lr * spread (triples os ss cs) /\ 0 <= spread (triples os ss cs).
Proof.
  intros Rs. revert os cs. induction Rs as [|s ss Hs Rs IH]; intros [|o os] [|c cs] Ro Lo Hc Lc M; try discriminate.
  - unfold total_loss, steps_variance, slope, spread. cbn. lra.
  - pose proof (Forall_inv Ro) as Ho. pose proof (Forall_inv_tail Ro) as Ro'. pose proof (Forall_inv Hc) as Hc0. pose proof (Forall_inv_tail Hc) as Hc'.
    cbv beta in Ho, Hc0. cbn [map2] in M |- *. inversion M as [|? ? ? ? M1 M2]; subst. destruct (IH os cs) as (I1 & I2 & I3); auto.
    assert (Hne : s <> []) by (destruct s; [cbn in Hc0; lia|discriminate]).
    unfold total_loss, steps_variance, slope, spread, triples in *. cbn [combine map fst snd]. rewrite !Rsum_cons. cbn [fst snd].
    pose proof (row_step s o c lr Ho Hc0 (fun j Hj => small_step lr s o j Ho Hj M1)) as Q. pose proof (prob_var_nonneg s o Hne) as V.
    rewrite (step_variance_eq lr s o Ho). set (a := log_loss (vstep lr s o) c) in *. set (v := prob_var s o) in *. set (g := dot _ _ o) in *.
    split; [lra|]. split; [|lra]. rewrite I2. ring.
Qed.

Lemma steps_drop nt lr ss os cs C : rectangular nt ss -> rectangular nt os -> length os = length ss -> Forall (fun c => (c < nt)%nat) cs -> length cs = length ss ->
  0 < lr -> 0 < C -> descends nt os ss cs -> C * spread (triples os ss cs) <= slope nt (triples os ss cs) ->
  moves_at_most (1 / 2) ss (map2 (vstep lr) ss os) ->
  total_loss (combine (map2 (vstep lr) ss os) cs) + (C / lr - 1) * steps_variance ss (map2 (vstep lr) ss os) <= total_loss (combine ss cs) /\
  (lr < C -> map2 (vstep lr) ss os = ss \/ total_loss (combine (map2 (vstep lr) ss os) cs) < total_loss (combine ss cs)).
Proof.
  intros Rs Ro Lo Hc Lc Hlr HC D HS M. destruct (steps_loss nt lr ss os cs Rs Ro Lo Hc Lc M) as (A & B & V). rewrite B.
  set (g := slope _ _) in *. set (v := spread _) in *. set (a := total_loss _) in *. set (b := total_loss _) in *. split.
  - replace ((C / lr - 1) * (lr * lr * v)) with (lr * (C * v) - lr * lr * v) by (field; lra). apply (Rmult_le_compat_l lr) in HS; lra.
  - intros HlC. destruct D as [D|D]; [left; now apply (zero_steps nt)|right]. change (0 < g) in D.
    assert (lr * v < g). { destruct V as [V|V]; [|rewrite <- V; lra]. apply Rlt_le_trans with (C * v); [|lra]. now apply Rmult_lt_compat_r. }
    apply (Rmult_lt_compat_l lr) in H; lra.
Qed.

(* ------------------------------------------------------------------ *)
(** ** When the steps are small *)

Definition away (nt : nat) (eps : R) (ss : list (list R)) : Prop := forall s j, In s ss -> (j < nt)%nat -> eps <= probability s j <= 1 - eps.

Lemma output_bound nt eps group j : (2 <= nt)%nat -> 0 < eps -> (j < nt)%nat -> 0 < curvature (target j group) ->
  (forall y, In y group -> Rabs (nth j y 0) <= 1 - eps) -> Rabs (nth j (class_output nt group) 0) <= (INR nt - 1) / (INR nt * eps).
Proof.
  intros Hk He Hj Hc Hy. pose proof (INR_ge2 nt Hk) as Hn. rewrite class_output_nth by auto. set (cv := curvature _) in *. set (S := Rsum _).
  assert (Q : eps * Rabs S <= cv).
  { unfold S, cv, curvature, target. rewrite map_map. clear Hc S cv. induction group as [|y group IH]; cbn [map]; rewrite ?Rsum_cons.
    - cbn. rewrite Rabs_R0. lra.
    - specialize (IH (fun z Hz => Hy z (or_intror Hz))). pose proof (Hy y (or_introl eq_refl)) as H. set (r := Rsum _) in *.
      pose proof (Rabs_triang (nth j y 0) r) as T. pose proof (Rabs_pos (nth j y 0)) as P. apply (Rmult_le_compat_l eps) in T; [|lra].
      assert (eps * Rabs (nth j y 0) <= Rabs (nth j y 0) * (1 - Rabs (nth j y 0))) by (rewrite Rmult_comm; apply Rmult_le_compat_l; lra). lra. }
  rewrite Rabs_mult. rewrite (Rabs_right ((INR nt - 1) / INR nt)) by (apply Rle_ge; left; apply Rdiv_lt_0_compat; lra).
  replace ((INR nt - 1) / (INR nt * eps)) with ((INR nt - 1) / INR nt * / eps) by (field; lra).
  apply Rmult_le_compat_l; [left; apply Rdiv_lt_0_compat; lra|]. unfold Rdiv. rewrite Rabs_mult, (Rabs_right (/ cv)) by (apply Rle_ge; left; now apply Rinv_0_lt_compat).
  apply (Rmult_le_reg_l eps); [lra|]. rewrite Rinv_r by lra. apply (Rmult_le_reg_r cv); [lra|]. rewrite <- Rmult_assoc, Rmult_assoc, Rinv_l by lra. lra.
Qed.

Lemma residual_away nt eps ss cs q j : (2 <= nt)%nat -> rectangular nt ss -> away nt eps ss -> In q (combine ss cs) -> (j < nt)%nat -> Rabs (nth j (residual nt q) 0) <= 1 - eps.
Proof.
  intros Hk Rs A Hq Hj. destruct q as [s c]. pose proof (in_combine_l _ _ _ _ Hq) as Hs. pose proof (proj1 (Forall_forall _ _) Rs s Hs) as Ls. cbv beta in Ls.
  rewrite residual_nth by auto. cbn [fst snd]. pose proof (A s j Hs Hj) as P. pose proof (probability_bounds s j ltac:(lia) ltac:(lia)).
  destruct (c =? j)%nat; [rewrite Rabs_right by lra|rewrite Rabs_left by lra]; lra.
Qed.

Lemma outputs_move nt lr ss os b : rectangular nt ss -> rectangular nt os -> length os = length ss -> 0 < lr -> lr * b <= 1 / 2 ->
  (forall o j, In o os -> (j < nt)%nat -> Rabs (nth j o 0) <= b) -> moves_at_most (1 / 2) ss (map2 (vstep lr) ss os).
Proof.
  intros Rs. revert os. induction Rs as [|s ss Hs Rs IH]; intros [|o os] Ro Lo Hlr Hb Ho; try discriminate; cbn [map2]; [constructor|].
  pose proof (Forall_inv Ro) as L. pose proof (Forall_inv_tail Ro) as Ro'. cbv beta in L. constructor; [|apply IH; auto; intros; apply Ho; auto; now right].
  assert (Hx : Forall (fun y => Rabs y <= b) o).
  { apply Forall_forall. intros y Hy. apply (In_nth _ _ 0) in Hy as (j & Hj & <-). apply Ho; [now left|lia]. }
  rewrite <- L in Hs. clear -Hs Hx Hlr Hb. revert s Hs. induction Hx as [|y o Hy Hx IH]; intros [|a s] Hs; try discriminate; unfold vstep in *; cbn [map2]; constructor; auto.
  replace (a + lr * y - a) with (lr * y) by ring. rewrite Rabs_mult, Rabs_right by lra. apply (Rmult_le_compat_l lr) in Hy; lra.
Qed.

Lemma rate_product nt eps lr : (2 <= nt)%nat -> 0 < eps -> lr <= INR nt * eps / (2 * (INR nt - 1)) -> lr * ((INR nt - 1) / (INR nt * eps)) <= 1 / 2.
Proof.
  intros Hk He H. pose proof (INR_ge2 nt Hk) as Hn. assert (P : 0 < (INR nt - 1) / (INR nt * eps)) by (apply Rdiv_lt_0_compat; [lra|apply Rmult_lt_0_compat; lra]).
  apply (Rmult_le_compat_r _ _ _ (Rlt_le _ _ P)) in H. replace (1 / 2) with (INR nt * eps / (2 * (INR nt - 1)) * ((INR nt - 1) / (INR nt * eps))) by (field; lra). exact H.
Qed.

Lemma multi_small nc nt d cs ss cfg t eps lr :
  (2 <= nt)%nat -> wf_dataset nc nt d -> one_hot_labels nt d -> real_labels (map (hot nt) cs) d -> rectangular nt ss -> length ss = length (feature_rows d) ->
  rectangular nt (map (looked_up gl_val t) (feature_rows d)) ->
  grad_boost_tree_new (fitted d (map (map Fin) ss)) cfg (leaf_output_calculator_new MultiClassClassification) = Ok t ->
  0 < eps -> away nt eps ss -> 0 < lr -> lr <= INR nt * eps / (2 * (INR nt - 1)) ->
  moves_at_most (1 / 2) ss (map2 (vstep lr) ss (map (looked_up gl_val t) (feature_rows d))).
Proof.
  intros Hk W HO Hl Rs Ls Ro E He A Hlr Hb. rewrite grad_boost_tree_new_eq in E. apply build_with_built in E.
  destruct (fitted_ok nc nt d ss Hk W HO Rs Ls) as (r & _ & Wr & Lr & Rr & _).
  apply (outputs_move nt lr ss _ ((INR nt - 1) / (INR nt * eps))); auto; [rewrite map_length; symmetry; exact Ls|now apply rate_product|].
  intros o j Ho Hj. apply in_map_iff in Ho as (row & <- & Hin).
  destruct (gb_class_out nc nt _ _ _ _ row Hk Wr Lr Rr E (row_long _ _ _ _ W Hin)) as (x & Ef & [_ Hc] & Sx & Wx & Lx).
  destruct (leaf_group nc nt d cs ss Hk W Hl Rs Ls row t x Wx Lx Sx) as [Eg _].
  unfold looked_up. xr. rewrite Ef. unfold gl_val. cbn [gl_output]. rewrite map_xval_Fin. apply output_bound; auto.
  intros y Hy. rewrite Eg in Hy. apply in_map_iff in Hy as (q & <- & Hq). apply in_map_iff in Hq as (z & <- & Hz).
  apply (residual_away nt eps ss cs); auto. unfold reaching in Hz. apply filter_In in Hz as [Hz _]. destruct z as [z1 z2]. exact (in_combine_r _ _ _ _ Hz).
Qed.

Lemma amg_small nc nt d cs ss cfg t eps lr :
  (2 <= nt)%nat -> wf_dataset nc nt d -> one_hot_labels nt d -> real_labels (map (hot nt) cs) d -> rectangular nt ss -> length ss = length (feature_rows d) ->
  rectangular nt (map (looked_up (al_val nt) t) (feature_rows d)) ->
  amg_boost_tree_new (fitted d (map (map Fin) ss)) cfg (leaf_output_calculator_new MultiClassClassification) = Ok t ->
  0 < eps -> away nt eps ss -> 0 < lr -> lr <= INR nt * eps / (2 * (INR nt - 1)) ->
  moves_at_most (1 / 2) ss (map2 (vstep lr) ss (map (looked_up (al_val nt) t) (feature_rows d))).
Proof.
  intros Hk W HO Hl Rs Ls Ro E He A Hlr Hb. rewrite amg_boost_tree_new_eq in E. apply build_with_built in E.
  destruct (fitted_ok nc nt d ss Hk W HO Rs Ls) as (r & _ & Wr & Lr & Rr & _). pose proof (INR_ge2 nt Hk) as Hn.
  apply (outputs_move nt lr ss _ ((INR nt - 1) / (INR nt * eps))); auto; [rewrite map_length; symmetry; exact Ls|now apply rate_product|].
  intros o j Ho Hj. apply in_map_iff in Ho as (row & <- & Hin).
  destruct (amg_class_out nc nt _ _ _ _ row Hk Wr Lr Rr E (row_long _ _ _ _ W Hin)) as (x & c & Hc' & Ef & _ & [_ Hc] & Sx & Wx & Lx).
  destruct (leaf_group nc nt d cs ss Hk W Hl Rs Ls row t x Wx Lx Sx) as [Eg _].
  assert (B : Rabs (nth c (class_output nt (rl x)) 0) <= (INR nt - 1) / (INR nt * eps)).
  { apply output_bound; auto. intros y Hy. rewrite Eg in Hy. apply in_map_iff in Hy as (q & <- & Hq). apply in_map_iff in Hq as (z & <- & Hz).
    apply (residual_away nt eps ss cs); auto. unfold reaching in Hz. apply filter_In in Hz as [Hz _]. destruct z as [z1 z2]. exact (in_combine_r _ _ _ _ Hz). }
  unfold looked_up. xr. rewrite Ef. unfold al_val. cbn [al_max al_class xval]. rewrite approx_nth by auto. set (m := nth c _ 0) in *.
  destruct (j =? c)%nat; [exact B|]. eapply Rle_trans; [|exact B]. unfold Rdiv. rewrite Rabs_mult, Rabs_Ropp.
  assert (H1 : 1 <= INR nt - 1) by (apply le_INR in Hk; cbn in Hk; lra). rewrite (Rabs_right (/ _)) by (apply Rle_ge; left; apply Rinv_0_lt_compat; lra).
  rewrite <- (Rmult_1_r (Rabs m)) at 2. apply Rmult_le_compat_l; [apply Rabs_pos|]. rewrite <- Rinv_1. apply Rinv_le_contravar; lra.
Qed.

(* ------------------------------------------------------------------ *)
(** ** Ensembles *)

Definition lowers (C : R) (nt : nat) (lr : R) (ss ss' : list (list R)) (cs : list nat) : Prop :=
  (moves_at_most (1 / 2) ss ss' ->
     total_loss (combine ss' cs) + (C / lr - 1) * steps_variance ss ss' <= total_loss (combine ss cs) /\
     (lr < C -> ss' = ss \/ total_loss (combine ss' cs) < total_loss (combine ss cs))) /\
  (forall eps, 0 < eps -> (forall s j, In s ss -> (j < nt)%nat -> eps <= probability s j <= 1 - eps) ->
     lr <= INR nt * eps / (2 * (INR nt - 1)) -> moves_at_most (1 / 2) ss ss').

Lemma multi_lowers nc nt d cfg n lr m k cs :
  (2 <= nt)%nat -> (Z.of_nat nt <= 2 ^ 53)%Z -> wf_dataset nc nt d -> one_hot_labels nt d -> 0 < lr ->
  real_labels (map (hot nt) cs) d -> Forall (fun c => (c < nt)%nat) cs ->
  multi_class_boost_train d cfg n (Fin lr) = Ok m -> (k < n)%nat ->
  exists ss ss', mapM (multi_class_boost_raw (first_trees k m)) (feature_rows d) = Ok (map (map Fin) ss) /\
    mapM (multi_class_boost_raw (first_trees (S k) m)) (feature_rows d) = Ok (map (map Fin) ss') /\
    lowers (INR nt / (2 * (INR nt - 1))) nt lr ss ss' cs.
Proof.
  intros Hk Hz W HO Hlr El Hcs E Hkn. pose proof (INR_ge2 nt Hk) as Hn.
  destruct (multi_core nc nt d cfg n lr m k cs Hk Hz W HO El E Hkn) as (ss & t & os & S1 & S2 & Eb & Eo & Rs & Ro & Ls & D).
  exists ss, (map2 (vstep lr) ss os). split; [exact S1|]. split; [exact S2|]. rewrite Eo in *. split.
  - intros M. apply (steps_drop nt); auto.
    + rewrite map_length. symmetry. exact Ls.
    + rewrite Ls. exact (cs_length nc nt d cs W El).
    + apply Rdiv_lt_0_compat; lra.
    + exact (multi_slope nc nt d cs ss cfg t Hk W HO El Rs Ls Eb).
  - intros eps He A Hb. exact (multi_small nc nt d cs ss cfg t eps lr Hk W HO El Rs Ls Ro Eb He A Hlr Hb).
Qed.

Lemma amg_lowers nc nt d cfg n lr m k cs :
  (2 <= nt)%nat -> (Z.of_nat nt <= 2 ^ 53)%Z -> wf_dataset nc nt d -> one_hot_labels nt d -> 0 < lr ->
  real_labels (map (hot nt) cs) d -> Forall (fun c => (c < nt)%nat) cs ->
  amg_boost_train d cfg n (Fin lr) = Ok m -> (k < n)%nat ->
  exists ss ss', mapM (amg_boost_raw (first_trees k m)) (feature_rows d) = Ok (map (map Fin) ss) /\
    mapM (amg_boost_raw (first_trees (S k) m)) (feature_rows d) = Ok (map (map Fin) ss') /\ lowers 1 nt lr ss ss' cs.
Proof.
  intros Hk Hz W HO Hlr El Hcs E Hkn.
  destruct (amg_core nc nt d cfg n lr m k cs Hk Hz W HO El E Hkn) as (ss & t & os & S1 & S2 & Eb & Eo & Rs & Ro & Ls & D).
  exists ss, (map2 (vstep lr) ss os). split; [exact S1|]. split; [exact S2|]. rewrite Eo in *. split.
  - intros M. apply (steps_drop nt); auto.
    + rewrite map_length. symmetry. exact Ls.
    + rewrite Ls. exact (cs_length nc nt d cs W El).
    + lra.
    + exact (amg_slope nc nt d cs ss cfg t Hk W HO El Rs Ls Eb).
  - intros eps He A Hb. exact (amg_small nc nt d cs ss cfg t eps lr Hk W HO El Rs Ls Ro Eb He A Hlr Hb).
Qed.

Theorem multi_class_drop nc nt d cfg n lr m m' :
  (2 <= nt)%nat -> (Z.of_nat nt <= 2 ^ 53)%Z -> wf_dataset nc nt d -> one_hot_labels nt d -> 0 < lr ->
  multi_class_boost_train d cfg n (Fin lr) = Ok m -> multi_class_boost_train d cfg (S n) (Fin lr) = Ok m' ->
  exists ss ss' cs, mapM (multi_class_boost_raw m) (feature_rows d) = Ok (map (map Fin) ss) /\
    mapM (multi_class_boost_raw m') (feature_rows d) = Ok (map (map Fin) ss') /\ classes nt d cs /\
    lowers (INR nt / (2 * (INR nt - 1))) nt lr ss ss' cs.
Proof.
  intros Hk Hz W HO Hlr E E'. destruct (one_hot_labels_real nt d HO) as (cs & El & Hcs).
  destruct (multi_lowers nc nt d cfg (S n) lr m' n cs Hk Hz W HO Hlr El Hcs E' ltac:(lia)) as (ss & ss' & S1 & S2 & Q).
  pose proof (multi_class_prefix d cfg (S n) n (Fin lr) m' ltac:(lia) E') as P. rewrite P in E. injection E as E. rewrite E in S1.
  destruct (multi_guess nc nt d cfg (S n) (Fin lr) m' ltac:(lia) Hz W E') as (_ & _ & HT). rewrite (first_all m' (S n) HT) in S2.
  exists ss, ss', cs. split; [exact S1|]. split; [exact S2|]. split; [now apply classes_hot|exact Q].
Qed.

Theorem amg_drop nc nt d cfg n lr m m' :
  (2 <= nt)%nat -> (Z.of_nat nt <= 2 ^ 53)%Z -> wf_dataset nc nt d -> one_hot_labels nt d -> 0 < lr ->
  amg_boost_train d cfg n (Fin lr) = Ok m -> amg_boost_train d cfg (S n) (Fin lr) = Ok m' ->
  exists ss ss' cs, mapM (amg_boost_raw m) (feature_rows d) = Ok (map (map Fin) ss) /\
    mapM (amg_boost_raw m') (feature_rows d) = Ok (map (map Fin) ss') /\ classes nt d cs /\ lowers 1 nt lr ss ss' cs.
Proof.
  intros Hk Hz W HO Hlr E E'. destruct (one_hot_labels_real nt d HO) as (cs & El & Hcs).
  destruct (amg_lowers nc nt d cfg (S n) lr m' n cs Hk Hz W HO Hlr El Hcs E' ltac:(lia)) as (ss & ss' & S1 & S2 & Q).
  pose proof (amg_prefix d cfg (S n) n (Fin lr) m' ltac:(lia) E') as P. rewrite P in E. injection E as E. rewrite E in S1.
  destruct (amg_guess nc nt d cfg (S n) (Fin lr) m' ltac:(lia) Hz W E') as (_ & _ & HT). rewrite (first_all m' (S n) HT) in S2.
  exists ss, ss', cs. split; [exact S1|]. split; [exact S2|]. split; [now apply classes_hot|exact Q].
Qed.

(** The first scores: every class has the same probability. *)
Lemma nth_repeat' (x : R) n j : (j < n)%nat -> nth j (repeat x n) 0 = x.
Proof. revert j. induction n as [|n IH]; intros [|j] H; cbn; try lia; auto. apply IH. lia. Qed.

Lemma even_probability nt j : (0 < nt)%nat -> (j < nt)%nat -> probability (even nt) j = / INR nt.
Proof.
  intros H Hj. unfold probability, even. rewrite (nth_repeat' (1 / INR nt) nt j Hj), map_repeat'. set (x := exp _).
  assert (E : forall n, Rsum (repeat x n) = INR n * x). { induction n as [|n IHn]; [cbn; unfold Rsum; cbn; ring|]. cbn [repeat]. rewrite Rsum_cons, IHn, S_INR. ring. }
  rewrite E. pose proof (lt_0_INR nt H). pose proof (exp_pos (1 / INR nt)). fold x in H1. field. lra.
Qed.

Lemma even_loss nt cs : (0 < nt)%nat -> Forall (fun c => (c < nt)%nat) cs ->
  total_loss (combine (map (fun _ : nat => even nt) cs) cs) = INR (length cs) * ln (INR nt).
Proof.
  intros H Hc. induction Hc as [|c cs Hc _ IH]; [cbn; ring|]. unfold total_loss in *. cbn [map combine]. rewrite Rsum_cons. cbn [fst snd].
  etransitivity; [apply f_equal; exact IH|]. unfold log_loss. rewrite even_probability by auto. pose proof (lt_0_INR nt H). rewrite ln_Rinv by auto. cbn [length]. rewrite S_INR. ring.
Qed.

Lemma even_scores_loss nt cs (rows : list (list xr)) : (0 < nt)%nat -> Forall (fun c => (c < nt)%nat) cs -> length cs = length rows ->
  total_loss (combine (map (fun _ => even nt) rows) cs) = INR (length rows) * ln (INR nt).
Proof.
  intros H Hc L. rewrite <- L. rewrite <- (even_loss nt cs H Hc). f_equal. f_equal.
  clear Hc. revert rows L. induction cs as [|c cs IH]; intros [|r rows] L; cbn in *; try lia; auto. f_equal. apply IH. lia.
Qed.

Lemma rate_half (a : R) : 1 < a -> 1 / (2 * (a - 1)) = a * / a / (2 * (a - 1)).
Proof. intros H. field. lra. Qed.

Lemma lowers_le C nt lr ss ss' cs : 0 < lr -> lr <= C -> 0 <= steps_variance ss ss' -> lowers C nt lr ss ss' cs -> moves_at_most (1 / 2) ss ss' ->
  total_loss (combine ss' cs) <= total_loss (combine ss cs).
Proof.
  intros Hlr Hc Hv [L _] M. destruct (L M) as [H _]. assert (1 <= C / lr). { apply Rmult_le_reg_r with lr; auto. field_simplify; lra. }
  pose proof (Rmult_le_pos (C / lr - 1) _ ltac:(lra) Hv). lra.
Qed.

Lemma steps_variance_nonneg ss ss' : 0 <= steps_variance ss ss'.
Proof.
  apply Rsum_nonneg. intros x Hx. apply in_map_iff in Hx as ([s s'] & <- & _). cbn [fst snd]. unfold step_variance.
  apply Rsum_nonneg. intros x Hx. apply in_map_iff in Hx as (j & <- & _). apply Rmult_le_pos; [|rewrite <- Rsqr_pow2; apply Rle_0_sqr].
  unfold probability, Rdiv. apply Rmult_le_pos; [left; apply exp_pos|].
  destruct s as [|a s]; [unfold Rsum; cbn; rewrite Rinv_0; lra|]. left. apply Rinv_0_lt_compat. cbn [map]. rewrite Rsum_cons.
  pose proof (exp_pos a). assert (0 <= Rsum (map exp s)) by (apply Rsum_nonneg; intros y Hy; apply in_map_iff in Hy as (z & <- & _); left; apply exp_pos). lra.
Qed.

Theorem multi_class_run_drop nc nt d cfg i n lr mi m :
  (2 <= nt)%nat -> (Z.of_nat nt <= 2 ^ 53)%Z -> wf_dataset nc nt d -> one_hot_labels nt d ->
  0 < lr <= INR nt / (2 * (INR nt - 1)) -> (i <= n)%nat ->
  multi_class_boost_train d cfg i (Fin lr) = Ok mi -> multi_class_boost_train d cfg n (Fin lr) = Ok m ->
  (forall k a b sa sb, (i <= k < n)%nat -> multi_class_boost_train d cfg k (Fin lr) = Ok a -> multi_class_boost_train d cfg (S k) (Fin lr) = Ok b ->
     mapM (multi_class_boost_raw a) (feature_rows d) = Ok (map (map Fin) sa) -> mapM (multi_class_boost_raw b) (feature_rows d) = Ok (map (map Fin) sb) ->
     moves_at_most (1 / 2) sa sb) ->
  forall ss ss' cs, mapM (multi_class_boost_raw mi) (feature_rows d) = Ok (map (map Fin) ss) ->
    mapM (multi_class_boost_raw m) (feature_rows d) = Ok (map (map Fin) ss') -> real_labels (map (hot nt) cs) d -> Forall (fun c => (c < nt)%nat) cs ->
    total_loss (combine ss' cs) <= total_loss (combine ss cs).
Proof.
  intros Hk Hz W HO [Hlr Hc] Hin Ei E HM ss ss' cs S1 S2 El Hcs.
  assert (F : forall a b : list (list R), map (map Fin) a = map (map Fin) b -> a = b) by apply map_Fin_inj2.
  pose proof (multi_class_prefix d cfg n i (Fin lr) m Hin E) as P. rewrite P in Ei. injection Ei as <-.
  destruct (multi_guess nc nt d cfg n (Fin lr) m ltac:(lia) Hz W E) as (_ & _ & HT). rewrite <- (first_all m n HT) in S2.
  assert (G : forall j sj, (i <= j <= n)%nat -> mapM (multi_class_boost_raw (first_trees j m)) (feature_rows d) = Ok (map (map Fin) sj) ->
    total_loss (combine sj cs) <= total_loss (combine ss cs)); [|apply (G n); auto; lia].
  induction j as [|j IH]; intros sj Hj Sj.
  - assert (i = 0)%nat by lia. subst i. rewrite S1 in Sj. injection Sj as Sj. apply F in Sj. subst. lra.
  - destruct (Nat.eq_dec i (S j)) as [->|Hne].
    { rewrite S1 in Sj. injection Sj as Sj. apply F in Sj. subst. lra. }
    destruct (multi_lowers nc nt d cfg n lr m j cs Hk Hz W HO Hlr El Hcs E ltac:(lia)) as (sa & sb & Sa & Sb & Q).
    rewrite Sb in Sj. injection Sj as Sj. apply F in Sj. subst sb.
    pose proof (IH sa ltac:(lia) Sa) as Ha.
    pose proof (HM j _ _ sa sj ltac:(lia) (multi_class_prefix d cfg n j (Fin lr) m ltac:(lia) E) (multi_class_prefix d cfg n (S j) (Fin lr) m ltac:(lia) E) Sa Sb) as M.
    pose proof (lowers_le _ _ _ _ _ _ Hlr Hc (steps_variance_nonneg _ _) Q M). lra.
Qed.

Theorem amg_run_drop nc nt d cfg i n lr mi m :
  (2 <= nt)%nat -> (Z.of_nat nt <= 2 ^ 53)%Z -> wf_dataset nc nt d -> one_hot_labels nt d ->
  0 < lr <= 1 -> (i <= n)%nat ->
  amg_boost_train d cfg i (Fin lr) = Ok mi -> amg_boost_train d cfg n (Fin lr) = Ok m ->
  (forall k a b sa sb, (i <= k < n)%nat -> amg_boost_train d cfg k (Fin lr) = Ok a -> amg_boost_train d cfg (S k) (Fin lr) = Ok b ->
     mapM (amg_boost_raw a) (feature_rows d) = Ok (map (map Fin) sa) -> mapM (amg_boost_raw b) (feature_rows d) = Ok (map (map Fin) sb) ->
     moves_at_most (1 / 2) sa sb) ->
  forall ss ss' cs, mapM (amg_boost_raw mi) (feature_rows d) = Ok (map (map Fin) ss) ->
    mapM (amg_boost_raw m) (feature_rows d) = Ok (map (map Fin) ss') -> real_labels (map (hot nt) cs) d -> Forall (fun c => (c < nt)%nat) cs ->
    total_loss (combine ss' cs) <= total_loss (combine ss cs).
Proof.
  intros Hk Hz W HO [Hlr Hc] Hin Ei E HM ss ss' cs S1 S2 El Hcs.
  assert (F : forall a b : list (list R), map (map Fin) a = map (map Fin) b -> a = b) by apply map_Fin_inj2.
  pose proof (amg_prefix d cfg n i (Fin lr) m Hin E) as P. rewrite P in Ei. injection Ei as <-.
  destruct (amg_guess nc nt d cfg n (Fin lr) m ltac:(lia) Hz W E) as (_ & _ & HT). rewrite <- (first_all m n HT) in S2.
  assert (G : forall j sj, (i <= j <= n)%nat -> mapM (amg_boost_raw (first_trees j m)) (feature_rows d) = Ok (map (map Fin) sj) ->
    total_loss (combine sj cs) <= total_loss (combine ss cs)); [|apply (G n); auto; lia].
  induction j as [|j IH]; intros sj Hj Sj.
  - assert (i = 0)%nat by lia. subst i. rewrite S1 in Sj. injection Sj as Sj. apply F in Sj. subst. lra.
  - destruct (Nat.eq_dec i (S j)) as [->|Hne].
    { rewrite S1 in Sj. injection Sj as Sj. apply F in Sj. subst. lra. }
    destruct (amg_lowers nc nt d cfg n lr m j cs Hk Hz W HO Hlr El Hcs E ltac:(lia)) as (sa & sb & Sa & Sb & Q).
    rewrite Sb in Sj. injection Sj as Sj. apply F in Sj. subst sb.
    pose proof (IH sa ltac:(lia) Sa) as Ha.
    pose proof (HM j _ _ sa sj ltac:(lia) (amg_prefix d cfg n j (Fin lr) m ltac:(lia) E) (amg_prefix d cfg n (S j) (Fin lr) m ltac:(lia) E) Sa Sb) as M.
    pose proof (lowers_le _ _ _ _ _ _ Hlr Hc (steps_variance_nonneg _ _) Q M). lra.
Qed.

Lemma multi_class_start nt d cfg n lr m nc : (2 <= nt)%nat -> (Z.of_nat nt <= 2 ^ 53)%Z -> wf_dataset nc nt d -> multi_class_boost_train d cfg n (Fin lr) = Ok m ->
  mapM (multi_class_boost_raw (first_trees 0 m)) (feature_rows d) = Ok (map (map Fin) (map (fun _ => even nt) (feature_rows d))).
Proof.
  intros Hk Hz W E. destruct (multi_guess nc nt d cfg n (Fin lr) m ltac:(lia) Hz W E) as (Hg & _ & HT).
  assert (F : forall row, multi_class_boost_raw (first_trees 0 m) row = Ok (map Fin (even nt))) by (intros row; rewrite multi_raw, Hg; reflexivity).
  induction (feature_rows d) as [|r rows IH]; [reflexivity|]. cbn [mapM]. rewrite F. cbn [bind]. rewrite IH. reflexivity.
Qed.

Theorem multi_class_never_higher nc nt d cfg i n lr mi m :
  (2 <= nt)%nat -> (Z.of_nat nt <= 2 ^ 53)%Z -> wf_dataset nc nt d -> one_hot_labels nt d ->
  0 < lr <= INR nt / (2 * (INR nt - 1)) -> (i <= n)%nat ->
  multi_class_boost_train d cfg i (Fin lr) = Ok mi -> multi_class_boost_train d cfg n (Fin lr) = Ok m ->
  (forall k a b sa sb, (i <= k < n)%nat -> multi_class_boost_train d cfg k (Fin lr) = Ok a -> multi_class_boost_train d cfg (S k) (Fin lr) = Ok b ->
     mapM (multi_class_boost_raw a) (feature_rows d) = Ok (map (map Fin) sa) -> mapM (multi_class_boost_raw b) (feature_rows d) = Ok (map (map Fin) sb) ->
     moves_at_most (1 / 2) sa sb) ->
  exists ss ss' cs, mapM (multi_class_boost_raw mi) (feature_rows d) = Ok (map (map Fin) ss) /\
    mapM (multi_class_boost_raw m) (feature_rows d) = Ok (map (map Fin) ss') /\ classes nt d cs /\
    total_loss (combine ss' cs) <= total_loss (combine ss cs) /\
    (i = 0%nat -> total_loss (combine ss cs) = INR (length (feature_rows d)) * ln (INR nt)).
Proof.
  intros Hk Hz W HO Hlr Hin Ei E HM. destruct (one_hot_labels_real nt d HO) as (cs & El & Hcs).
  assert (Q : forall k a, multi_class_boost_train d cfg k (Fin lr) = Ok a -> exists s, mapM (multi_class_boost_raw a) (feature_rows d) = Ok (map (map Fin) s) /\
    (k = 0%nat -> s = map (fun _ => even nt) (feature_rows d))).
  { intros k a Ea. destruct (multi_guess nc nt d cfg k (Fin lr) a ltac:(lia) Hz W Ea) as (_ & _ & HT). destruct k as [|k].
    - exists (map (fun _ => even nt) (feature_rows d)). split; auto. rewrite <- (first_all a 0 HT). exact (multi_class_start nt d cfg 0 lr a nc Hk Hz W Ea).
    - destruct (multi_lowers nc nt d cfg (S k) lr a k cs Hk Hz W HO (proj1 Hlr) El Hcs Ea ltac:(lia)) as (sa & sb & _ & Sb & _).
      rewrite (first_all a (S k) HT) in Sb. exists sb. split; [exact Sb|discriminate]. }
  destruct (Q i mi Ei) as (ss & S1 & Hs). destruct (Q n m E) as (ss' & S2 & _). exists ss, ss', cs.
  split; [exact S1|]. split; [exact S2|]. split; [now apply classes_hot|]. split.
  - exact (multi_class_run_drop nc nt d cfg i n lr mi m Hk Hz W HO Hlr Hin Ei E HM ss ss' cs S1 S2 El Hcs).
  - intros ->. rewrite (Hs eq_refl). apply even_scores_loss; auto; [lia|]. exact (cs_length nc nt d cs W El).
Qed.

Theorem multi_class_first_drop nc nt d cfg lr m :
  (2 <= nt)%nat -> (Z.of_nat nt <= 2 ^ 53)%Z -> wf_dataset nc nt d -> one_hot_labels nt d -> 0 < lr <= 1 / (2 * (INR nt - 1)) ->
  multi_class_boost_train d cfg 1 (Fin lr) = Ok m ->
  exists ss cs, mapM (multi_class_boost_raw m) (feature_rows d) = Ok (map (map Fin) ss) /\ classes nt d cs /\
    (ss = map (fun _ => repeat (1 / INR nt) nt) (feature_rows d) \/
     total_loss (combine ss cs) < INR (length (feature_rows d)) * ln (INR nt)).
Proof.
  intros Hk Hz W HO [Hlr Hb] E. destruct (one_hot_labels_real nt d HO) as (cs & El & Hcs). assert (Hn : 2 <= INR nt) by (apply (le_INR 2) in Hk; cbn in Hk; lra).
  destruct (multi_lowers nc nt d cfg 1 lr m 0 cs Hk Hz W HO Hlr El Hcs E ltac:(lia)) as (sa & sb & Sa & Sb & Q1 & Q2).
  destruct (multi_guess nc nt d cfg 1 (Fin lr) m ltac:(lia) Hz W E) as (_ & _ & HT). rewrite (first_all m 1 HT) in Sb.
  rewrite (multi_class_start nt d cfg 1 lr m nc Hk Hz W E) in Sa. injection Sa as Sa.
  assert (F : forall a b : list (list R), map (map Fin) a = map (map Fin) b -> a = b) by apply map_Fin_inj2. apply F in Sa. subst sa.
  exists sb, cs. split; [exact Sb|]. split; [now apply classes_hot|].
  pose proof (even_scores_loss nt cs (feature_rows d) ltac:(lia) Hcs (cs_length nc nt d cs W El)) as EL.
  assert (Hi : 0 < / INR nt <= 1 / 2). { split; [apply Rinv_0_lt_compat; lra|]. unfold Rdiv. rewrite Rmult_1_l. apply (Rinv_le_contravar 2 (INR nt)); lra. }
  assert (M : moves_at_most (1 / 2) (map (fun _ => even nt) (feature_rows d)) sb).
  { apply (Q2 (/ INR nt)); [lra| |].
    - intros s j Hs Hj. apply in_map_iff in Hs as (r & <- & _). rewrite even_probability by (auto; lia). lra.
    - rewrite <- rate_half by lra. exact Hb. }
  destruct (Q1 M) as [_ H]. destruct H as [H|H]; [|left; exact H|right; eapply Rlt_le_trans; [exact H|apply Req_le; exact EL]].
  apply (Rle_lt_trans _ _ _ Hb). unfold Rdiv. apply Rmult_lt_compat_r; [apply Rinv_0_lt_compat|]; lra.
Qed.

Lemma amg_start nt d cfg n lr m nc : (2 <= nt)%nat -> (Z.of_nat nt <= 2 ^ 53)%Z -> wf_dataset nc nt d -> amg_boost_train d cfg n (Fin lr) = Ok m ->
  mapM (amg_boost_raw (first_trees 0 m)) (feature_rows d) = Ok (map (map Fin) (map (fun _ => even nt) (feature_rows d))).
Proof.
  intros Hk Hz W E. destruct (amg_guess nc nt d cfg n (Fin lr) m ltac:(lia) Hz W E) as (Hg & _ & HT).
  assert (F : forall row, amg_boost_raw (first_trees 0 m) row = Ok (map Fin (even nt))) by (intros row; rewrite amg_raw, Hg; reflexivity).
  induction (feature_rows d) as [|r rows IH]; [reflexivity|]. cbn [mapM]. rewrite F. cbn [bind]. rewrite IH. reflexivity.
Qed.

Theorem amg_never_higher nc nt d cfg i n lr mi m :
  (2 <= nt)%nat -> (Z.of_nat nt <= 2 ^ 53)%Z -> wf_dataset nc nt d -> one_hot_labels nt d ->
  0 < lr <= 1 -> (i <= n)%nat ->
  amg_boost_train d cfg i (Fin lr) = Ok mi -> amg_boost_train d cfg n (Fin lr) = Ok m ->
  (forall k a b sa sb, (i <= k < n)%nat -> amg_boost_train d cfg k (Fin lr) = Ok a -> amg_boost_train d cfg (S k) (Fin lr) = Ok b ->
     mapM (amg_boost_raw a) (feature_rows d) = Ok (map (map Fin) sa) -> mapM (amg_boost_raw b) (feature_rows d) = Ok (map (map Fin) sb) ->
     moves_at_most (1 / 2) sa sb) ->
  exists ss ss' cs, mapM (amg_boost_raw mi) (feature_rows d) = Ok (map (map Fin) ss) /\
    mapM (amg_boost_raw m) (feature_rows d) = Ok (map (map Fin) ss') /\ classes nt d cs /\
    total_loss (combine ss' cs) <= total_loss (combine ss cs) /\
    (i = 0%nat -> total_loss (combine ss cs) = INR (length (feature_rows d)) * ln (INR nt)).
Proof.
  intros Hk Hz W HO Hlr Hin Ei E HM. destruct (one_hot_labels_real nt d HO) as (cs & El & Hcs).
  assert (Q : forall k a, amg_boost_train d cfg k (Fin lr) = Ok a -> exists s, mapM (amg_boost_raw a) (feature_rows d) = Ok (map (map Fin) s) /\
    (k = 0%nat -> s = map (fun _ => even nt) (feature_rows d))).
  { intros k a Ea. destruct (amg_guess nc nt d cfg k (Fin lr) a ltac:(lia) Hz W Ea) as (_ & _ & HT). destruct k as [|k].
    - exists (map (fun _ => even nt) (feature_rows d)). split; auto. rewrite <- (first_all a 0 HT). exact (amg_start nt d cfg 0 lr a nc Hk Hz W Ea).
    - destruct (amg_lowers nc nt d cfg (S k) lr a k cs Hk Hz W HO (proj1 Hlr) El Hcs Ea ltac:(lia)) as (sa & sb & _ & Sb & _).
      rewrite (first_all a (S k) HT) in Sb. exists sb. split; [exact Sb|discriminate]. }
  destruct (Q i mi Ei) as (ss & S1 & Hs). destruct (Q n m E) as (ss' & S2 & _). exists ss, ss', cs.
  split; [exact S1|]. split; [exact S2|]. split; [now apply classes_hot|]. split.
  - exact (amg_run_drop nc nt d cfg i n lr mi m Hk Hz W HO Hlr Hin Ei E HM ss ss' cs S1 S2 El Hcs).
  - intros ->. rewrite (Hs eq_refl). apply even_scores_loss; auto; [lia|]. exact (cs_length nc nt d cs W El).
Qed.

Theorem amg_first_drop nc nt d cfg lr m :
  (2 <= nt)%nat -> (Z.of_nat nt <= 2 ^ 53)%Z -> wf_dataset nc nt d -> one_hot_labels nt d -> 0 < lr <= 1 / (2 * (INR nt - 1)) ->
  amg_boost_train d cfg 1 (Fin lr) = Ok m ->
  exists ss cs, mapM (amg_boost_raw m) (feature_rows d) = Ok (map (map Fin) ss) /\ classes nt d cs /\
    (ss = map (fun _ => repeat (1 / INR nt) nt) (feature_rows d) \/
     total_loss (combine ss cs) < INR (length (feature_rows d)) * ln (INR nt)).
Proof.
  intros Hk Hz W HO [Hlr Hb] E. destruct (one_hot_labels_real nt d HO) as (cs & El & Hcs). assert (Hn : 2 <= INR nt) by (apply (le_INR 2) in Hk; cbn in Hk; lra).
  destruct (amg_lowers nc nt d cfg 1 lr m 0 cs Hk Hz W HO Hlr El Hcs E ltac:(lia)) as (sa & sb & Sa & Sb & Q1 & Q2).
  destruct (amg_guess nc nt d cfg 1 (Fin lr) m ltac:(lia) Hz W E) as (_ & _ & HT). rewrite (first_all m 1 HT) in Sb.
  rewrite (amg_start nt d cfg 1 lr m nc Hk Hz W E) in Sa. injection Sa as Sa.
  assert (F : forall a b : list (list R), map (map Fin) a = map (map Fin) b -> a = b) by apply map_Fin_inj2. apply F in Sa. subst sa.
  exists sb, cs. split; [exact Sb|]. split; [now apply classes_hot|].
  pose proof (even_scores_loss nt cs (feature_rows d) ltac:(lia) Hcs (cs_length nc nt d cs W El)) as EL.
  assert (Hi : 0 < / INR nt <= 1 / 2). { split; [apply Rinv_0_lt_compat; lra|]. unfold Rdiv. rewrite Rmult_1_l. apply (Rinv_le_contravar 2 (INR nt)); lra. }
  assert (M : moves_at_most (1 / 2) (map (fun _ => even nt) (feature_rows d)) sb).
  { apply (Q2 (/ INR nt)); [lra| |].
    - intros s j Hs Hj. apply in_map_iff in Hs as (r & <- & _). rewrite even_probability by (auto; lia). lra.
    - rewrite <- rate_half by lra. exact Hb. }
  destruct (Q1 M) as [_ H]. destruct H as [H|H]; [|left; exact H|right; eapply Rlt_le_trans; [exact H|apply Req_le; exact EL]].
  apply (Rle_lt_trans _ _ _ Hb). unfold Rdiv. rewrite Rmult_1_l, <- Rinv_1. apply Rinv_lt_contravar; lra.
Qed.
