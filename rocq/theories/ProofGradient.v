(** Boosting stages follow the gradient of the log-loss (C68). *)
From Coq Require Import Reals Lra Lia Permutation.
From Verif Require Import Base Num ModelCommon ModelTree ModelBoost Lib XR Spec SpecTree SpecExact SpecScore SpecFit SpecError SpecClass SpecAffine SpecGradient ProofReal ProofSort ProofData
  ProofSplit ProofSplit2 ProofTree ProofTree3 ProofScore ProofSplitExact ProofSplitExact2 ProofTreeExact ProofScoreExact ProofBoost ProofBoost2 ProofLeaf ProofBoostExact
  ProofClassExact ProofClassRun.
Local Open Scope R_scope.

(* ------------------------------------------------------------------ *)
(** ** Calculus *)

Lemma derivable_ext f g x l : (forall y, f y = g y) -> derivable_pt_lim f x l -> derivable_pt_lim g x l.
Proof. intros H D eps He. destruct (D eps He) as (delta & Hd). exists delta. intros h Hh Hl. rewrite <- !H. auto. Qed.

Lemma derivable_sum {A} (f : A -> R -> R) (f' : A -> R) x l : (forall a, In a l -> derivable_pt_lim (f a) x (f' a)) ->
  derivable_pt_lim (fun y => Rsum (map (fun a => f a y) l)) x (Rsum (map f' l)).
Proof.
  induction l as [|a l IH]; intros H; cbn [map].
  - apply (derivable_pt_lim_const 0).
  - rewrite Rsum_cons. apply (derivable_ext (f a + (fun y => Rsum (map (fun a => f a y) l)))%F).
    + intros y. unfold plus_fct. now rewrite Rsum_cons.
    + apply derivable_pt_lim_plus; [apply H; now left|]. apply IH. intros; apply H; now right.
Qed.

Lemma raised_length j x s : length (raised j x s) = length s.
Proof. unfold raised. now rewrite map_length, seq_length. Qed.

Lemma raised_nth j x s i : (i < length s)%nat -> nth i (raised j x s) 0 = nth i s 0 + (if Nat.eqb i j then x else 0).
Proof.
  intros H. unfold raised. rewrite (nth_indep _ 0 ((fun i => nth i s 0 + (if Nat.eqb i j then x else 0)) 0%nat)) by (rewrite map_length, seq_length; auto).
  rewrite (map_nth (fun i => nth i s 0 + (if Nat.eqb i j then x else 0))). now rewrite seq_nth.
Qed.

Lemma raised_zero j s : raised j 0 s = s.
Proof.
  unfold raised. etransitivity; [|apply (map_nth_seq_all s 0)]. apply map_ext. intros i. destruct (i =? j)%nat; ring.
Qed.

Lemma raised_sum j x s : (j < length s)%nat ->
  Rsum (map exp (raised j x s)) = (Rsum (map exp s) - exp (nth j s 0)) + exp (nth j s 0) * exp x.
Proof.
  intros H. unfold raised. rewrite map_map.
  assert (G : forall l a, NoDup l -> Rsum (map (fun i => if Nat.eqb i j then a else 0) l) = if in_dec Nat.eq_dec j l then a else 0).
  { induction l as [|i l IH]; intros a ND; [reflexivity|]. cbn [map]. rewrite Rsum_cons, IH by now inversion ND.
    inversion ND as [|? ? Hni _]; subst. destruct (Nat.eqb_spec i j) as [->|Hne]; destruct (in_dec Nat.eq_dec j l) as [Hi|Hi];
      destruct (in_dec Nat.eq_dec j (_ :: l)) as [Hi'|Hi']; try ring; exfalso; firstorder. }
  rewrite (Rsum_map_ext _ (fun i => exp (nth i s 0) + (if Nat.eqb i j then exp (nth j s 0) * exp x - exp (nth j s 0) else 0))).
  2:{ intros i Hi. destruct (Nat.eqb_spec i j) as [->|Hne]; [rewrite exp_plus; ring|]. rewrite Rplus_0_r. ring. }
  rewrite Rsum_map_plus, G by apply seq_NoDup.
  destruct (in_dec Nat.eq_dec j (seq 0 (length s))) as [_|Hni]; [|exfalso; apply Hni, in_seq; lia].
  assert (E : Rsum (map (fun i => exp (nth i s 0)) (seq 0 (length s))) = Rsum (map exp s)).
  { rewrite <- (map_map (fun i => nth i s 0) exp). now rewrite map_nth_seq_all. }
  rewrite E. ring.
Qed.

Section Loss.
Variables (s : list R) (j c : nat).
Hypotheses (Hj : (j < length s)%nat) (Hc : (c < length s)%nat).
Let A := Rsum (map exp s) - exp (nth j s 0).
Let B := exp (nth j s 0).

Lemma denominator_pos x : 0 < A + B * exp x.
Proof.
  unfold A, B. rewrite <- raised_sum by auto. apply sum_exp_pos. intros H. apply (f_equal (@length R)) in H. rewrite raised_length in H. cbn in H. lia.
Qed.

Lemma probability_raised x : probability (raised j x s) j = B * exp x / (A + B * exp x).
Proof. unfold probability. rewrite raised_nth, Nat.eqb_refl, raised_sum, exp_plus by auto. reflexivity. Qed.

Lemma log_loss_raised x : log_loss (raised j x s) c = ln (A + B * exp x) + - (nth c s 0 + (if Nat.eqb c j then x else 0)).
Proof.
  unfold log_loss, probability. rewrite raised_nth, raised_sum by auto. fold A. fold B. pose proof (denominator_pos x) as Hp.
  unfold Rdiv. rewrite ln_mult; [|apply exp_pos|now apply Rinv_0_lt_compat]. rewrite ln_exp, ln_Rinv by auto. ring.
Qed.

Lemma denominator_derivable x : derivable_pt_lim (fun y => A + B * exp y) x (B * exp x).
Proof.
  replace (B * exp x) with (0 + B * exp x) by ring.
  apply (derivable_pt_lim_plus (fct_cte A) (mult_real_fct B exp)); [apply derivable_pt_lim_const|].
  apply derivable_pt_lim_scal, derivable_pt_lim_exp.
Qed.

Lemma loss_slope x : derivable_pt_lim (fun y => log_loss (raised j y s) c) x (probability (raised j x s) j - (if Nat.eqb c j then 1 else 0)).
Proof.
  apply (derivable_ext (fun y => ln (A + B * exp y) + - (nth c s 0 + (if Nat.eqb c j then y else 0)))); [intros; symmetry; apply log_loss_raised|].
  rewrite probability_raised.
  apply (derivable_pt_lim_plus (fun y => ln (A + B * exp y)) (fun y => - (nth c s 0 + (if Nat.eqb c j then y else 0)))).
  - replace (B * exp x / (A + B * exp x)) with (/ (A + B * exp x) * (B * exp x)) by (unfold Rdiv; ring).
    apply (derivable_pt_lim_comp (fun y => A + B * exp y) ln); [apply denominator_derivable|].
    apply derivable_pt_lim_ln, denominator_pos.
  - apply (derivable_pt_lim_opp (fun y => nth c s 0 + (if Nat.eqb c j then y else 0))).
    destruct (Nat.eqb c j).
    + replace 1 with (0 + 1) by ring. apply (derivable_pt_lim_plus (fct_cte (nth c s 0)) id); [apply derivable_pt_lim_const|apply derivable_pt_lim_id].
    + apply (derivable_pt_lim_const (nth c s 0 + 0)).
Qed.

Lemma loss_curve x : derivable_pt_lim (fun y => probability (raised j y s) j - (if Nat.eqb c j then 1 else 0)) x
  (probability (raised j x s) j * (1 - probability (raised j x s) j)).
Proof.
  apply (derivable_ext (fun y => B * exp y / (A + B * exp y) + - (if Nat.eqb c j then 1 else 0))).
  { intros y. now rewrite probability_raised. }
  rewrite probability_raised. pose proof (denominator_pos x) as Hp.
  match goal with |- derivable_pt_lim _ _ ?l => replace l with (((B * exp x) * (A + B * exp x) - (B * exp x) * (B * exp x)) / Rsqr (A + B * exp x) + 0) by (unfold Rsqr; field; lra) end.
  apply (derivable_pt_lim_plus (fun y => B * exp y / (A + B * exp y)) (fct_cte (- (if Nat.eqb c j then 1 else 0)))); [|apply derivable_pt_lim_const].
  apply (derivable_pt_lim_div (fun y => B * exp y) (fun y => A + B * exp y)).
  - apply (derivable_pt_lim_scal exp), derivable_pt_lim_exp.
  - apply denominator_derivable.
  - lra.
Qed.
End Loss.

(** The residual of one row. *)
Definition residual (k : nat) (p : list R * nat) : list R := vsub (hot k (snd p)) (rsoft (fst p)).

Lemma residual_nth k p j : length (fst p) = k -> (j < k)%nat -> nth j (residual k p) 0 = (if Nat.eqb (snd p) j then 1 else 0) - probability (fst p) j.
Proof.
  intros L Hj. unfold residual, vsub. rewrite nth_map2 by (rewrite ?hot_length, ?rsoft_length; lia). rewrite hot_nth, rsoft_nth by lia.
  f_equal. rewrite Nat.eqb_sym. reflexivity.
Qed.

Lemma residual_gradient k p j : length (fst p) = k -> (j < k)%nat -> (snd p < k)%nat ->
  derivable_pt_lim (fun x => log_loss (raised j x (fst p)) (snd p)) 0 (- nth j (residual k p) 0).
Proof.
  intros L Hj Hc. rewrite residual_nth by auto. pose proof (loss_slope (fst p) j (snd p) ltac:(lia) ltac:(lia) 0) as H. rewrite raised_zero in H.
  now replace (- _) with (probability (fst p) j - (if Nat.eqb (snd p) j then 1 else 0)) by ring.
Qed.

Lemma probability_bounds s j : (2 <= length s)%nat -> (j < length s)%nat -> 0 < probability s j < 1.
Proof. intros H Hj. rewrite <- rsoft_nth by auto. apply (rsoft_bounds s); auto. apply nth_In. now rewrite rsoft_length. Qed.

Lemma group_newton k group j : (2 <= k)%nat -> group <> [] -> Forall (fun p => length (fst p) = k /\ (snd p < k)%nat) group -> (j < k)%nat ->
  newton_step (group_loss j group) (Rsum (target j (map (residual k) group)) / curvature (target j (map (residual k) group))).
Proof.
  intros H2 Hne HF Hj. rewrite Forall_forall in HF.
  exists (fun x => Rsum (map (fun p => probability (raised j x (fst p)) j - (if Nat.eqb (snd p) j then 1 else 0)) group)),
         (Rsum (map (fun p => probability (fst p) j * (1 - probability (fst p) j)) group)).
  split; [|split; [|split]].
  - intros x. unfold group_loss. apply (derivable_sum (fun p y => log_loss (raised j y (fst p)) (snd p))). intros p Hp. destruct (HF p Hp) as [L Hc]. apply loss_slope; lia.
  - apply (derivable_sum (fun p y => probability (raised j y (fst p)) j - (if Nat.eqb (snd p) j then 1 else 0)) (fun p => probability (fst p) j * (1 - probability (fst p) j))).
    intros p Hp. destruct (HF p Hp) as [L Hc]. pose proof (loss_curve (fst p) j (snd p) ltac:(lia) ltac:(lia) 0) as H. rewrite raised_zero in H. exact H.
  - destruct group as [|p group]; [congruence|]. cbn [map]. rewrite Rsum_cons.
    assert (0 < probability (fst p) j * (1 - probability (fst p) j)).
    { destruct (HF p (or_introl eq_refl)) as [L _]. pose proof (probability_bounds (fst p) j ltac:(lia) ltac:(lia)). nra. }
    assert (0 <= Rsum (map (fun p => probability (fst p) j * (1 - probability (fst p) j)) group)); [|lra].
    apply Rsum_nonneg. intros y Hy. apply in_map_iff in Hy as (q & <- & Hq). destruct (HF q (or_intror Hq)) as [L _].
    pose proof (probability_bounds (fst q) j ltac:(lia) ltac:(lia)). nra.
  - f_equal.
    + unfold target. rewrite map_map.
      rewrite (Rsum_map_ext (fun p => nth j (residual k p) 0) (fun p => -1 * (probability (raised j 0 (fst p)) j - (if Nat.eqb (snd p) j then 1 else 0)))).
      * rewrite Rsum_map_mult. ring.
      * intros p Hp. destruct (HF p Hp) as [L Hc]. rewrite residual_nth, raised_zero by auto. ring.
    + unfold curvature, target. rewrite !map_map. apply Rsum_map_ext. intros p Hp. destruct (HF p Hp) as [L Hc]. rewrite residual_nth by auto.
      pose proof (probability_bounds (fst p) j ltac:(lia) ltac:(lia)). destruct (Nat.eqb (snd p) j).
      * rewrite Rabs_right by lra. ring.
      * rewrite Rabs_left by lra. ring.
Qed.

(* ------------------------------------------------------------------ *)
(** ** Training runs *)

(** Rows with their scores and classes. *)
Section Run.
Variables (nc nt : nat) (d : @dataset xr_ops) (cs : list nat) (ss : list (list R)).
Hypotheses (H2 : (2 <= nt)%nat) (W : wf_dataset nc nt d) (Hl : real_labels (map (hot nt) cs) d) (Hcs : Forall (fun c => (c < nt)%nat) cs)
  (Rs : rectangular nt ss) (Ls : length ss = length (feature_rows d)).

Let T := combine (feature_rows d) (combine ss cs).

Lemma cs_length : length cs = length (feature_rows d).
Proof. pose proof (xr_len nc nt d _ W Hl) as H. rewrite map_length in H. symmetry. exact H. Qed.

Lemma fitted_labels : labels (fitted d (map (map Fin) ss)) = map (map Fin) (map (residual nt) (combine ss cs)).
Proof.
  unfold fitted. cbn [labels]. etransitivity; [apply (f_equal2 (@differences xr_ops)); [exact Hl|apply (softmax_rows nt); auto; lia]|].
  etransitivity; [apply differences_Fin|]. f_equal. pose proof cs_length as Lc. rewrite <- Ls in Lc. clear -Lc. revert cs Lc.
  induction ss as [|s ss' IH]; intros [|c cs] Lc; try discriminate; auto. cbn [map map2 combine]. f_equal. apply IH. now injection Lc.
Qed.

Lemma samples_d : samples d = map (fun p => (fst p, map Fin (hot nt (snd (snd p))))) T.
Proof.
  unfold samples, T. rewrite Hl. pose proof cs_length as Lc. clear -Lc Ls. revert ss cs Ls Lc. xr. generalize (feature_rows d).
  induction l as [|row rows IH]; intros [|s ss] [|c cs] Ls Lc; try discriminate; auto. cbn [map combine fst snd]. f_equal. apply IH; auto.
Qed.

Lemma samples_fitted : samples (fitted d (map (map Fin) ss)) = map (fun p => (fst p, map Fin (residual nt (snd p)))) T.
Proof.
  unfold samples, T. rewrite fitted_labels. unfold fitted. cbn [feature_rows]. xr. generalize (feature_rows d) (combine ss cs). clear.
  induction l as [|row rows IH]; intros [|p l]; auto. cbn [map combine fst snd]. f_equal. apply IH.
Qed.

Lemma filter_map_fst {B C} (p : list xr -> bool) (f : B -> C) (l : list (list xr * B)) :
  filter (fun q => p (fst q)) (map (fun q => (fst q, f (snd q))) l) = map (fun q => (fst q, f (snd q))) (filter (fun q => p (fst q)) l).
Proof. induction l as [|x l IH]; auto. cbn [map filter fst]. destruct (p (fst x)); cbn [map]; now rewrite IH. Qed.

Definition reaching {L} (row : list xr) (t : tree_node L) : list (list xr * (list R * nat)) :=
  filter (fun p => forallb (fun q => Bool.eqb (answers q (fst p)) (@answers xr_ops q row)) (path row t)) T.

Lemma like_d {L} row (t : tree_node L) : samples_like row t d = map (fun p => (fst p, map Fin (hot nt (snd (snd p))))) (reaching row t).
Proof.
  unfold samples_like, reaching. rewrite samples_d.
  exact (filter_map_fst (fun r => forallb (fun q => Bool.eqb (answers q r) (@answers xr_ops q row)) (path row t)) (fun q => map Fin (hot nt (snd q))) T).
Qed.

Lemma like_fitted {L} row (t : tree_node L) :
  samples_like row t (fitted d (map (map Fin) ss)) = map (fun p => (fst p, map Fin (residual nt (snd p)))) (reaching row t).
Proof.
  unfold samples_like, reaching. rewrite samples_fitted.
  exact (filter_map_fst (fun r => forallb (fun q => Bool.eqb (answers q r) (@answers xr_ops q row)) (path row t)) (fun q => map Fin (residual nt q)) T).
Qed.

Lemma reaching_In {L} row (t : tree_node L) p : In p (reaching row t) -> In (fst (snd p)) ss /\ In (snd (snd p)) cs /\ In (fst p, fst (snd p)) (combine (feature_rows d) ss).
Proof.
  unfold reaching. intros H. apply filter_In in H as [H _]. destruct p as [r [s c]]. cbn [fst snd] in *. unfold T in H.
  pose proof (in_combine_r _ _ _ _ H) as H1. split; [eapply in_combine_l; eauto|]. split; [eapply in_combine_r; eauto|].
  pose proof cs_length as Lc. clear -H Lc Ls. revert ss cs Ls Lc H. xr. generalize (feature_rows d).
  induction l as [|row rows IH]; intros [|s' ss] [|c' cs] Ls Lc H; try discriminate; [destruct H|]. cbn [combine] in *.
  destruct H as [H|H]; [left; injection H as -> -> ->; reflexivity|right]. eapply IH; eauto.
Qed.

Lemma group_ok {L} row (t : tree_node L) : Forall (fun p => length (fst p) = nt /\ (snd p < nt)%nat) (map snd (reaching row t)).
Proof.
  rewrite Forall_map, Forall_forall. intros p Hp. apply reaching_In in Hp as (A & B & _).
  split; [exact (proj1 (Forall_forall _ _) Rs _ A)|exact (proj1 (Forall_forall _ _) Hcs _ B)].
Qed.

Lemma leaf_group {L} row (t : tree_node L) (x : @dataset xr_ops) : wf_dataset nc nt x -> real_labels (rl x) x ->
  samples x = samples_like row t (fitted d (map (map Fin) ss)) ->
  rl x = map (residual nt) (map snd (reaching row t)) /\ map snd (reaching row t) <> [].
Proof.
  intros Wx Lx E. assert (H : rl x = map (residual nt) (map snd (reaching row t))).
  { pose proof (samples_snd _ _ _ Wx) as Es. rewrite E, like_fitted, map_map in Es. cbn [snd] in Es. unfold rl. rewrite <- Es. rewrite !map_map.
    apply map_ext. intros p. apply map_xval_Fin. }
  split; auto. intros Hn. rewrite Hn in H. destruct (real_rect _ _ _ _ Wx Lx) as [_ Hne]. now rewrite H in Hne.
Qed.

End Run.

Lemma hot_one_hot k c : (c < k)%nat -> @one_hot xr_ops k (N.of_nat c) (map Fin (hot k c)).
Proof.
  intros H. split; [lia|]. split; [rewrite map_length; apply hot_length|]. intros i Hi.
  rewrite nth_error_map, (nth_error_nth' _ 0) by (rewrite hot_length; auto). cbn [option_map]. rewrite hot_nth by auto.
  f_equal. change (@f1 xr_ops) with (Fin 1). change (@f0 xr_ops) with (Fin 0).
  destruct (Nat.eqb_spec i c) as [->|Hne]; [now rewrite N.eqb_refl|]. destruct (N.eqb_spec (N.of_nat i) (N.of_nat c)); [lia|reflexivity].
Qed.

Lemma one_hot_inj k c c' : (c' < k)%nat -> @one_hot xr_ops k c (map Fin (hot k c')) -> N.to_nat c = c'.
Proof.
  intros Hc' H. apply one_hot_Fin in H as [Hc E]. apply (f_equal (map xval)) in E. rewrite !map_xval_Fin in E.
  apply (f_equal (fun l => nth c' l 0)) in E. rewrite !hot_nth, Nat.eqb_refl in E by auto.
  destruct (Nat.eqb_spec c' (N.to_nat c)); [auto|lra].
Qed.

Lemma Forall2_map_both {A B C} (P : B -> C -> Prop) (f : A -> B) (g : A -> C) l : Forall (fun x => P (f x) (g x)) l -> Forall2 P (map f l) (map g l).
Proof. induction 1; cbn [map]; constructor; auto. Qed.

Lemma mapM_combine {A} (f : list xr -> res A) (h : list R -> A) rows ss : mapM f rows = Ok (map h ss) ->
  forall r s, In (r, s) (combine rows ss) -> f r = Ok (h s).
Proof.
  revert ss. induction rows as [|r0 rows IH]; intros ss E r s Hin; [destruct Hin|].
  cbn [mapM] in E. destruct (f r0) as [a| |] eqn:Ea; cbn [bind] in E; try discriminate.
  destruct (mapM f rows) as [l| |] eqn:El; cbn [bind] in E; try discriminate. destruct ss as [|s0 ss]; [discriminate|].
  cbn [map] in E. injection E as -> ->. destruct Hin as [H|H]; [injection H as -> ->; auto|]. eapply IH; eauto.
Qed.

(** The residuals are minus the gradient. *)
Lemma gradient_rows nt cs ss i s g c : rectangular nt ss -> Forall (fun c => (c < nt)%nat) cs ->
  nth_error ss i = Some s -> nth_error cs i = Some c -> nth_error (map (residual nt) (combine ss cs)) i = Some g ->
  length g = nt /\ forall j, (j < nt)%nat -> derivable_pt_lim (fun x => log_loss (raised j x s) c) 0 (- nth j g 0).
Proof.
  intros Rs Hcs Es Ec Eg. rewrite nth_error_map in Eg. rewrite nth_error_combine, Es, Ec in Eg. cbn [option_map] in Eg. injection Eg as <-.
  pose proof (proj1 (Forall_forall _ _) Rs _ (nth_error_In _ _ Es)) as L. cbn beta in L.
  pose proof (proj1 (Forall_forall _ _) Hcs _ (nth_error_In _ _ Ec)) as Hc. cbn beta in Hc.
  split.
  - unfold residual, vsub. cbn [fst snd]. rewrite map2_length, hot_length, rsoft_length. lia.
  - intros j Hj. exact (residual_gradient nt (s, c) j L Hj Hc).
Qed.

(** What a group holds: for each training row reaching the leaf its score before the stage and its class. *)
Lemma group_rows nc nt d cs ss {L} (raw : list xr -> res (list xr)) row (t : tree_node L) :
  wf_dataset nc nt d -> real_labels (map (hot nt) cs) d -> Forall (fun c => (c < nt)%nat) cs -> length ss = length (feature_rows d) ->
  mapM raw (feature_rows d) = Ok (map (map Fin) ss) ->
  Forall2 (fun x p => raw (fst x) = Ok (map Fin (fst p)) /\ @one_hot xr_ops nt (N.of_nat (snd p)) (snd x))
    (samples_like row t d) (map snd (reaching d cs ss row t)).
Proof.
  intros W Hl Hcs Ls E. rewrite (like_d nc nt d cs ss W Hl Ls). apply Forall2_map_both. apply Forall_forall. intros p Hp.
  apply (reaching_In nc nt d cs ss W Hl Ls) in Hp as (A & B & C). cbn [fst snd]. split; [eapply (mapM_combine raw); eauto|].
  apply hot_one_hot. exact (proj1 (Forall_forall _ _) Hcs _ B).
Qed.

Lemma class_output_nth k group j : (j < k)%nat ->
  nth j (class_output k group) 0 = (INR k - 1) / INR k * (Rsum (target j group) / curvature (target j group)).
Proof.
  intros H. unfold class_output.
  rewrite (nth_indep _ 0 ((fun j => (INR k - 1) / INR k * (Rsum (target j group) / curvature (target j group))) 0%nat)) by (rewrite map_length, seq_length; auto).
  rewrite (map_nth (fun j => (INR k - 1) / INR k * (Rsum (target j group) / curvature (target j group)))). now rewrite seq_nth.
Qed.

Theorem multi_class_gradient nc nt d cfg n lr m k :
  (2 <= nt)%nat -> (Z.of_nat nt <= 2 ^ 53)%Z -> wf_dataset nc nt d -> one_hot_labels nt d ->
  multi_class_boost_train d cfg n (Fin lr) = Ok m -> (k < n)%nat ->
  exists ss gs t, mapM (multi_class_boost_raw (first_trees k m)) (feature_rows d) = Ok (map (map Fin) ss) /\
    nth_error (m_trees m) k = Some t /\ length gs = length (feature_rows d) /\
    grad_boost_tree_new (relabel d gs) cfg (leaf_output_calculator_new MultiClassClassification) = Ok t /\
    forall i s y c g, nth_error ss i = Some s -> nth_error (labels d) i = Some y -> one_hot nt c y -> nth_error gs i = Some g ->
      length g = nt /\ forall j, (j < nt)%nat -> derivable_pt_lim (fun x => log_loss (raised j x s) (N.to_nat c)) 0 (- nth j g 0).
Proof.
  intros Hk Hz W HO E Hkn. destruct (multi_stage_exact nc nt d cfg n lr m k Hk Hz W HO E Hkn) as (ss & t & Es & Ht & Rs & Ls & B).
  destruct (multi_class_stage d cfg n (Fin lr) m k (wf_lengths _ _ _ W) E Hkn) as (scores & t' & Es' & _ & Ht' & Eb).
  rewrite Es in Es'. injection Es' as <-. rewrite Ht in Ht'. injection Ht' as <-.
  destruct (one_hot_labels_real nt d HO) as (cs & El & Hcs).
  pose proof (fitted_labels nc nt d cs ss Hk W El Rs Ls) as Fl. unfold fitted in Fl. cbn [labels] in Fl.
  pose proof (cs_length nc nt d cs W El) as Lc.
  exists ss, (map (residual nt) (combine ss cs)), t. split; auto. split; auto. split; [|split].
  - rewrite map_length, combine_length, Ls, Lc. apply Nat.min_id.
  - unfold relabel. xr. rewrite <- Fl. exact Eb.
  - intros i s y c g Hs Hy Hc Hg. rewrite El, !nth_error_map in Hy. destruct (nth_error cs i) as [c'|] eqn:Ec; [|discriminate].
    cbn [option_map] in Hy. injection Hy as <-. pose proof (proj1 (Forall_forall _ _) Hcs _ (nth_error_In _ _ Ec)) as Hc'. cbn beta in Hc'.
    rewrite (one_hot_inj nt c c' Hc' Hc). eapply gradient_rows; eauto.
Qed.

Theorem amg_gradient nc nt d cfg n lr m k :
  (2 <= nt)%nat -> (Z.of_nat nt <= 2 ^ 53)%Z -> wf_dataset nc nt d -> one_hot_labels nt d ->
  amg_boost_train d cfg n (Fin lr) = Ok m -> (k < n)%nat ->
  exists ss gs t, mapM (amg_boost_raw (first_trees k m)) (feature_rows d) = Ok (map (map Fin) ss) /\
    nth_error (m_trees m) k = Some t /\ length gs = length (feature_rows d) /\
    amg_boost_tree_new (relabel d gs) cfg (leaf_output_calculator_new MultiClassClassification) = Ok t /\
    forall i s y c g, nth_error ss i = Some s -> nth_error (labels d) i = Some y -> one_hot nt c y -> nth_error gs i = Some g ->
      length g = nt /\ forall j, (j < nt)%nat -> derivable_pt_lim (fun x => log_loss (raised j x s) (N.to_nat c)) 0 (- nth j g 0).
Proof.
  intros Hk Hz W HO E Hkn. destruct (amg_stage_exact nc nt d cfg n lr m k Hk Hz W HO E Hkn) as (ss & t & Es & Ht & Rs & Ls & B).
  destruct (amg_stage d cfg n (Fin lr) m k (wf_lengths _ _ _ W) E Hkn) as (scores & t' & Es' & _ & Ht' & Eb).
  rewrite Es in Es'. injection Es' as <-. rewrite Ht in Ht'. injection Ht' as <-.
  destruct (one_hot_labels_real nt d HO) as (cs & El & Hcs).
  pose proof (fitted_labels nc nt d cs ss Hk W El Rs Ls) as Fl. unfold fitted in Fl. cbn [labels] in Fl.
  pose proof (cs_length nc nt d cs W El) as Lc.
  exists ss, (map (residual nt) (combine ss cs)), t. split; auto. split; auto. split; [|split].
  - rewrite map_length, combine_length, Ls, Lc. apply Nat.min_id.
  - unfold relabel. xr. rewrite <- Fl. exact Eb.
  - intros i s y c g Hs Hy Hc Hg. rewrite El, !nth_error_map in Hy. destruct (nth_error cs i) as [c'|] eqn:Ec; [|discriminate].
    cbn [option_map] in Hy. injection Hy as <-. pose proof (proj1 (Forall_forall _ _) Hcs _ (nth_error_In _ _ Ec)) as Hc'. cbn beta in Hc'.
    rewrite (one_hot_inj nt c c' Hc' Hc). eapply gradient_rows; eauto.
Qed.

Theorem multi_class_newton nc nt d cfg n lr m k t row :
  (2 <= nt)%nat -> (Z.of_nat nt <= 2 ^ 53)%Z -> wf_dataset nc nt d -> one_hot_labels nt d ->
  multi_class_boost_train d cfg n (Fin lr) = Ok m -> nth_error (m_trees m) k = Some t -> (nc <= length row)%nat ->
  exists group o, group <> [] /\
    Forall2 (fun x p => multi_class_boost_raw (first_trees k m) (fst x) = Ok (map Fin (fst p)) /\ one_hot nt (N.of_nat (snd p)) (snd x))
      (samples_like row t d) group /\
    find_leaf_node_for_data row t = Ok (mkGL (Some (map Fin o))) /\ length o = nt /\
    forall j, (j < nt)%nat -> exists v, newton_step (group_loss j group) v /\ nth j o 0 = (INR nt - 1) / INR nt * v.
Proof.
  intros Hk Hz W HO E Ht Hrow.
  assert (Hkn : (k < n)%nat).
  { destruct (multi_guess nc nt d cfg n (Fin lr) m ltac:(lia) Hz W E) as (_ & _ & HT). assert (k < length (m_trees m))%nat by (apply nth_error_Some; congruence). xr. lia. }
  destruct (multi_stage_exact nc nt d cfg n lr m k Hk Hz W HO E Hkn) as (ss & t' & Es & Ht' & Rs & Ls & B).
  rewrite Ht in Ht'. injection Ht' as <-.
  destruct (fitted_ok nc nt d ss Hk W HO Rs Ls) as (r & Er & Wr & Lr & Rr & Erl).
  destruct (one_hot_labels_real nt d HO) as (cs & El & Hcs).
  destruct (gb_class_out nc nt _ _ _ _ row Hk Wr Lr Rr B Hrow) as (x & Ef & _ & Sx & Wx & Lx).
  destruct (leaf_group nc nt d cs ss Hk W El Rs Ls row t x Wx Lx Sx) as [Eg Hne].
  exists (map snd (reaching d cs ss row t)), (class_output nt (rl x)). split; [exact Hne|]. split; [|split; [exact Ef|split; [apply class_output_length|]]].
  - eapply (group_rows nc nt d cs ss (multi_class_boost_raw (first_trees k m))); eauto.
  - intros j Hj. exists (Rsum (target j (rl x)) / curvature (target j (rl x))). split; [|now apply class_output_nth].
    rewrite Eg. apply group_newton; auto. eapply group_ok; eauto.
Qed.

Lemma max_is_largest o c : @find_max_value_and_index_from_vector xr_ops (map Fin o) = (Fin (nth c o 0), c) ->
  forall j, (j < length o)%nat -> nth j o 0 <= nth c o 0 /\ ((j < c)%nat -> nth j o 0 < nth c o 0).
Proof.
  intros E j Hj. pose proof (argmax_vector xr_laws (map Fin o)) as H. xr. rewrite E in H.
  destruct H as [(x & H1 & <- & _ & H2)|(_ & H & _)]; [|discriminate].
  destruct (H2 j (Fin (nth j o 0))) as [A B].
  { rewrite nth_error_map, (nth_error_nth' _ 0) by auto. reflexivity. }
  change (xltb (Fin (nth c o 0)) (Fin (nth j o 0)) = false) in A. split.
  - apply Rnot_lt_le. intros H. apply xltb_Fin in H. congruence.
  - intros Hjc. destruct (B Hjc) as [B'|B']; [now apply xltb_Fin|]. exfalso. apply B'. unfold is_num. cbn. destruct (Rle_dec (nth j o 0) (nth j o 0)); [reflexivity|lra].
Qed.

Theorem amg_newton nc nt d cfg n lr m k t row :
  (2 <= nt)%nat -> (Z.of_nat nt <= 2 ^ 53)%Z -> wf_dataset nc nt d -> one_hot_labels nt d ->
  amg_boost_train d cfg n (Fin lr) = Ok m -> nth_error (m_trees m) k = Some t -> (nc <= length row)%nat ->
  exists group o c, group <> [] /\
    Forall2 (fun x p => amg_boost_raw (first_trees k m) (fst x) = Ok (map Fin (fst p)) /\ one_hot nt (N.of_nat (snd p)) (snd x))
      (samples_like row t d) group /\
    find_leaf_node_for_data row t = Ok (mkAL (Some (Fin (nth c o 0))) (Some c)) /\ length o = nt /\ (c < nt)%nat /\
    forall j, (j < nt)%nat -> (nth j o 0 <= nth c o 0 /\ ((j < c)%nat -> nth j o 0 < nth c o 0)) /\
      exists v, newton_step (group_loss j group) v /\ nth j o 0 = (INR nt - 1) / INR nt * v.
Proof.
  intros Hk Hz W HO E Ht Hrow.
  assert (Hkn : (k < n)%nat).
  { destruct (amg_guess nc nt d cfg n (Fin lr) m ltac:(lia) Hz W E) as (_ & _ & HT). assert (k < length (m_trees m))%nat by (apply nth_error_Some; congruence). xr. lia. }
  destruct (amg_stage_exact nc nt d cfg n lr m k Hk Hz W HO E Hkn) as (ss & t' & Es & Ht' & Rs & Ls & B).
  rewrite Ht in Ht'. injection Ht' as <-.
  destruct (fitted_ok nc nt d ss Hk W HO Rs Ls) as (r & Er & Wr & Lr & Rr & Erl).
  destruct (one_hot_labels_real nt d HO) as (cs & El & Hcs).
  destruct (amg_class_out nc nt _ _ _ _ row Hk Wr Lr Rr B Hrow) as (x & c & Hc & Ef & Em & _ & Sx & Wx & Lx).
  destruct (leaf_group nc nt d cs ss Hk W El Rs Ls row t x Wx Lx Sx) as [Eg Hne].
  exists (map snd (reaching d cs ss row t)), (class_output nt (rl x)), c. split; [exact Hne|].
  split; [|split; [exact Ef|split; [apply class_output_length|split; [exact Hc|]]]].
  - eapply (group_rows nc nt d cs ss (amg_boost_raw (first_trees k m))); eauto.
  - intros j Hj. split; [exact (max_is_largest _ _ Em j ltac:(now rewrite class_output_length))|]. exists (Rsum (target j (rl x)) / curvature (target j (rl x))). split; [|now apply class_output_nth].
    rewrite Eg. apply group_newton; auto. eapply group_ok; eauto.
Qed.
