(** Each classification iteration moves the scores in a direction of falling log-loss (C69). *)
From Coq Require Import Reals Lra Lia.
From Verif Require Import Base Num ModelCommon ModelTree ModelBoost Lib XR Spec SpecTree SpecExact SpecScore SpecFit SpecError SpecClass SpecAffine SpecGradient ProofReal ProofSort ProofData
  ProofSplit ProofSplit2 ProofTree ProofTree3 ProofScore ProofSplitExact ProofSplitExact2 ProofTreeExact ProofScoreExact ProofBoost ProofBoost2 ProofLeaf ProofBoostExact
  ProofBalance ProofClassExact ProofClassRun ProofGradient.
Local Open Scope R_scope.

Definition dot (k : nat) (y o : list R) : R := Rsum (map (fun j => nth j y 0 * nth j o 0) (seq 0 k)).

(* ------------------------------------------------------------------ *)
(** ** The tree's outputs and the residuals it was fitted to *)

Section Tree.
Context {L : Type} (nc nt : nat) (mk : @dataset xr_ops -> res L) (val : L -> list R).
Hypothesis mk_val : forall x l, wf_dataset nc nt x -> real_labels (rl x) x -> residual_labels nt x -> mk x = Ok l ->
  0 <= Rsum (map (fun y => dot nt y (val l)) (rl x)) /\ (Rsum (map (fun y => dot nt y (val l)) (rl x)) = 0 -> val l = repeat 0 nt).

Lemma along cfg level d t : built mk cfg level d t -> wf_dataset nc nt d -> real_labels (rl d) d -> residual_labels nt d ->
  0 <= Rsum (map (fun p => dot nt (snd p) (looked_up val t (fst p))) (rs d)) /\
  (Rsum (map (fun p => dot nt (snd p) (looked_up val t (fst p))) (rs d)) = 0 -> forall p, In p (rs d) -> looked_up val t (fst p) = repeat 0 nt).
Proof.
  intros B. induction B as [level d s l Es Est El|level d s fd td t fn Es Est Ep Bt IHt Bf IHf]; intros W Hl Hr.
  - change (looked_up val (leaf_node (bs_question s) l)) with (fun _ : list xr => val l).
    assert (E : Rsum (map (fun p : list xr * list R => dot nt (snd p) (val l)) (rs d)) = Rsum (map (fun y => dot nt y (val l)) (rl d))).
    { rewrite <- (rs_snd nc nt d W), map_map. reflexivity. }
    cbv beta. xr. rewrite E. destruct (mk_val d l W Hl Hr El) as [A C]. split; auto.
  - destruct (sub_true _ _ _ _ _ _ W Ep Hl) as (Wf & Wt & Lf & Lt & Et & Ef & Hq).
    assert (Hrt : residual_labels nt td /\ residual_labels nt fd).
    { pose proof (rs_snd nc nt td Wt) as St. pose proof (rs_snd nc nt fd Wf) as Sf. pose proof (rs_snd nc nt d W) as Sd.
      unfold residual_labels in *. rewrite <- St, <- Sf, Et, Ef. rewrite <- Sd in Hr. rewrite Forall_map in Hr. rewrite !Forall_map.
      split; apply Forall_forall; intros p Hp; apply filter_In in Hp as [Hp _]; exact (proj1 (Forall_forall _ _) Hr p Hp). }
    destruct Hrt as [Rt Rf]. specialize (IHt Wt Lt Rt). specialize (IHf Wf Lf Rf). rewrite Et in IHt. rewrite Ef in IHf.
    destruct IHt as [Pt Zt]. destruct IHf as [Pf Zf].
    assert (Hroute : forall p, In p (rs d) ->
      looked_up val (node_new (bs_question s) t fn) (fst p) = if answers (bs_question s) (fst p) then looked_up val t (fst p) else looked_up val fn (fst p)).
    { intros p Hin. unfold rs in Hin. apply in_map_iff in Hin as ([r lab] & <- & Hin).
      apply in_combine_l in Hin. cbn [rp fst]. unfold looked_up. cbn [node_new find_leaf_node_for_data].
      rewrite solve_Ok by (pose proof (ProofBoostExact.row_long _ _ _ _ W Hin); xr; lia). cbn [bind]. destruct (answers (bs_question s) r); reflexivity. }
    assert (E : Rsum (map (fun p => dot nt (snd p) (looked_up val (node_new (bs_question s) t fn) (fst p))) (rs d)) =
      Rsum (map (fun p => dot nt (snd p) (looked_up val t (fst p))) (filter (fun p => answers (bs_question s) (fst p)) (rs d))) +
      Rsum (map (fun p => dot nt (snd p) (looked_up val fn (fst p))) (filter (fun p => negb (answers (bs_question s) (fst p))) (rs d)))).
    { rewrite (Rsum_filter _ (fun p => answers (bs_question s) (fst p)) (rs d)). f_equal.
      + apply Rsum_map_ext. intros p Hp. apply filter_In in Hp as [Hp Ha]. xr; cbv beta in Ha; rewrite (Hroute p Hp), Ha; reflexivity.
      + apply Rsum_map_ext. intros p Hp. apply filter_In in Hp as [Hp Ha]. apply negb_true_iff in Ha. xr; cbv beta in Ha; rewrite (Hroute p Hp), Ha; reflexivity. }
    xr. rewrite E. split.
    + match goal with |- 0 <= ?a + ?b => assert (0 <= a) by exact Pt; assert (0 <= b) by exact Pf end. lra.
    + intros Hz p Hp. rewrite (Hroute p Hp).
      match type of Hz with ?a + ?b = 0 => assert (Pa : 0 <= a) by exact Pt; assert (Pb : 0 <= b) by exact Pf; assert (Za : a = 0) by lra; assert (Zb : b = 0) by lra end.
      destruct (answers (bs_question s) (fst p)) eqn:Ea.
      * apply Zt; auto. apply filter_In. auto.
      * apply Zf; auto. apply filter_In. split; auto. xr. now rewrite Ea.
Qed.
End Tree.

Lemma dot_sum k o group : Rsum (map (fun y => dot k y o) group) = Rsum (map (fun j => nth j o 0 * Rsum (target j group)) (seq 0 k)).
Proof.
  unfold dot. rewrite Rsum_swap. apply Rsum_map_ext. intros j _. unfold target. rewrite <- Rsum_map_mult. apply Rsum_map_ext. intros; ring.
Qed.

Lemma all_zero (o : list R) k : length o = k -> (forall j, (j < k)%nat -> nth j o 0 = 0) -> o = repeat 0 k.
Proof.
  intros <- H. apply nth_error_ext. intros i. destruct (Nat.lt_ge_cases i (length o)) as [Hi|Hi].
  - rewrite (nth_error_nth' _ 0 Hi), (nth_error_nth' (repeat 0 _) 0) by now rewrite repeat_length. rewrite H, nth_repeat; auto.
  - rewrite !(proj2 (nth_error_None _ _)); auto. now rewrite repeat_length.
Qed.

(** Multi-class leaves. *)
Lemma factor_pos k : (2 <= k)%nat -> 0 < (INR k - 1) / INR k.
Proof. intros H. pose proof (INR_ge2 k H). apply Rdiv_lt_0_compat; lra. Qed.

Lemma multi_leaf nc nt (x : @dataset xr_ops) l : (2 <= nt)%nat -> wf_dataset nc nt x -> real_labels (rl x) x -> residual_labels nt x ->
  mk_gb (leaf_output_calculator_new MultiClassClassification) x = Ok l ->
  0 <= Rsum (map (fun y => dot nt y (gl_val l)) (rl x)) /\ (Rsum (map (fun y => dot nt y (gl_val l)) (rl x)) = 0 -> gl_val l = repeat 0 nt).
Proof.
  intros Hk W Hl Hr E. pose proof (class_leaf_ok nc nt x Hk W Hl Hr) as [_ Hc]. apply (mk_gb_class nc nt) in E; auto. subst l.
  unfold gl_val. cbn [gl_output]. rewrite map_xval_Fin, dot_sum. pose proof (factor_pos nt Hk) as Hf.
  assert (T : forall j, In j (seq 0 nt) -> 0 <= nth j (class_output nt (rl x)) 0 * Rsum (target j (rl x)) /\
    (nth j (class_output nt (rl x)) 0 * Rsum (target j (rl x)) = 0 -> nth j (class_output nt (rl x)) 0 = 0)).
  { intros j Hj. apply in_seq in Hj. rewrite class_output_nth by lia. specialize (Hc j ltac:(lia)). set (S := Rsum _). set (c := curvature _) in *.
    assert (Hi : 0 < / c) by now apply Rinv_0_lt_compat.
    replace ((INR nt - 1) / INR nt * (S / c) * S) with ((INR nt - 1) / INR nt * / c * (S * S)) by (unfold Rdiv; ring).
    assert (Hp : 0 < (INR nt - 1) / INR nt * / c) by now apply Rmult_lt_0_compat. split.
    - apply Rmult_le_pos; [lra|nra].
    - intros Hz. apply Rmult_integral in Hz as [Hz|Hz]; [lra|]. assert (S = 0) as -> by nra. unfold Rdiv. ring. }
  split.
  - apply Rsum_nonneg. intros y Hy. apply in_map_iff in Hy as (j & <- & Hj). now apply T.
  - intros Hz. apply all_zero; [apply class_output_length|]. intros j Hj. apply T; [apply in_seq; lia|].
    apply (Rsum_zero_all (map (fun j => nth j (class_output nt (rl x)) 0 * Rsum (target j (rl x))) (seq 0 nt))); auto.
    + intros y Hy. apply in_map_iff in Hy as (i & <- & Hi). now apply T.
    + apply (in_map (fun j => nth j (class_output nt (rl x)) 0 * Rsum (target j (rl x)))), in_seq. lia.
Qed.

(** AMG leaves. *)
Definition al_val (k : nat) (l : @amg_leaf xr_ops) : list R :=
  match al_max l, al_class l with Some m, Some c => approx k c (xval m) | _, _ => [] end.

Lemma approx_nth k c m j : (j < k)%nat -> nth j (approx k c m) 0 = if (j =? c)%nat then m else - m / (INR k - 1).
Proof.
  intros H. unfold approx. rewrite (nth_indep _ 0 ((fun j => if (j =? c)%nat then m else - m / (INR k - 1)) 0%nat)) by (rewrite map_length, seq_length; auto).
  rewrite (map_nth (fun j => if (j =? c)%nat then m else - m / (INR k - 1))). now rewrite seq_nth.
Qed.

Lemma residual_targets nt group : Forall (residual_vector nt) group -> Rsum (map (fun j => Rsum (target j group)) (seq 0 nt)) = 0.
Proof.
  intros H. unfold target. rewrite (Rsum_swap (fun j y => nth j y 0)).
  rewrite (Rsum_map_ext _ (fun _ => 0)); [rewrite Rsum_map_const; ring|]. intros y Hy. destruct (proj1 (Forall_forall _ _) H y Hy) as (Ly & _ & Sy).
  etransitivity; [|exact Sy]. f_equal. rewrite <- Ly. apply map_nth_seq_all.
Qed.

Lemma amg_leaf_along nc nt (x : @dataset xr_ops) l : (2 <= nt)%nat -> wf_dataset nc nt x -> real_labels (rl x) x -> residual_labels nt x ->
  mk_amg (leaf_output_calculator_new MultiClassClassification) x = Ok l ->
  0 <= Rsum (map (fun y => dot nt y (al_val nt l)) (rl x)) /\ (Rsum (map (fun y => dot nt y (al_val nt l)) (rl x)) = 0 -> al_val nt l = repeat 0 nt).
Proof.
  intros Hk W Hl Hr E. pose proof (class_leaf_ok nc nt x Hk W Hl Hr) as [_ Hc]. apply (mk_amg_class nc nt) in E as (c & Hcn & -> & _); auto.
  unfold al_val. cbn [al_max al_class xval]. rewrite dot_sum. pose proof (INR_ge2 nt Hk) as Hn. pose proof (factor_pos nt Hk) as Hf.
  set (m := nth c (class_output nt (rl x)) 0).
  assert (E : Rsum (map (fun j => nth j (approx nt c m) 0 * Rsum (target j (rl x))) (seq 0 nt)) = m * (INR nt / (INR nt - 1)) * Rsum (target c (rl x))).
  { rewrite (Rsum_map_ext _ (fun j => (- m / (INR nt - 1)) * Rsum (target j (rl x)) + (m * (INR nt / (INR nt - 1)) * Rsum (target c (rl x))) * (if (j =? c)%nat then 1 else 0))).
    - rewrite Rsum_map_plus, !Rsum_map_mult. rewrite (residual_targets nt) by exact Hr. pose proof (hot_sum nt c Hcn) as Hh. unfold hot in Hh. rewrite Hh. ring.
    - intros j Hj. apply in_seq in Hj. rewrite approx_nth by lia. destruct (Nat.eqb_spec j c) as [->|_]; [field; lra|ring]. }
  rewrite E. unfold m at 1 2. rewrite class_output_nth by auto. specialize (Hc c Hcn). set (S := Rsum _). set (cv := curvature _) in *.
  assert (Hi : 0 < / cv) by now apply Rinv_0_lt_compat.
  replace ((INR nt - 1) / INR nt * (S / cv) * (INR nt / (INR nt - 1)) * S) with (/ cv * (S * S)) by (field; lra).
  split.
  - apply Rmult_le_pos; [lra|nra].
  - intros Hz. apply Rmult_integral in Hz as [Hz|Hz]; [lra|]. assert (S0 : S = 0) by nra. apply all_zero; [apply approx_length|].
    assert (m0 : m = 0). { unfold m. rewrite class_output_nth by auto. fold S. rewrite S0. unfold Rdiv. ring. }
    intros j Hj. rewrite approx_nth by auto. rewrite m0. destruct (j =? c)%nat; [reflexivity|unfold Rdiv; ring].
Qed.

(* ------------------------------------------------------------------ *)
(** ** The loss along a direction *)

Lemma map_seq_nth {A} (f : R -> A) l : map f l = map (fun j => f (nth j l 0)) (seq 0 (length l)).
Proof. rewrite <- (map_map (fun j => nth j l 0) f). now rewrite map_nth_seq_all. Qed.

Lemma direction_sum x s o : length o = length s ->
  Rsum (map exp (vstep x s o)) = Rsum (map (fun j => exp (nth j s 0 + x * nth j o 0)) (seq 0 (length s))).
Proof.
  intros H. rewrite map_seq_nth. unfold vstep. rewrite map2_length, H, Nat.min_id. apply Rsum_map_ext. intros j Hj. apply in_seq in Hj.
  rewrite nth_map2 by lia. reflexivity.
Qed.

Lemma linear_derivable a b : derivable_pt_lim (fun x => a + x * b) 0 b.
Proof.
  apply (derivable_ext (fct_cte a + mult_real_fct b id)%F); [intros; unfold plus_fct, fct_cte, mult_real_fct, id; ring|].
  replace b with (0 + b * 1) at 2 by ring. apply derivable_pt_lim_plus; [apply derivable_pt_lim_const|]. apply derivable_pt_lim_scal, derivable_pt_lim_id.
Qed.

Lemma direction_slope s o c : length o = length s -> (c < length s)%nat ->
  derivable_pt_lim (fun x => log_loss (vstep x s o) c) 0 (- dot (length s) (residual (length s) (s, c)) o).
Proof.
  intros Ho Hc. set (k := length s).
  set (D := fun x => Rsum (map (fun j => exp (nth j s 0 + x * nth j o 0)) (seq 0 k))).
  assert (HD : forall x, 0 < D x).
  { intros x. unfold D, k. rewrite <- direction_sum by auto. apply sum_exp_pos. intros H. apply (f_equal (@length R)) in H. rewrite vstep_length in H by auto. cbn in H. lia. }
  apply (derivable_ext (fun x => ln (D x) + - (nth c s 0 + x * nth c o 0))).
  { intros x. unfold log_loss, probability. rewrite direction_sum by auto. fold k. fold (D x). unfold vstep. rewrite nth_map2 by lia.
    unfold Rdiv. rewrite ln_mult; [|apply exp_pos|now apply Rinv_0_lt_compat]. rewrite ln_exp, ln_Rinv by auto. ring. }
  assert (Dd : derivable_pt_lim D 0 (Rsum (map (fun j => exp (nth j s 0) * nth j o 0) (seq 0 k)))).
  { unfold D. apply (derivable_sum (fun j x => exp (nth j s 0 + x * nth j o 0))). intros j _.
    assert (A : derivable_pt_lim (fun x => nth j s 0 + x * nth j o 0) 0 (nth j o 0)).
    { apply linear_derivable. }
    pose proof (derivable_pt_lim_comp (fun x => nth j s 0 + x * nth j o 0) exp 0 _ _ A (derivable_pt_lim_exp _)) as H. cbv beta in H.
    rewrite Rmult_0_l, Rplus_0_r in H. exact H. }
  assert (D0 : D 0 = Rsum (map exp s)).
  { unfold D. rewrite (map_seq_nth exp s). apply Rsum_map_ext. intros j _. f_equal. ring. }
  replace (- dot k (residual k (s, c)) o) with (/ D 0 * Rsum (map (fun j => exp (nth j s 0) * nth j o 0) (seq 0 k)) + - nth c o 0).
  - apply (derivable_pt_lim_plus (fun x => ln (D x)) (fun x => - (nth c s 0 + x * nth c o 0))).
    + apply (derivable_pt_lim_comp D ln); [exact Dd|apply derivable_pt_lim_ln, HD].
    + apply (derivable_pt_lim_opp (fun x => nth c s 0 + x * nth c o 0)).
      apply linear_derivable.
  - unfold dot. rewrite (Rsum_map_ext (fun j => nth j (residual k (s, c)) 0 * nth j o 0) (fun j => nth c o 0 * (if (j =? c)%nat then 1 else 0) + - (/ D 0) * (exp (nth j s 0) * nth j o 0))).
    + rewrite Rsum_map_plus, !Rsum_map_mult. pose proof (hot_sum k c Hc) as Hh. unfold hot in Hh. rewrite Hh. ring.
    + intros j Hj. apply in_seq in Hj. rewrite residual_nth by (cbn [fst]; auto; lia). cbn [fst snd]. unfold probability. rewrite D0, (Nat.eqb_sym j c).
      destruct (Nat.eqb_spec c j) as [->|_]; unfold Rdiv; ring.
Qed.

(** Falling at 0. *)
Lemma falls f l : derivable_pt_lim f 0 l -> l < 0 -> exists delta, 0 < delta /\ forall x, 0 < x < delta -> f x < f 0.
Proof.
  intros D Hl. destruct (D (- l / 2) ltac:(lra)) as (delta & H). exists delta. split; [apply cond_pos|]. intros x [H0 Hx].
  specialize (H x ltac:(lra) ltac:(rewrite Rabs_right; lra)). rewrite Rplus_0_l in H. apply Rabs_def2 in H as [H _].
  assert ((f x - f 0) / x < 0) by lra.
  assert (f x - f 0 = (f x - f 0) / x * x) by (field; lra). nra.
Qed.

Definition moved_loss (tr : list (list R * (list R * nat))) (x : R) : R :=
  Rsum (map (fun p => log_loss (vstep x (fst (snd p)) (fst p)) (snd (snd p))) tr).

Lemma total_descent k (tr : list (list R * (list R * nat))) :
  Forall (fun p => length (fst p) = k /\ length (fst (snd p)) = k /\ (snd (snd p) < k)%nat) tr ->
  0 < Rsum (map (fun p => dot k (residual k (snd p)) (fst p)) tr) ->
  exists delta, 0 < delta /\ forall x, 0 < x < delta -> moved_loss tr x < moved_loss tr 0.
Proof.
  intros HF Hp. rewrite Forall_forall in HF. apply (falls (moved_loss tr) (Rsum (map (fun p => - dot k (residual k (snd p)) (fst p)) tr))).
  - unfold moved_loss. apply (derivable_sum (fun p x => log_loss (vstep x (fst (snd p)) (fst p)) (snd (snd p))) (fun p => - dot k (residual k (snd p)) (fst p))).
    intros [o [s c]] Hin. destruct (HF _ Hin) as (A & B & C). cbn [fst snd] in *. rewrite <- B. apply direction_slope; lia.
  - rewrite (Rsum_map_ext _ (fun p => -1 * dot k (residual k (snd p)) (fst p))) by (intros; ring). rewrite Rsum_map_mult. lra.
Qed.

(* ------------------------------------------------------------------ *)
(** ** Runs *)

Lemma step_scores {L} (out : list xr -> tree_node L -> res (list xr)) k lr g (rows : list (list xr)) ts t : forall ss os,
  mapM (fun row => @raw xr_ops L out (Fin lr) (map Fin g) row ts) rows = Ok (map (map Fin) ss) ->
  Forall2 (fun row o => out row t = Ok (map Fin o) /\ length o = k) rows os -> rectangular k ss ->
  mapM (fun row => @raw xr_ops L out (Fin lr) (map Fin g) row (ts ++ [t])) rows = Ok (map (map Fin) (map2 (vstep lr) ss os)).
Proof.
  induction rows as [|row rows IH]; intros ss os E HF R; inversion HF as [|? o ? os' [Ho Lo] HF']; subst.
  - cbn [mapM] in *. destruct ss; [reflexivity|discriminate].
  - cbn [mapM] in E. destruct (@raw xr_ops L out (Fin lr) (map Fin g) row ts) as [s0| |] eqn:Es; cbn [bind] in E; try discriminate.
    apply bind_Ok in E as (l & El & E). destruct ss as [|s ss]; [discriminate|]. cbn [map] in E. injection E as -> ->.
    pose proof (Forall_inv R) as Ls. pose proof (Forall_inv_tail R) as R'. cbv beta in Ls.
    cbn [mapM map2 map]. rewrite (@raw_snoc xr_ops _ out (Fin lr) (map Fin g) row ts t (map Fin s) (map Fin o) Es Ho) by (rewrite !map_length; lia).
    cbn [bind]. change (@fadd xr_ops) with xadd. rewrite step_Fin. rewrite (IH ss os' El HF' R'). reflexivity.
Qed.

Lemma classes_hot nt d cs : real_labels (map (hot nt) cs) d -> Forall (fun c => (c < nt)%nat) cs -> classes nt d cs.
Proof.
  unfold real_labels, classes. intros -> H. induction H; cbn [map]; constructor; auto. now apply hot_one_hot.
Qed.

Definition triples (os ss : list (list R)) (cs : list nat) := combine os (combine ss cs).

Definition descends (nt : nat) (os ss : list (list R)) (cs : list nat) : Prop :=
  Forall (fun o => o = repeat 0 nt) os \/ 0 < Rsum (map (fun p => dot nt (residual nt (snd p)) (fst p)) (triples os ss cs)).

Lemma stage_descends {L} nc nt (mk : @dataset xr_ops -> res L) val d cs ss cfg t :
  (2 <= nt)%nat -> wf_dataset nc nt d -> one_hot_labels nt d -> real_labels (map (hot nt) cs) d -> rectangular nt ss -> length ss = length (feature_rows d) ->
  (forall x l, wf_dataset nc nt x -> real_labels (rl x) x -> residual_labels nt x -> mk x = Ok l ->
    0 <= Rsum (map (fun y => dot nt y (val l)) (rl x)) /\ (Rsum (map (fun y => dot nt y (val l)) (rl x)) = 0 -> val l = repeat 0 nt)) ->
  built mk cfg 0 (fitted d (map (map Fin) ss)) t ->
  descends nt (map (looked_up val t) (feature_rows d)) ss cs.
Proof.
  intros Hk W HO Hl Rs Ls Hmk B. destruct (fitted_ok nc nt d ss Hk W HO Rs Ls) as (r & Er & Wr & Lr & Rr & Erl).
  pose proof (along nc nt mk val Hmk cfg 0 _ t B Wr Lr Rr) as [P Z].
  pose proof (samples_fitted nc nt d cs ss Hk W Hl Rs Ls) as Sf.
  assert (Ers : rs (fitted d (map (map Fin) ss)) = map (fun p => (fst p, residual nt (snd p))) (combine (feature_rows d) (combine ss cs))).
  { unfold rs. rewrite Sf, map_map. apply map_ext. intros [r' p]. unfold rp. cbn [fst snd]. now rewrite map_xval_Fin. }
  rewrite Ers in P, Z. rewrite map_map in P, Z. cbn [fst snd] in P, Z.
  assert (E : map (fun p => dot nt (residual nt (snd p)) (fst p)) (triples (map (looked_up val t) (feature_rows d)) ss cs) =
              map (fun p => dot nt (residual nt (snd p)) (looked_up val t (fst p))) (combine (feature_rows d) (combine ss cs))).
  { unfold triples. xr. generalize (feature_rows d) (combine ss cs). clear. induction l as [|row rows IH]; intros [|q l]; cbn; auto. now rewrite IH. }
  unfold descends. rewrite E. destruct (Rle_lt_or_eq_dec _ _ P) as [H|H]; [right; exact H|left].
  rewrite Forall_map. apply Forall_forall. intros row Hin. symmetry in H.
  assert (exists q, In (row, q) (combine (feature_rows d) (combine ss cs))) as (q & Hq).
  { pose proof (cs_length nc nt d cs W Hl) as Lc. clear -Hin Ls Lc. revert ss cs Ls Lc Hin. xr. generalize (feature_rows d).
    induction l as [|r rows IH]; intros [|s ss] [|c cs] Ls Lc Hin; try discriminate; [destruct Hin|].
    destruct Hin as [->|Hin]; [eexists; left; reflexivity|]. destruct (IH ss cs) as (q & Hq); auto. exists q. right. exact Hq. }
  apply (Z H (row, residual nt q)). change (row, residual nt q) with ((fun p : list xr * (list R * nat) => (fst p, residual nt (snd p))) (row, q)). now apply in_map.
Qed.

Lemma Forall2_map_in {A B} (P : A -> B -> Prop) (g : A -> B) l : (forall x, In x l -> P x (g x)) -> Forall2 P l (map g l).
Proof. induction l as [|x l IH]; intros H; constructor; [apply H; now left|]. apply IH. intros; apply H; now right. Qed.

Theorem multi_core nc nt d cfg n lr m k cs :
  (2 <= nt)%nat -> (Z.of_nat nt <= 2 ^ 53)%Z -> wf_dataset nc nt d -> one_hot_labels nt d -> real_labels (map (hot nt) cs) d ->
  multi_class_boost_train d cfg n (Fin lr) = Ok m -> (k < n)%nat ->
  exists ss t os, mapM (multi_class_boost_raw (first_trees k m)) (feature_rows d) = Ok (map (map Fin) ss) /\
    mapM (multi_class_boost_raw (first_trees (S k) m)) (feature_rows d) = Ok (map (map Fin) (map2 (vstep lr) ss os)) /\
    grad_boost_tree_new (fitted d (map (map Fin) ss)) cfg (leaf_output_calculator_new MultiClassClassification) = Ok t /\
    os = map (looked_up gl_val t) (feature_rows d) /\ rectangular nt ss /\ rectangular nt os /\ length ss = length (feature_rows d) /\ descends nt os ss cs.
Proof.
  intros Hk Hz W HO Hl E Hkn. destruct (multi_stage_exact nc nt d cfg n lr m k Hk Hz W HO E Hkn) as (ss & t & Es & Ht & Rs & Ls & B).
  destruct (multi_class_stage d cfg n (Fin lr) m k (wf_lengths _ _ _ W) E Hkn) as (scores & t' & Es' & _ & Ht' & Eb).
  rewrite Es in Es'. injection Es' as <-. rewrite Ht in Ht'. injection Ht' as <-.
  destruct (multi_guess nc nt d cfg n (Fin lr) m) as (Hg & Hlr & HT); auto; [lia|].
  destruct (fitted_ok nc nt d ss Hk W HO Rs Ls) as (r & _ & Wr & Lr & Rr & _).
  assert (Hout : Forall2 (fun row o => @gb_out xr_ops row t = Ok (map Fin o) /\ length o = nt) (feature_rows d) (map (looked_up gl_val t) (feature_rows d))).
  { apply Forall2_map_in. intros row Hin. pose proof (row_long _ _ _ _ W Hin) as Hrow.
    destruct (gb_class_out nc nt _ _ _ _ row Hk Wr Lr Rr B Hrow) as (x & Ef & _). unfold gb_out, looked_up. xr. rewrite Ef. cbn [bind unwrap gl_output gl_val].
    unfold gl_val. cbn [gl_output]. rewrite map_xval_Fin. split; [reflexivity|apply class_output_length]. }
  exists ss, t, (map (looked_up gl_val t) (feature_rows d)). split; auto. split; [|split; [exact Eb|split; [reflexivity|split; [auto|split; [|split; [auto|]]]]]].
  - rewrite (mapM_ext _ (fun row => raw gb_out (m_learning_rate m) (m_initial_guess m) row (firstn (S k) (m_trees m)))) by (intros; apply multi_raw).
    rewrite (mapM_ext _ (fun row => raw gb_out (m_learning_rate m) (m_initial_guess m) row (firstn k (m_trees m)))) in Es by (intros; apply multi_raw).
    rewrite Hg, Hlr in *. rewrite (firstn_snoc _ _ _ Ht). now apply (step_scores (@gb_out xr_ops) nt).
  - clear -Hout. induction Hout as [|? ? ? ? [_ H] _ IH]; constructor; auto.
  - eapply (stage_descends nc nt); eauto. intros x l Wx Lx Rx Ex. eapply multi_leaf; eauto.
Qed.

Theorem amg_core nc nt d cfg n lr m k cs :
  (2 <= nt)%nat -> (Z.of_nat nt <= 2 ^ 53)%Z -> wf_dataset nc nt d -> one_hot_labels nt d -> real_labels (map (hot nt) cs) d ->
  amg_boost_train d cfg n (Fin lr) = Ok m -> (k < n)%nat ->
  exists ss t os, mapM (amg_boost_raw (first_trees k m)) (feature_rows d) = Ok (map (map Fin) ss) /\
    mapM (amg_boost_raw (first_trees (S k) m)) (feature_rows d) = Ok (map (map Fin) (map2 (vstep lr) ss os)) /\
    amg_boost_tree_new (fitted d (map (map Fin) ss)) cfg (leaf_output_calculator_new MultiClassClassification) = Ok t /\
    os = map (looked_up (al_val nt) t) (feature_rows d) /\ rectangular nt ss /\ rectangular nt os /\ length ss = length (feature_rows d) /\ descends nt os ss cs.
Proof.
  intros Hk Hz W HO Hl E Hkn. destruct (amg_stage_exact nc nt d cfg n lr m k Hk Hz W HO E Hkn) as (ss & t & Es & Ht & Rs & Ls & B).
  destruct (amg_stage d cfg n (Fin lr) m k (wf_lengths _ _ _ W) E Hkn) as (scores & t' & Es' & _ & Ht' & Eb).
  rewrite Es in Es'. injection Es' as <-. rewrite Ht in Ht'. injection Ht' as <-.
  destruct (amg_guess nc nt d cfg n (Fin lr) m) as (Hg & Hlr & HT); auto; [lia|].
  destruct (fitted_ok nc nt d ss Hk W HO Rs Ls) as (r & _ & Wr & Lr & Rr & _).
  assert (Hout : Forall2 (fun row o => @amg_out xr_ops nt row t = Ok (map Fin o) /\ length o = nt) (feature_rows d) (map (looked_up (al_val nt) t) (feature_rows d))).
  { apply Forall2_map_in. intros row Hin. pose proof (row_long _ _ _ _ W Hin) as Hrow.
    destruct (amg_class_out nc nt _ _ _ _ row Hk Wr Lr Rr B Hrow) as (x & c & Hc & Ef & _). unfold amg_out, looked_up. xr. rewrite Ef. cbn [bind].
    unfold al_val. cbn [al_max al_class xval]. split; [now apply construct_Fin|apply approx_length]. }
  exists ss, t, (map (looked_up (al_val nt) t) (feature_rows d)). split; auto. split; [|split; [exact Eb|split; [reflexivity|split; [auto|split; [|split; [auto|]]]]]].
  - rewrite (mapM_ext _ (fun row => raw (amg_out (length (m_initial_guess m))) (m_learning_rate m) (m_initial_guess m) row (firstn (S k) (m_trees m)))) by (intros; apply amg_raw).
    rewrite (mapM_ext _ (fun row => raw (amg_out (length (m_initial_guess m))) (m_learning_rate m) (m_initial_guess m) row (firstn k (m_trees m)))) in Es by (intros; apply amg_raw).
    rewrite Hg, Hlr in *. rewrite (firstn_snoc _ _ _ Ht). rewrite map_length, even_length in *. now apply (step_scores (@amg_out xr_ops nt) nt).
  - clear -Hout. induction Hout as [|? ? ? ? [_ H] _ IH]; constructor; auto.
  - eapply (stage_descends nc nt); eauto. intros x l Wx Lx Rx Ex. eapply amg_leaf_along; eauto.
Qed.

(** Moving along the step. *)
Lemma vstep_repeat x s k : length s = k -> vstep x s (repeat 0 k) = s.
Proof.
  intros <-. induction s as [|a s IH]; auto. cbn [length repeat]. unfold vstep in *. cbn [map2]. rewrite IH. f_equal. ring.
Qed.

Lemma zero_steps nt lr ss os : rectangular nt ss -> length os = length ss -> Forall (fun o => o = repeat 0 nt) os -> map2 (vstep lr) ss os = ss.
Proof.
  intros R. revert os. induction R as [|s ss Hs R IH]; intros [|o os] L H; try discriminate; auto.
  pose proof (Forall_inv H) as Ho. pose proof (Forall_inv_tail H) as H'. cbv beta in Ho. subst o. cbn [map2]. rewrite (IH os) by auto. f_equal. now apply vstep_repeat.
Qed.

Lemma moved_total lr ss os cs : length os = length ss -> moved_loss (triples os ss cs) lr = total_loss (combine (map2 (vstep lr) ss os) cs).
Proof.
  unfold moved_loss, total_loss, triples. intros L. f_equal. revert os cs L. induction ss as [|s ss IH]; intros [|o os] [|c cs] L; try discriminate; auto.
  cbn [map2 combine map fst snd]. f_equal. apply IH. auto.
Qed.

Lemma between_step x lr s o : length o = length s -> between x s (vstep lr s o) = vstep (x * lr) s o.
Proof.
  unfold between, vstep. revert o. induction s as [|a s IH]; intros [|b o] L; try discriminate; auto. cbn [map2 combine map fst snd]. f_equal; [ring|]. apply IH. auto.
Qed.

Lemma between_steps x lr nt ss os : rectangular nt ss -> rectangular nt os -> length os = length ss ->
  map (fun p => between x (fst p) (snd p)) (combine ss (map2 (vstep lr) ss os)) = map2 (vstep (x * lr)) ss os.
Proof.
  intros R. revert os. induction R as [|s ss Hs R IH]; intros [|o os] Ro L; try discriminate; auto.
  pose proof (Forall_inv Ro) as Ho. pose proof (Forall_inv_tail Ro) as Ro'. cbv beta in Ho. cbn [map2 combine map fst snd]. rewrite IH by auto. f_equal.
  apply between_step. congruence.
Qed.

Lemma triples_ok nt os ss cs : rectangular nt os -> rectangular nt ss -> Forall (fun c => (c < nt)%nat) cs ->
  Forall (fun p => length (fst p) = nt /\ length (fst (snd p)) = nt /\ (snd (snd p) < nt)%nat) (triples os ss cs).
Proof.
  intros Ro Rs Hc. apply Forall_forall. intros [o [s c]] Hin. unfold triples in Hin. pose proof (in_combine_l _ _ _ _ Hin) as Io. apply in_combine_r in Hin.
  pose proof (in_combine_l _ _ _ _ Hin) as Is. pose proof (in_combine_r _ _ _ _ Hin) as Ic. cbn [fst snd].
  split; [exact (proj1 (Forall_forall _ _) Ro _ Io)|]. split; [exact (proj1 (Forall_forall _ _) Rs _ Is)|exact (proj1 (Forall_forall _ _) Hc _ Ic)].
Qed.

Lemma descent nt lr ss os cs : rectangular nt ss -> rectangular nt os -> length os = length ss -> Forall (fun c => (c < nt)%nat) cs -> 0 < lr ->
  descends nt os ss cs ->
  map2 (vstep lr) ss os = ss \/
  exists delta, 0 < delta /\ forall x, 0 < x < delta ->
    total_loss (combine (map (fun p => between x (fst p) (snd p)) (combine ss (map2 (vstep lr) ss os))) cs) < total_loss (combine ss cs).
Proof.
  intros Rs Ro L Hc Hlr [Hz|Hp]; [left; eapply zero_steps; eauto|right].
  destruct (total_descent nt (triples os ss cs) (triples_ok nt os ss cs Ro Rs Hc) Hp) as (delta & Hd & H).
  exists (delta / lr). split; [now apply Rdiv_lt_0_compat|]. intros x [H0 Hx].
  rewrite (between_steps x lr nt) by auto. rewrite <- moved_total by auto.
  assert (Ez : total_loss (combine ss cs) = moved_loss (triples os ss cs) 0).
  { rewrite moved_total by auto. do 2 f_equal. clear -Rs Ro L. revert os Ro L. induction Rs as [|s ss Hs R IH]; intros [|o os] Ro L; try discriminate; auto.
    pose proof (Forall_inv Ro) as Ho. pose proof (Forall_inv_tail Ro) as Ro'. cbv beta in Ho. cbn [map2]. rewrite <- IH by auto. f_equal. symmetry. apply vstep_zero. congruence. }
  rewrite Ez. apply H. split; [now apply Rmult_lt_0_compat|]. apply (Rmult_lt_compat_r lr) in Hx; auto. unfold Rdiv in Hx. rewrite Rmult_assoc, Rinv_l in Hx by lra. lra.
Qed.

Lemma first_all {L} (m : @model xr_ops L) n : length (m_trees m) = n -> first_trees n m = m.
Proof. intros <-. unfold first_trees. rewrite firstn_all. now destruct m. Qed.

Theorem multi_class_descent nc nt d cfg n lr m m' :
  (2 <= nt)%nat -> (Z.of_nat nt <= 2 ^ 53)%Z -> wf_dataset nc nt d -> one_hot_labels nt d -> 0 < lr ->
  multi_class_boost_train d cfg n (Fin lr) = Ok m -> multi_class_boost_train d cfg (S n) (Fin lr) = Ok m' ->
  exists ss ss' cs, mapM (multi_class_boost_raw m) (feature_rows d) = Ok (map (map Fin) ss) /\
    mapM (multi_class_boost_raw m') (feature_rows d) = Ok (map (map Fin) ss') /\ classes nt d cs /\
    (ss' = ss \/ exists delta, 0 < delta /\ forall x, 0 < x < delta ->
       total_loss (combine (map (fun p => between x (fst p) (snd p)) (combine ss ss')) cs) < total_loss (combine ss cs)).
Proof.
  intros Hk Hz W HO Hlr E E'. destruct (one_hot_labels_real nt d HO) as (cs & El & Hcs).
  destruct (multi_core nc nt d cfg (S n) lr m' n cs Hk Hz W HO El E' ltac:(lia)) as (ss & t & os & S1 & S2 & _ & Eo & Rs & Ro & Ls & D).
  pose proof (multi_class_prefix d cfg (S n) n (Fin lr) m' ltac:(lia) E') as P. rewrite P in E. injection E as E. rewrite E in S1.
  destruct (multi_guess nc nt d cfg (S n) (Fin lr) m' ltac:(lia) Hz W E') as (_ & _ & HT). rewrite (first_all m' (S n) HT) in S2.
  exists ss, (map2 (vstep lr) ss os), cs. split; [exact S1|]. split; [exact S2|]. split; [now apply classes_hot|].
  apply (descent nt); auto. rewrite Eo, map_length. symmetry. exact Ls.
Qed.

Theorem amg_descent nc nt d cfg n lr m m' :
  (2 <= nt)%nat -> (Z.of_nat nt <= 2 ^ 53)%Z -> wf_dataset nc nt d -> one_hot_labels nt d -> 0 < lr ->
  amg_boost_train d cfg n (Fin lr) = Ok m -> amg_boost_train d cfg (S n) (Fin lr) = Ok m' ->
  exists ss ss' cs, mapM (amg_boost_raw m) (feature_rows d) = Ok (map (map Fin) ss) /\
    mapM (amg_boost_raw m') (feature_rows d) = Ok (map (map Fin) ss') /\ classes nt d cs /\
    (ss' = ss \/ exists delta, 0 < delta /\ forall x, 0 < x < delta ->
       total_loss (combine (map (fun p => between x (fst p) (snd p)) (combine ss ss')) cs) < total_loss (combine ss cs)).
Proof.
  intros Hk Hz W HO Hlr E E'. destruct (one_hot_labels_real nt d HO) as (cs & El & Hcs).
  destruct (amg_core nc nt d cfg (S n) lr m' n cs Hk Hz W HO El E' ltac:(lia)) as (ss & t & os & S1 & S2 & _ & Eo & Rs & Ro & Ls & D).
  pose proof (amg_prefix d cfg (S n) n (Fin lr) m' ltac:(lia) E') as P. rewrite P in E. injection E as E. rewrite E in S1.
  destruct (amg_guess nc nt d cfg (S n) (Fin lr) m' ltac:(lia) Hz W E') as (_ & _ & HT). rewrite (first_all m' (S n) HT) in S2.
  exists ss, (map2 (vstep lr) ss os), cs. split; [exact S1|]. split; [exact S2|]. split; [now apply classes_hot|].
  apply (descent nt); auto. rewrite Eo, map_length. symmetry. exact Ls.
Qed.

(** The first iteration: the tree does not depend on the learning rate. *)
Lemma descent_rate nt ss os cs : rectangular nt ss -> rectangular nt os -> length os = length ss -> Forall (fun c => (c < nt)%nat) cs ->
  descends nt os ss cs ->
  (forall lr, map2 (vstep lr) ss os = ss) \/
  exists delta, 0 < delta /\ forall lr, 0 < lr < delta -> total_loss (combine (map2 (vstep lr) ss os) cs) < total_loss (combine ss cs).
Proof.
  intros Rs Ro L Hc [Hz|Hp]; [left; intros; eapply zero_steps; eauto|right].
  destruct (total_descent nt (triples os ss cs) (triples_ok nt os ss cs Ro Rs Hc) Hp) as (delta & Hd & H).
  exists delta. split; [auto|]. intros lr Hlr. specialize (H lr Hlr). rewrite !moved_total in H by auto.
  replace (map2 (vstep 0) ss os) with ss in H; auto. clear -Rs Ro L. revert os Ro L. induction Rs as [|s ss Hs R IH]; intros [|o os] Ro L; try discriminate; auto.
  pose proof (Forall_inv Ro) as Ho. pose proof (Forall_inv_tail Ro) as Ro'. cbv beta in Ho. cbn [map2]. rewrite <- IH by auto. f_equal. symmetry. apply vstep_zero. congruence.
Qed.

Lemma raw_zero_trees {L} (out : list xr -> tree_node L -> res (list xr)) lr g row : @raw xr_ops L out lr g row [] = Ok g.
Proof. reflexivity. Qed.

Lemma start_scores nt (f : list xr -> res (list xr)) rows ss : (forall row, f row = Ok (map Fin (even nt))) -> mapM f rows = Ok (map (map Fin) ss) ->
  ss = map (fun _ => even nt) rows.
Proof.
  intros H. revert ss. induction rows as [|row rows IH]; intros ss E; cbn [mapM] in E; [destruct ss; [reflexivity|discriminate]|].
  rewrite H in E. cbn [bind] in E. apply bind_Ok in E as (l & El & E). destruct ss as [|s ss]; [discriminate|]. cbn [map] in E |- *. injection E as E1 ->.
  rewrite (IH ss El). f_equal. apply (f_equal (map xval)) in E1. rewrite !map_xval_Fin in E1. now symmetry.
Qed.

Theorem multi_class_first_iteration nc nt d cfg lr0 m0 m1 :
  (2 <= nt)%nat -> (Z.of_nat nt <= 2 ^ 53)%Z -> wf_dataset nc nt d -> one_hot_labels nt d ->
  multi_class_boost_train d cfg 0 (Fin lr0) = Ok m0 -> multi_class_boost_train d cfg 1 (Fin lr0) = Ok m1 ->
  exists ss cs, mapM (multi_class_boost_raw m0) (feature_rows d) = Ok (map (map Fin) ss) /\ classes nt d cs /\
    ((forall lr m, multi_class_boost_train d cfg 1 (Fin lr) = Ok m -> mapM (multi_class_boost_raw m) (feature_rows d) = Ok (map (map Fin) ss)) \/
     exists delta, 0 < delta /\ forall lr m, 0 < lr < delta -> multi_class_boost_train d cfg 1 (Fin lr) = Ok m ->
       exists ss', mapM (multi_class_boost_raw m) (feature_rows d) = Ok (map (map Fin) ss') /\ total_loss (combine ss' cs) < total_loss (combine ss cs)).
Proof.
  intros Hk Hz W HO E0 E1. destruct (one_hot_labels_real nt d HO) as (cs & El & Hcs).
  assert (C : forall lr m, multi_class_boost_train d cfg 1 (Fin lr) = Ok m -> exists t,
    grad_boost_tree_new (fitted d (map (map Fin) (map (fun _ => even nt) (feature_rows d)))) cfg (leaf_output_calculator_new MultiClassClassification) = Ok t /\
    mapM (multi_class_boost_raw (first_trees 0 m)) (feature_rows d) = Ok (map (map Fin) (map (fun _ => even nt) (feature_rows d))) /\
    mapM (multi_class_boost_raw m) (feature_rows d) = Ok (map (map Fin) (map2 (vstep lr) (map (fun _ => even nt) (feature_rows d)) (map (looked_up gl_val t) (feature_rows d)))) /\
    rectangular nt (map (looked_up gl_val t) (feature_rows d)) /\ rectangular nt (map (fun _ => even nt) (feature_rows d)) /\
    descends nt (map (looked_up gl_val t) (feature_rows d)) (map (fun _ => even nt) (feature_rows d)) cs).
  { intros lr m E. destruct (multi_core nc nt d cfg 1 lr m 0 cs Hk Hz W HO El E ltac:(lia)) as (ss & t & os & S1 & S2 & Eb & -> & Rs & Ro & Ls & D).
    destruct (multi_guess nc nt d cfg 1 (Fin lr) m ltac:(lia) Hz W E) as (Hg & _ & HT). rewrite (first_all m 1 HT) in S2.
    assert (Ess : ss = map (fun _ => even nt) (feature_rows d)).
    { eapply start_scores; [|exact S1]. intros row. cbv beta. rewrite multi_raw, Hg. reflexivity. }
    subst ss. exists t. auto 8. }
  destruct (C lr0 m1 E1) as (t & Eb & S1 & _ & Ro & Rs & D).
  pose proof (multi_class_prefix d cfg 1 0 (Fin lr0) m1 ltac:(lia) E1) as P. rewrite P in E0. injection E0 as E0. rewrite E0 in S1.
  exists (map (fun _ => even nt) (feature_rows d)), cs. split; [exact S1|]. split; [now apply classes_hot|].
  destruct (descent_rate nt _ _ cs Rs Ro ltac:(now rewrite !map_length) Hcs D) as [H|(delta & Hd & H)].
  - left. intros lr m E. destruct (C lr m E) as (t' & Eb' & _ & S2 & _). rewrite Eb in Eb'. injection Eb' as <-. rewrite H in S2. exact S2.
  - right. exists delta. split; auto. intros lr m Hlr E. destruct (C lr m E) as (t' & Eb' & _ & S2 & _). rewrite Eb in Eb'. injection Eb' as <-.
    eexists. split; [exact S2|]. now apply H.
Qed.

Theorem amg_first_iteration nc nt d cfg lr0 m0 m1 :
  (2 <= nt)%nat -> (Z.of_nat nt <= 2 ^ 53)%Z -> wf_dataset nc nt d -> one_hot_labels nt d ->
  amg_boost_train d cfg 0 (Fin lr0) = Ok m0 -> amg_boost_train d cfg 1 (Fin lr0) = Ok m1 ->
  exists ss cs, mapM (amg_boost_raw m0) (feature_rows d) = Ok (map (map Fin) ss) /\ classes nt d cs /\
    ((forall lr m, amg_boost_train d cfg 1 (Fin lr) = Ok m -> mapM (amg_boost_raw m) (feature_rows d) = Ok (map (map Fin) ss)) \/
     exists delta, 0 < delta /\ forall lr m, 0 < lr < delta -> amg_boost_train d cfg 1 (Fin lr) = Ok m ->
       exists ss', mapM (amg_boost_raw m) (feature_rows d) = Ok (map (map Fin) ss') /\ total_loss (combine ss' cs) < total_loss (combine ss cs)).
Proof.
  intros Hk Hz W HO E0 E1. destruct (one_hot_labels_real nt d HO) as (cs & El & Hcs).
  assert (C : forall lr m, amg_boost_train d cfg 1 (Fin lr) = Ok m -> exists t,
    amg_boost_tree_new (fitted d (map (map Fin) (map (fun _ => even nt) (feature_rows d)))) cfg (leaf_output_calculator_new MultiClassClassification) = Ok t /\
    mapM (amg_boost_raw (first_trees 0 m)) (feature_rows d) = Ok (map (map Fin) (map (fun _ => even nt) (feature_rows d))) /\
    mapM (amg_boost_raw m) (feature_rows d) = Ok (map (map Fin) (map2 (vstep lr) (map (fun _ => even nt) (feature_rows d)) (map (looked_up (al_val nt) t) (feature_rows d)))) /\
    rectangular nt (map (looked_up (al_val nt) t) (feature_rows d)) /\ rectangular nt (map (fun _ => even nt) (feature_rows d)) /\
    descends nt (map (looked_up (al_val nt) t) (feature_rows d)) (map (fun _ => even nt) (feature_rows d)) cs).
  { intros lr m E. destruct (amg_core nc nt d cfg 1 lr m 0 cs Hk Hz W HO El E ltac:(lia)) as (ss & t & os & S1 & S2 & Eb & -> & Rs & Ro & Ls & D).
    destruct (amg_guess nc nt d cfg 1 (Fin lr) m ltac:(lia) Hz W E) as (Hg & _ & HT). rewrite (first_all m 1 HT) in S2.
    assert (Ess : ss = map (fun _ => even nt) (feature_rows d)).
    { eapply start_scores; [|exact S1]. intros row. cbv beta. rewrite amg_raw, Hg. reflexivity. }
    subst ss. exists t. auto 8. }
  destruct (C lr0 m1 E1) as (t & Eb & S1 & _ & Ro & Rs & D).
  pose proof (amg_prefix d cfg 1 0 (Fin lr0) m1 ltac:(lia) E1) as P. rewrite P in E0. injection E0 as E0. rewrite E0 in S1.
  exists (map (fun _ => even nt) (feature_rows d)), cs. split; [exact S1|]. split; [now apply classes_hot|].
  destruct (descent_rate nt _ _ cs Rs Ro ltac:(now rewrite !map_length) Hcs D) as [H|(delta & Hd & H)].
  - left. intros lr m E. destruct (C lr m E) as (t' & Eb' & _ & S2 & _). rewrite Eb in Eb'. injection Eb' as <-. rewrite H in S2. exact S2.
  - right. exists delta. split; auto. intros lr m Hlr E. destruct (C lr m E) as (t' & Eb' & _ & S2 & _). rewrite Eb in Eb'. injection Eb' as <-.
    eexists. split; [exact S2|]. now apply H.
Qed.
