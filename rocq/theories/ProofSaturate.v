(** Classification leaves in binary64: finite outputs, accuracy, and NaN scores. *)
From Coq Require Import Reals Lra Lia ZArith.
From Flocq Require Import Core.
From Flocq Require Import IEEE754.BinarySingleNaN.
From Verif Require Import Base Num F64 ModelCommon ModelTree ModelBoost Lib Spec SpecTree SpecExact SpecClass SpecScore SpecPredict SpecSaturate
  ProofReal ProofRound ProofError ProofData ProofTree ProofTree3 ProofScore ProofScore2 ProofBoost ProofBoost2 ProofLeaf ProofPredict ProofClassF64 ProofSoftmax ProofLeafFloat.
Local Open Scope R_scope.

(* ------------------------------------------------------------------ *)
(** ** Trained multi-class models, any arithmetic *)

Section Trained.
Context {O : NumOps} (LW : NumLaws O).

Lemma residual_data_wf nc nt d scores : wf_dataset nc nt d -> Forall2 (fun y s => length y = length s) (labels d) scores ->
  wf_dataset nc nt (residual_data d scores).
Proof.
  intros W Hs. assert (Rp : rectangular nt (map softmax scores)).
  { pose proof (wf_labels _ _ _ W) as R. clear -Hs R. unfold rectangular in *.
    induction Hs; cbn [map]; constructor; inversion R; subst; auto. unfold softmax. rewrite map_length. congruence. }
  destruct (differences_rect nt (labels d) (map softmax scores)) as [Q1 Q2].
  { rewrite map_length. exact (Forall2_length _ _ _ Hs). }
  { apply (wf_labels _ _ _ W). }
  { exact Rp. }
  apply (with_labels_wf nc nt d (differences (labels d) (map softmax scores)) W); auto. rewrite Q1. apply (wf_lengths _ _ _ W).
Qed.

Lemma multi_class_trained_sum nc nt d cfg n lr (m : multi_class_boost_model) row :
  wf_dataset nc nt d -> (Z.of_nat nt <= 2 ^ 53)%Z -> multi_class_boost_train d cfg n lr = Ok m -> (nc <= length row)%nat ->
  exists outs p,
    Forall2 (fun t o => find_leaf_node_for_data row t = Ok (mkGL (Some o)) /\ length o = nt) (m_trees m) outs /\
    multi_class_boost_raw m row = Ok p /\ length p = nt /\
    forall j, (j < nt)%nat ->
      nth_error p j = Some (fold_left (fun s o => fadd s (fmul lr (nth j o f0))) outs (fdiv f1 (f_of_nat nt))).
Proof.
  intros W Hk E Hr. destruct (multi_class_shape LW nt d cfg n lr m (wf_labels _ _ _ W) Hk E) as (HL & Hlr & Hg).
  assert (HG : Forall (fun t => exists o, gb_out row t = Ok o /\ length o = nt) (m_trees m)).
  { apply Forall_forall. intros t Ht. apply In_nth_error in Ht as [k Hk'].
    assert (k < n)%nat by (rewrite <- HL; apply nth_error_Some; congruence).
    destruct (multi_class_stage d cfg n lr m k (wf_lengths _ _ _ W) E H) as (ps & t' & _ & Hs & Ht' & Eb).
    rewrite Hk' in Ht'. inversion Ht'; subst t'.
    exact (gb_tree_outputs nc nt _ cfg MultiClassClassification t row (residual_data_wf nc nt d ps W Hs) Eb Hr). }
  assert (HF : exists outs, Forall2 (fun t o => find_leaf_node_for_data row t = Ok (mkGL (Some o)) /\ length o = nt) (m_trees m) outs).
  { clear -HG. induction HG as [|t ts (o & E & Ho) _ (os & IH)]; [now exists []|]. exists (o :: os). constructor; auto.
    split; auto. now apply gb_out_leaf. }
  destruct HF as (outs & HF). exists outs.
  assert (Lg : length (m_initial_guess m) = nt) by now rewrite Hg, repeat_length.
  destruct (multi_class_raw_sum m row outs) as (p & Ep & Hp & Hn).
  { eapply Forall2_impl; [|exact HF]. intros t o [? ?]. split; auto. rewrite Lg, H0. apply le_n. }
  exists p. rewrite Hlr in Hn. split; auto. split; auto. split; [congruence|]. intros j Hj. apply Hn. rewrite Hg. now apply nth_error_repeat.
Qed.

Lemma differences_In ys ss v : In v (differences ys (map softmax ss)) ->
  exists y s, In (y, s) (combine ys ss) /\ v = map (fun q => fsub (fst q) (snd q)) (combine y (softmax s)).
Proof.
  unfold differences. intros H. apply in_map_iff in H as ([y q] & <- & H). cbn [fst snd].
  revert ss H. induction ys as [|y0 ys IH]; intros [|s0 ss] H; cbn in H; try contradiction. destruct H as [H|H].
  - injection H as <- <-. exists y0, s0. split; [now left|reflexivity].
  - destruct (IH ss H) as (y' & s' & Hin & E). exists y', s'. split; [now right|exact E].
Qed.

Lemma Forall2_combine_In {A B} (R : A -> B -> Prop) l1 l2 a b : Forall2 R l1 l2 -> In (a, b) (combine l1 l2) -> R a b.
Proof. induction 1; cbn; [tauto|]. intros [E|H']; [injection E as <- <-; auto|auto]. Qed.

End Trained.

(* ------------------------------------------------------------------ *)
(** ** Leaf outputs in binary64 *)

Section Outputs.
Context (P : platform).
Local Existing Instance f64_ops.

Definition entries (j : nat) (rs : list (list f64)) : list f64 := flat_map (fun l => match nth_error l j with Some x => [x] | None => [] end) rs.

Lemma class_output_64 k rs j : @class_output_of (f64_ops P) k rs j = output64 (entries j rs) k.
Proof. reflexivity. Qed.

Lemma entries_In j rs x : In x (entries j rs) <-> exists r, In r rs /\ nth_error r j = Some x.
Proof.
  unfold entries. rewrite in_flat_map. split; intros (r & Hr & H); exists r; split; auto; destruct (nth_error r j); cbn in *; try tauto; try congruence.
  - destruct H as [->|[]]. reflexivity.
  - left. congruence.
Qed.

Lemma entries_length k j rs : rectangular k rs -> (j < k)%nat -> length (entries j rs) = length rs.
Proof.
  intros Hr Hj. unfold rectangular in Hr. induction Hr as [|r rs Hl Hr IH]; auto. unfold entries in *. cbn [flat_map]. rewrite app_length, IH.
  destruct (nth_error r j) eqn:E; [reflexivity|]. apply nth_error_None in E. lia.
Qed.

Lemma entries_like j rs : residual_table rs -> Forall residual_like (entries j rs).
Proof.
  intros H. rewrite Forall_forall. intros x Hx. apply entries_In in Hx as (r & Hr & E). unfold residual_table in H. rewrite Forall_forall in H.
  specialize (H r Hr). rewrite Forall_forall in H. apply H. eapply nth_error_In; eauto.
Qed.

Lemma entries_target k j rs : rectangular k rs -> (j < k)%nat -> map B2R (entries j rs) = target j (map (map B2R) rs).
Proof.
  intros Hr Hj. unfold rectangular in Hr. induction Hr as [|r rs Hl Hr IH]; auto.
  change (entries j (r :: rs)) with (match nth_error r j with Some x => [x] | None => [] end ++ entries j rs).
  destruct (nth_error r j) as [x|] eqn:E; [|apply nth_error_None in E; lia]. cbn [app]. unfold target in *. cbn [map]. rewrite <- IH. f_equal.
  symmetry. apply nth_error_nth. exact (map_nth_error B2R j r E).
Qed.

Section Table.
Context (k : nat) (rs : list (list f64)) (j : nat) (Hk : (2 <= k)%nat) (Hk' : (Z.of_nat k <= 2 ^ 40)%Z) (Hr : rectangular k rs) (Hj : (j < k)%nat)
  (Hne : rs <> []) (Hn : (Z.of_nat (length rs) <= 2 ^ 40)%Z) (HT : residual_table rs).

Lemma entries_nonempty : entries j rs <> [].
Proof. intros E. apply Hne. apply length_zero_iff_nil. rewrite <- (entries_length k j rs Hr Hj), E. reflexivity. Qed.

Lemma entries_few : (Z.of_nat (length (entries j rs)) <= 2 ^ 40)%Z.
Proof. now rewrite (entries_length k j rs Hr Hj). Qed.

Lemma leaf_finite :
  is_finite (@class_output_of (f64_ops P) k rs j : f64) = true <-> exists r x, In r rs /\ nth_error r j = Some x /\ 0 < Rabs (B2R x) < 1.
Proof.
  change (@class_output_of (f64_ops P) k rs j) with (output64 (entries j rs) k).
  rewrite (output_finite (entries j rs) (entries_like j rs HT) entries_few k Hk Hk' entries_nonempty). split.
  - intros (x & Hx & H). apply entries_In in Hx as (r & Hr' & E). eauto.
  - intros (r & x & Hr' & E & H). exists x. split; auto. apply entries_In. eauto.
Qed.

Lemma leaf_accuracy : (exists r x, In r rs /\ nth_error r j = Some x /\ 0 < Rabs (B2R x) < 1) ->
  Rabs (B2R (@class_output_of (f64_ops P) k rs j : f64) - nth j (class_output k (map (map B2R) rs)) 0) <=
  bpow radix2 (-49) * INR (length rs + 1) *
  (Rsum (map Rabs (target j (map (map B2R) rs))) / curvature (target j (map (map B2R) rs))).
Proof.
  intros Hx. apply leaf_finite in Hx as F. destruct Hx as (r & x & Hr' & E & H).
  change (@class_output_of (f64_ops P) k rs j) with (output64 (entries j rs) k) in *.
  assert (HD : Rsum (map hill (entries j rs)) <> 0).
  { intros E0. pose proof (D_zero _ (entries_like j rs HT) E0) as HF. rewrite Forall_forall in HF.
    assert (Hin : In x (entries j rs)) by (apply entries_In; eauto). specialize (HF x Hin). unfold hill in HF. apply Rmult_integral in HF. lra. }
  destruct (output_error (entries j rs) (entries_like j rs HT) entries_few k Hk Hk' HD entries_nonempty) as [_ B].
  rewrite (entries_length k j rs Hr Hj) in B. unfold class_output.
  assert (En : nth j (map (fun j => (INR k - 1) / INR k * (Rsum (target j (map (map B2R) rs)) / curvature (target j (map (map B2R) rs)))) (seq 0 k)) 0 =
     (INR k - 1) / INR k * (Rsum (target j (map (map B2R) rs)) / curvature (target j (map (map B2R) rs)))).
  { apply nth_error_nth. rewrite nth_error_map. assert (Es : nth_error (seq 0 k) j = Some j).
    { rewrite (nth_error_nth' (seq 0 k) 0%nat) by (now rewrite seq_length). now rewrite seq_nth. }
    now rewrite Es. }
  rewrite En, <- (entries_target k j rs Hr Hj). unfold curvature. rewrite !map_map.
  rewrite plus_INR. change (INR 1) with 1. rewrite (Rmult_comm ((INR k - 1) / INR k)). exact B.
Qed.

End Table.

Lemma leaf_zero_nan k rs j : (forall r x, In r rs -> nth_error r j = Some x -> is_finite x = true /\ B2R x = 0) ->
  @class_output_of (f64_ops P) k rs j = (B754_nan : f64).
Proof.
  intros H. change (@class_output_of (f64_ops P) k rs j) with (output64 (entries j rs) k).
  assert (HZ : forall x, In x (entries j rs) -> is_finite x = true /\ B2R x = 0).
  { intros x Hx. apply entries_In in Hx as (r & Hr & E). eauto. }
  assert (HL : Forall residual_like (entries j rs)).
  { rewrite Forall_forall. intros x Hx. destruct (HZ x Hx) as [F V]. split; [exact F|]. rewrite V, Rabs_R0. split; [lra|now left]. }
  apply (output_not_finite (entries j rs) HL k).
  - rewrite (Rsum_map_ext hill (fun _ => 0)); [rewrite Rsum_map_const; ring|]. intros x Hx. destruct (HZ x Hx) as [_ V]. unfold hill. rewrite V, Rabs_R0. ring.
  - rewrite (Rsum_map_ext _ (fun _ => 0)); [rewrite Rsum_map_const; ring|]. intros x Hx. destruct (HZ x Hx) as [_ V]. cbn beta. rewrite V. apply Rabs_R0.
Qed.

Lemma shorter {A} (f : A -> bool) l : (length (filter f l) <= length l)%nat.
Proof. induction l as [|a l IH]; cbn; [lia|destruct (f a); cbn; lia]. Qed.

Lemma within {A} (l : list A) j v : nth_error l j = Some v -> (j < length l)%nat.
Proof. intros E. apply nth_error_Some. congruence. Qed.

Lemma seq_entry {A} (f : nat -> A) n j : (j < n)%nat -> nth_error (map f (seq 0 n)) j = Some (f j).
Proof. intros H. rewrite nth_error_map, (nth_error_nth' (seq 0 n) 0%nat) by (now rewrite seq_length). now rewrite seq_nth. Qed.

(** Leaves of fitted trees. *)
Lemma samples_like_table {L} nc nt (d : @dataset (f64_ops P)) (t : @tree_node (f64_ops P) L) row : wf_dataset nc nt d ->
  rectangular nt (map snd (samples_like row t d)) /\ (length (map snd (samples_like row t d)) <= length (labels d))%nat /\
  incl (map snd (samples_like row t d)) (labels d).
Proof.
  intros W. assert (HI : incl (map snd (samples_like row t d)) (labels d)).
  { intros l Hl. apply in_map_iff in Hl as ([r y] & <- & Hp). unfold samples_like in Hp. apply filter_In in Hp as [Hp _].
    unfold samples in Hp. now apply in_combine_r in Hp. }
  split; [|split; [|exact HI]].
  - pose proof (wf_labels _ _ _ W) as H. unfold rectangular in *. rewrite Forall_forall in *. auto.
  - rewrite map_length. unfold samples_like. pose proof (wf_lengths _ _ _ W) as HL.
    assert (E : length (samples d) = length (labels d)) by (unfold samples; rewrite combine_length, HL; apply Nat.min_id).
    rewrite <- E. apply shorter.
Qed.

Lemma leaf_nonempty nc nt (d : @dataset (f64_ops P)) cfg t row :
  wf_dataset nc nt d -> grad_boost_tree_new d cfg (leaf_output_calculator_new MultiClassClassification) = Ok t -> (nc <= length row)%nat ->
  samples_like row t d <> [].
Proof.
  intros W E Hr H0. destruct (gb_leaf_of_row nc nt d cfg MultiClassClassification t row W E Hr) as (x & o & Sx & Wx & _).
  rewrite H0 in Sx. pose proof (wf_nonempty _ _ _ Wx) as H1. pose proof (wf_lengths _ _ _ Wx) as H2. unfold samples in Sx.
  destruct (feature_rows x); [now apply H1|]. destruct (labels x); discriminate.
Qed.

Theorem fitted_leaf_finite nc nt (d : @dataset (f64_ops P)) cfg t row :
  wf_dataset nc nt d -> (2 <= nt)%nat -> (Z.of_nat nt <= 2 ^ 40)%Z -> (Z.of_nat (length (labels d)) <= 2 ^ 40)%Z -> residual_table (labels d) ->
  grad_boost_tree_new d cfg (leaf_output_calculator_new MultiClassClassification) = Ok t -> (nc <= length row)%nat ->
  exists o, find_leaf_node_for_data row t = Ok (mkGL (Some o)) /\ length o = nt /\
    forall j v, nth_error o j = Some v ->
      (is_finite (v : f64) = true <-> exists r y x, In (r, y) (samples_like row t d) /\ nth_error y j = Some x /\ 0 < Rabs (B2R x) < 1) /\
      ((forall r y x, In (r, y) (samples_like row t d) -> nth_error y j = Some x -> B2R x = 0) -> v = B754_nan) /\
      (is_finite (v : f64) = true ->
       Rabs (B2R v - nth j (class_output nt (map (map B2R) (map snd (samples_like row t d)))) 0) <=
       bpow radix2 (-49) * INR (length (samples_like row t d) + 1) *
       (Rsum (map Rabs (target j (map (map B2R) (map snd (samples_like row t d))))) /
        curvature (target j (map (map B2R) (map snd (samples_like row t d)))))).
Proof.
  intros W Hk Hk' Hn HT E Hr. pose proof (leaf_nonempty nc nt d cfg t row W E Hr) as Hne. pose proof (gb_class_leaf nc nt d cfg t row W E Hr) as Ef.
  eexists. split; [exact Ef|]. split; [now rewrite map_length, seq_length|]. intros j v Hj.
  destruct (samples_like_table nc nt d t row W) as (R & Ln & HI). set (rs := map snd (samples_like row t d)) in *.
  assert (Hj' : (j < nt)%nat) by (pose proof (within _ _ _ Hj) as H0; rewrite map_length, seq_length in H0; exact H0).
  assert (Ev : v = @class_output_of (f64_ops P) nt rs j).
  { pose proof (eq_trans (eq_sym Hj) (seq_entry (@class_output_of (f64_ops P) nt rs) nt j Hj')) as H0. now injection H0. }
  assert (HTs : residual_table rs).
  { unfold residual_table in *. rewrite Forall_forall in *. intros r Hr'. exact (HT r (HI r Hr')). }
  assert (Hrs : rs <> []) by (intros E0; apply Hne; apply map_eq_nil in E0; exact E0).
  assert (Hns : (Z.of_nat (length rs) <= 2 ^ 40)%Z) by lia.
  assert (HX : (exists r x, In r rs /\ nth_error r j = Some x /\ 0 < Rabs (B2R x) < 1) <->
               (exists r y x, In (r, y) (samples_like row t d) /\ nth_error y j = Some x /\ 0 < Rabs (B2R x) < 1)).
  { split.
    - intros (y & x & Hy & Hx & H). apply in_map_iff in Hy as ([r y'] & E0 & Hy). cbn in E0. subst y'. eauto 10.
    - intros (r & y & x & Hy & Hx & H). exists y, x. split; [|auto]. apply in_map_iff. now exists (r, y). }
  pose proof (leaf_finite nt rs j Hk Hk' R Hj' Hrs Hns HTs) as HF.
  split; [|split].
  - rewrite Ev. rewrite HF. exact HX.
  - intros HZ. rewrite Ev. apply leaf_zero_nan. intros y x Hy Hx. split.
    + unfold residual_table in HTs. rewrite Forall_forall in HTs. specialize (HTs y Hy). rewrite Forall_forall in HTs. apply HTs. eapply nth_error_In; eauto.
    + apply in_map_iff in Hy as ([r y'] & E0 & Hy). cbn in E0. subst y'. eauto.
  - intros F. rewrite Ev in *. pose proof (leaf_accuracy nt rs j Hk Hk' R Hj' Hrs Hns HTs (proj1 HF F)) as B.
    unfold rs in B at 3. rewrite map_length in B. exact B.
Qed.

(* ------------------------------------------------------------------ *)
(** ** Residuals of moderate scores *)

Lemma exp_pow4 n : exp (INR n) <= bpow radix2 (2 * Z.of_nat n).
Proof.
  induction n as [|n IH]; [cbn; rewrite exp_0; lra|]. rewrite S_INR, exp_plus.
  replace (2 * Z.of_nat (S n))%Z with (2 * Z.of_nat n + 2)%Z by lia. rewrite bpow_plus. pose proof exp_le_3.
  apply Rmult_le_compat; try (left; apply exp_pos); [exact IH|]. change (bpow radix2 2) with 4. lra.
Qed.

Lemma residual_of_probability (y p : f64) : (y = Bone \/ y = B754_zero false) -> is_finite p = true -> bpow radix2 (-900) <= B2R p <= 1 ->
  residual_entry (Bminus mode_NE y p).
Proof.
  intros Hy Fp Hp. pose proof (bpow_gt_0 radix2 (-900)) as H9.
  assert (Vy : is_finite y = true /\ (B2R y = 1 \/ B2R y = 0)) by (destruct Hy as [-> | ->]; split; auto; left; exact Bone_1).
  destruct Vy as [Fy Vy].
  assert (HA : Rabs (B2R y - B2R p) <= 1) by (apply Rabs_le; lra).
  destruct (minus_value y p Fy Fp) as [Fm Vm].
  { eapply pow_le_emax with (e := 0%Z); [lia| |lia]. exact HA. }
  split; [exact Fm|]. rewrite Vm. split.
  { apply rnd_le_format; [exact ProofScoreF64.format_one|exact HA]. }
  destruct Vy as [V1|V0].
  - rewrite V1. destruct (Req_dec (B2R p) 1) as [E1|N1]; [left; rewrite E1, Rminus_diag_eq by reflexivity; apply rnd_0|right].
    assert (H1 : B2R p <= 1 - ulp1) by (apply below_one; lra).
    assert (H2 : ulp1 <= rnd (1 - B2R p)).
    { replace ulp1 with (rnd ulp1) at 1 by (apply round_generic; [typeclasses eauto|apply ProofScoreF64.format_pow; lia]). apply rnd_le. lra. }
    eapply Rle_trans; [|apply Rle_abs]. eapply Rle_trans; [|exact H2]. apply bpow_le. lia.
  - right. rewrite V0, Rminus_0_l. assert (E : rnd (- B2R p) = - B2R p).
    { apply round_generic; [typeclasses eauto|]. apply generic_format_opp, generic_format_B2R. }
    rewrite E, Rabs_Ropp, Rabs_pos_eq; lra.
Qed.

Theorem residual_data_entries (Hexp : accurate_exp P) nt (d : @dataset (f64_ops P)) (scores : list (list (@F (f64_ops P)))) :
  Forall (fun y => exists c, one_hot nt c y) (labels d) -> (1 <= nt)%nat -> (Z.of_nat nt <= 2 ^ 40)%Z ->
  Forall2 (fun y s => length y = length s) (labels d) scores ->
  Forall (Forall (fun x : @F (f64_ops P) => is_finite (x : f64) = true /\ Rabs (B2R (x : f64)) <= 200)) scores ->
  residual_table (labels (@residual_data (f64_ops P) d scores)).
Proof.
  intros HO Hk Hk' HL HB. unfold residual_data. cbn [labels]. unfold residual_table. apply Forall_forall. intros v Hv.
  destruct (@differences_In (f64_ops P) _ _ v Hv) as (y & s & Hys & ->). pose proof (Forall2_combine_In _ _ _ y s HL Hys) as L.
  rewrite Forall_forall in HO. destruct (HO y (in_combine_l _ _ _ _ Hys)) as (c & _ & Ly & Hc).
  rewrite Forall_forall in HB. pose proof (HB s (in_combine_r _ _ _ _ Hys)) as Bs.
  apply Forall_map, Forall_forall. intros [a p] Hin. cbn [fst snd].
  assert (Ha : a = Bone \/ a = B754_zero false).
  { apply in_combine_l in Hin. destruct (@In_nth_error (@F (f64_ops P)) y a Hin) as (j & Hj).
    assert (Hjk : (j < nt)%nat) by (rewrite <- Ly; apply (@nth_error_Some (@F (f64_ops P))); rewrite Hj; discriminate).
    rewrite (Hc j Hjk) in Hj. injection Hj as <-. destruct (_ =? _)%N; [now left|now right]. }
  apply in_combine_r in Hin. unfold softmax in Hin. apply in_map_iff in Hin as (x & <- & Hx).
  assert (B3 : Forall (fun x : f64 => is_finite x = true /\ Rabs (B2R x) <= 300) s).
  { eapply Forall_impl; [|exact Bs]. cbn beta. intros z [? ?]. split; [auto|lra]. }
  assert (Ls : @length f64 s = nt) by exact (eq_trans (eq_sym L) Ly).
  assert (Hk1 : (1 <= @length f64 s)%nat) by (rewrite Ls; exact Hk).
  assert (Hk2 : (Z.of_nat (@length f64 s) <= 2 ^ 40)%Z) by (rewrite Ls; exact Hk').
  destruct (ProofSoftmax.total_error Hexp s B3 Hk1 Hk2) as (Ft & Et & (HQ1 & HQ2) & HQm).
  destruct (probability_error Hexp s B3 Hk1 Hk2 x Hx) as (Fp & Ep & Hq0 & Hq1).
  set (Q := Rsum (map (fun x => exp (B2R x)) s)) in *. set (q := exp (B2R x) / Q) in *.
  set (total := fold_left (Bplus mode_NE) (map (p_exp P) s) (B754_zero (p_sum_from_negative_zero P))) in *.
  pose proof (count_small _ Hk2) as Hc2. pose proof ulp1_pos as Hu. pose proof ulp1_small as Hu'.
  apply (residual_of_probability a (Bmult mode_NE (p_exp P x) (Bdiv mode_NE Bone total)) Ha Fp).
  assert (Hn1 : 1 <= INR (@length f64 s)) by (apply (le_INR 1); exact Hk1).
  split.
  - assert (Hq : bpow radix2 (-840) <= q).
    { assert (Hx2 : exp (-400) <= exp (B2R x) / exp 200).
      { unfold Rdiv. rewrite <- exp_Ropp, <- exp_plus. rewrite Forall_forall in Bs. destruct (Bs x Hx) as [_ Bx]. apply Rabs_le_inv in Bx.
        destruct (Rle_lt_or_eq_dec (-400) (B2R x + - 200)) as [H|H]; [lra|left; now apply exp_increasing|right; now rewrite H]. }
      assert (HQ : Q <= bpow radix2 40 * exp 200).
      { apply Rle_trans with (INR (@length f64 s) * exp 200).
        - unfold Q. rewrite <- Rsum_map_const. apply Rsum_map_le. intros z Hz. rewrite Forall_forall in Bs. destruct (Bs z Hz) as [_ Bz]. apply Rabs_le_inv in Bz.
          destruct (Rle_lt_or_eq_dec (B2R z) 200) as [H|H]; [lra|left; now apply exp_increasing|right; now rewrite H].
        - apply Rmult_le_compat_r; [left; apply exp_pos|]. rewrite INR_IZR_INZ, <- (IZR_Zpower radix2 40) by lia. apply IZR_le.
          change (Zpower radix2 40) with (2 ^ 40)%Z. exact Hk2. }
      assert (H4 : bpow radix2 (-800) <= exp (-400)).
      { replace (-400) with (- (400)) by lra. rewrite exp_Ropp. rewrite (bpow_opp radix2 800 : bpow radix2 (-800) = _). apply Rinv_le; [apply exp_pos|].
        replace 400 with (INR 400) by (rewrite INR_IZR_INZ; reflexivity). exact (exp_pow4 400). }
      pose proof (bpow_gt_0 radix2 (-600)) as H6. pose proof (exp_pos 200) as P2. pose proof (bpow_gt_0 radix2 40) as P4.
      unfold q. apply Rle_trans with (exp (B2R x) / (bpow radix2 40 * exp 200)).
      - replace (exp (B2R x) / (bpow radix2 40 * exp 200)) with (bpow radix2 (-40) * (exp (B2R x) / exp 200)).
        + replace (bpow radix2 (-840)) with (bpow radix2 (-40) * bpow radix2 (-800)) by (rewrite <- bpow_plus; reflexivity).
          apply Rmult_le_compat_l; [apply bpow_ge_0|lra].
        + rewrite (bpow_opp radix2 40 : bpow radix2 (-40) = _). field. lra.
      - unfold Rdiv. apply Rmult_le_compat_l; [left; apply exp_pos|]. apply Rinv_le; lra. }
    assert (Hal : (4 * INR (@length f64 s) + 11) * ulp1 * q <= / 4 * q) by (apply Rmult_le_compat_r; lra).
    assert (H1 : bpow radix2 (-1074) <= / 4 * bpow radix2 (-840)).
    { change (/ 4) with (bpow radix2 (-2)). rewrite <- bpow_plus. apply bpow_le. lia. }
    assert (H2 : bpow radix2 (-900) <= / 4 * bpow radix2 (-840)).
    { change (/ 4) with (bpow radix2 (-2)). rewrite <- bpow_plus. apply bpow_le. lia. }
    apply Rabs_le_inv in Ep. lra.
  - assert (Ho : @ordinary P s).
    { split; [|split].
      - intros z Hz. destruct (entry Hexp s B3 z Hz) as (_ & Ez & _). change (0 <= B2R (p_exp P z)). apply Rabs_le_inv in Ez. pose proof (exp_pos (B2R z)).
        assert (2 * ulp1 * exp (B2R z) <= exp (B2R z)) by (rewrite <- (Rmult_1_l (exp (B2R z))) at 2; apply Rmult_le_compat_r; lra). lra.
      - exact Ft.
      - change (bpow radix2 (-1022) <= B2R total <= bpow radix2 1022). pose proof (bpow_gt_0 radix2 (-600)) as H6.
        assert (H7 : (3 * INR (@length f64 s) + 3) * ulp1 * Q <= / 2 * Q) by (apply Rmult_le_compat_r; lra).
        assert (bpow radix2 (-1022) <= / 2 * bpow radix2 (-600)) by (change (/ 2) with (bpow radix2 (-1)); rewrite <- bpow_plus; apply bpow_le; lia).
        assert (2 * bpow radix2 640 <= bpow radix2 1022) by (change 2 with (bpow radix2 1); rewrite <- bpow_plus; apply bpow_le; lia).
        apply Rabs_le_inv in Et. lra. }
    pose proof (probability_range P s Ho) as PR. unfold softmax in PR. rewrite Forall_map, Forall_forall in PR. exact (proj2 (proj2 (PR x Hx))).
Qed.

(* ------------------------------------------------------------------ *)
(** ** NaN scores *)

Lemma nan_step (a lr v : f64) : v = B754_nan -> Bplus mode_NE a (Bmult mode_NE lr v) = (B754_nan : f64).
Proof. intros ->. destruct lr, a; reflexivity. Qed.

Lemma nan_absorbs (lr : f64) (j : nat) (outs : list (list f64)) : forall a : f64,
  a = B754_nan \/ (exists o, In o outs /\ nth j o (B754_zero false) = B754_nan) ->
  fold_left (fun s o => Bplus mode_NE s (Bmult mode_NE lr (nth j o (B754_zero false)))) outs a = B754_nan.
Proof.
  induction outs as [|o outs IH]; intros a H; cbn [fold_left].
  - destruct H as [H|(o & [] & _)]. exact H.
  - apply IH. destruct H as [->|(o' & [->|Hin] & Ho)]; [left|left|right; eauto].
    + destruct (Bmult _ _ _); reflexivity.
    + exact (nan_step a lr _ Ho).
Qed.

Theorem nan_score nc nt (d : @dataset (f64_ops P)) cfg n lr (m : multi_class_boost_model) k t scores x j :
  wf_dataset nc nt d -> (Z.of_nat nt <= 2 ^ 40)%Z -> multi_class_boost_train d cfg n lr = Ok m -> (k < n)%nat ->
  nth_error (m_trees m) k = Some t -> mapM (multi_class_boost_raw (first_trees k m)) (feature_rows d) = Ok scores ->
  (nc <= length x)%nat -> (j < nt)%nat ->
  (forall row y v, In (row, y) (samples_like x t (residual_data d scores)) -> nth_error y j = Some v -> is_finite (v : f64) = true /\ B2R v = 0) ->
  exists s p c, multi_class_boost_raw m x = Ok s /\ nth_error s j = Some (B754_nan : f64) /\
    multi_class_boost_predict m x = Ok p /\ one_hot nt (N.of_nat c) p /\
    ((exists v, In v s /\ fltb fninf v = true) -> c <> j).
Proof.
  intros W Hk' E Hk Ht Hs Hx Hj HZ.
  destruct (multi_class_stage d cfg n lr m k (wf_lengths _ _ _ W) E Hk) as (ps & t' & Hs' & Hl & Ht' & Eb).
  assert (t' = t) by congruence. assert (ps = scores) by congruence. subst t' ps.
  destruct (multi_class_trained_sum (f64_laws P) nc nt d cfg n lr m x W ltac:(lia) E Hx) as (outs & s & HF & Es & Ls & Hsum).
  pose proof (gb_class_leaf nc nt _ cfg t x (residual_data_wf nc nt d scores W Hl) Eb Hx) as Ef.
  change (mkDS (feature_rows d) (differences (labels d) (map softmax scores)) (feature_columns d)) with (residual_data d scores) in Ef.
  set (o := map (class_output_of nt (map snd (samples_like x t (residual_data d scores)))) (seq 0 nt)) in *.
  assert (Hin : In o outs).
  { clear -HF Ht Ef. revert k Ht. induction HF as [|t0 o0 ts os [E0 _] HF IH]; intros k Ht; [destruct k; discriminate|].
    destruct k as [|k]; cbn in Ht; [|right; eauto]. left. injection Ht as ->. rewrite Ef in E0. congruence. }
  assert (Ho : nth j o (B754_zero false) = (B754_nan : f64)).
  { apply nth_error_nth. etransitivity; [exact (seq_entry (@class_output_of (f64_ops P) nt (map snd (samples_like x t (residual_data d scores)))) nt j Hj)|].
    f_equal. apply leaf_zero_nan. intros r v Hr Hv. apply in_map_iff in Hr as ([row y] & <- & Hr). eauto. }
  assert (Hnan : nth_error s j = Some (B754_nan : f64)).
  { rewrite (Hsum j Hj). f_equal. apply (nan_absorbs lr j outs). right. eauto. }
  assert (Hne : s <> []) by (intros ->; cbn in Ls; lia).
  destruct (multi_class_one_class (f64_laws P) m x s Es Hne) as (c & p & Ep & Hp & Hfl).
  exists s, p, c. split; auto. split; auto. split; auto. rewrite Ls in Hp. split; auto.
  intros (v & Hv & Hgt) ->. destruct Hfl as [(mx & Hm & Hmx & _)|[_ H0]].
  - rewrite Hnan in Hm. injection Hm as <-. discriminate.
  - rewrite (H0 v Hv) in Hgt. discriminate.
Qed.

End Outputs.

Section Parts.
Context (P : platform).
Local Existing Instance f64_ops.

Theorem leaf_entry_finite nc nt (d : @dataset (f64_ops P)) cfg t row :
  wf_dataset nc nt d -> (2 <= nt)%nat -> (Z.of_nat nt <= 2 ^ 40)%Z -> (Z.of_nat (length (labels d)) <= 2 ^ 40)%Z -> residual_table (labels d) ->
  grad_boost_tree_new d cfg (leaf_output_calculator_new MultiClassClassification) = Ok t -> (nc <= length row)%nat ->
  exists o, find_leaf_node_for_data row t = Ok (mkGL (Some o)) /\ length o = nt /\
    forall j v, nth_error o j = Some v ->
      (is_finite (v : f64) = true <-> exists r y x, In (r, y) (samples_like row t d) /\ nth_error y j = Some x /\ 0 < Rabs (B2R x) < 1) /\
      ((forall r y x, In (r, y) (samples_like row t d) -> nth_error y j = Some x -> B2R x = 0) -> v = B754_nan).
Proof.
  intros W H1 H2 H3 H4 E Hr. destruct (fitted_leaf_finite P nc nt d cfg t row W H1 H2 H3 H4 E Hr) as (o & A & B & C).
  exists o. split; auto. split; auto. intros j v Hj. destruct (C j v Hj) as (C1 & C2 & _). auto.
Qed.

Theorem leaf_entry_error nc nt (d : @dataset (f64_ops P)) cfg t row :
  wf_dataset nc nt d -> (2 <= nt)%nat -> (Z.of_nat nt <= 2 ^ 40)%Z -> (Z.of_nat (length (labels d)) <= 2 ^ 40)%Z -> residual_table (labels d) ->
  grad_boost_tree_new d cfg (leaf_output_calculator_new MultiClassClassification) = Ok t -> (nc <= length row)%nat ->
  exists o, find_leaf_node_for_data row t = Ok (mkGL (Some o)) /\ length o = nt /\
    let group := map (map B2R) (map snd (samples_like row t d)) in
    forall j v, nth_error o j = Some v -> is_finite (v : f64) = true ->
      Rabs (B2R v - nth j (class_output nt group) 0) <=
      bpow radix2 (-49) * INR (length group + 1) * (Rsum (map Rabs (target j group)) / curvature (target j group)).
Proof.
  intros W H1 H2 H3 H4 E Hr. destruct (fitted_leaf_finite P nc nt d cfg t row W H1 H2 H3 H4 E Hr) as (o & A & B & C).
  exists o. split; auto. split; auto. intros group j v Hj F. destruct (C j v Hj) as (_ & _ & C3).
  assert (Lg : length group = length (samples_like row t d)) by (unfold group; now rewrite !map_length).
  rewrite Lg. exact (C3 F).
Qed.

End Parts.
