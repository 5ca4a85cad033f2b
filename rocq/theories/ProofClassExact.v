(** Classification ensembles in exact arithmetic (C39, C40, C42). *)
From Coq Require Import Reals Lra Lia Permutation.
From Verif Require Import Base Num ModelCommon ModelTree ModelBoost Spec SpecTree SpecScore SpecFit Lib ProofData ProofSort
  ProofTree ProofTree3 ProofScore ProofScore2 ProofBoost ProofBoost2 XR SpecExact SpecError SpecClass ProofReal ProofSplitExact
  ProofSplitExact2 ProofTreeExact ProofScoreExact ProofLeaf ProofBoostExact.
Local Open Scope R_scope.

(* ------------------------------------------------------------------ *)
(** ** Softmax *)

Definition rsoft (s : list R) : list R := map (fun x => exp x / Rsum (map exp s)) s.

Lemma sum_exp_pos s : s <> [] -> 0 < Rsum (map exp s).
Proof.
  intros H. destruct s as [|x s]; [congruence|]. cbn [map]. rewrite Rsum_cons. pose proof (exp_pos x).
  assert (0 <= Rsum (map exp s)). { apply Rsum_nonneg. intros y Hy. apply in_map_iff in Hy as (z & <- & _). left. apply exp_pos. }
  lra.
Qed.

Lemma softmax_Fin s : s <> [] -> @softmax xr_ops (map Fin s) = map Fin (rsoft s).
Proof.
  intros H. pose proof (sum_exp_pos s H) as Hp. unfold softmax, rsoft. rewrite !map_map. apply map_ext. intros x.
  assert (E : fold_left xadd (map (fun y => xexp (Fin y)) s) (Fin 0) = Fin (Rsum (map exp s))).
  { transitivity (fold_left xadd (map Fin (map exp s)) (Fin 0)); [now rewrite map_map|]. rewrite fold_xadd_Fin. f_equal. lra. }
  transitivity (xmul (Fin (exp x)) (xdiv (Fin 1) (Fin (Rsum (map exp s))))).
  - cbn. cbn in E. rewrite E. reflexivity.
  - rewrite xdiv_Fin by lra. cbn. f_equal. unfold Rdiv. ring.
Qed.

Lemma rsoft_length s : length (rsoft s) = length s.
Proof. apply map_length. Qed.

Lemma rsoft_sum s : s <> [] -> Rsum (rsoft s) = 1.
Proof.
  intros H. pose proof (sum_exp_pos s H) as Hp. unfold rsoft.
  rewrite (Rsum_map_ext _ (fun x => / Rsum (map exp s) * exp x)) by (intros; unfold Rdiv; ring).
  rewrite Rsum_map_mult. field. lra.
Qed.

Lemma rsoft_bounds s x : (2 <= length s)%nat -> In x (rsoft s) -> 0 < x < 1.
Proof.
  intros HL Hin. assert (Hne : s <> []) by (destruct s; cbn in HL; [lia|discriminate]).
  pose proof (sum_exp_pos s Hne) as Hp. pose proof (rsoft_sum s Hne) as Hs.
  assert (Hpos : forall y, In y (rsoft s) -> 0 < y).
  { intros y Hy. unfold rsoft in Hy. apply in_map_iff in Hy as (z & <- & _). apply Rmult_lt_0_compat; [apply exp_pos|]. now apply Rinv_0_lt_compat. }
  split; auto. assert (Hl2 : (2 <= length (rsoft s))%nat) by (rewrite rsoft_length; auto).
  revert Hpos Hs Hl2 Hin. generalize (rsoft s). clear. intros l Hpos Hs Hl2 Hin.
  apply in_split in Hin as (a & b & ->). rewrite Rsum_app, Rsum_cons in Hs.
  rewrite app_length in Hl2. cbn in Hl2.
  assert (Ha : 0 <= Rsum a). { apply Rsum_nonneg. intros y Hy. left. apply Hpos. apply in_or_app. now left. }
  assert (Hb : 0 <= Rsum b). { apply Rsum_nonneg. intros y Hy. left. apply Hpos. apply in_or_app. right. now right. }
  destruct a as [|y a].
  - destruct b as [|y b]; cbn in Hl2; [lia|]. rewrite Rsum_cons in Hs, Hb.
    assert (0 < y) by (apply Hpos; apply in_or_app; right; right; now left).
    assert (0 <= Rsum b). { apply Rsum_nonneg. intros z Hz. left. apply Hpos. cbn. auto. }
    cbn in Hs. lra.
  - assert (0 < y) by (apply Hpos; now left). rewrite Rsum_cons in Hs.
    assert (0 <= Rsum a). { apply Rsum_nonneg. intros z Hz. left. apply Hpos. right. apply in_or_app. now left. }
    lra.
Qed.

Lemma rsoft_nth s j : (j < length s)%nat -> nth j (rsoft s) 0 = probability s j.
Proof.
  intros H. unfold rsoft, probability. rewrite (nth_indep _ 0 (exp 0 / Rsum (map exp s))) by (rewrite map_length; auto).
  now rewrite (map_nth (fun x => exp x / Rsum (map exp s))).
Qed.

(* ------------------------------------------------------------------ *)
(** ** One-hot labels *)

Definition hot (k c : nat) : list R := map (fun j => if (j =? c)%nat then 1 else 0) (seq 0 k).

Lemma hot_length k c : length (hot k c) = k.
Proof. unfold hot. now rewrite map_length, seq_length. Qed.

Lemma hot_nth k c j : (j < k)%nat -> nth j (hot k c) 0 = if (j =? c)%nat then 1 else 0.
Proof.
  intros H. unfold hot. rewrite (nth_indep _ 0 (if (0 =? c)%nat then 1 else 0)) by (rewrite map_length, seq_length; auto).
  rewrite (map_nth (fun j => if (j =? c)%nat then 1 else 0)), seq_nth by auto. reflexivity.
Qed.

Lemma one_hot_Fin k c (y : list xr) : @one_hot xr_ops k c y -> (N.to_nat c < k)%nat /\ y = map Fin (hot k (N.to_nat c)).
Proof.
  intros (H1 & H2 & H3). split; [lia|]. apply nth_error_ext. intros i.
  destruct (Nat.lt_ge_cases i k) as [Hi|Hi].
  - rewrite H3 by auto. rewrite nth_error_map. unfold hot. rewrite nth_error_map, nth_error_seq0.
    apply Nat.ltb_lt in Hi as ->. cbn [option_map].
    destruct (N.eqb_spec (N.of_nat i) c), (Nat.eqb_spec i (N.to_nat c)); try reflexivity; lia.
  - rewrite (proj2 (nth_error_None y i)) by (cbn in H2; lia). symmetry. apply nth_error_None. rewrite map_length, hot_length. lia.
Qed.

Lemma hot_sum k c : (c < k)%nat -> Rsum (hot k c) = 1.
Proof.
  intros H. unfold hot. replace k with (c + S (k - S c))%nat by lia. rewrite seq_app, map_app, Rsum_app. cbn [seq map Nat.add]. rewrite Rsum_cons.
  rewrite (Rsum_map_ext _ (fun _ => 0) (seq 0 c)) by (intros j Hj; apply in_seq in Hj; destruct (Nat.eqb_spec j c); [lia|reflexivity]).
  rewrite (Rsum_map_ext _ (fun _ => 0) (seq (S c) _)) by (intros j Hj; apply in_seq in Hj; destruct (Nat.eqb_spec j c); [lia|reflexivity]).
  rewrite !Rsum_map_const. cbn [Nat.add]. rewrite Nat.eqb_refl. lra.
Qed.

Lemma one_hot_labels_real k d : one_hot_labels k d ->
  exists cs, real_labels (map (hot k) cs) d /\ Forall (fun c => (c < k)%nat) cs.
Proof.
  unfold one_hot_labels, real_labels. xr. generalize (labels d). induction 1 as [|y ys (c & Hc) _ (cs & E & Hcs)].
  - exists []. split; [reflexivity|constructor].
  - apply one_hot_Fin in Hc as [H1 ->]. exists (N.to_nat c :: cs). cbn [map]. split; [now rewrite E|constructor; auto].
Qed.

(* ------------------------------------------------------------------ *)
(** ** Residuals (C39) *)

(** Residual vectors: entries strictly between -1 and 1, not zero, summing to zero. *)
Definition residual_vector (k : nat) (r : list R) : Prop :=
  length r = k /\ (forall x, In x r -> -1 < x < 1 /\ x <> 0) /\ Rsum r = 0.

Lemma Rsum_vsub a b : length a = length b -> Rsum (vsub a b) = Rsum a - Rsum b.
Proof.
  unfold vsub. revert b; induction a as [|x a IH]; intros [|y b] H; try discriminate; cbn [map2]; [cbn; lra|].
  rewrite !Rsum_cons, IH by now injection H. lra.
Qed.

Lemma in_vsub x a b : In x (vsub a b) -> exists j, (j < length a)%nat /\ (j < length b)%nat /\ x = nth j a 0 - nth j b 0.
Proof.
  intros H. apply (In_nth _ _ 0) in H as (j & Hj & <-). unfold vsub in *. rewrite map2_length in Hj.
  exists j. rewrite nth_map2 by lia. repeat split; lia.
Qed.

Lemma residual_is k c s : (2 <= k)%nat -> (c < k)%nat -> length s = k -> residual_vector k (vsub (hot k c) (rsoft s)).
Proof.
  intros Hk Hc Ls. split; [|split].
  - unfold vsub. rewrite map2_length, hot_length, rsoft_length. lia.
  - intros x Hx. apply in_vsub in Hx as (j & H1 & H2 & ->). rewrite hot_length in H1. rewrite hot_nth by auto.
    assert (Hb : 0 < nth j (rsoft s) 0 < 1). { apply (rsoft_bounds s); [lia|]. now apply nth_In. }
    destruct (j =? c)%nat; lra.
  - rewrite Rsum_vsub by (rewrite hot_length, rsoft_length; lia). rewrite hot_sum by auto. rewrite rsoft_sum; [lra|]. destruct s; cbn in Ls; [lia|discriminate].
Qed.

Lemma residual_rows k cs ss : (2 <= k)%nat -> Forall (fun c => (c < k)%nat) cs -> rectangular k ss -> length ss = length cs ->
  Forall (residual_vector k) (map2 vsub (map (hot k) cs) (map rsoft ss)).
Proof.
  intros Hk Hcs. revert ss. induction Hcs as [|c cs Hc _ IH]; intros [|s ss] R HL; try discriminate; cbn [map map2]; constructor.
  - apply residual_is; auto. now inversion R.
  - apply IH; [now inversion R|now injection HL].
Qed.

Lemma softmax_rows k ss : (0 < k)%nat -> rectangular k ss -> map (@softmax xr_ops) (map (map Fin) ss) = map (map Fin) (map rsoft ss).
Proof.
  intros Hk R. rewrite !map_map. apply map_ext_in. intros s Hs. apply softmax_Fin.
  pose proof (proj1 (Forall_forall _ _) R s Hs) as H. cbv beta in H. destruct s; [cbn in H; lia|discriminate].
Qed.

Theorem residuals_exact k (td : @training_data xr_ops) (scores : list (list R)) :
  (2 <= k)%nat -> one_hot_labels k (td_data td) -> td_labels td = map (map Fin) scores -> rectangular k scores ->
  td_size td = length (labels (td_data td)) -> length scores = length (labels (td_data td)) ->
  exists r, calculate_residuals_multi_class td = Ok (map (map Fin) r) /\ length r = length scores /\
    (forall i y s v, nth_error (labels (td_data td)) i = Some y -> nth_error scores i = Some s -> nth_error r i = Some v ->
       length v = k /\ (forall j, (j < k)%nat -> nth_error y j = Some (Fin (nth j v 0 + probability s j)))) /\
    (forall v, In v r -> (forall x, In x v -> -1 < x < 1) /\ Rsum v = 0).
Proof.
  intros Hk HO Es Rs HS HL. destruct (one_hot_labels_real k _ HO) as (cs & El & Hcs).
  assert (HLc : length scores = length cs).
  { rewrite HL. unfold real_labels in El. rewrite El. rewrite map_length. apply map_length. }
  exists (map2 vsub (map (hot k) cs) (map rsoft scores)).
  assert (R1 : rectangular k (map (hot k) cs)).
  { unfold rectangular. rewrite Forall_map. apply Forall_forall. intros. apply hot_length. }
  assert (R2 : rectangular k (map rsoft scores)).
  { unfold rectangular in *. rewrite Forall_map. eapply Forall_impl; [|exact Rs]. intros a Ha. now rewrite rsoft_length. }
  split; [|split; [|split]].
  - apply (proj2 (@calculate_residuals_multi_class_eq xr_ops td (map (map Fin) (map2 vsub (map (hot k) cs) (map rsoft scores))) HS
      ltac:(rewrite Es; rewrite map_length; exact HL))).
    + split.
      * unfold real_labels in El. rewrite El, Es. apply (lengths_match k).
        { rewrite !map_length. auto. }
        { unfold rectangular in *. rewrite Forall_map. eapply Forall_impl; [|exact R1]. intros a Ha. rewrite map_length. exact Ha. }
        { unfold rectangular in *. rewrite Forall_map. eapply Forall_impl; [|exact Rs]. intros a Ha. rewrite map_length. exact Ha. }
      * rewrite <- differences_Fin. rewrite Es. symmetry. apply (f_equal2 (@differences xr_ops)); [exact El|]. apply (softmax_rows k); auto. lia.
  - rewrite map2_length, !map_length. lia.
  - intros i y s v Hy Hsc Hv. rewrite nth_error_map2 in Hv. rewrite !nth_error_map in Hv. rewrite Hsc in Hv. cbn [option_map] in Hv.
    destruct (nth_error cs i) as [c|] eqn:Ec; [|discriminate]. cbn [option_map] in Hv. injection Hv as <-.
    assert (Ls : length s = k). { exact (proj1 (Forall_forall _ _) Rs s (nth_error_In _ _ Hsc)). }
    assert (Lv : length (vsub (hot k c) (rsoft s)) = k). { unfold vsub. rewrite map2_length, hot_length, rsoft_length. lia. }
    split; auto. intros j Hj. unfold real_labels in El. rewrite El in Hy. rewrite !nth_error_map, Ec in Hy. cbn [option_map] in Hy. injection Hy as <-.
    rewrite nth_error_map. rewrite (nth_error_nth' (hot k c) 0) by (rewrite hot_length; auto). cbn [option_map]. do 2 f_equal.
    unfold vsub. rewrite nth_map2 by (rewrite ?hot_length, ?rsoft_length; lia). rewrite rsoft_nth by lia. ring.
  - intros v Hv. pose proof (proj1 (Forall_forall _ _) (residual_rows k cs scores Hk Hcs Rs HLc) v Hv) as (_ & A & B).
    split; auto. intros x Hx. now apply A.
Qed.

(* ------------------------------------------------------------------ *)
(** ** Leaf outputs (C40) *)

(** Real labels that are residual vectors. *)
Definition residual_labels (k : nat) (d : @dataset xr_ops) : Prop := Forall (residual_vector k) (rl d).

Lemma curvature_pos l : l <> [] -> (forall x, In x l -> -1 < x < 1 /\ x <> 0) -> 0 < curvature l.
Proof.
  intros Hne H. unfold curvature. destruct l as [|y l]; [congruence|]. cbn [map]. rewrite Rsum_cons.
  assert (P : forall x, In x (y :: l) -> 0 < Rabs x * (1 - Rabs x)).
  { intros x Hx. destruct (H x Hx) as [Hb Hn]. pose proof (Rabs_pos_lt x Hn). assert (Rabs x < 1) by (apply Rabs_def1; lra).
    apply Rmult_lt_0_compat; lra. }
  pose proof (P y (or_introl eq_refl)).
  assert (0 <= Rsum (map (fun x => Rabs x * (1 - Rabs x)) l)). { apply Rsum_nonneg. intros z Hz. apply in_map_iff in Hz as (x & <- & Hx). left. apply P. now right. }
  lra.
Qed.

Lemma target_residual k group j : (j < k)%nat -> Forall (residual_vector k) group -> forall x, In x (target j group) -> -1 < x < 1 /\ x <> 0.
Proof.
  intros Hj H x Hx. unfold target in Hx. apply in_map_iff in Hx as (l & <- & Hl).
  destruct (proj1 (Forall_forall _ _) H l Hl) as (A & B & _). apply B. apply nth_In. lia.
Qed.

Lemma dterm_Fin l : map (@dterm xr_ops) (map Fin l) = map Fin (map (fun x => Rabs x * (1 - Rabs x)) l).
Proof. rewrite !map_map. apply map_ext. intros x. reflexivity. Qed.

Lemma dterm_rows ls : map (map (@dterm xr_ops)) (map (map Fin) ls) = map (map Fin) (map (map (fun x => Rabs x * (1 - Rabs x))) ls).
Proof. induction ls as [|l ls IH]; [reflexivity|]. cbn [map]. apply (f_equal2 cons); [apply dterm_Fin|exact IH]. Qed.

Lemma class_calc_Fin nc nt d : (0 < nt)%nat -> wf_dataset nc nt d -> real_labels (rl d) d -> residual_labels nt d ->
  leaf_output_calculator_new MultiClassClassification d = Ok (map Fin (class_output nt (rl d))).
Proof.
  intros Hk W Hl Hres. rewrite (class_calc_eq nc nt d W). f_equal. destruct (real_rect nc nt d (rl d) W Hl) as [Hr Hne].
  assert (E1 : colsum nt (labels d) = map Fin (vs nt (rl d))).
  { etransitivity; [apply (f_equal (colsum nt)); exact Hl|]. now apply colsum_Fin. }
  assert (E2 : colsum nt (map (map (@dterm xr_ops)) (labels d)) = map Fin (map (fun j => curvature (target j (rl d))) (seq 0 nt))).
  { etransitivity; [apply (f_equal (fun x => colsum nt (map (map (@dterm xr_ops)) x))); exact Hl|]. cbv beta.
    etransitivity; [apply (f_equal (@colsum xr_ops nt)); exact (dterm_rows (rl d))|].
    etransitivity; [apply colsum_Fin|].
    { unfold rectangular in *. rewrite Forall_map. eapply Forall_impl; [|exact Hr]. intros a Ha. now rewrite map_length. }
    f_equal. unfold vs, curvature, target. apply map_ext_in. intros j Hj. apply in_seq in Hj. f_equal. rewrite !map_map. apply map_ext_in.
    intros l Hin. pose proof (proj1 (Forall_forall _ _) Hr l Hin) as Ll. cbv beta in Ll.
    rewrite (nth_indep _ 0 (Rabs 0 * (1 - Rabs 0))) by (rewrite map_length; lia). now rewrite (map_nth (fun x => Rabs x * (1 - Rabs x))). }
  rewrite E1, E2. unfold vs, class_output. rewrite !map_map.
  etransitivity; [apply (f_equal (map _)); apply map2_map_map|]. rewrite map_map. apply map_ext_in. intros j Hj. apply in_seq in Hj.
  assert (Hp : 0 < curvature (target j (rl d))).
  { apply curvature_pos. - intros H. apply map_eq_nil in H. contradiction. - apply (target_residual nt); auto. lia. }
  assert (Hn : INR nt <> 0) by (apply not_0_INR; lia).
  transitivity (xmul (xdiv (Fin (Rsum (target j (rl d)))) (Fin (curvature (target j (rl d))))) (xdiv (xsub (Fin (INR nt)) (Fin 1)) (Fin (INR nt)))); [reflexivity|].
  rewrite xdiv_Fin by lra. cbn [xsub xneg xadd]. rewrite xdiv_Fin by auto. cbn [xmul]. f_equal. unfold Rdiv. ring.
Qed.

Lemma class_output_length k group : length (class_output k group) = k.
Proof. unfold class_output. now rewrite map_length, seq_length. Qed.

Lemma residual_sub nc nt d d' : wf_dataset nc nt d -> wf_dataset nc nt d' -> incl (samples d') (samples d) -> residual_labels nt d -> residual_labels nt d'.
Proof.
  intros W W' Hi H. unfold residual_labels in *. rewrite Forall_forall in *. intros l Hl. apply H. unfold rl in *.
  apply in_map_iff in Hl as (v & <- & Hv). apply in_map. rewrite <- (samples_snd _ _ _ W') in Hv. apply in_map_iff in Hv as (p & <- & Hp).
  rewrite <- (samples_snd _ _ _ W). apply in_map. auto.
Qed.

(* ------------------------------------------------------------------ *)
(** ** The AMG approximation (C42) *)

Lemma max_index_Fin (o : list R) : o <> [] ->
  exists c, (c < length o)%nat /\ @find_max_value_and_index_from_vector xr_ops (map Fin o) = (Fin (nth c o 0), c).
Proof.
  intros Hne. pose proof (argmax_vector xr_laws (map Fin o)) as H. xr.
  destruct (@find_max_value_and_index_from_vector xr_ops (map Fin o)) as [m c].
  destruct H as [(x & H1 & -> & _)|(_ & _ & H)].
  - rewrite nth_error_map in H1. destruct (nth_error o c) as [y|] eqn:E; [|discriminate]. injection H1 as <-.
    exists c. split; [apply nth_error_Some; congruence|]. now rewrite (nth_error_nth _ _ _ E).
  - exfalso. destruct o as [|y o]; [congruence|]. specialize (H (Fin y) (or_introl eq_refl)). cbn in H. discriminate.
Qed.

Definition approx (k c : nat) (m : R) : list R := map (fun j => if (j =? c)%nat then m else - m / (INR k - 1)) (seq 0 k).

Lemma approx_length k c m : length (approx k c m) = k.
Proof. unfold approx. now rewrite map_length, seq_length. Qed.

Lemma INR_ge2 k : (2 <= k)%nat -> 0 < INR k - 1.
Proof. intros H. apply le_INR in H. cbn in H. lra. Qed.

Lemma construct_Fin k c m : (2 <= k)%nat -> (c < k)%nat ->
  @construct_approximate_leaf_output xr_ops (mkAL (Some (Fin m)) (Some c)) k = Ok (map Fin (approx k c m)).
Proof.
  intros Hk Hc. unfold construct_approximate_leaf_output. cbn [al_max al_class unwrap bind].
  assert (E : @calculate_approximate_value xr_ops (Fin m) (f_of_nat k) = Fin (- m / (INR k - 1))).
  { unfold calculate_approximate_value. transitivity (xdiv (Fin (- m)) (Fin (INR k - 1))); [reflexivity|]. apply xdiv_Fin. pose proof (INR_ge2 k Hk). lra. }
  rewrite E. rewrite upd_lt by (rewrite repeat_length; auto). f_equal. apply nth_error_ext. intros j.
  etransitivity; [apply nth_error_list_set|]. rewrite repeat_length. unfold approx. rewrite !nth_error_map, nth_error_seq0.
  destruct (Nat.ltb_spec j k) as [Hj|Hj]; cbn [option_map].
  - rewrite (Nat.eqb_sym c j). destruct (j =? c)%nat; cbn [andb]; auto. rewrite nth_error_repeat; auto.
  - destruct (Nat.eqb_spec c j); [lia|]. cbn [andb]. apply nth_error_None. rewrite repeat_length. auto.
Qed.

Lemma approx_sum k c m : (2 <= k)%nat -> (c < k)%nat -> Rsum (approx k c m) = 0.
Proof.
  intros Hk H. pose proof (INR_ge2 k Hk) as Hp. unfold approx.
  rewrite (Rsum_map_ext _ (fun j => (- m / (INR k - 1)) + (m + m / (INR k - 1)) * (if (j =? c)%nat then 1 else 0))).
  - rewrite Rsum_map_plus, Rsum_map_mult. rewrite Rsum_map_const, seq_length. pose proof (hot_sum k c H) as Hh. unfold hot in Hh. rewrite Hh. field. lra.
  - intros j _. destruct (j =? c)%nat; field; lra.
Qed.

Theorem amg_sums_to_zero (l : @amg_leaf xr_ops) k m c :
  (2 <= k)%nat -> al_max l = Some (Fin m) -> al_class l = Some c -> (c < k)%nat ->
  exists v, construct_approximate_leaf_output l k = Ok (map Fin v) /\ length v = k /\ nth_error v c = Some m /\
    (forall j, (j < k)%nat -> j <> c -> nth_error v j = Some (- m / (INR k - 1))) /\ Rsum v = 0.
Proof.
  intros Hk H1 H2 Hc. exists (approx k c m). split; [|split; [|split; [|split]]].
  - destruct l as [a b]. cbn in H1, H2. subst. now apply construct_Fin.
  - apply approx_length.
  - unfold approx. rewrite nth_error_map, nth_error_seq0. apply Nat.ltb_lt in Hc as ->. cbn. now rewrite Nat.eqb_refl.
  - intros j Hj Hn. unfold approx. rewrite nth_error_map, nth_error_seq0. apply Nat.ltb_lt in Hj as ->. cbn. apply Nat.eqb_neq in Hn. now rewrite Hn.
  - now apply approx_sum.
Qed.
