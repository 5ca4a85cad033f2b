(** Deep classification ensembles on consistent data in exact arithmetic (C103). *)
From Coq Require Import Reals Lra Lia.
From Verif Require Import Base Num ModelCommon ModelTree ModelBoost Lib XR Spec SpecTree SpecExact SpecScore SpecFit SpecError SpecClass SpecAffine SpecGradient SpecLoss ProofReal ProofSort ProofData
  ProofSplit ProofSplit2 ProofTree ProofTree3 ProofScore ProofSplitExact ProofSplitExact2 ProofTreeExact ProofScoreExact ProofBoost ProofBoost2 ProofLeaf ProofBoostExact
  ProofBalance ProofClassExact ProofClassRun ProofGradient ProofDescent ProofLoss.
Local Open Scope R_scope.

(* ------------------------------------------------------------------ *)
(** ** Leaves of deep trees *)

Lemma built_reg {L} (mk : @dataset xr_ops -> res L) cfg level d t : built mk cfg level d t -> exists t', built mk_reg cfg level d t'.
Proof.
  induction 1 as [level d s l Es Est El|level d s fd td a b Es Est Ep Ba (ta & Ha) Bb (tb & Hb)].
  - eexists. eapply built_leaf; eauto. reflexivity.
  - eexists. eapply built_node; eauto.
Qed.

(** The leaf that a row reaches holds one label. *)
Lemma deep_leaf {L} (mk : @dataset xr_ops -> res L) nc nt d cfg t row x :
  standard cfg -> tc_number_of_classes cfg = N.of_nat nt -> built mk cfg 0 d t -> wf_dataset nc nt d -> real_labels (rl d) d -> consistent d ->
  (nc <= length row)%nat -> (N.of_nat (length (feature_rows d)) <= tc_max_levels cfg + 1)%N ->
  wf_dataset nc nt x -> samples x = samples_like row t d -> forall l, In l (rl x) -> l = means nt (rl x).
Proof.
  intros Hs Hk B W Hl HC Hr Hn Wx Ex. destruct (built_reg _ _ _ _ _ B) as (t' & B').
  destruct (leaf_one_label cfg nc nt 0 d t' row Hs Hk B' W Hl HC Hr) as (ld & Ef & Wl & _ & _ & Hlen & H).
  destruct (zip_lookup _ _ _ _ _ _ _ _ _ row B B' W Hr) as (ld' & l0 & l1 & _ & _ & F2 & M2 & Es & _).
  rewrite Ef in F2. injection F2 as <-. injection M2 as ->.
  assert (E : rl x = rl ld).
  { unfold rl. rewrite <- (samples_snd _ _ _ Wx), <- (samples_snd _ _ _ Wl). now rewrite Ex, Es. }
  rewrite E. destruct H as [H|H]; auto. apply (one_row_one_label ld nc nt Wl). lia.
Qed.

Lemma curvature_same r (g : list R) : (forall x, In x g -> x = r) -> curvature g = INR (length g) * (Rabs r * (1 - Rabs r)).
Proof.
  intros H. unfold curvature. rewrite (Rsum_map_ext _ (fun _ => Rabs r * (1 - Rabs r))) by (intros x Hx; now rewrite (H x Hx)).
  clear H. induction g as [|x g IH]; [cbn; ring|]. cbn [map]. rewrite Rsum_cons, IH. cbn [length]. rewrite S_INR. ring.
Qed.

Lemma sum_same r (g : list R) : (forall x, In x g -> x = r) -> Rsum g = INR (length g) * r.
Proof.
  induction g as [|x g IH]; intros H; [cbn; ring|]. rewrite Rsum_cons, IH by (intros; apply H; now right). rewrite (H x) by now left.
  cbn [length]. rewrite S_INR. ring.
Qed.

Lemma pure_output nt group v j : group <> [] -> (forall l, In l group -> l = v) -> (j < nt)%nat -> 0 < Rabs (nth j v 0) < 1 ->
  nth j (class_output nt group) 0 = (INR nt - 1) / INR nt * (nth j v 0 / (Rabs (nth j v 0) * (1 - Rabs (nth j v 0)))).
Proof.
  intros Hne H Hj Ha. rewrite class_output_nth by auto.
  assert (Ht : forall x, In x (target j group) -> x = nth j v 0). { intros x Hx. unfold target in Hx. apply in_map_iff in Hx as (l & <- & Hi). now rewrite (H l Hi). }
  rewrite (sum_same _ _ Ht), (curvature_same _ _ Ht), target_length. pose proof (INR_pos _ Hne) as Hp. f_equal. field. repeat split; nra.
Qed.

(* ------------------------------------------------------------------ *)
(** ** One iteration *)

Lemma in_T {A} (rows : list A) (ss : list (list R)) (cs : list nat) row s c :
  In (row, (s, c)) (combine rows (combine ss cs)) -> In (row, s) (combine rows ss) /\ In (row, c) (combine rows cs) /\ In (s, c) (combine ss cs).
Proof.
  revert ss cs. induction rows as [|r rows IH]; intros [|s' ss] [|c' cs]; cbn [combine In]; try tauto.
  intros [E|H]; [injection E as -> -> ->; auto|]. destruct (IH _ _ H) as (A1 & A2 & A3). auto.
Qed.

Lemma in_scored {A} (f : A -> res (list xr)) rows ss row s : mapM f rows = Ok (map (map Fin) ss) -> In (row, s) (combine rows ss) -> f row = Ok (map Fin s).
Proof.
  intros E. apply mapM_Forall2 in E. remember (map (map Fin) ss) as l eqn:El. revert ss El.
  induction E as [|r y rows l E1 E2 IH]; intros [|s' ss] El H; try discriminate; cbn in H; try tauto.
  injection El as -> ->. destruct H as [H|H]; [injection H as -> ->; exact E1|]. now apply (IH ss).
Qed.

Section Stage.
Variables (nc nt : nat) (d : @dataset xr_ops) (cs : list nat) (ss : list (list R)) (cfg : @tree_config xr_ops) (f : list xr -> res (list xr)).
Hypotheses (H2 : (2 <= nt)%nat) (W : wf_dataset nc nt d) (HO : one_hot_labels nt d) (Hl : real_labels (map (hot nt) cs) d)
  (Hcs : Forall (fun c => (c < nt)%nat) cs) (Rs : rectangular nt ss) (Ls : length ss = length (feature_rows d))
  (Hf : mapM f (feature_rows d) = Ok (map (map Fin) ss)) (HC : consistent d)
  (Hs : standard cfg) (Hk : tc_number_of_classes cfg = N.of_nat nt) (Hn : (N.of_nat (length (feature_rows d)) <= tc_max_levels cfg + 1)%N).

Let T := combine (feature_rows d) (combine ss cs).

Lemma fitted_consistent : consistent (fitted d (map (map Fin) ss)).
Proof.
  unfold consistent. rewrite (samples_fitted nc nt d cs ss) by auto. intros row l l' H H'.
  apply in_map_iff in H as ((r & s & c) & E & H). apply in_map_iff in H' as ((r' & s' & c') & E' & H').
  cbn [fst snd] in *. injection E as -> <-. injection E' as -> <-.
  destruct (in_T _ _ _ _ _ _ H) as (A1 & _). destruct (in_T _ _ _ _ _ _ H') as (B1 & _).
  pose proof (in_scored f _ _ _ _ Hf A1) as A2. pose proof (in_scored f _ _ _ _ Hf B1) as B2. rewrite A2 in B2. injection B2 as B2.
  apply (f_equal (map xval)) in B2. rewrite !map_xval_Fin in B2. subst s'.
  assert (Eh : map Fin (hot nt c) = map Fin (hot nt c')).
  { apply (HC row); rewrite (samples_d nc nt d cs ss) by auto.
    - apply in_map_iff. exists (row, (s, c)). auto.
    - apply in_map_iff. exists (row, (s, c')). auto. }
  apply (f_equal (map xval)) in Eh. rewrite !map_xval_Fin in Eh. unfold residual. cbn [fst snd]. now rewrite Eh.
Qed.

(** In the leaf of a training row every class gets a Newton step from that row's own probabilities. *)
Lemma row_output {L} (mk : @dataset xr_ops -> res L) t row s c x j :
  built mk cfg 0 (fitted d (map (map Fin) ss)) t -> In (row, (s, c)) T -> wf_dataset nc nt x -> real_labels (rl x) x ->
  samples x = samples_like row t (fitted d (map (map Fin) ss)) -> (j < nt)%nat ->
  nth j (class_output nt (rl x)) 0 = (INR nt - 1) / INR nt * (if Nat.eqb c j then / probability s c else - / (1 - probability s j)).
Proof.
  intros B Hin Wx Lx Ex Hj. destruct (fitted_ok nc nt d ss H2 W HO Rs Ls) as (r & _ & Wr & Lr & Rr & _).
  destruct (in_T _ _ _ _ _ _ Hin) as (A1 & A2 & A3).
  assert (Hrow : (nc <= length row)%nat) by (apply (row_long nc nt d row W); apply in_combine_l in A1; exact A1).
  assert (Lsn : length s = nt) by (exact (proj1 (Forall_forall _ _) Rs _ (in_combine_l _ _ _ _ A3))).
  assert (Hc : (c < nt)%nat) by (exact (proj1 (Forall_forall _ _) Hcs _ (in_combine_r _ _ _ _ A3))).
  pose proof (deep_leaf mk nc nt _ cfg t row x Hs Hk B Wr Lr fitted_consistent Hrow Hn Wx Ex) as Hone.
  assert (Hv : In (residual nt (s, c)) (rl x)).
  { destruct (leaf_group nc nt d cs ss H2 W Hl Rs Ls row t x Wx Lx Ex) as [Eg _]. rewrite Eg. apply in_map.
    apply in_map_iff. exists (row, (s, c)). split; auto. unfold reaching. apply filter_In. split; [exact Hin|].
    apply forallb_forall. intros q _. cbn [fst]. apply Bool.eqb_reflx. }
  assert (Hall : forall l, In l (rl x) -> l = residual nt (s, c)) by (intros l Hi; rewrite (Hone l Hi); symmetry; now apply Hone).
  pose proof (probability_bounds s j ltac:(lia) ltac:(lia)) as Hp.
  assert (Er : nth j (residual nt (s, c)) 0 = (if Nat.eqb c j then 1 else 0) - probability s j) by (now rewrite residual_nth).
  rewrite (pure_output nt (rl x) (residual nt (s, c)) j); auto.
  - rewrite Er. f_equal. destruct (Nat.eqb_spec c j) as [->|Hne]; [rewrite Rabs_right by lra|rewrite Rabs_left by lra]; field; lra.
  - intros E. now rewrite E in Hv.
  - rewrite Er. destruct (Nat.eqb c j); [rewrite Rabs_right by lra|rewrite Rabs_left by lra]; lra.
Qed.

Lemma multi_gap t row s c j :
  built (mk_gb (leaf_output_calculator_new MultiClassClassification)) cfg 0 (fitted d (map (map Fin) ss)) t -> In (row, (s, c)) T -> (j < nt)%nat -> j <> c ->
  2 * (INR nt - 1) / INR nt <= nth c (looked_up gl_val t row) 0 - nth j (looked_up gl_val t row) 0.
Proof.
  intros B Hin Hj Hjc. destruct (fitted_ok nc nt d ss H2 W HO Rs Ls) as (r & _ & Wr & Lr & Rr & _).
  destruct (in_T _ _ _ _ _ _ Hin) as (A1 & A2 & A3).
  assert (Hrow : (nc <= length row)%nat) by (apply (row_long nc nt d row W); apply in_combine_l in A1; exact A1).
  assert (Lsn : length s = nt) by (exact (proj1 (Forall_forall _ _) Rs _ (in_combine_l _ _ _ _ A3))).
  assert (Hc : (c < nt)%nat) by (exact (proj1 (Forall_forall _ _) Hcs _ (in_combine_r _ _ _ _ A3))).
  destruct (gb_class_out nc nt _ _ _ _ row H2 Wr Lr Rr B Hrow) as (x & Ef & _ & Sx & Wx & Lx).
  assert (Eo : looked_up gl_val t row = class_output nt (rl x)). { unfold looked_up. xr. rewrite Ef. unfold gl_val. cbn [gl_output]. now rewrite map_xval_Fin. }
  rewrite Eo, (row_output _ t row s c x c B Hin Wx Lx Sx Hc), (row_output _ t row s c x j B Hin Wx Lx Sx Hj).
  rewrite Nat.eqb_refl. destruct (Nat.eqb_spec c j); [congruence|].
  pose proof (probability_bounds s c ltac:(lia) ltac:(lia)) as Hp. pose proof (probability_bounds s j ltac:(lia) ltac:(lia)) as Hq.
  assert (1 <= / probability s c) by (rewrite <- Rinv_1 at 1; apply Rinv_le_contravar; lra).
  assert (1 <= / (1 - probability s j)) by (rewrite <- Rinv_1 at 1; apply Rinv_le_contravar; lra).
  pose proof (INR_ge2 nt H2) as Hk1. assert (Hq0 : 0 < (INR nt - 1) / INR nt) by (apply Rdiv_lt_0_compat; lra).
  replace (2 * (INR nt - 1) / INR nt) with ((INR nt - 1) / INR nt * 1 - (INR nt - 1) / INR nt * (- 1)) by (field; lra).
  apply Rplus_le_compat; [|apply Ropp_le_contravar]; apply Rmult_le_compat_l; lra.
Qed.

Lemma amg_gap t row s c j :
  built (mk_amg (leaf_output_calculator_new MultiClassClassification)) cfg 0 (fitted d (map (map Fin) ss)) t -> In (row, (s, c)) T -> (j < nt)%nat -> j <> c ->
  1 <= nth c (looked_up (al_val nt) t row) 0 - nth j (looked_up (al_val nt) t row) 0.
Proof.
  intros B Hin Hj Hjc. destruct (fitted_ok nc nt d ss H2 W HO Rs Ls) as (r & _ & Wr & Lr & Rr & _).
  destruct (in_T _ _ _ _ _ _ Hin) as (A1 & A2 & A3).
  assert (Hrow : (nc <= length row)%nat) by (apply (row_long nc nt d row W); apply in_combine_l in A1; exact A1).
  assert (Lsn : length s = nt) by (exact (proj1 (Forall_forall _ _) Rs _ (in_combine_l _ _ _ _ A3))).
  assert (Hc : (c < nt)%nat) by (exact (proj1 (Forall_forall _ _) Hcs _ (in_combine_r _ _ _ _ A3))).
  destruct (amg_class_out nc nt _ _ _ _ row H2 Wr Lr Rr B Hrow) as (x & c' & Hc' & Ef & Em & _ & Sx & Wx & Lx).
  assert (Eo : looked_up (al_val nt) t row = approx nt c' (nth c' (class_output nt (rl x)) 0)). { unfold looked_up. xr. rewrite Ef. reflexivity. }
  pose proof (INR_ge2 nt H2) as Hk1. assert (Hq0 : 0 < (INR nt - 1) / INR nt) by (apply Rdiv_lt_0_compat; lra).
  pose proof (fun i Hi => row_output _ t row s c x i B Hin Wx Lx Sx Hi) as Hout.
  assert (Epos : 0 < nth c (class_output nt (rl x)) 0).
  { rewrite Hout, Nat.eqb_refl by auto. apply Rmult_lt_0_compat; auto. apply Rinv_0_lt_compat. pose proof (probability_bounds s c ltac:(lia) ltac:(lia)). lra. }
  assert (Ecc : c' = c).
  { destruct (Nat.eq_dec c' c) as [|Hne]; auto. exfalso.
    destruct (max_is_largest _ _ Em c ltac:(now rewrite class_output_length)) as [HM _]. rewrite (Hout c') in HM by auto.
    destruct (Nat.eqb_spec c c'); [congruence|]. pose proof (probability_bounds s c' ltac:(lia) ltac:(lia)) as Hp.
    assert (0 < / (1 - probability s c')) by (apply Rinv_0_lt_compat; lra). nra. }
  subst c'. rewrite Eo, !approx_nth by auto. rewrite Nat.eqb_refl. destruct (Nat.eqb_spec j c); [congruence|].
  rewrite (Hout c), Nat.eqb_refl by auto. pose proof (probability_bounds s c ltac:(lia) ltac:(lia)) as Hp.
  assert (1 <= / probability s c) by (rewrite <- Rinv_1 at 1; apply Rinv_le_contravar; lra). set (q := / probability s c) in *.
  replace ((INR nt - 1) / INR nt * q - - ((INR nt - 1) / INR nt * q) / (INR nt - 1)) with q by (field; lra). lra.
Qed.
End Stage.

(** The gap of a row after a step. *)
Lemma gap_step nt lr delta k s o c j : length s = nt -> length o = nt -> (c < nt)%nat -> (j < nt)%nat -> 0 < lr ->
  INR k * (lr * delta) <= nth c s 0 - nth j s 0 -> delta <= nth c o 0 - nth j o 0 ->
  INR (S k) * (lr * delta) <= nth c (vstep lr s o) 0 - nth j (vstep lr s o) 0.
Proof. intros L1 L2 Hc Hj Hlr H1 H2. unfold vstep. rewrite !nth_map2 by lia. rewrite S_INR. nra. Qed.

Lemma in_stepped {A} lr (rows : list A) ss (g : A -> list R) (cs : list nat) s' c : In (s', c) (combine (map2 (vstep lr) ss (map g rows)) cs) -> length ss = length rows ->
  exists row s, In (row, (s, c)) (combine rows (combine ss cs)) /\ s' = vstep lr s (g row).
Proof.
  revert ss cs. induction rows as [|r rows IH]; intros [|s ss] [|c0 cs] H L; cbn in H, L; try tauto; try discriminate.
  destruct H as [H|H].
  - injection H as <- <-. exists r, s. split; [now left|reflexivity].
  - destruct (IH ss cs H ltac:(lia)) as (row & s0 & Hin & E). exists row, s0. split; [now right|auto].
Qed.

(* ------------------------------------------------------------------ *)
(** ** From gaps to predictions and losses *)

Definition gaps (nt : nat) (x : R) (ss : list (list R)) (cs : list nat) : Prop :=
  forall s c j, In (s, c) (combine ss cs) -> (j < nt)%nat -> j <> c -> x <= nth c s 0 - nth j s 0.

Lemma sum_exp_le b s : forall c, (c < length s)%nat -> (forall j, (j < length s)%nat -> j <> c -> exp (nth j s 0) <= b) ->
  Rsum (map exp s) <= exp (nth c s 0) + (INR (length s) - 1) * b.
Proof.
  induction s as [|a s IH]; intros c Hc H; [cbn in Hc; lia|]. cbn [map length]. rewrite Rsum_cons, S_INR. destruct c as [|c]; cbn [nth].
  - assert (G : Rsum (map exp s) <= INR (length s) * b).
    { assert (H' : forall j, (j < length s)%nat -> exp (nth j s 0) <= b) by (intros j Hj; apply (H (S j)); [cbn; lia|discriminate]).
      clear -H'. induction s as [|x s IH]; [unfold Rsum; cbn; lra|]. cbn [map length]. rewrite Rsum_cons, S_INR.
      pose proof (H' 0%nat ltac:(cbn; lia)) as H0. cbn [nth] in H0. specialize (IH (fun j Hj => H' (S j) ltac:(cbn; lia))). lra. }
    lra.
  - pose proof (H 0%nat ltac:(cbn; lia) ltac:(discriminate)) as H0. cbn [nth] in H0.
    assert (Hs : forall j, (j < length s)%nat -> j <> c -> exp (nth j s 0) <= b) by (intros j Hj Hne; apply (H (S j)); [cbn; lia|congruence]).
    specialize (IH c ltac:(cbn in Hc; lia) Hs). lra.
Qed.

Lemma ln_le_sub x : 0 < x -> ln x <= x - 1.
Proof. intros H. pose proof (exp_ineq1_le (ln x)) as E. rewrite exp_ln in E by auto. lra. Qed.

Lemma gap_loss nt x s c : length s = nt -> (c < nt)%nat -> (forall j, (j < nt)%nat -> j <> c -> x <= nth c s 0 - nth j s 0) ->
  log_loss s c <= (INR nt - 1) * exp (- x).
Proof.
  intros L Hc H. unfold log_loss, probability. set (S := Rsum (map exp s)). pose proof (exp_pos (nth c s 0)) as He.
  assert (HS : S <= exp (nth c s 0) + (INR nt - 1) * (exp (nth c s 0) * exp (- x))).
  { rewrite <- L. apply sum_exp_le; [lia|]. intros j Hj Hne. rewrite <- exp_plus. specialize (H j ltac:(lia) Hne).
    destruct (Rle_lt_or_eq_dec (nth j s 0) (nth c s 0 + - x)) as [Hl|Hl]; [lra|left; now apply exp_increasing|rewrite Hl; lra]. }
  assert (HS0 : 0 < S). { unfold S. apply sum_exp_pos. intros ->. cbn in L. lia. }
  replace (- ln (exp (nth c s 0) / S)) with (ln (S / exp (nth c s 0))).
  - eapply Rle_trans; [apply ln_le_sub; apply Rdiv_lt_0_compat; auto|].
    apply Rmult_le_reg_r with (exp (nth c s 0)); auto. unfold Rdiv. rewrite Rmult_minus_distr_r, Rmult_assoc, Rinv_l by lra. lra.
  - rewrite <- ln_Rinv by (apply Rdiv_lt_0_compat; auto). f_equal. field. lra.
Qed.

Lemma gaps_loss nt x ss cs : rectangular nt ss -> Forall (fun c => (c < nt)%nat) cs -> length cs = length ss -> gaps nt x ss cs ->
  total_loss (combine ss cs) <= INR (length ss) * ((INR nt - 1) * exp (- x)).
Proof.
  intros Rs. revert cs. induction Rs as [|s ss L Rs IH]; intros [|c cs] Hcs HL G; try discriminate; [unfold total_loss, Rsum; cbn; lra|].
  inversion Hcs; subst. unfold total_loss in *. cbn [combine map fst snd length]. rewrite Rsum_cons, S_INR.
  assert (G1 : log_loss s c <= (INR (length s) - 1) * exp (- x)) by (apply gap_loss; auto; intros j Hj Hne; apply G; auto; now left).
  assert (G2 : gaps (length s) x ss cs) by (intros s' c' j Hin; apply G; now right).
  specialize (IH cs H2 ltac:(cbn in HL; lia) G2). cbn [fst snd] in *. lra.
Qed.

(** The class with the largest score is the answer. *)
Lemma gap_answer nt s c : length s = nt -> (c < nt)%nat -> (forall j, (j < nt)%nat -> j <> c -> 0 < nth c s 0 - nth j s 0) ->
  @get_binary_prediction xr_ops (map Fin s) = Ok (map Fin (hot nt c)).
Proof.
  intros L Hc H. destruct (binary_prediction xr_laws (map Fin s)) as (c' & v & E & Hv & HF).
  { intros E. apply map_eq_nil in E. subst s. cbn in L. lia. }
  assert (F : @first_largest xr_ops (map Fin s) c).
  { left. exists (Fin (nth c s 0)). split; [rewrite nth_error_map, (nth_error_nth' _ 0) by lia; reflexivity|]. split; [reflexivity|].
    intros i x Hx. rewrite nth_error_map in Hx. destruct (nth_error s i) as [y|] eqn:Ey; [|discriminate]. injection Hx as <-.
    assert (Hi : (i < nt)%nat) by (rewrite <- L; apply nth_error_Some; congruence). apply (nth_error_nth _ _ 0) in Ey. subst y.
    destruct (Nat.eq_dec i c) as [->|Hne].
    - split; [|lia]. destruct (xltb (Fin (nth c s 0)) (Fin (nth c s 0))) eqn:Q; [apply xltb_Fin in Q; lra|exact Q].
    - specialize (H i Hi Hne). split.
      + destruct (xltb (Fin (nth c s 0)) (Fin (nth i s 0))) eqn:Q; [apply xltb_Fin in Q; lra|exact Q].
      + intros _. left. apply xltb_Fin. lra. }
  pose proof (first_largest_unique xr_laws (map Fin s) c c' F HF) as <-. xr. rewrite E. f_equal.
  rewrite map_length, L in Hv. exact (one_hot_unique nt (N.of_nat c) v _ Hv (hot_one_hot nt c Hc)).
Qed.

Lemma samples_fst' nc nt (d : @dataset xr_ops) : wf_dataset nc nt d -> map fst (samples d) = feature_rows d.
Proof. intros W. unfold samples. apply map_fst_combine. symmetry. exact (wf_lengths _ _ _ W). Qed.

Lemma all_right predict (d : @dataset xr_ops) nc nt : wf_dataset nc nt d -> (Z.of_nat (length (feature_rows d)) <= 2 ^ 53)%Z ->
  (forall row label, In (row, label) (samples d) -> predict row = Ok label) -> Forall (Forall (fun x => exists r, x = Fin r)) (labels d) ->
  (ps <- calculate_all_predictions predict d;; calculate_accuracy_from_predictions ps d) = Ok (Fin 1).
Proof.
  intros W Hz H HFin. pose proof (wf_lengths _ _ _ W) as L. etransitivity; [apply (ensemble_accuracy xr_laws)|]; auto.
  - apply Nat.eq_le_incl. symmetry. exact L.
  - apply Forall_forall. intros row Hr. rewrite <- (samples_fst' _ _ _ W) in Hr. apply in_map_iff in Hr as ((r & l) & <- & Hin). eauto.
  - assert (E : correct_samples predict d = samples d).
    { unfold correct_samples. apply filter_all. intros [row label] Hin. cbn [fst snd]. rewrite (H _ _ Hin).
      assert (Hf : Forall (fun x => exists r, x = Fin r) label) by (apply in_combine_r in Hin; exact (proj1 (Forall_forall _ _) HFin _ Hin)).
      unfold equal_vectors. rewrite Nat.eqb_refl. cbn [andb]. clear -Hf. induction Hf as [|x l (r & ->) _ IH]; auto. cbn [combine forallb fst snd].
      rewrite IH, andb_true_r. apply xeqb_Fin. reflexivity. }
    rewrite E. rewrite <- (samples_fst' _ _ _ W), map_length.
    assert (Hp : 0 < INR (length (samples d))). { apply INR_pos. intros E0. apply (wf_nonempty _ _ _ W). rewrite <- (samples_fst' _ _ _ W), E0. reflexivity. }
    change (Ok (xdiv (Fin (INR (length (samples d)))) (Fin (INR (length (samples d))))) = Ok (Fin 1)). rewrite xdiv_Fin by lra. do 2 f_equal. field. lra.
Qed.

Lemma multi_class_gaps nc nt d cfg n lr m cs : (2 <= nt)%nat -> (Z.of_nat nt <= 2 ^ 53)%Z -> wf_dataset nc nt d -> one_hot_labels nt d ->
  consistent d -> standard cfg -> tc_number_of_classes cfg = N.of_nat nt -> (N.of_nat (length (feature_rows d)) <= tc_max_levels cfg + 1)%N -> 0 < lr ->
  real_labels (map (hot nt) cs) d -> Forall (fun c => (c < nt)%nat) cs -> multi_class_boost_train d cfg n (Fin lr) = Ok m ->
  forall k, (k <= n)%nat -> exists ss, mapM (multi_class_boost_raw (first_trees k m)) (feature_rows d) = Ok (map (map Fin) ss) /\
    rectangular nt ss /\ length ss = length (feature_rows d) /\ gaps nt (INR k * (lr * (2 * (INR nt - 1) / INR nt))) ss cs.
Proof.
  intros Hk Hz W HO HC Hs Hc Hn Hlr El Hcs E. pose proof (INR_ge2 nt Hk) as Hk1.
  assert (F : forall a b : list (list R), map (map Fin) a = map (map Fin) b -> a = b) by apply map_Fin_inj2.
  induction k as [|k IH]; intros Hkn.
  - exists (map (fun _ => even nt) (feature_rows d)). split; [exact (multi_class_start nt d cfg n lr m nc Hk Hz W E)|].
    split; [apply Forall_map, Forall_forall; intros; apply even_length|]. split; [apply map_length|].
    intros s c j Hin Hj Hne. pose proof (in_combine_l _ _ _ _ Hin) as Hi. apply in_map_iff in Hi as (r & <- & _).
    pose proof (proj1 (Forall_forall _ _) Hcs _ (in_combine_r _ _ _ _ Hin)) as Hcc. unfold even. rewrite !nth_repeat' by auto. cbn [INR]. lra.
  - destruct (IH ltac:(lia)) as (ss & S1 & Rs & Ls & G).
    destruct (multi_core nc nt d cfg n lr m k cs Hk Hz W HO El E ltac:(lia)) as (ss0 & t & os & S1' & S2 & Eb & Eo & _ & Ro & _ & _).
    rewrite S1 in S1'. injection S1' as S1'. apply F in S1'. subst ss0.
    rewrite grad_boost_tree_new_eq in Eb. apply build_with_built in Eb.
    exists (map2 (vstep lr) ss os). split; [exact S2|]. assert (Lo : length os = length ss) by (rewrite Eo, map_length; symmetry; exact Ls).
    split; [|split].
    + clear -Rs Ro Lo. revert os Ro Lo. induction Rs as [|s ss L Rs IH]; intros [|o os] Ro Lo; try discriminate; cbn [map2]; [constructor|].
      inversion Ro; subst. constructor; [|apply IH; auto]. unfold vstep. rewrite map2_length. cbv beta in *. lia.
    + rewrite map2_length, Lo, Nat.min_id. exact Ls.
    + intros s' c j Hin Hj Hne. rewrite Eo in Hin. destruct (in_stepped lr _ _ _ _ _ _ Hin Ls) as (row & s & HT & ->).
      destruct (in_T _ _ _ _ _ _ HT) as (A1 & A2 & A3).
      apply (gap_step nt); auto.
      * exact (proj1 (Forall_forall _ _) Rs _ (in_combine_l _ _ _ _ A3)).
      * rewrite Eo in Ro. apply (proj1 (Forall_forall _ _) Ro). apply in_map. exact (in_combine_l _ _ _ _ A1).
      * exact (proj1 (Forall_forall _ _) Hcs _ (in_combine_r _ _ _ _ A3)).
      * exact (multi_gap nc nt d cs ss cfg (multi_class_boost_raw (first_trees k m)) Hk W HO El Hcs Rs Ls S1 HC Hs Hc Hn t row s c j Eb HT Hj Hne).
Qed.

Theorem multi_class_separates nc nt d cfg n lr m : (2 <= nt)%nat -> (Z.of_nat nt <= 2 ^ 53)%Z -> wf_dataset nc nt d -> one_hot_labels nt d ->
  consistent d -> standard cfg -> tc_number_of_classes cfg = N.of_nat nt -> (N.of_nat (length (feature_rows d)) <= tc_max_levels cfg + 1)%N -> 0 < lr ->
  multi_class_boost_train d cfg n (Fin lr) = Ok m ->
  exists ss cs, mapM (multi_class_boost_raw m) (feature_rows d) = Ok (map (map Fin) ss) /\ classes nt d cs /\
    (forall s c j, In (s, c) (combine ss cs) -> (j < nt)%nat -> j <> c -> INR n * (lr * (2 * (INR nt - 1) / INR nt)) <= nth c s 0 - nth j s 0) /\
    total_loss (combine ss cs) <= INR (length (feature_rows d)) * ((INR nt - 1) * exp (- (INR n * (lr * (2 * (INR nt - 1) / INR nt))))).
Proof.
  intros Hk Hz W HO HC Hs Hc Hn Hlr E. destruct (one_hot_labels_real nt d HO) as (cs & El & Hcs).
  destruct (multi_class_gaps nc nt d cfg n lr m cs Hk Hz W HO HC Hs Hc Hn Hlr El Hcs E n ltac:(lia)) as (ss & S & Rs & Ls & G).
  destruct (multi_guess nc nt d cfg n (Fin lr) m ltac:(lia) Hz W E) as (_ & _ & HT). rewrite (first_all m n HT) in S.
  exists ss, cs. split; [exact S|]. split; [now apply classes_hot|]. split; [exact G|].
  eapply Rle_trans; [refine (gaps_loss nt _ ss cs Rs Hcs _ G)|].
  - rewrite Ls. exact (cs_length nc nt d cs W El).
  - apply Req_le. apply (f_equal (fun k => INR k * ((INR nt - 1) * exp (- (INR n * (lr * (2 * (INR nt - 1) / INR nt))))))). exact Ls.
Qed.

Theorem multi_class_learns nc nt d cfg n lr m row label : (2 <= nt)%nat -> (Z.of_nat nt <= 2 ^ 53)%Z -> wf_dataset nc nt d -> one_hot_labels nt d ->
  consistent d -> standard cfg -> tc_number_of_classes cfg = N.of_nat nt -> (N.of_nat (length (feature_rows d)) <= tc_max_levels cfg + 1)%N -> 0 < lr ->
  (0 < n)%nat -> multi_class_boost_train d cfg n (Fin lr) = Ok m -> In (row, label) (samples d) -> multi_class_boost_predict m row = Ok label.
Proof.
  intros Hk Hz W HO HC Hs Hc Hn Hlr H0 E Hin. destruct (one_hot_labels_real nt d HO) as (cs & El & Hcs). pose proof (INR_ge2 nt Hk) as Hk1.
  destruct (multi_class_gaps nc nt d cfg n lr m cs Hk Hz W HO HC Hs Hc Hn Hlr El Hcs E n ltac:(lia)) as (ss & S & Rs & Ls & G).
  destruct (multi_guess nc nt d cfg n (Fin lr) m ltac:(lia) Hz W E) as (_ & _ & HT). rewrite (first_all m n HT) in S.
  rewrite (samples_d nc nt d cs ss) in Hin by auto. apply in_map_iff in Hin as ((r & s & c) & E1 & HT'). cbn [fst snd] in E1. injection E1 as -> <-.
  destruct (in_T _ _ _ _ _ _ HT') as (A1 & _ & A3). unfold multi_class_boost_predict. rewrite (in_scored _ _ _ _ _ S A1). cbn [bind].
  assert (Hd : 0 < (2 * (INR nt - 1) / INR nt)) by (apply Rdiv_lt_0_compat; lra).
  assert (Hx : 0 < INR n * (lr * (2 * (INR nt - 1) / INR nt))). { apply Rmult_lt_0_compat; [apply lt_0_INR; lia|]. now apply Rmult_lt_0_compat. }
  apply gap_answer.
  - exact (proj1 (Forall_forall _ _) Rs _ (in_combine_l _ _ _ _ A3)).
  - exact (proj1 (Forall_forall _ _) Hcs _ (in_combine_r _ _ _ _ A3)).
  - intros j Hj Hne. specialize (G s c j A3 Hj Hne). lra.
Qed.

Theorem multi_class_full_score nc nt d cfg n lr m : (2 <= nt)%nat -> (Z.of_nat nt <= 2 ^ 53)%Z -> wf_dataset nc nt d -> one_hot_labels nt d ->
  consistent d -> standard cfg -> tc_number_of_classes cfg = N.of_nat nt -> (N.of_nat (length (feature_rows d)) <= tc_max_levels cfg + 1)%N -> 0 < lr ->
  (0 < n)%nat -> (Z.of_nat (length (feature_rows d)) <= 2 ^ 53)%Z -> multi_class_boost_train d cfg n (Fin lr) = Ok m -> multi_class_boost_score m d = Ok (Fin 1).
Proof.
  intros Hk Hz W HO HC Hs Hc Hn Hlr H0 Hr E. apply (all_right (multi_class_boost_predict m) d nc nt W Hr).
  - intros row label. exact (multi_class_learns nc nt d cfg n lr m row label Hk Hz W HO HC Hs Hc Hn Hlr H0 E).
  - destruct (one_hot_labels_real nt d HO) as (cs & El & _). rewrite El. apply Forall_map, Forall_forall. intros l _. apply Forall_map, Forall_forall. eauto.
Qed.

Lemma amg_gaps nc nt d cfg n lr m cs : (2 <= nt)%nat -> (Z.of_nat nt <= 2 ^ 53)%Z -> wf_dataset nc nt d -> one_hot_labels nt d ->
  consistent d -> standard cfg -> tc_number_of_classes cfg = N.of_nat nt -> (N.of_nat (length (feature_rows d)) <= tc_max_levels cfg + 1)%N -> 0 < lr ->
  real_labels (map (hot nt) cs) d -> Forall (fun c => (c < nt)%nat) cs -> amg_boost_train d cfg n (Fin lr) = Ok m ->
  forall k, (k <= n)%nat -> exists ss, mapM (amg_boost_raw (first_trees k m)) (feature_rows d) = Ok (map (map Fin) ss) /\
    rectangular nt ss /\ length ss = length (feature_rows d) /\ gaps nt (INR k * (lr * 1)) ss cs.
Proof.
  intros Hk Hz W HO HC Hs Hc Hn Hlr El Hcs E. pose proof (INR_ge2 nt Hk) as Hk1.
  assert (F : forall a b : list (list R), map (map Fin) a = map (map Fin) b -> a = b) by apply map_Fin_inj2.
  induction k as [|k IH]; intros Hkn.
  - exists (map (fun _ => even nt) (feature_rows d)). split; [exact (amg_start nt d cfg n lr m nc Hk Hz W E)|].
    split; [apply Forall_map, Forall_forall; intros; apply even_length|]. split; [apply map_length|].
    intros s c j Hin Hj Hne. pose proof (in_combine_l _ _ _ _ Hin) as Hi. apply in_map_iff in Hi as (r & <- & _).
    pose proof (proj1 (Forall_forall _ _) Hcs _ (in_combine_r _ _ _ _ Hin)) as Hcc. unfold even. rewrite !nth_repeat' by auto. cbn [INR]. lra.
  - destruct (IH ltac:(lia)) as (ss & S1 & Rs & Ls & G).
    destruct (amg_core nc nt d cfg n lr m k cs Hk Hz W HO El E ltac:(lia)) as (ss0 & t & os & S1' & S2 & Eb & Eo & _ & Ro & _ & _).
    rewrite S1 in S1'. injection S1' as S1'. apply F in S1'. subst ss0.
    rewrite amg_boost_tree_new_eq in Eb. apply build_with_built in Eb.
    exists (map2 (vstep lr) ss os). split; [exact S2|]. assert (Lo : length os = length ss) by (rewrite Eo, map_length; symmetry; exact Ls).
    split; [|split].
    + clear -Rs Ro Lo. revert os Ro Lo. induction Rs as [|s ss L Rs IH]; intros [|o os] Ro Lo; try discriminate; cbn [map2]; [constructor|].
      inversion Ro; subst. constructor; [|apply IH; auto]. unfold vstep. rewrite map2_length. cbv beta in *. lia.
    + rewrite map2_length, Lo, Nat.min_id. exact Ls.
    + intros s' c j Hin Hj Hne. rewrite Eo in Hin. destruct (in_stepped lr _ _ _ _ _ _ Hin Ls) as (row & s & HT & ->).
      destruct (in_T _ _ _ _ _ _ HT) as (A1 & A2 & A3).
      apply (gap_step nt); auto.
      * exact (proj1 (Forall_forall _ _) Rs _ (in_combine_l _ _ _ _ A3)).
      * rewrite Eo in Ro. apply (proj1 (Forall_forall _ _) Ro). apply in_map. exact (in_combine_l _ _ _ _ A1).
      * exact (proj1 (Forall_forall _ _) Hcs _ (in_combine_r _ _ _ _ A3)).
      * exact (amg_gap nc nt d cs ss cfg (amg_boost_raw (first_trees k m)) Hk W HO El Hcs Rs Ls S1 HC Hs Hc Hn t row s c j Eb HT Hj Hne).
Qed.

Theorem amg_separates nc nt d cfg n lr m : (2 <= nt)%nat -> (Z.of_nat nt <= 2 ^ 53)%Z -> wf_dataset nc nt d -> one_hot_labels nt d ->
  consistent d -> standard cfg -> tc_number_of_classes cfg = N.of_nat nt -> (N.of_nat (length (feature_rows d)) <= tc_max_levels cfg + 1)%N -> 0 < lr ->
  amg_boost_train d cfg n (Fin lr) = Ok m ->
  exists ss cs, mapM (amg_boost_raw m) (feature_rows d) = Ok (map (map Fin) ss) /\ classes nt d cs /\
    (forall s c j, In (s, c) (combine ss cs) -> (j < nt)%nat -> j <> c -> INR n * (lr * 1) <= nth c s 0 - nth j s 0) /\
    total_loss (combine ss cs) <= INR (length (feature_rows d)) * ((INR nt - 1) * exp (- (INR n * (lr * 1)))).
Proof.
  intros Hk Hz W HO HC Hs Hc Hn Hlr E. destruct (one_hot_labels_real nt d HO) as (cs & El & Hcs).
  destruct (amg_gaps nc nt d cfg n lr m cs Hk Hz W HO HC Hs Hc Hn Hlr El Hcs E n ltac:(lia)) as (ss & S & Rs & Ls & G).
  destruct (amg_guess nc nt d cfg n (Fin lr) m ltac:(lia) Hz W E) as (_ & _ & HT). rewrite (first_all m n HT) in S.
  exists ss, cs. split; [exact S|]. split; [now apply classes_hot|]. split; [exact G|].
  eapply Rle_trans; [refine (gaps_loss nt _ ss cs Rs Hcs _ G)|].
  - rewrite Ls. exact (cs_length nc nt d cs W El).
  - apply Req_le. apply (f_equal (fun k => INR k * ((INR nt - 1) * exp (- (INR n * (lr * 1)))))). exact Ls.
Qed.

Theorem amg_learns nc nt d cfg n lr m row label : (2 <= nt)%nat -> (Z.of_nat nt <= 2 ^ 53)%Z -> wf_dataset nc nt d -> one_hot_labels nt d ->
  consistent d -> standard cfg -> tc_number_of_classes cfg = N.of_nat nt -> (N.of_nat (length (feature_rows d)) <= tc_max_levels cfg + 1)%N -> 0 < lr ->
  (0 < n)%nat -> amg_boost_train d cfg n (Fin lr) = Ok m -> In (row, label) (samples d) -> amg_boost_predict m row = Ok label.
Proof.
  intros Hk Hz W HO HC Hs Hc Hn Hlr H0 E Hin. destruct (one_hot_labels_real nt d HO) as (cs & El & Hcs). pose proof (INR_ge2 nt Hk) as Hk1.
  destruct (amg_gaps nc nt d cfg n lr m cs Hk Hz W HO HC Hs Hc Hn Hlr El Hcs E n ltac:(lia)) as (ss & S & Rs & Ls & G).
  destruct (amg_guess nc nt d cfg n (Fin lr) m ltac:(lia) Hz W E) as (_ & _ & HT). rewrite (first_all m n HT) in S.
  rewrite (samples_d nc nt d cs ss) in Hin by auto. apply in_map_iff in Hin as ((r & s & c) & E1 & HT'). cbn [fst snd] in E1. injection E1 as -> <-.
  destruct (in_T _ _ _ _ _ _ HT') as (A1 & _ & A3). unfold amg_boost_predict. rewrite (in_scored _ _ _ _ _ S A1). cbn [bind].
  assert (Hd : 0 < 1) by (lra).
  assert (Hx : 0 < INR n * (lr * 1)). { apply Rmult_lt_0_compat; [apply lt_0_INR; lia|]. now apply Rmult_lt_0_compat. }
  apply gap_answer.
  - exact (proj1 (Forall_forall _ _) Rs _ (in_combine_l _ _ _ _ A3)).
  - exact (proj1 (Forall_forall _ _) Hcs _ (in_combine_r _ _ _ _ A3)).
  - intros j Hj Hne. specialize (G s c j A3 Hj Hne). lra.
Qed.

Theorem amg_full_score nc nt d cfg n lr m : (2 <= nt)%nat -> (Z.of_nat nt <= 2 ^ 53)%Z -> wf_dataset nc nt d -> one_hot_labels nt d ->
  consistent d -> standard cfg -> tc_number_of_classes cfg = N.of_nat nt -> (N.of_nat (length (feature_rows d)) <= tc_max_levels cfg + 1)%N -> 0 < lr ->
  (0 < n)%nat -> (Z.of_nat (length (feature_rows d)) <= 2 ^ 53)%Z -> amg_boost_train d cfg n (Fin lr) = Ok m -> amg_boost_score m d = Ok (Fin 1).
Proof.
  intros Hk Hz W HO HC Hs Hc Hn Hlr H0 Hr E. apply (all_right (amg_boost_predict m) d nc nt W Hr).
  - intros row label. exact (amg_learns nc nt d cfg n lr m row label Hk Hz W HO HC Hs Hc Hn Hlr H0 E).
  - destruct (one_hot_labels_real nt d HO) as (cs & El & _). rewrite El. apply Forall_map, Forall_forall. intros l _. apply Forall_map, Forall_forall. eauto.
Qed.
