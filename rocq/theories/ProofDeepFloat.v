(** Deeper trees fit no worse in binary64, up to rounding (C84). *)
From Coq Require Import Reals Lra Lia ZArith.
From Flocq Require Import Core.
From Flocq Require Import IEEE754.BinarySingleNaN.
From Verif Require Import Base Num F64 ModelCommon ModelTree ModelBoost Lib Spec SpecTree SpecExact SpecScore SpecFit SpecPredict SpecFitFloat
  ProofReal ProofRound ProofError ProofData ProofSort ProofTree ProofTree3 ProofScore ProofScore3 ProofLeaf ProofPredict ProofFitFloat.
Local Open Scope R_scope.

Section Refine.
Context {O : NumOps}.

Lemma cut_path (row : list F) m t t' : cut_at m t t' -> exists rest, path row t = path row t' ++ rest.
Proof.
  induction 1 as [m q l|q t f d HP|m q t f t' f' _ (r1 & E1) _ (r2 & E2)].
  - exists []. reflexivity.
  - eexists. cbn [leaf_node path app]. reflexivity.
  - cbn [node_new path]. destruct (answers q row); [exists r1; now rewrite E1|exists r2; now rewrite E2].
Qed.

Lemma path_agree {L} (mk : dataset -> res L) cfg level d t (row row' : list F) : built mk cfg level d t ->
  (forall q, In q (path row t) -> answers q row' = answers q row) -> path row' t = path row t.
Proof.
  induction 1 as [level d s l Es Est El|level d s fd td t f Es Est Ep Bt IHt Bf IHf]; intros H; [reflexivity|].
  cbn [node_new path] in *. rewrite (H _ (or_introl eq_refl)). f_equal.
  destruct (answers (bs_question s) row); [apply IHt|apply IHf]; intros q Hq; apply H; now right.
Qed.

Lemma like_agree {L} (mk : dataset -> res L) cfg level d0 d t (row row' : list F) : built mk cfg level d0 t ->
  (forall q, In q (path row t) -> answers q row' = answers q row) -> samples_like row' t d = samples_like row t d.
Proof.
  intros Bt H. unfold samples_like. rewrite (path_agree mk cfg level d0 t row row' Bt H). apply filter_ext. intros p.
  assert (G : forall qs, (forall q, In q qs -> answers q row' = answers q row) ->
    forallb (fun q => Bool.eqb (answers q (fst p)) (answers q row')) qs = forallb (fun q => Bool.eqb (answers q (fst p)) (answers q row)) qs).
  { induction qs as [|q qs IH]; intros Hq; [reflexivity|]. cbn [forallb]. rewrite (Hq q (or_introl eq_refl)). f_equal. apply IH. intros; apply Hq; now right. }
  now apply G.
Qed.

Lemma in_like {L} (row : list F) (t : tree_node L) d s : In s (samples_like row t d) ->
  In s (samples d) /\ forall q, In q (path row t) -> answers q (fst s) = answers q row.
Proof.
  intros H. apply filter_In in H as [H1 H2]. split; auto. intros q Hq. rewrite forallb_forall in H2. now apply eqb_prop, H2.
Qed.

Lemma self_like {L} (t : tree_node L) d s : In s (samples d) -> In s (samples_like (fst s) t d).
Proof. intros H. apply filter_In. split; auto. apply forallb_forall. intros q _. apply eqb_reflx. Qed.

(** No prediction that is constant on the tree's groups fits better than the group means. *)
Lemma means_fit_best {L} (mk : dataset -> res L) cfg nc nt (g c : list F * list F -> R) level d t :
  built mk cfg level d t -> wf_dataset nc nt d ->
  (forall s s', In s (samples d) -> In s' (samples_like (fst s) t d) -> c s' = c s) ->
  Rsum (map (fun s => (g s - mean (map g (samples_like (fst s) t d))) * (g s - mean (map g (samples_like (fst s) t d)))) (samples d))
  <= Rsum (map (fun s => (g s - c s) * (g s - c s)) (samples d)).
Proof.
  intros Bt W Hc. pose proof (group_shrink mk cfg nc nt (fun s => g s - c s) 1 level d t ltac:(lra) Bt W) as H.
  eapply Rle_trans; [|exact H]. right. apply Rsum_map_ext. intros s Hs.
  assert (E : mean (map (fun s => g s - c s) (samples_like (fst s) t d)) = mean (map g (samples_like (fst s) t d)) - c s).
  { assert (Hne : samples_like (fst s) t d <> []) by (intros E; pose proof (self_like t d s Hs) as Hi; rewrite E in Hi; destruct Hi).
    rewrite !mean_map. pose proof (INR_pos _ Hne) as Hp.
    assert (ES : Rsum (map (fun s0 => g s0 - c s0) (samples_like (fst s) t d)) + INR (length (samples_like (fst s) t d)) * c s
               = Rsum (map g (samples_like (fst s) t d))).
    { rewrite <- (Rsum_map_const (c s)), <- Rsum_map_plus. apply Rsum_map_ext. intros s' Hs'. rewrite (Hc s s' Hs Hs'). lra. }
    rewrite <- ES. field. lra. }
  rewrite E. ring.
Qed.

Lemma deeper_means cfg cfg' nc nt (g : list F * list F -> R) m d (t t' : tree_node regression_leaf) level level' mk mk' :
  built mk cfg level d t -> built mk' cfg' level' d t' -> cut_at m t' t -> wf_dataset nc nt d ->
  Rsum (map (fun s => (g s - mean (map g (samples_like (fst s) t' d))) * (g s - mean (map g (samples_like (fst s) t' d)))) (samples d))
  <= Rsum (map (fun s => (g s - mean (map g (samples_like (fst s) t d))) * (g s - mean (map g (samples_like (fst s) t d)))) (samples d)).
Proof.
  intros Bt Bt' HC W. apply (means_fit_best mk' cfg' nc nt g (fun s => mean (map g (samples_like (fst s) t d))) level' d t' Bt' W).
  intros s s' Hs Hs'. do 2 f_equal. apply (like_agree mk cfg level d d t _ _ Bt). intros q Hq.
  apply in_like in Hs' as [_ Hs']. apply Hs'. destruct (cut_path (fst s) m t' t HC) as (rest & E). rewrite E. apply in_or_app. now left.
Qed.

End Refine.

Lemma dev_flip a b c e : Rabs (b - c) <= e -> Rabs ((a - b) - (a - c)) <= e.
Proof. intros H. replace ((a - b) - (a - c)) with (- (b - c)) by ring. now rewrite Rabs_Ropp. Qed.

Section DeepFloat.
Context (P : platform).
Local Existing Instance f64_ops.

Definition entry (j : nat) (s : list (@F (f64_ops P)) * list (@F (f64_ops P))) : R := nth j (map B2R (snd s : list f64)) 0.
Definition group_dev (j : nat) (d : @dataset (f64_ops P)) (t : tree_node regression_leaf) (s : list (@F (f64_ops P)) * list (@F (f64_ops P))) : R :=
  entry j s - mean (map (entry j) (samples_like (fst s) t d)).

Definition slip (N : nat) (B : R) : R := bpow radix2 (-51) * INR (N + 2) * B.

Lemma within_tame B (ls : list (list f64)) : B <= bpow radix2 400 -> within B ls -> tame ls.
Proof.
  intros HB H. unfold within, tame in *. eapply Forall_impl; [|exact H]. intros l Hl. eapply Forall_impl; [|exact Hl]. intros x [Fx Hx]. split; [exact Fx|].
  eapply Rle_trans; [exact Hx|]. eapply Rle_trans; [exact HB|]. apply bpow_le. lia.
Qed.

Lemma tree_errors nc nt (d : @dataset (f64_ops P)) cfg (t : tree_node regression_leaf) B :
  wf_dataset nc nt d -> (Z.of_nat (length (labels d)) <= 2 ^ 40)%Z -> bpow radix2 (-400) <= B <= bpow radix2 400 -> within B (labels d) ->
  regression_tree_new d cfg = Ok t ->
  exists ps : list (list f64), mapM (fun row => tree_prediction row t) (feature_rows d) = Ok ps /\
    Forall (Forall (fun x : f64 => is_finite x = true)) ps /\
    forall j, (j < nt)%nat -> Forall2 (fun x y => Rabs (x - y) <= slip (length (labels d)) B) (errors j (labels d) ps) (map (group_dev j d t) (samples d)).
Proof.
  intros W HN HB HL E. pose proof (within_tame B (labels d) (proj2 HB) HL) as HT.
  assert (B0 : 0 <= B) by (pose proof (bpow_gt_0 radix2 (-400)); lra).
  set (pred := fun row : list (@F (f64_ops P)) => map (@average_of (f64_ops P) (map snd (samples_like row t d))) (seq 0 nt)).
  assert (HP : forall row, In row (feature_rows d) -> tree_prediction row t = Ok (pred row)).
  { intros row Hr. apply (ProofScore3.prediction_average nc nt d cfg t row W E). apply (row_long nc nt d); auto. }
  assert (HE : forall row j, In row (feature_rows d) -> (j < nt)%nat ->
    is_finite (nth j (pred row : list f64) (B754_zero false)) = true /\
    Rabs (B2R (nth j (pred row : list f64) (B754_zero false)) - mean (map (entry j) (samples_like row t d))) <= slip (length (labels d)) B).
  { intros row j Hr Hj.
    destruct (tree_prediction_error nc nt d cfg t row j W E (row_long nc nt d row W Hr) Hj HT HN) as (p & v & Ep & Ev & Fv & Hv).
    pose proof (ok_inj _ _ _ Ep (HP row Hr)) as Epp.
    assert (Env : nth j (pred row : list f64) (B754_zero false) = v) by (apply nth_error_nth; rewrite <- Epp; exact Ev).
    rewrite Env. split; [exact Fv|].
    set (ys := target j (map (map B2R) (map snd (samples_like row t d)))) in *.
    assert (Eys : ys = map (entry j) (samples_like row t d)) by (unfold ys, target, entry; rewrite !map_map; reflexivity).
    rewrite <- Eys. eapply Rle_trans; [exact Hv|].
    destruct (like_incl row t d) as [Hi Hc].
    assert (Hma : mean (map Rabs ys) <= B).
    { apply mean_le; [exact B0|]. intros y Hy. rewrite Eys, map_map in Hy. apply in_map_iff in Hy as (s & <- & Hs). unfold entry.
      change 0 with (B2R (B754_zero false : f64)). rewrite map_nth.
      apply (within_nth B (labels d)); auto. apply Hi. now apply in_map. }
    unfold slip. pose proof (eta_B B HB) as He. rewrite !plus_INR in *. cbn [INR] in *.
    pose proof (bpow_gt_0 radix2 (-51)) as H51. apply le_INR in Hc. pose proof (pos_INR (length (map snd (samples_like row t d)))) as Hn0.
    assert (ulp1 * B <= bpow radix2 (-51) * B) by (apply Rmult_le_compat_r; [exact B0|unfold ulp1; apply bpow_le; lia]).
    assert (bpow radix2 (-51) * (INR (length (map snd (samples_like row t d))) + 1) * mean (map Rabs ys) <= bpow radix2 (-51) * (INR (length (labels d)) + 1) * B).
    { apply Rmult_le_compat; [apply Rmult_le_pos; lra|apply mean_nonneg; intros z Hz; apply in_map_iff in Hz as (w & <- & _); apply Rabs_pos| |exact Hma].
      apply Rmult_le_compat_l; lra. }
    lra. }
  exists (map pred (feature_rows d)). split.
  { apply mapM_Forall2. clear -HP. revert HP. generalize (feature_rows d). induction l as [|r l IH]; intros HP; cbn [map]; constructor; [apply HP; now left|].
    apply IH. intros; apply HP; now right. }
  split.
  { apply Forall_forall. intros p Hp. apply in_map_iff in Hp as (row & <- & Hr). apply Forall_forall. intros x Hx.
    apply (In_nth _ _ (B754_zero false)) in Hx as (j & Hj & <-).
    assert (LP : length (pred row) = nt) by (unfold pred; rewrite map_length, seq_length; reflexivity).
    apply (HE row j Hr). eapply Nat.lt_le_trans; [exact Hj|]. apply Nat.eq_le_incl. exact LP. }
  intros j Hj. pose proof (wf_lengths _ _ _ W) as HLen.
  assert (G : forall (rows ls : list (list (@F (f64_ops P)))), length rows = length ls -> (forall r, In r rows -> In r (feature_rows d)) ->
    Forall2 (fun x y => Rabs (x - y) <= slip (length (labels d)) B) (errors j ls (map pred rows)) (map (group_dev j d t) (combine rows ls))).
  { induction rows as [|r rows IH]; intros [|l ls] HLn Hin; try discriminate HLn; [constructor|].
    cbn [map combine]. unfold errors. cbn [combine map]. constructor.
    - cbn [fst snd]. destruct (HE r j (Hin r (or_introl eq_refl)) Hj) as [_ H]. unfold group_dev. cbn [fst].
      assert (Ee : entry j (r, l) = B2R (nth j (l : list f64) (B754_zero false))).
      { unfold entry. cbn [snd]. change 0 with (B2R (B754_zero false : f64)). apply map_nth. }
      rewrite Ee. exact (dev_flip _ _ _ _ H).
    - apply IH; [now injection HLn|]. intros; apply Hin; now right. }
  apply G; auto.
Qed.

Theorem deeper_float nc nt (d : @dataset (f64_ops P)) cfg m m' (t t' : tree_node regression_leaf) B :
  wf_dataset nc nt d -> (Z.of_nat (length (labels d)) <= 2 ^ 40)%Z -> bpow radix2 (-400) <= B <= bpow radix2 400 -> within B (labels d) ->
  (m <= m')%N -> regression_tree_new d (with_levels m cfg) = Ok t -> regression_tree_new d (with_levels m' cfg) = Ok t' ->
  exists ps ps' : list (list f64),
    mapM (fun row => tree_prediction row t) (feature_rows d) = Ok ps /\ mapM (fun row => tree_prediction row t') (feature_rows d) = Ok ps' /\
    Forall (Forall (fun x : f64 => is_finite x = true)) ps' /\
    forall j, (j < nt)%nat ->
      rms (errors j (labels d) ps') <= rms (errors j (labels d) ps) + bpow radix2 (-50) * INR (length (labels d) + 2) * B.
Proof.
  intros W HN HB HL Hm E E'.
  destruct (tree_errors nc nt d _ t B W HN HB HL E) as (ps & Eps & _ & He). destruct (tree_errors nc nt d _ t' B W HN HB HL E') as (ps' & Eps' & Fps' & He').
  exists ps, ps'. split; [exact Eps|]. split; [exact Eps'|]. split; [exact Fps'|]. intros j Hj.
  specialize (He j Hj). specialize (He' j Hj).
  assert (S0 : 0 <= slip (length (labels d)) B).
  { unfold slip. pose proof (bpow_gt_0 radix2 (-51)). pose proof (bpow_gt_0 radix2 (-400)). pose proof (pos_INR (length (labels d) + 2)).
    apply Rmult_le_pos; [apply Rmult_le_pos|]; lra. }
  destruct (deeper_refines nc nt d cfg m m' t' W Hm E') as (t0 & E0 & HC). pose proof (ok_inj _ _ _ E0 E) as Et. subst t0.
  pose proof E as Bt. rewrite regression_tree_new_eq in Bt. apply build_with_built in Bt.
  pose proof E' as Bt'. rewrite regression_tree_new_eq in Bt'. apply build_with_built in Bt'.
  pose proof (deeper_means _ _ nc nt (entry j) _ d t t' _ _ _ _ Bt Bt' HC W) as HS.
  pose proof (rms_move _ _ _ S0 He') as H1.
  assert (H2 : rms (map (group_dev j d t') (samples d)) <= rms (map (group_dev j d t) (samples d))).
  { apply rms_le; [now rewrite !map_length|]. rewrite !map_map. exact HS. }
  assert (He2 : Forall2 (fun x y => Rabs (x - y) <= slip (length (labels d)) B) (map (group_dev j d t) (samples d)) (errors j (labels d) ps)).
  { clear -He. induction He; constructor; auto. rewrite Rabs_minus_sym. exact H. }
  pose proof (rms_move _ _ _ S0 He2) as H3.
  replace (bpow radix2 (-50) * INR (length (labels d) + 2) * B) with (2 * slip (length (labels d)) B); [lra|].
  unfold slip. replace (bpow radix2 (-50)) with (2 * bpow radix2 (-51)) by (change 2 with (bpow radix2 1); rewrite <- bpow_plus; reflexivity). ring.
Qed.

(** Any tree at all fits no worse than predicting the average for every row. *)
Theorem tree_beats_average nc nt (d : @dataset (f64_ops P)) cfg (t : tree_node regression_leaf) B :
  wf_dataset nc nt d -> (Z.of_nat (length (labels d)) <= 2 ^ 40)%Z -> bpow radix2 (-400) <= B <= bpow radix2 400 -> within B (labels d) ->
  regression_tree_new d cfg = Ok t ->
  exists ps : list (list f64), mapM (fun row => tree_prediction row t) (feature_rows d) = Ok ps /\
    Forall (Forall (fun x : f64 => is_finite x = true)) ps /\
    forall j, (j < nt)%nat ->
      rms (errors j (labels d) ps) <= sqrt (variance (target j (map (map B2R) (labels d)))) + bpow radix2 (-51) * INR (length (labels d) + 2) * B.
Proof.
  intros W HN HB HL E. destruct (tree_errors nc nt d _ t B W HN HB HL E) as (ps & Eps & Fps & He).
  exists ps. split; [exact Eps|]. split; [exact Fps|]. intros j Hj. specialize (He j Hj).
  assert (S0 : 0 <= slip (length (labels d)) B).
  { unfold slip. pose proof (bpow_gt_0 radix2 (-51)). pose proof (bpow_gt_0 radix2 (-400)). pose proof (pos_INR (length (labels d) + 2)).
    apply Rmult_le_pos; [apply Rmult_le_pos|]; lra. }
  pose proof (rms_move _ _ _ S0 He) as H1. fold (slip (length (labels d)) B).
  eapply Rle_trans; [exact H1|]. apply Rplus_le_compat_r.
  pose proof E as Bt. rewrite regression_tree_new_eq in Bt. apply build_with_built in Bt.
  set (ys := target j (map (map B2R) (labels d))).
  pose proof (means_fit_best _ _ nc nt (entry j) (fun _ => mean ys) _ d t Bt W (fun _ _ _ _ => eq_refl)) as HS.
  assert (Eys : ys = map (entry j) (samples d)).
  { assert (ES : map snd (samples d) = labels d) by (apply map_snd_combine; now rewrite (wf_lengths _ _ _ W)).
    unfold ys, target, entry. rewrite <- ES, !map_map. reflexivity. }
  unfold rms. apply sqrt_le_1_alt. rewrite map_map. unfold variance, mean at 1. rewrite !map_length.
  assert (EL : length ys = length (samples d)) by (rewrite Eys; apply map_length). rewrite EL.
  assert (Hne : samples d <> []).
  { unfold samples. pose proof (wf_nonempty _ _ _ W) as H2. pose proof (wf_lengths _ _ _ W) as H3. revert H2 H3.
    generalize (feature_rows d) (labels d). intros [|a l] [|b l']; cbn; intros; congruence. }
  apply Rmult_le_compat_r; [left; apply Rinv_0_lt_compat, INR_pos; exact Hne|].
  eapply Rle_trans; [exact HS|]. right. generalize (mean ys). intros M. rewrite Eys, map_map. reflexivity.
Qed.

End DeepFloat.
