(** The first iteration of a classification ensemble answers like the classification tree, in exact arithmetic (C104). *)
From Coq Require Import Reals Lra Lia.
From Verif Require Import Base Num ModelCommon ModelTree ModelBoost Lib XR Spec SpecTree SpecExact SpecScore SpecFit SpecError SpecClass SpecAffine SpecGradient SpecLoss ProofReal ProofSort ProofData
  ProofSplit ProofSplit2 ProofTree ProofTree3 ProofScore ProofScore2 ProofSplitExact ProofSplitExact2 ProofTreeExact ProofScoreExact ProofBoost ProofBoost2 ProofLeaf ProofBoostExact
  ProofBalance ProofClassExact ProofClassRun ProofGradient ProofDescent ProofLoss ProofShift ProofSeparate.
Local Open Scope R_scope.

(* ------------------------------------------------------------------ *)
(** ** Leaves *)

Definition drop (k : nat) : list R := repeat (- (1 / INR k)) k.

Lemma drop_length k : length (drop k) = k. Proof. apply repeat_length. Qed.

Lemma mean_nth k group j : (j < k)%nat -> nth j (means k group) 0 = mean (target j group).
Proof.
  intros H. unfold means. rewrite (nth_indep _ 0 (mean (target 0 group))) by (rewrite map_length, seq_length; lia).
  rewrite (map_nth (fun j => mean (target j group))), seq_nth by lia. reflexivity.
Qed.

Section Leaf.
Variables (k : nat) (gs : list nat).
Hypotheses (Hk : (2 <= k)%nat) (Hgs : Forall (fun c => (c < k)%nat) gs) (Hne : gs <> []).

Let group := map (hot k) gs.
Let lowered := map (affine 1 (drop k)) group.

Lemma group_rect : rectangular k group.
Proof. unfold group. apply Forall_map, Forall_forall. intros. apply hot_length. Qed.

Lemma lowered_target j : (j < k)%nat -> target j lowered = map (fun x => 1 * x + - (1 / INR k)) (target j group).
Proof.
  intros Hj. unfold lowered. rewrite (affine_target k) by (auto using drop_length, group_rect). apply map_ext. intros x. f_equal. unfold drop. now rewrite nth_repeat'.
Qed.

Lemma group_entries j x : (j < k)%nat -> In x (target j group) -> x = 0 \/ x = 1.
Proof.
  intros Hj H. unfold target, group in H. rewrite map_map in H. apply in_map_iff in H as (c & <- & _). rewrite hot_nth by auto. destruct (j =? c)%nat; auto.
Qed.

Lemma lowered_residual : Forall (residual_vector k) lowered.
Proof.
  unfold lowered, group. rewrite map_map. apply Forall_map, Forall_forall. intros c Hc. pose proof (proj1 (Forall_forall _ _) Hgs c Hc) as Hck. cbv beta in Hck.
  pose proof (residual_is k c (even k) Hk Hck (even_length k)) as H.
  assert (E : vsub (hot k c) (rsoft (even k)) = affine 1 (drop k) (hot k c)).
  { apply (nth_ext _ _ 0 0).
    - rewrite (affine_length k) by (auto using hot_length, drop_length). exact (proj1 H).
    - intros j Hj. rewrite (proj1 H) in Hj. rewrite affine_nth by (rewrite ?hot_length, ?drop_length; auto).
      pose proof (residual_nth k (even k, c) j (even_length k) Hj) as R. unfold residual in R. cbn [fst snd] in R. rewrite R, even_probability, hot_nth by (auto; lia).
      unfold drop. rewrite nth_repeat' by auto. rewrite Nat.eqb_sym. destruct (j =? c)%nat; unfold Rdiv; ring. }
  now rewrite <- E.
Qed.

Lemma lowered_curvature j : (j < k)%nat -> curvature (target j lowered) = INR (length gs) * (1 / INR k * (1 - 1 / INR k)).
Proof.
  intros Hj. pose proof (INR_ge2 k Hk) as Hk1. assert (HK : 0 < / INR k < 1).
  { split; [apply Rinv_0_lt_compat; lra|]. rewrite <- Rinv_1. apply Rinv_lt_contravar; lra. }
  rewrite lowered_target by auto. unfold curvature. rewrite map_map.
  assert (E : forall l, (forall x, In x l -> x = 0 \/ x = 1) -> Rsum (map (fun x => Rabs (1 * x + - (1 / INR k)) * (1 - Rabs (1 * x + - (1 / INR k)))) l) = INR (length l) * (1 / INR k * (1 - 1 / INR k))).
  { induction l as [|x l IH]; intros H; [unfold Rsum; cbn; ring|]. cbn [map length]. rewrite Rsum_cons, S_INR, IH by (intros; apply H; now right).
    destruct (H x (or_introl eq_refl)) as [->| ->].
    - rewrite Rabs_left by (unfold Rdiv; lra). unfold Rdiv. ring.
    - rewrite Rabs_right by (unfold Rdiv; lra). unfold Rdiv. ring. }
  rewrite E by (intros x; now apply group_entries). unfold target, group. now rewrite !map_length.
Qed.

Lemma gs_pos : 0 < INR (length gs).
Proof. apply lt_0_INR. destruct gs; [congruence|cbn; lia]. Qed.

(** What a leaf of the first tree adds: the class frequencies, times [k], minus 1. *)
Lemma first_output j : (j < k)%nat -> nth j (class_output k lowered) 0 = INR k * mean (target j group) - 1.
Proof.
  intros Hj. pose proof (INR_ge2 k Hk) as Hk1. pose proof gs_pos as Hp. rewrite class_output_nth, lowered_curvature, lowered_target by auto.
  rewrite Rsum_map_plus, Rsum_map_mult, Rsum_map_const, map_id. unfold mean.
  assert (L : length (target j group) = length gs) by (unfold target, group; now rewrite !map_length). rewrite L.
  field. repeat split; lra.
Qed.

Lemma vote_sum j : (j < k)%nat -> Rsum (target j group) = INR (@votes xr_ops (map (map Fin) group) j).
Proof.
  intros Hj. unfold group, target, votes. clear Hne lowered group. induction gs as [|c l IH]; [reflexivity|]. inversion Hgs; subst.
  cbn [map filter]. rewrite Rsum_cons, IH by auto. rewrite nth_error_map, (nth_error_nth' _ 0) by (rewrite hot_length; auto). cbn [option_map].
  rewrite hot_nth by auto. change (@feqb xr_ops) with xeqb. change (@f1 xr_ops) with (Fin 1). destruct (j =? c)%nat.
  - rewrite (proj2 (xeqb_Fin 1 1) eq_refl). cbn [length]. rewrite S_INR. ring.
  - destruct (xeqb (Fin 0) (Fin 1)) eqn:Q; [apply xeqb_Fin in Q; lra|]. ring.
Qed.

(** The outputs are ordered like the votes. *)
Lemma output_votes j : (j < k)%nat -> nth j (class_output k lowered) 0 = INR k / INR (length gs) * INR (@votes xr_ops (map (map Fin) group) j) - 1.
Proof.
  intros Hj. rewrite first_output by auto. unfold mean. rewrite vote_sum by auto.
  assert (L : length (target j group) = length gs) by (unfold target, group; now rewrite !map_length). rewrite L. unfold Rdiv. ring.
Qed.

Lemma votes_output i j : (i < k)%nat -> (j < k)%nat ->
  (@votes xr_ops (map (map Fin) group) i < @votes xr_ops (map (map Fin) group) j)%nat <-> nth i (class_output k lowered) 0 < nth j (class_output k lowered) 0.
Proof.
  intros Hi Hj. rewrite !output_votes by auto. pose proof gs_pos as Hp. pose proof (INR_ge2 k Hk) as Hk1.
  assert (Hq : 0 < INR k / INR (length gs)) by (apply Rdiv_lt_0_compat; lra). split; intros H.
  - apply lt_INR in H. apply Rplus_lt_compat_r. now apply Rmult_lt_compat_l.
  - apply INR_lt. apply Rmult_lt_reg_l with (INR k / INR (length gs)); lra.
Qed.

Lemma output_sum : Rsum (map (fun j => nth j (class_output k lowered) 0) (seq 0 k)) = 0.
Proof.
  pose proof (INR_ge2 k Hk) as Hk1. pose proof gs_pos as Hp.
  assert (E : Rsum (map (fun j => nth j (class_output k lowered) 0) (seq 0 k)) = (INR k - 1) / INR k / (INR (length gs) * (1 / INR k * (1 - 1 / INR k))) * Rsum (map (fun j => Rsum (target j lowered)) (seq 0 k))).
  { rewrite <- Rsum_map_mult. apply Rsum_map_ext. intros j Hj. apply in_seq in Hj. rewrite class_output_nth, lowered_curvature by lia. unfold Rdiv. ring. }
  rewrite E, (residual_targets k lowered lowered_residual). ring.
Qed.

End Leaf.

(* ------------------------------------------------------------------ *)
(** ** Answers *)

Lemma ordered_answer nt s c : length s = nt -> (c < nt)%nat -> (forall j, (j < nt)%nat -> nth j s 0 <= nth c s 0 /\ ((j < c)%nat -> nth j s 0 < nth c s 0)) ->
  @get_binary_prediction xr_ops (map Fin s) = Ok (map Fin (hot nt c)).
Proof.
  intros L Hc H. destruct (binary_prediction xr_laws (map Fin s)) as (c' & v & E & Hv & HF).
  { intros E. apply map_eq_nil in E. subst s. cbn in L. lia. }
  assert (F : @first_largest xr_ops (map Fin s) c).
  { left. exists (Fin (nth c s 0)). split; [rewrite nth_error_map, (nth_error_nth' _ 0) by lia; reflexivity|]. split; [reflexivity|].
    intros i x Hx. rewrite nth_error_map in Hx. destruct (nth_error s i) as [y|] eqn:Ey; [|discriminate]. injection Hx as <-.
    assert (Hi : (i < nt)%nat) by (rewrite <- L; apply nth_error_Some; congruence). apply (nth_error_nth _ _ 0) in Ey. subst y.
    destruct (H i Hi) as [A B]. split.
    - destruct (xltb (Fin (nth c s 0)) (Fin (nth i s 0))) eqn:Q; [apply xltb_Fin in Q; lra|exact Q].
    - intros Hic. left. apply xltb_Fin. auto. }
  pose proof (first_largest_unique xr_laws (map Fin s) c c' F HF) as <-. xr. rewrite E. f_equal.
  rewrite map_length, L in Hv. exact (one_hot_unique nt (N.of_nat c) v _ Hv (hot_one_hot nt c Hc)).
Qed.

(** A class leading the outputs leads them with a value of at least 0, and if that is 0 it is class 0. *)
Lemma zero_lead (k c : nat) (o : list R) : (c < k)%nat -> Rsum (map (fun j => nth j o 0) (seq 0 k)) = 0 ->
  (forall j, (j < k)%nat -> nth j o 0 <= nth c o 0 /\ ((j < c)%nat -> nth j o 0 < nth c o 0)) ->
  0 <= nth c o 0 /\ (nth c o 0 = 0 -> c = 0%nat).
Proof.
  intros Hc Hs H.
  assert (A : 0 <= nth c o 0).
  { destruct (Rle_dec 0 (nth c o 0)) as [|Hn]; auto. exfalso.
    assert (Hb : Rsum (map (fun j => nth j o 0) (seq 0 k)) <= Rsum (map (fun _ => nth c o 0) (seq 0 k))) by (apply Rsum_map_le; intros j Hj; apply in_seq in Hj; apply H; lia).
    rewrite Rsum_map_const, seq_length in Hb. pose proof (lt_0_INR k ltac:(lia)). nra. }
  split; auto. intros E. destruct c as [|c]; auto. exfalso. destruct k as [|k]; [lia|]. cbn [seq map] in Hs. rewrite Rsum_cons in Hs.
  destruct (H 0%nat ltac:(lia)) as [_ B]. specialize (B ltac:(lia)).
  assert (Hb : Rsum (map (fun j => nth j o 0) (seq 1 k)) <= Rsum (map (fun _ => 0) (seq 1 k))) by (apply Rsum_map_le; intros j Hj; apply in_seq in Hj; destruct (H j ltac:(lia)); lra).
  rewrite Rsum_map_const in Hb. lra.
Qed.

(* ------------------------------------------------------------------ *)
(** ** The first tree *)

Lemma first_fitted nc nt d cs : (2 <= nt)%nat -> wf_dataset nc nt d -> real_labels (map (hot nt) cs) d -> Forall (fun c => (c < nt)%nat) cs ->
  fitted d (map (map Fin) (map (fun _ => even nt) (feature_rows d))) = relabel d (map (affine 1 (drop nt)) (map (hot nt) cs)).
Proof.
  intros Hk W Hl Hcs. set (ss := map (fun _ => even nt) (feature_rows d)).
  assert (Ls : length ss = length (feature_rows d)) by apply map_length.
  assert (Rs : rectangular nt ss) by (apply Forall_map, Forall_forall; intros; apply even_length).
  pose proof (fitted_labels nc nt d cs ss Hk W Hl Rs Ls) as E. pose proof (cs_length nc nt d cs W Hl) as Lc.
  unfold relabel, fitted in *. cbn [labels] in E. f_equal. etransitivity; [exact E|]. f_equal. unfold ss. rewrite map_map.
  clear -Lc Hk Hcs. revert cs Hcs Lc. xr. induction (feature_rows d) as [|r rows IH]; intros [|c cs] Hcs Lc; try discriminate; auto.
  inversion Hcs; subst. cbn [map combine]. f_equal; [|apply IH; auto].
  apply (nth_ext _ _ 0 0).
  - rewrite (affine_length nt) by (auto using hot_length, drop_length). unfold residual, vsub. cbn [fst snd]. rewrite map2_length, hot_length. unfold rsoft. rewrite ?map_length, even_length. lia.
  - intros j Hj. assert (Hj' : (j < nt)%nat).
    { unfold residual, vsub in Hj. cbn [fst snd] in Hj. rewrite map2_length, hot_length in Hj. lia. }
    rewrite residual_nth by (auto; apply even_length). cbn [fst snd]. rewrite affine_nth by (rewrite ?hot_length, ?drop_length; auto).
    rewrite even_probability, hot_nth by (auto; lia). unfold drop. rewrite nth_repeat' by auto. rewrite Nat.eqb_sym. destruct (j =? c)%nat; unfold Rdiv; ring.
Qed.

Lemma sub_hot nc nt d x cs : wf_dataset nc nt d -> wf_dataset nc nt x -> real_labels (map (hot nt) cs) d -> Forall (fun c => (c < nt)%nat) cs ->
  incl (samples x) (samples d) -> exists gs, real_labels (map (hot nt) gs) x /\ Forall (fun c => (c < nt)%nat) gs /\ gs <> [].
Proof.
  intros W Wx Hl Hcs Hi.
  assert (HO : one_hot_labels nt x).
  { apply Forall_forall. intros y Hy. rewrite <- (samples_snd nc nt x Wx) in Hy. apply in_map_iff in Hy as ([r y'] & <- & Hp). apply Hi in Hp. cbn [snd]. apply in_combine_r in Hp.
    unfold real_labels in Hl. rewrite Hl in Hp. apply in_map_iff in Hp as (h & <- & Hh). apply in_map_iff in Hh as (c & <- & Hc).
    exists (N.of_nat c). apply hot_one_hot. exact (proj1 (Forall_forall _ _) Hcs c Hc). }
  destruct (one_hot_labels_real nt x HO) as (gs & Eg & Hg). exists gs. split; [exact Eg|]. split; [exact Hg|].
  intros ->. apply (wf_nonempty _ _ _ Wx). pose proof (wf_lengths _ _ _ Wx) as L. unfold real_labels in Eg. rewrite Eg in L. cbn in L. now apply length_zero_iff_nil.
Qed.

(** The leaf of the regression tree that a row reaches, and what the first boosting tree has there. *)
Section FirstTree.
Variables (nc nt : nat) (d : @dataset xr_ops) (cfg : @tree_config xr_ops) (cs : list nat).
Hypotheses (Hk : (2 <= nt)%nat) (W : wf_dataset nc nt d) (Hl : real_labels (map (hot nt) cs) d) (Hcs : Forall (fun c => (c < nt)%nat) cs)
  (Hs : standard cfg) (Hc : tc_number_of_classes cfg = N.of_nat nt).

Let D := relabel d (map (affine 1 (drop nt)) (map (hot nt) cs)).

Lemma first_leaf {L} (mk : @dataset xr_ops -> res L) level t t' row :
  built mk_reg cfg level d t -> built mk cfg level D t' -> (nc <= length row)%nat ->
  exists x x' l gs, find_leaf_node_for_data row t = Ok (mkRL (Some x)) /\ find_leaf_node_for_data row t' = Ok l /\ mk x' = Ok l /\
    wf_dataset nc nt x /\ real_labels (map (hot nt) gs) x /\ Forall (fun c => (c < nt)%nat) gs /\ gs <> [] /\
    wf_dataset nc nt x' /\ real_labels (rl x') x' /\ rl x' = map (affine 1 (drop nt)) (map (hot nt) gs).
Proof.
  intros B B' Hrow. pose proof (relabel_moved nc nt d _ 1 (drop nt) W Hl (drop_length nt)) as M.
  destruct (built_moved nc nt 1 (drop nt) R1_neq_R0 (drop_length nt) _ _ _ _ _ _ _ _ Hs Hc B B' M) as [_ HB].
  destruct (built_lookup_mk _ _ _ _ _ _ _ row B W Hrow) as (y & ly & Ey & My & Sy & Wy).
  unfold mk_reg in My. injection My as <-.
  destruct (HB row) as [[E _]|(x & x' & l & l' & E1 & E2 & E3 & E4 & Mx)]; [congruence|].
  unfold mk_reg in E2. injection E2 as <-. rewrite Ey in E1. injection E1 as ->.
  assert (Hi : incl (samples x) (samples d)) by (rewrite Sy; apply filter_incl).
  destruct (sub_hot nc nt d x cs W Wy Hl Hcs Hi) as (gs & G1 & G2 & G3).
  pose proof (moved_labels _ _ _ _ _ _ Mx) as Er. destruct Mx as (_ & Wx' & _ & Lx' & _). rewrite (real_rl _ _ G1) in Er.
  exists x, x', l', gs. auto 12.
Qed.

End FirstTree.

Lemma one_step {L} (out : list xr -> tree_node L -> res (list xr)) k lr g row t o : length g = k -> out row t = Ok (map Fin o) -> length o = k ->
  @raw xr_ops L out (Fin lr) (map Fin g) row [t] = Ok (map Fin (vstep lr g o)).
Proof.
  intros Hg Ho Lo. pose proof (step_scores out k lr g [row] [] t [g] [o]) as H. cbn [app map map2 mapM] in H.
  assert (E0 : @raw xr_ops L out (Fin lr) (map Fin g) row [] = Ok (map Fin g)) by reflexivity.
  rewrite E0 in H. cbn [bind] in H. specialize (H eq_refl). destruct (@raw xr_ops L out (Fin lr) (map Fin g) row [t]) as [v| |].
  - cbn [bind] in H. assert (A : Ok [v] = Ok [map Fin (vstep lr g o)]) by (apply H; repeat constructor; auto). now injection A as ->.
  - cbn [bind] in H. discriminate H; repeat constructor; auto.
  - cbn [bind] in H. discriminate H; repeat constructor; auto.
Qed.

(* ------------------------------------------------------------------ *)
(** ** Ensembles *)

Section Runs.
Variables (nc nt : nat) (d : @dataset xr_ops) (cfg : @tree_config xr_ops) (lr : R) (t : tree_node (@regression_leaf xr_ops)) (row : list xr).
Hypotheses (Hk : (2 <= nt)%nat) (Hz : (Z.of_nat nt <= 2 ^ 53)%Z) (W : wf_dataset nc nt d) (HO : one_hot_labels nt d) (Hs : standard cfg)
  (Hc : tc_number_of_classes cfg = N.of_nat nt) (Et : regression_tree_new d cfg = Ok t) (Hrow : (nc <= length row)%nat).

Lemma multi_first m : multi_class_boost_train d cfg 1 (Fin lr) = Ok m ->
  exists x gs, find_leaf_node_for_data row t = Ok (mkRL (Some x)) /\ wf_dataset nc nt x /\ real_labels (map (hot nt) gs) x /\
    Forall (fun c => (c < nt)%nat) gs /\ gs <> [] /\
    multi_class_boost_raw m row = Ok (map Fin (vstep lr (even nt) (class_output nt (map (affine 1 (drop nt)) (map (hot nt) gs))))).
Proof.
  intros E. destruct (one_hot_labels_real nt d HO) as (cs & El & Hcs).
  destruct (multi_guess nc nt d cfg 1 (Fin lr) m ltac:(lia) Hz W E) as (Hg & Hlr & HT).
  destruct (multi_stage_exact nc nt d cfg 1 lr m 0 Hk Hz W HO E ltac:(lia)) as (ss & t' & S1 & Ht & _ & _ & B).
  pose proof (multi_class_start nt d cfg 1 lr m nc Hk Hz W E) as S0. rewrite S1 in S0. injection S0 as S0.
  assert (EF : fitted d (map (map Fin) ss) = relabel d (map (affine 1 (drop nt)) (map (hot nt) cs))) by (rewrite S0; exact (first_fitted nc nt d cs Hk W El Hcs)).
  rewrite EF in B. rewrite regression_tree_new_eq in Et. apply build_with_built in Et.
  destruct (first_leaf nc nt d cfg cs W El Hcs Hs Hc _ _ t t' row Et B Hrow) as (x & x' & l & gs & E1 & E2 & E3 & Wx & Lx & Hgs & Hne & Wx' & Lx' & Er).
  exists x, gs. split; [exact E1|]. split; [exact Wx|]. split; [exact Lx|]. split; [exact Hgs|]. split; [exact Hne|].
  apply (mk_gb_class nc nt) in E3; auto; [|unfold residual_labels; rewrite Er; now apply lowered_residual].
  rewrite <- (ProofDescent.first_all m 1 HT), multi_raw, Hg, Hlr.
  destruct (m_trees m) as [|a [|? ?]]; try discriminate. injection Ht as <-. cbn [firstn].
  apply (one_step (@gb_out xr_ops) nt); [apply even_length| |apply class_output_length].
  unfold gb_out. xr. rewrite E2, E3, Er. reflexivity.
Qed.

Lemma amg_first m : amg_boost_train d cfg 1 (Fin lr) = Ok m ->
  exists x gs c, find_leaf_node_for_data row t = Ok (mkRL (Some x)) /\ wf_dataset nc nt x /\ real_labels (map (hot nt) gs) x /\
    Forall (fun c => (c < nt)%nat) gs /\ gs <> [] /\ (c < nt)%nat /\
    (let o := class_output nt (map (affine 1 (drop nt)) (map (hot nt) gs)) in
     (forall j, (j < nt)%nat -> nth j o 0 <= nth c o 0 /\ ((j < c)%nat -> nth j o 0 < nth c o 0)) /\
     amg_boost_raw m row = Ok (map Fin (vstep lr (even nt) (approx nt c (nth c o 0))))).
Proof.
  intros E. destruct (one_hot_labels_real nt d HO) as (cs & El & Hcs).
  destruct (amg_guess nc nt d cfg 1 (Fin lr) m ltac:(lia) Hz W E) as (Hg & Hlr & HT).
  destruct (amg_stage_exact nc nt d cfg 1 lr m 0 Hk Hz W HO E ltac:(lia)) as (ss & t' & S1 & Ht & _ & _ & B).
  pose proof (amg_start nt d cfg 1 lr m nc Hk Hz W E) as S0. rewrite S1 in S0. injection S0 as S0.
  assert (EF : fitted d (map (map Fin) ss) = relabel d (map (affine 1 (drop nt)) (map (hot nt) cs))) by (rewrite S0; exact (first_fitted nc nt d cs Hk W El Hcs)).
  rewrite EF in B. rewrite regression_tree_new_eq in Et. apply build_with_built in Et.
  destruct (first_leaf nc nt d cfg cs W El Hcs Hs Hc _ _ t t' row Et B Hrow) as (x & x' & l & gs & E1 & E2 & E3 & Wx & Lx & Hgs & Hne & Wx' & Lx' & Er).
  apply (mk_amg_class nc nt) in E3 as (c & Hcn & E3 & EM); auto; [|unfold residual_labels; rewrite Er; now apply lowered_residual].
  exists x, gs, c. split; [exact E1|]. split; [exact Wx|]. split; [exact Lx|]. split; [exact Hgs|]. split; [exact Hne|]. split; [exact Hcn|].
  cbv zeta. rewrite Er in EM. split.
  { intros j Hj. apply (max_is_largest _ _ EM). rewrite class_output_length. exact Hj. }
  rewrite <- (ProofDescent.first_all m 1 HT), amg_raw, Hg, Hlr. rewrite map_length, even_length.
  destruct (m_trees m) as [|a [|? ?]]; try discriminate. injection Ht as <-. cbn [firstn].
  apply (one_step (@amg_out xr_ops nt) nt); [apply even_length| |apply approx_length].
  unfold amg_out. xr. rewrite E2, E3, Er. cbn [bind]. now apply construct_Fin.
Qed.

Lemma leaf_answer x gs : find_leaf_node_for_data row t = Ok (mkRL (Some x)) -> wf_dataset nc nt x -> real_labels (map (hot nt) gs) x ->
  Forall (fun c => (c < nt)%nat) gs -> gs <> [] ->
  tree_prediction row t = Ok (map Fin (means nt (map (hot nt) gs))) /\
  exists c, (c < nt)%nat /\ predict_class row t = Ok (map Fin (hot nt c)) /\ @most_votes xr_ops nt (map (map Fin) (map (hot nt) gs)) c.
Proof.
  intros E1 Wx Lx Hgs Hne. split.
  - unfold tree_prediction. rewrite E1. cbn [bind rl_data unwrap]. pose proof (real_rl _ _ Lx) as Er. rewrite <- Er.
    apply (leaf_prediction nc nt); auto. now rewrite Er.
  - destruct (predict_class_leaf xr_laws nt t row x E1) as (c & v & Ev & Hv & Hm); auto; [|exact (wf_labels _ _ _ Wx)|lia|].
    + unfold real_labels in Lx. rewrite Lx. destruct gs; [congruence|discriminate].
    + unfold real_labels in Lx. rewrite Lx in Hm. exists c. split; [exact (proj1 Hm)|]. split; [|exact Hm]. xr. rewrite Ev. f_equal.
      exact (one_hot_unique nt (N.of_nat c) v _ Hv (hot_one_hot nt c (proj1 Hm))).
Qed.

Lemma most_is_largest gs c : Forall (fun c => (c < nt)%nat) gs -> gs <> [] -> @most_votes xr_ops nt (map (map Fin) (map (hot nt) gs)) c ->
  let o := class_output nt (map (affine 1 (drop nt)) (map (hot nt) gs)) in
  forall j, (j < nt)%nat -> nth j o 0 <= nth c o 0 /\ ((j < c)%nat -> nth j o 0 < nth c o 0).
Proof.
  intros Hgs Hne [Hcn Hm] o j Hj. destruct (Hm j Hj) as [A B]. split.
  - apply Rnot_lt_le. intros Q. apply (votes_output nt gs Hk Hgs Hne c j) in Q; auto. lia.
  - intros Hjc. apply (votes_output nt gs Hk Hgs Hne j c); auto.
Qed.

Lemma vstep_nth x s o j : length o = length s -> (j < length s)%nat -> nth j (vstep x s o) 0 = nth j s 0 + x * nth j o 0.
Proof. intros L H. unfold vstep. rewrite nth_map2 by lia. reflexivity. Qed.

Theorem multi_class_first_scores m : multi_class_boost_train d cfg 1 (Fin lr) = Ok m ->
  exists p, tree_prediction row t = Ok (map Fin p) /\ length p = nt /\
    multi_class_boost_raw m row = Ok (map Fin (map (fun x => 1 / INR nt + lr * (INR nt * x - 1)) p)).
Proof.
  intros E. destruct (multi_first m E) as (x & gs & E1 & Wx & Lx & Hgs & Hne & ER). destruct (leaf_answer x gs E1 Wx Lx Hgs Hne) as [EP _].
  exists (means nt (map (hot nt) gs)). split; [exact EP|]. split; [apply means_length|]. xr. rewrite ER. do 2 f_equal.
  apply (nth_ext _ _ 0 (1 / INR nt + lr * (INR nt * 0 - 1))).
  - unfold vstep. rewrite map2_length, even_length, class_output_length, map_length, means_length. lia.
  - intros j Hj. unfold vstep in Hj. rewrite map2_length, even_length, class_output_length in Hj. rewrite Nat.min_id in Hj.
    rewrite (map_nth (fun x => 1 / INR nt + lr * (INR nt * x - 1))), mean_nth by auto.
    rewrite vstep_nth by (rewrite ?even_length, ?class_output_length; auto). rewrite first_output by auto. unfold even. now rewrite nth_repeat'.
Qed.

Theorem multi_class_first_answer m : 0 < lr -> multi_class_boost_train d cfg 1 (Fin lr) = Ok m ->
  multi_class_boost_predict m row = predict_class row t.
Proof.
  intros Hlr E. destruct (multi_first m E) as (x & gs & E1 & Wx & Lx & Hgs & Hne & ER). destruct (leaf_answer x gs E1 Wx Lx Hgs Hne) as (_ & c & Hcn & EC & Hm).
  xr. rewrite EC. unfold multi_class_boost_predict. fold (multi_class_boost_raw m row). xr. rewrite ER. cbn [bind].
  apply (ordered_answer nt); auto.
  - unfold vstep. rewrite map2_length, even_length, class_output_length. lia.
  - intros j Hj. rewrite !vstep_nth by (rewrite ?even_length, ?class_output_length; auto). unfold even. rewrite !nth_repeat' by auto.
    destruct (most_is_largest gs c Hgs Hne Hm j Hj) as [A B]. split; [|intros Hjc; specialize (B Hjc)]; nra.
Qed.

Theorem amg_first_scores m : amg_boost_train d cfg 1 (Fin lr) = Ok m ->
  exists p c, tree_prediction row t = Ok (map Fin p) /\ length p = nt /\ (c < nt)%nat /\
    (forall j, (j < nt)%nat -> nth j p 0 <= nth c p 0 /\ ((j < c)%nat -> nth j p 0 < nth c p 0)) /\
    amg_boost_raw m row = Ok (map Fin (map (fun j => 1 / INR nt + lr * (if (j =? c)%nat then INR nt * nth c p 0 - 1 else - (INR nt * nth c p 0 - 1) / (INR nt - 1))) (seq 0 nt))).
Proof.
  intros E. destruct (amg_first m E) as (x & gs & c & E1 & Wx & Lx & Hgs & Hne & Hcn & HM & ER). destruct (leaf_answer x gs E1 Wx Lx Hgs Hne) as [EP _].
  exists (means nt (map (hot nt) gs)), c. split; [exact EP|]. split; [apply means_length|]. split; [exact Hcn|]. split.
  - intros j Hj. destruct (HM j Hj) as [A B]. rewrite !first_output in A, B by auto. rewrite !mean_nth by auto. pose proof (INR_ge2 nt Hk) as Hk1. split; [|intros Hjc; specialize (B Hjc)]; nra.
  - xr. rewrite ER. do 2 f_equal. rewrite first_output, mean_nth by auto. set (M := INR nt * _ - 1).
    assert (LA : length (vstep lr (even nt) (approx nt c M)) = nt) by (unfold vstep; rewrite map2_length, even_length, approx_length; lia).
    set (f := fun j => 1 / INR nt + lr * (if (j =? c)%nat then M else - M / (INR nt - 1))).
    apply (nth_ext _ _ 0 (f 0%nat)); [rewrite LA, map_length, seq_length; reflexivity|].
    intros j Hj. rewrite LA in Hj. rewrite (map_nth f), seq_nth by auto. cbn [Nat.add].
    rewrite vstep_nth by (rewrite ?even_length, ?approx_length; auto). rewrite approx_nth by auto. unfold even. rewrite nth_repeat' by auto. reflexivity.
Qed.

Theorem amg_first_answer m : 0 < lr -> amg_boost_train d cfg 1 (Fin lr) = Ok m -> amg_boost_predict m row = predict_class row t.
Proof.
  intros Hlr E. destruct (amg_first m E) as (x & gs & c & E1 & Wx & Lx & Hgs & Hne & Hcn & HM & ER).
  destruct (leaf_answer x gs E1 Wx Lx Hgs Hne) as (_ & c' & Hcn' & EC & Hm). pose proof (most_is_largest gs c' Hgs Hne Hm) as HM'. cbv zeta in HM'.
  assert (c' = c). { destruct (Nat.lt_trichotomy c c') as [Q|[Q|Q]]; auto; exfalso.
    - destruct (HM' c Hcn) as [_ B]. specialize (B Q). destruct (HM c' Hcn') as [A _]. lra.
    - destruct (HM c' Hcn') as [_ B]. specialize (B Q). destruct (HM' c Hcn) as [A _]. lra. }
  subst c'. destruct (zero_lead nt c _ Hcn (output_sum nt gs Hk Hgs Hne) HM) as [HP HZ].
  xr. rewrite EC. unfold amg_boost_predict. fold (amg_boost_raw m row). xr. rewrite ER. cbn [bind].
  pose proof (INR_ge2 nt Hk) as Hk1. set (M := nth c _ 0) in *.
  apply (ordered_answer nt); auto.
  - unfold vstep. rewrite map2_length, even_length, approx_length. lia.
  - intros j Hj. rewrite !vstep_nth by (rewrite ?even_length, ?approx_length; auto). unfold even. rewrite !nth_repeat' by auto. rewrite !approx_nth, Nat.eqb_refl by auto.
    destruct (j =? c)%nat eqn:Q; [apply Nat.eqb_eq in Q; subst j; split; [lra|lia]|].
    assert (HD : 0 <= M / (INR nt - 1)) by (apply Rmult_le_pos; [exact HP|left; apply Rinv_0_lt_compat; lra]).
    assert (E' : - M / (INR nt - 1) = - (M / (INR nt - 1))) by (unfold Rdiv; ring). rewrite E'. split.
    + assert (0 <= lr * M) by (apply Rmult_le_pos; lra). assert (0 <= lr * (M / (INR nt - 1))) by (apply Rmult_le_pos; lra). lra.
    + intros Hjc. assert (HMp : 0 < M). { destruct (Req_dec M 0) as [Z|Z]; [specialize (HZ Z); lia|lra]. }
      assert (0 < lr * M) by (apply Rmult_lt_0_compat; lra). assert (0 <= lr * (M / (INR nt - 1))) by (apply Rmult_le_pos; lra). lra.
Qed.

End Runs.

(** Equal answers give equal scores. *)
Lemma same_score predict (t : tree_node (@regression_leaf xr_ops)) (test : @dataset xr_ops) :
  (length (feature_rows test) <= length (labels test))%nat -> (Z.of_nat (length (feature_rows test)) <= 2 ^ 53)%Z ->
  (forall row, In row (feature_rows test) -> predict row = predict_class row t /\ exists v, predict_class row t = Ok v) ->
  (ps <- calculate_all_predictions predict test;; calculate_accuracy_from_predictions ps test) = calculate_accuracy test t.
Proof.
  intros H1 H2 H. etransitivity; [apply (ensemble_accuracy xr_laws); auto|].
  { apply Forall_forall. intros row Hin. destruct (H row Hin) as [-> Hv]. exact Hv. }
  symmetry. etransitivity; [apply (tree_accuracy xr_laws); auto|].
  { apply Forall_forall. intros row Hin. now apply H. }
  assert (E : correct_samples (fun row => predict_class row t) test = correct_samples predict test).
  { unfold correct_samples. apply filter_ext_in. intros [row l] Hin. cbn [fst snd]. apply in_combine_l in Hin. destruct (H row Hin) as [-> _]. reflexivity. }
  now rewrite E.
Qed.

Lemma class_answered nc nt d cfg (t : tree_node (@regression_leaf xr_ops)) row : (2 <= nt)%nat -> (Z.of_nat nt <= 2 ^ 53)%Z -> wf_dataset nc nt d ->
  regression_tree_new d cfg = Ok t -> (nc <= length row)%nat -> exists v, predict_class row t = Ok v.
Proof.
  intros Hk Hz W E Hrow. destruct (majority_class xr_laws nc nt d cfg t row W ltac:(lia) Hz E Hrow) as (c & v & Ev & _). eauto.
Qed.

Theorem multi_class_first_accuracy nc nt d cfg lr t m test : (2 <= nt)%nat -> (Z.of_nat nt <= 2 ^ 53)%Z -> wf_dataset nc nt d -> one_hot_labels nt d ->
  standard cfg -> tc_number_of_classes cfg = N.of_nat nt -> regression_tree_new d cfg = Ok t -> 0 < lr -> multi_class_boost_train d cfg 1 (Fin lr) = Ok m ->
  Forall (fun row => (nc <= length row)%nat) (feature_rows test) -> (length (feature_rows test) <= length (labels test))%nat ->
  (Z.of_nat (length (feature_rows test)) <= 2 ^ 53)%Z -> multi_class_boost_score m test = calculate_accuracy test t.
Proof.
  intros Hk Hz W HO Hs Hc Et Hlr E HR H1 H2. apply (same_score (multi_class_boost_predict m)); auto. intros row Hin.
  pose proof (proj1 (Forall_forall _ _) HR row Hin) as Hrow. split; [|eapply class_answered; eauto].
  exact (multi_class_first_answer nc nt d cfg lr t row Hk Hz W HO Hs Hc Et Hrow m Hlr E).
Qed.

Theorem amg_first_accuracy nc nt d cfg lr t m test : (2 <= nt)%nat -> (Z.of_nat nt <= 2 ^ 53)%Z -> wf_dataset nc nt d -> one_hot_labels nt d ->
  standard cfg -> tc_number_of_classes cfg = N.of_nat nt -> regression_tree_new d cfg = Ok t -> 0 < lr -> amg_boost_train d cfg 1 (Fin lr) = Ok m ->
  Forall (fun row => (nc <= length row)%nat) (feature_rows test) -> (length (feature_rows test) <= length (labels test))%nat ->
  (Z.of_nat (length (feature_rows test)) <= 2 ^ 53)%Z -> amg_boost_score m test = calculate_accuracy test t.
Proof.
  intros Hk Hz W HO Hs Hc Et Hlr E HR H1 H2. apply (same_score (amg_boost_predict m)); auto. intros row Hin.
  pose proof (proj1 (Forall_forall _ _) HR row Hin) as Hrow. split; [|eapply class_answered; eauto].
  exact (amg_first_answer nc nt d cfg lr t row Hk Hz W HO Hs Hc Et Hrow m Hlr E).
Qed.
