(** Boosting learns any table with a feature that tells the rows apart (C96). *)
From Coq Require Import Reals Lra Lia Permutation Sorted.
From Verif Require Import Base Num ModelCommon ModelTree ModelBoost Lib XR Spec SpecTree SpecExact SpecScore SpecFit SpecError SpecStage SpecLearn ProofReal ProofData
  ProofSort ProofSplit ProofSplit2 ProofTree ProofTree3 ProofScore ProofSplitExact ProofSplitExact2 ProofTreeExact ProofScoreExact ProofBoost ProofBoost2 ProofLeaf ProofBoostExact
  ProofBalance ProofStage ProofBound.
Local Open Scope R_scope.

(* ------------------------------------------------------------------ *)
(** ** Some cut of a list explains a fair share of its variance *)

Lemma prefix_sums s l : sumsq l <= 2 * (s * s) + 4 * Rsum (map (fun i => (s + Rsum (firstn i l)) * (s + Rsum (firstn i l))) (seq 1 (length l))).
Proof.
  revert s. induction l as [|x l IH]; intros s.
  - cbn. nra.
  - cbn [length seq map]. rewrite Rsum_cons. rewrite <- seq_shift, map_map. cbn [firstn].
    rewrite (Rsum_map_ext (fun i => (s + Rsum (x :: firstn i l)) * (s + Rsum (x :: firstn i l)))
               (fun i => (s + x + Rsum (firstn i l)) * (s + x + Rsum (firstn i l)))) by (intros; rewrite Rsum_cons; ring).
    specialize (IH (s + x)). unfold sumsq in *. cbn [map]. rewrite Rsum_cons. change (Rsum [x]) with (x + 0).
    replace (x + 0) with x by ring. pose proof (Rle_0_sqr (2 * s + x)) as Q. unfold Rsqr in Q.
    set (A := Rsum (map (fun y => y * y) l)) in *. set (B := Rsum (map _ (seq 1 (length l)))) in *. lra.
Qed.

Lemma Rsum_sub c l : Rsum (map (fun x => x - c) l) = Rsum l - INR (length l) * c.
Proof. induction l as [|x l IH]; [cbn; ring|]. cbn [map length]. rewrite !Rsum_cons, IH, S_INR. ring. Qed.

Lemma Rsum_mean l : l <> [] -> Rsum l = INR (length l) * mean l.
Proof. intros H. unfold mean. field. pose proof (INR_pos l H). lra. Qed.

(** What a cut into [a] and [b] explains. *)
Lemma cut_drop a b : a <> [] -> b <> [] ->
  let P := Rsum (map (fun x => x - mean (a ++ b)) a) in
  P * P <= INR (length (a ++ b)) / 4 * (sse (a ++ b) - sse a - sse b).
Proof.
  intros Ha Hb P. pose proof (INR_pos a Ha) as Na. pose proof (INR_pos b Hb) as Nb.
  unfold sse at 1. rewrite dev_app, (dev_mean (mean (a ++ b)) a), (dev_mean (mean (a ++ b)) b).
  fold (sse a). fold (sse b).
  assert (Hne : a ++ b <> []) by (destruct a; [congruence|discriminate]).
  pose proof (Rsum_mean (a ++ b) Hne) as E. rewrite Rsum_app, (Rsum_mean a Ha), (Rsum_mean b Hb), app_length, plus_INR in E.
  unfold P. rewrite Rsum_sub, (Rsum_mean a Ha). rewrite app_length, plus_INR.
  set (p := INR (length a)) in *. set (q := INR (length b)) in *. set (c := mean (a ++ b)) in *. set (u := mean a) in *. set (v := mean b) in *.
  assert (E1 : p * (u - c) = q * (c - v)) by lra.
  set (w := p * (u - c)) in *.
  replace (p * u - p * c) with w by (unfold w; ring).
  replace (sse a + p * ((c - u) * (c - u)) + (sse b + q * ((c - v) * (c - v))) - sse a - sse b) with (w * w / p + w * w / q).
  2:{ assert (A1 : w * w / p = p * ((c - u) * (c - u))) by (unfold w; field; lra).
      assert (A2 : w * w / q = q * ((c - v) * (c - v))) by (rewrite E1; field; lra). lra. }
  replace ((p + q) / 4 * (w * w / p + w * w / q)) with (w * w * ((p + q) * (p + q) / (4 * p * q))) by (field; lra).
  assert (1 <= (p + q) * (p + q) / (4 * p * q)).
  { apply Rmult_le_reg_r with (4 * p * q); [nra|]. replace ((p + q) * (p + q) / (4 * p * q) * (4 * p * q)) with ((p + q) * (p + q)) by (field; lra). pose proof (Rle_0_sqr (p - q)) as Q. unfold Rsqr in Q. nra. }
  pose proof (Rle_0_sqr w) as Q. unfold Rsqr in Q. nra.
Qed.

Lemma sse_cuts l : sse l <= INR (length l) * Rsum (map (fun i => sse l - sse (firstn i l) - sse (skipn i l)) (seq 1 (length l - 1))).
Proof.
  destruct l as [|x l]; [unfold sse, dev; cbn; lra|]. set (L := x :: l). set (c := mean L).
  assert (Hne : L <> []) by discriminate.
  assert (E : sse L = sumsq (map (fun y => y - c) L)) by (unfold sse, dev, sumsq; now rewrite map_map).
  rewrite E. eapply Rle_trans; [apply (prefix_sums 0)|]. rewrite Rmult_0_l, Rmult_0_r, Rplus_0_l. rewrite <- E.
  rewrite map_length. replace (length L) with (S (length L - 1)) at 1 by (cbn; lia). rewrite seq_S, map_app, Rsum_app. cbn [map].
  replace (1 + (length L - 1))%nat with (length L) by (cbn; lia).
  assert (Z : Rsum (firstn (length L) (map (fun y => y - c) L)) = 0).
  { rewrite firstn_all2 by (rewrite map_length; lia). rewrite Rsum_sub, (Rsum_mean L Hne). unfold c. ring. }
  rewrite Z. change (Rsum [(0 + 0) * (0 + 0)]) with ((0 + 0) * (0 + 0) + 0).
  replace (0 + 0) with 0 by ring. rewrite Rmult_0_l, Rplus_0_l, Rplus_0_r. rewrite <- Rsum_map_mult.
  rewrite <- Rsum_map_mult. apply Rsum_map_le. intros i Hi. apply in_seq in Hi.
  assert (Ha : firstn i L <> []) by (intros H; apply (f_equal (@length R)) in H; rewrite firstn_length in H; cbn [length] in *; lia).
  assert (Hb : skipn i L <> []) by (intros H; apply (f_equal (@length R)) in H; rewrite skipn_length in H; cbn [length] in *; lia).
  pose proof (cut_drop (firstn i L) (skipn i L) Ha Hb) as Q. cbv zeta in Q. rewrite firstn_skipn in Q. fold c in Q.
  rewrite firstn_map. replace (0 + Rsum (map (fun y => y - c) (firstn i L))) with (Rsum (map (fun y => y - c) (firstn i L))) by ring. lra.
Qed.

Lemma target_firstn t i ls : target t (firstn i ls) = firstn i (target t ls).
Proof. unfold target. now rewrite firstn_map. Qed.
Lemma target_skipn t i ls : target t (skipn i ls) = skipn i (target t ls).
Proof. unfold target. now rewrite skipn_map. Qed.

Lemma tsse_cuts k ls : tsse k ls <= INR (length ls) * Rsum (map (fun i => tsse k ls - tsse k (firstn i ls) - tsse k (skipn i ls)) (seq 1 (length ls - 1))).
Proof.
  eapply Rle_trans.
  { unfold tsse. apply (Rsum_map_le _ (fun t => INR (length ls) * Rsum (map (fun i => sse (target t ls) - sse (target t (firstn i ls)) - sse (target t (skipn i ls))) (seq 1 (length ls - 1))))).
    intros t _. pose proof (sse_cuts (target t ls)) as Q. rewrite target_length in Q.
    rewrite (Rsum_map_ext _ (fun i => sse (target t ls) - sse (firstn i (target t ls)) - sse (skipn i (target t ls)))) by (intros; now rewrite target_firstn, target_skipn). exact Q. }
  rewrite Rsum_map_mult. apply Rmult_le_compat_l; [apply pos_INR|].
  rewrite (Rsum_swap (fun t i => sse (target t ls) - sse (target t (firstn i ls)) - sse (target t (skipn i ls))) (seq 0 k) (seq 1 (length ls - 1))).
  apply Req_le, Rsum_map_ext. intros i _. unfold tsse.
  assert (G : forall (f g h : nat -> R) s, Rsum (map (fun t => f t - g t - h t) s) = Rsum (map f s) - Rsum (map g s) - Rsum (map h s)).
  { intros f g h s. induction s as [|t s IH]; [cbn; ring|]. cbn [map]. rewrite !Rsum_cons, IH. ring. }
  apply G.
Qed.

(** If no cut gains more than [g], the variance is at most [n * n * g]. *)
Lemma cuts_bound k ls g : ls <> [] -> 0 <= g -> (forall i, (0 < i < length ls)%nat -> cut_gain k i ls <= g) ->
  total_variance k ls <= INR (length ls) * INR (length ls) * g.
Proof.
  intros Hne Hg H. pose proof (INR_pos ls Hne) as Hn. set (n := length ls) in *.
  assert (D : forall i, (0 < i < n)%nat -> tsse k ls - tsse k (firstn i ls) - tsse k (skipn i ls) <= INR n * g).
  { intros i Hi. specialize (H i Hi). unfold cut_gain in H. rewrite remaining_tsse in H by (rewrite firstn_skipn; auto).
    rewrite firstn_skipn, total_variance_tsse in H by auto. fold n in H.
    apply (Rmult_le_compat_l (INR n)) in H; [|lra].
    replace (INR n * (tsse k ls / INR n - (tsse k (firstn i ls) + tsse k (skipn i ls)) / INR n)) with (tsse k ls - tsse k (firstn i ls) - tsse k (skipn i ls)) in H by (field; lra). exact H. }
  pose proof (tsse_cuts k ls) as Q. fold n in Q. rewrite total_variance_tsse by auto. fold n.
  assert (S : Rsum (map (fun i => tsse k ls - tsse k (firstn i ls) - tsse k (skipn i ls)) (seq 1 (n - 1))) <= INR n * (INR n * g)).
  { eapply Rle_trans; [apply (Rsum_map_le _ (fun _ => INR n * g)); intros i Hi; apply in_seq in Hi; apply D; lia|].
    rewrite Rsum_map_const, seq_length. apply Rmult_le_compat_r; [nra|]. apply le_INR. lia. }
  apply Rmult_le_reg_r with (INR n); [lra|]. unfold Rdiv. rewrite Rmult_assoc, Rinv_l, Rmult_1_r by lra.
  eapply Rle_trans; [exact Q|]. apply (Rmult_le_compat_l (INR n)) in S; [|lra]. lra.
Qed.

(* ------------------------------------------------------------------ *)
(** ** The reported gain *)

Lemma apart_cuts nc nt (d : @dataset xr_ops) ls j g :
  wf_dataset nc nt d -> real_labels ls d -> (j < nc)%nat -> tells_apart j d -> 0 <= g ->
  (forall j r i v, considered d j r i v -> cut_gain nt i (labels_in_order ls r) <= g) ->
  total_variance nt ls <= INR (length ls) * INR (length ls) * g.
Proof.
  intros W Hl Hj Hkey Hg Hmax.
  destruct (wf_columns _ _ _ W) as [Lc Ht].
  destruct (nth_error (feature_columns d) j) as [col|] eqn:Hcol; [|apply nth_error_None in Hcol; xr; lia].
  assert (Hin : In col (feature_columns d)) by (eapply nth_error_In; eauto).
  destruct (the_sort_spec xr_laws col (wf_column_num nc nt d col W Hin)) as [_ HS]. set (r := the_sort col) in *.
  assert (Lcol : length col = length ls) by (eapply wf_col_length; eauto).
  pose proof (labels_in_order_perm ls col r HS Lcol) as HP.
  assert (Lr : length r = length ls). { rewrite (Permutation_length HP). unfold labels_in_order. now rewrite map_length. }
  destruct (real_rect nc nt d ls W Hl) as [_ Hne].
  rewrite (total_variance_perm nt _ _ HP), (Permutation_length HP).
  apply cuts_bound; [intros E0; rewrite E0 in HP; apply Permutation_sym, Permutation_nil in HP; contradiction|exact Hg|].
  intros i Hi. rewrite <- (Permutation_length HP) in Hi.
  destruct (nth_error r i) as [[v id]|] eqn:Ei; [|apply nth_error_None in Ei; xr; lia].
  apply (Hmax j r i v). split; [exists col; auto|].
  destruct r as [|m r'] eqn:Er; [cbn in Lr; lia|]. exists id, m. split; [exact Ei|]. split; [reflexivity|].
  destruct i as [|i]; [lia|]. cbn [nth_error] in Ei.
  pose proof (proj2 HS) as SS. apply StronglySorted_inv in SS as [_ HF].
  pose proof (proj1 (Forall_forall _ _) HF _ (nth_error_In _ _ Ei)) as Hrel.
  destruct Hrel as [Hlt|[Heq Hid]]; [exact Hlt|]. exfalso. cbn [fst snd] in Heq, Hid.
  destruct (sorted_entry_row nc nt d j col _ m W Hcol HS (or_introl eq_refl)) as (r1 & A1 & A2).
  destruct (sorted_entry_row nc nt d j col _ (v, id) W Hcol HS (or_intror (nth_error_In _ _ Ei))) as (r2 & B1 & B2).
  destruct m as [mv mi]. apply xeqb_eq in Heq. cbn [fst snd] in *. subst mv.
  pose proof (Hkey _ _ _ _ _ A1 B1 A2 B2). lia.
Qed.

Lemma apart_gain nc nt (d : @dataset xr_ops) ls b j :
  wf_dataset nc nt d -> real_labels ls d -> find_best_split d (N.of_nat nt) = Ok b -> (j < nc)%nat -> tells_apart j d ->
  exists g, bs_gain b = Fin g /\ 0 <= g /\ total_variance nt ls <= INR (length ls) * INR (length ls) * g.
Proof.
  intros W Hl E Hj Hkey. destruct (split_exact nc nt d ls b W Hl E) as (g & Eg & Hmax & Hcase).
  assert (Hg : 0 <= g) by (destruct Hcase as [[-> _]|[Hg _]]; lra).
  exists g. split; [exact Eg|]. split; [exact Hg|]. exact (apart_cuts nc nt d ls j g W Hl Hj Hkey Hg Hmax).
Qed.

Lemma labels_by_answer nc nt (d : @dataset xr_ops) q fd td : wf_dataset nc nt d -> real_labels (rl d) d -> partition d q = Ok (fd, td) ->
  labels_answering true q (feature_rows d) (rl d) = rl td /\ labels_answering false q (feature_rows d) (rl d) = rl fd.
Proof.
  intros W Hl Ep. destruct (sub_true _ _ _ _ _ _ W Ep Hl) as (Wf & Wt & Lf & Lt & Et & Ef & Hq).
  assert (Ers : @combine (list xr) (list R) (feature_rows d) (rl d) = rs d).
  { unfold rs, samples, rl. xr. generalize (labels d), (feature_rows d). clear.
    intros l l0. revert l. induction l0 as [|r rows IH]; intros [|x l]; cbn; auto. f_equal. apply IH. }
  unfold labels_answering. xr. rewrite Ers, <- (rs_snd _ _ _ Wt), <- (rs_snd _ _ _ Wf), Et, Ef.
  split; f_equal; apply filter_ext; intros p; destruct (answers q (fst p)); reflexivity.
Qed.

(** A tree of at least one level explains a share [1 / n^2] of the variance. *)
Theorem tree_share nc nt (d : @dataset xr_ops) ls cfg t j :
  wf_dataset nc nt d -> real_labels ls d -> (0 < nt)%nat -> standard cfg -> tc_number_of_classes cfg = N.of_nat nt -> tc_max_levels cfg <> 0%N ->
  distinct_above_minimum d -> (j < nc)%nat -> tells_apart j d -> regression_tree_new d cfg = Ok t ->
  exists e, calculate_overall_mean_squared_error d t = Ok (Fin e) /\
    e <= (1 - 1 / (INR (length ls) * INR (length ls))) * (total_variance nt ls / INR nt).
Proof.
  intros W Hl Hk Hs Hc Hm Hd Hj Hkey E. pose proof (real_rl _ _ Hl) as Erl. destruct (real_rect _ _ _ _ W Hl) as [_ Hne].
  pose proof (xr_lens nc nt d ls W Hl) as HLr. rewrite <- Erl in *. clear ls Erl.
  rewrite regression_tree_new_eq in E. apply build_with_built in E.
  eexists. split; [eapply training_error_exact; eauto|].
  pose proof (INR_pos _ Hne) as Hn. assert (Hkp : 0 < INR nt) by (apply lt_0_INR; lia).
  rewrite HLr. set (n := INR (length (rl d))) in *.
  assert (Hn2 : 0 < n * n) by nra.
  assert (K : sum_err nt t (rs d) <= n * (1 - 1 / (n * n)) * (total_variance nt (rl d) / INR nt)).
  { inversion E as [level d' s lf Es Est El|level d' s fd td a b Es Est Ep Ba Bb]; subst.
    - injection El as <-. rewrite (sum_err_leaf nc) by auto. unfold standard in Hs. rewrite Hs, Hc in Es.
      destruct (apart_gain nc nt d (rl d) s j W Hl Es Hj Hkey) as (g & Eg & Hg & Hle).
      unfold stop_here in Est. apply orb_true_iff in Est as [Est|Est]; [|apply N.eqb_eq in Est; congruence].
      assert (Eg0 : @eq xr (bs_gain s) (Fin 0)) by (apply xeqb_eq; exact Est). rewrite Eg in Eg0. injection Eg0 as ->.
      rewrite Rmult_0_r in Hle. pose proof (total_variance_nonneg nt (rl d)) as H0.
      assert (Z : total_variance nt (rl d) = 0) by lra. pose proof (tsse_total nt (rl d)) as T. rewrite Z in T |- *. rewrite <- T. unfold Rdiv. lra.
    - unfold standard in Hs. rewrite Hs, Hc in Es.
      destruct (apart_gain nc nt d (rl d) s j W Hl Es Hj Hkey) as (g & Eg & Hg & Hle).
      pose proof (gain_is_true_gain nc nt d (rl d) s W Hl Es (distinct_occurs_once nc nt d (rl d) s W Hl Es Hd)) as Eg2.
      rewrite Eg in Eg2. injection Eg2 as Eg2.
      destruct (sub_true _ _ _ _ _ _ W Ep Hl) as (Wf & Wt & Lf & Lt & Et & Ef & Hq).
      destruct (labels_by_answer nc nt d _ fd td W Hl Ep) as [L1 L2]. unfold question_gain in Eg2. rewrite L1, L2 in Eg2.
      assert (HP : Permutation (rl fd ++ rl td) (rl d)).
      { rewrite <- (rs_snd _ _ _ W), <- (rs_snd _ _ _ Wt), <- (rs_snd _ _ _ Wf), Et, Ef, <- map_app.
        apply Permutation_map. rewrite Permutation_app_comm. symmetry. apply (Permutation_filter_split (fun p => answers (bs_question s) (fst p))). }
      rewrite remaining_tsse in Eg2 by (intros H0; rewrite H0 in HP; apply Permutation_nil in HP; contradiction).
      rewrite (Permutation_length HP) in Eg2. fold n in Eg2, Hle.
      rewrite sum_err_node, <- Et, <- Ef.
      pose proof (sum_err_bound _ _ _ _ _ _ Ba Wt Lt Hk) as B1. pose proof (sum_err_bound _ _ _ _ _ _ Bb Wf Lf Hk) as B2.
      set (V := total_variance nt (rl d)) in *. set (A := tsse nt (rl td)) in *. set (B := tsse nt (rl fd)) in *.
      assert (Q1 : A + B = n * (V - g)) by (rewrite Eg2; field; lra).
      assert (Q2 : V / (n * n) <= g). { apply Rmult_le_reg_r with (n * n); [lra|]. unfold Rdiv. rewrite Rmult_assoc, Rinv_l, Rmult_1_r by lra. lra. }
      apply Rle_trans with ((A + B) / INR nt); [unfold Rdiv in *; lra|]. rewrite Q1.
      replace (n * (1 - 1 / (n * n)) * (V / INR nt)) with (n * (V - V / (n * n)) / INR nt) by (field; lra).
      apply Rmult_le_compat_r; [left; now apply Rinv_0_lt_compat|]. apply Rmult_le_compat_l; lra. }
  apply Rmult_le_reg_r with n; [exact Hn|]. unfold Rdiv at 1. rewrite Rmult_assoc, Rinv_l, Rmult_1_r by lra. lra.
Qed.

(* ------------------------------------------------------------------ *)
(** ** Boosting *)

Lemma combine_snd_map {A B C} (f : B -> C) (l : list A) (l' : list B) : length l = length l' ->
  map (fun p => f (snd p)) (combine l l') = map f l'.
Proof. revert l'. induction l as [|a l IH]; intros [|b l'] H; try discriminate; cbn; auto. f_equal. apply IH. now injection H. Qed.

Lemma map2_len {A B C} (f : A -> B -> C) a b : length a = length b -> length (map2 f a b) = length a.
Proof. revert b. induction a as [|x a IH]; intros [|y b] H; try discriminate; cbn; auto. Qed.

Lemma vsub_sums nt j ls ps : length ps = length ls -> rectangular nt ps -> rectangular nt ls -> (j < nt)%nat ->
  Rsum (target j (map2 vsub ls ps)) = Rsum (target j ls) - Rsum (target j ps).
Proof.
  intros HL Rp Rl Hj. revert ps HL Rp. induction ls as [|l ls IH]; intros [|p ps] HL Rp; try discriminate; [cbn; ring|].
  injection HL as HL. pose proof (Forall_inv Rl) as H1. pose proof (Forall_inv Rp) as H2. cbv beta in H1, H2.
  cbn [map2 target map]. fold (target j (map2 vsub ls ps)). fold (target j ls). fold (target j ps). rewrite !Rsum_cons.
  rewrite IH by (auto; eapply Forall_inv_tail; eauto).
  assert (Hv : nth j (vsub l p) 0 = nth j l 0 - nth j p 0) by (apply nth_map2; lia). rewrite Hv. ring.
Qed.

Lemma sq_zero k y : sq k 0 [] y = Rsum (map (fun j => nth j y 0 * nth j y 0) (seq 0 k)).
Proof. unfold sq. apply Rsum_map_ext. intros j _. ring. Qed.

Lemma Rsum_member {A} (f : A -> R) x l : (forall y, In y l -> 0 <= f y) -> In x l -> f x <= Rsum (map f l).
Proof.
  induction l as [|a l IH]; intros Hf Hx; [easy|]. cbn [map]. rewrite Rsum_cons.
  assert (H0 : 0 <= Rsum (map f l)) by (apply Rsum_nonneg; intros z Hz; apply in_map_iff in Hz as (u & <- & Hu); apply Hf; now right).
  pose proof (Hf a (or_introl eq_refl)). destruct Hx as [<-|Hx]; [lra|]. assert (f x <= Rsum (map f l)) by (apply IH; auto; intros; apply Hf; now right). lra.
Qed.

Lemma means_at k ls i : (i < k)%nat -> nth i (means k ls) 0 = mean (target i ls).
Proof.
  intros H. unfold means. rewrite (nth_indep _ 0 (mean (target 0 ls))) by now rewrite map_length, seq_length.
  rewrite (map_nth (fun j => mean (target j ls))), seq_nth by exact H. reflexivity.
Qed.

Section Learn.
Variables (nc nt : nat) (d : @dataset xr_ops) (ls : list (list R)) (cfg : @tree_config xr_ops) (lr : R).
Hypotheses (W : wf_dataset nc nt d) (Hl : real_labels ls d) (Hk : (0 < nt)%nat) (Hs : standard cfg) (Hc : tc_number_of_classes cfg = N.of_nat nt).
Let N := INR (length ls).

(** The squared differences add up to the score. *)
Lemma score_squares n m m' e : regression_boost_train d cfg n (Fin lr) = Ok m -> regression_boost_train d cfg (S n) (Fin lr) = Ok m' ->
  regression_boost_score m d = Ok (Fin e) ->
  exists ps, predicts nt d m ps /\ length ps = length ls /\ rectangular nt ps /\
    e * INR nt * N = Rsum (map (fun y => Rsum (map (fun j => nth j y 0 * nth j y 0) (seq 0 nt))) (map2 vsub ls ps)).
Proof.
  intros E E' Es. destruct (stage nc nt d ls cfg lr W Hl Hk n m m' E E') as (ps & t & HP & _ & _ & _ & _ & _ & _ & S1 & _).
  pose proof (xr_len _ _ _ _ W Hl) as HLr. destruct (real_rect nc nt d ls W Hl) as [Rl Hne].
  assert (HL : length ps = length ls) by (rewrite <- (Forall2_length _ _ _ HP); exact HLr).
  exists ps. split; [exact HP|]. split; [exact HL|]. split; [exact (Forall2_rect _ _ _ _ HP)|].
  pose proof (eq_trans (eq_sym S1) Es) as Q. injection Q as <-.
  assert (HN : 0 < INR (length ls)) by (apply INR_pos; auto). assert (Hkp : 0 < INR nt) by (apply lt_0_INR; lia).
  unfold N. set (X := Rsum (map _ (combine _ _))). replace (X / INR nt / INR (length ls) * INR nt * INR (length ls)) with X by (field; lra).
  unfold X. rewrite <- (map_ext _ _ (sq_zero nt)).
  f_equal. apply (combine_snd_map (sq nt 0 [])). rewrite map2_len by auto. exact HLr.
Qed.

(** The tree a regression tree learner makes of the residuals decides the next score. *)
Theorem learn_tree n m m' : regression_boost_train d cfg n (Fin lr) = Ok m -> regression_boost_train d cfg (S n) (Fin lr) = Ok m' ->
  exists ps rt e et, predicts nt d m ps /\ length ps = length ls /\ rectangular nt ps /\
    (let rd := mkDS (O := xr_ops) (feature_rows d) (map (map Fin) (map2 vsub ls ps)) (feature_columns d) in
     wf_dataset nc nt rd /\ regression_tree_new rd cfg = Ok rt /\ calculate_overall_mean_squared_error rd rt = Ok (Fin et)) /\
    0 <= e /\ e = total_variance nt (map2 vsub ls ps) / INR nt /\ regression_boost_score m d = Ok (Fin e) /\
    regression_boost_score m' d = Ok (Fin (e - lr * (2 - lr) * (e - et))).
Proof.
  intros E E'.
  destruct (stage nc nt d ls cfg lr W Hl Hk n m m' E E') as (ps & t & HP & Ht & Eb & Wr & Hr & Hout & _ & _ & _).
  destruct (stage_error nc nt d ls cfg lr W Hl Hk n m m' E E') as (t2 & ps2 & os & e & Ht2 & _ & _ & Ho & Ro & _ & _ & S1 & S2).
  rewrite Ht in Ht2. injection Ht2 as <-.
  destruct (score_squares n m m' e E E' S1) as (ps3 & HP3 & HL & Rp & Esq). pose proof (predicts_unique _ _ _ _ _ HP HP3). subst ps3. clear HP3.
  cbv beta in Eb, Wr, Hr. set (rd := mkDS (O := xr_ops) (feature_rows d) (map (map Fin) (map2 vsub ls ps)) (feature_columns d)) in *.
  set (res := map2 vsub ls ps) in *.
  destruct (real_rect nc nt d ls W Hl) as [Rl Hne]. destruct (real_rect nc nt rd res Wr Hr) as [Rr Hnr].
  assert (LR : length res = length ls) by (unfold res; now rewrite map2_len).
  assert (HN : 0 < N) by (apply INR_pos; auto). assert (Hkp : 0 < INR nt) by (apply lt_0_INR; lia).
  (* residuals add up to 0 *)
  assert (HZ : forall j, (j < nt)%nat -> Rsum (target j res) = 0).
  { intros j Hj. unfold res. rewrite (vsub_sums nt) by auto.
    destruct (ensemble_balance nc nt d ls cfg n lr m W Hl E) as (ps2' & E2 & _ & M2).
    assert (ps2' = ps).
    { pose proof (eq_trans (eq_sym E2) (Forall2_mapM _ _ _ _ _ HP)) as E3. clear E2. injection E3 as E2. apply (f_equal (map (map xval))) in E2.
      rewrite !map_map in E2. rewrite !(map_ext _ _ (fun l => map_xval_Fin l)), !map_id in E2. congruence. }
    subst ps2'. specialize (M2 j Hj). unfold mean in M2. rewrite !target_length, HL in M2. fold N in M2.
    apply (f_equal (fun x => x * N)) in M2. unfold Rdiv in M2. rewrite !Rmult_assoc, !Rinv_l, !Rmult_1_r in M2 by lra. lra. }
  assert (Ee : e = total_variance nt res / INR nt).
  { pose proof (sq_total nt Hk res Hnr HZ) as Q. rewrite LR in Q. fold N in Q. rewrite <- Q in Esq.
    apply Rmult_eq_reg_r with (INR nt * N); [|nra]. replace (total_variance nt res / INR nt * (INR nt * N)) with (N * total_variance nt res) by (field; lra). lra. }
  (* the tree *)
  destruct (regression_total xr_laws nc nt rd cfg Wr Hs Hc) as (rt & Ert).
  destruct (tree_balance nc nt rd res cfg rt Wr Hr Ert) as (qs & Eqs & _ & _ & M2). specialize (M2 Hk).
  assert (qs = os).
  { assert (Eos : mapM (fun row => tree_prediction row rt) (feature_rows d) = Ok (map (map Fin) os)).
    { assert (G : forall rows, (forall row, In row rows -> In row (feature_rows d)) -> forall os, outputs t rows os ->
        mapM (fun row => @tree_prediction xr_ops row rt) rows = Ok (map (map Fin) os)).
      { intros rows HR os' Ho'. induction Ho' as [|row o rows os' (l & Fl & Gl) Ho' IH]; [reflexivity|]. cbn [mapM map].
        assert (Hlong : (nc <= length row)%nat) by (eapply row_long; [exact W|apply HR; now left]).
        rewrite <- real_rl with (d := rd) (ls := res) in Hr by exact Hr.
        assert (Ep : tree_prediction row rt = Ok (map Fin o)).
        { rewrite <- (gb_is_mean nc nt rd cfg t rt row Wr Hr Eb Ert Hlong). unfold gb_out. rewrite Fl. cbn [bind]. now rewrite Gl. }
        rewrite Ep. cbn [bind]. rewrite IH; [reflexivity|]. intros; apply HR; now right. }
      apply G; auto. }
    pose proof (eq_trans (eq_sym Eqs) Eos) as E3. injection E3 as E3. apply (f_equal (map (map xval))) in E3.
    rewrite !map_map in E3. rewrite !(map_ext _ _ (fun l => map_xval_Fin l)), !map_id in E3. congruence. }
  subst qs. pose proof (total_variance_nonneg nt res) as V0.
  exists ps, rt, e, ((total_variance nt res - total_variance nt os) / INR nt).
  split; [exact HP|]. split; [exact HL|]. split; [exact Rp|]. split; [split; [exact Wr|]; split; [exact Ert|exact M2]|].
  split. { rewrite Ee. apply Rmult_le_pos; [exact V0|]. left. now apply Rinv_0_lt_compat. }
  split; [exact Ee|]. split; [exact S1|]. rewrite S2. do 2 f_equal. rewrite Ee. field. lra.
Qed.

Hypothesis (Hn53 : (Z.of_nat nt <= 2 ^ 53)%Z).

Lemma learn_exists n : exists m, regression_boost_train d cfg n (Fin lr) = Ok m.
Proof. destruct (regression_train_total xr_laws nc nt d cfg n (Fin lr) W Hs Hc Hn53) as (m & E & _). eauto. Qed.

Lemma learn_start m : regression_boost_train d cfg 0 (Fin lr) = Ok m -> regression_boost_score m d = Ok (Fin (total_variance nt ls / INR nt)).
Proof.
  intros E. destruct (learn_exists 1) as (m' & E').
  destruct (stage_error nc nt d ls cfg lr W Hl Hk 0 m m' E E') as (_ & _ & _ & e & _ & _ & _ & _ & _ & _ & _ & S1 & _).
  destruct (score_squares 0 m m' e E E' S1) as (ps & HP & HL & Rp & Esq). rewrite S1. do 2 f_equal.
  destruct (real_rect nc nt d ls W Hl) as [Rl Hne].
  assert (HN : 0 < N) by (apply INR_pos; auto). assert (Hkp : 0 < INR nt) by (apply lt_0_INR; lia).
  assert (Hps : forall p, In p ps -> p = means nt ls).
  { apply (predicts_const nt d m ps); auto. intros row. eapply base_prediction; eauto. }
  assert (T : Rsum (map (fun y => Rsum (map (fun j => nth j y 0 * nth j y 0) (seq 0 nt))) (map2 vsub ls ps)) = tsse nt ls).
  { rewrite (Rsum_swap (fun y j => nth j y 0 * nth j y 0)). unfold tsse. apply Rsum_map_ext. intros j Hj. apply in_seq in Hj.
    unfold sse. generalize (eq_refl (mean (target j ls))). generalize (mean (target j ls)) at 1 3. intros c Ec.
    assert (Hp : forall p, In p ps -> nth j p 0 = c).
    { intros p Hp. rewrite (Hps p Hp), Ec. apply means_at; lia. }
    clear -Hp HL Rl Rp Hj. revert ps HL Rp Hp. induction ls as [|l l0 IH]; intros [|p ps] HL Rp Hp; try discriminate; [reflexivity|].
    injection HL as HL. pose proof (Forall_inv Rl) as H1. pose proof (Forall_inv Rp) as H2. cbv beta in H1, H2.
    unfold dev, target in *. cbn [map2 map]. rewrite !Rsum_cons.
    rewrite (IH (Forall_inv_tail Rl) ps HL (Forall_inv_tail Rp)) by (intros q Hq; apply Hp; now right).
    assert (Hv : nth j (vsub l p) 0 = nth j l 0 - nth j p 0) by (apply nth_map2; lia). rewrite Hv, (Hp p (or_introl eq_refl)). ring. }
  rewrite T in Esq. rewrite total_variance_tsse by auto. fold N. rewrite <- Esq. field. lra.
Qed.

Variable (j0 : nat).
Hypotheses (Hm : tc_max_levels cfg <> 0%N) (Hd : distinct_above_minimum d) (Hj0 : (j0 < nc)%nat) (Hkey : tells_apart j0 d).

Theorem learn_step n m m' : 0 <= lr <= 2 -> regression_boost_train d cfg n (Fin lr) = Ok m -> regression_boost_train d cfg (S n) (Fin lr) = Ok m' ->
  exists e e', regression_boost_score m d = Ok (Fin e) /\ regression_boost_score m' d = Ok (Fin e') /\ 0 <= e /\
    e' <= (1 - lr * (2 - lr) / (N * N)) * e.
Proof.
  intros Hlr E E'. destruct (learn_tree n m m' E E') as (ps & rt & e & et & HP & HL & Rp & (Wr & Ert & Em) & He & Ee & S1 & S2).
  destruct (real_rect nc nt d ls W Hl) as [Rl Hne]. assert (HN : 0 < N) by (apply INR_pos; auto).
  assert (LR : length (map2 vsub ls ps) = length ls) by (now rewrite map2_len).
  destruct (tree_share nc nt _ (map2 vsub ls ps) cfg rt j0 Wr eq_refl Hk Hs Hc Hm Hd Hj0 Hkey Ert) as (et' & M1 & Hle). rewrite LR in Hle. fold N in Hle.
  pose proof (eq_trans (eq_sym M1) Em) as Q. injection Q as ->. rewrite <- Ee in Hle.
  exists e. eexists. split; [exact S1|]. split; [exact S2|]. split; [exact He|].
  assert (Hc0 : 0 <= lr * (2 - lr)) by nra.
  replace ((1 - lr * (2 - lr) / (N * N)) * e) with (e - lr * (2 - lr) * (e - (1 - 1 / (N * N)) * e)) by (field; lra).
  assert (e - (1 - 1 / (N * N)) * e <= e - et) by lra. apply (Rmult_le_compat_l _ _ _ Hc0) in H. lra.
Qed.

Lemma learn_factor : 0 <= lr <= 2 -> 0 <= 1 - lr * (2 - lr) / (N * N).
Proof.
  intros H. destruct (real_rect nc nt d ls W Hl) as [_ Hne].
  assert (H1 : 1 <= N). { unfold N. change 1 with (INR 1). apply le_INR. destruct ls; [congruence|cbn; lia]. }
  assert (H2 : lr * (2 - lr) <= 1) by (pose proof (Rle_0_sqr (lr - 1)) as Q; unfold Rsqr in Q; lra).
  assert (lr * (2 - lr) / (N * N) <= 1); [|lra].
  apply Rmult_le_reg_r with (N * N); [nra|]. unfold Rdiv. rewrite Rmult_assoc, Rinv_l by nra. nra.
Qed.

Theorem learn_geometric n m : 0 <= lr <= 2 -> regression_boost_train d cfg n (Fin lr) = Ok m ->
  exists e, regression_boost_score m d = Ok (Fin e) /\ 0 <= e <= (1 - lr * (2 - lr) / (N * N)) ^ n * (total_variance nt ls / INR nt).
Proof.
  intros Hlr. revert m. assert (Hkp : 0 < INR nt) by (apply lt_0_INR; lia). induction n as [|n IH]; intros m E.
  - exists (total_variance nt ls / INR nt). split; [now apply learn_start|]. cbn [pow].
    assert (0 <= total_variance nt ls / INR nt); [|lra]. apply Rmult_le_pos; [apply total_variance_nonneg|]. left. now apply Rinv_0_lt_compat.
  - destruct (learn_exists n) as (m0 & E0). destruct (learn_exists (S (S n))) as (m2 & E2).
    destruct (learn_step n m0 m Hlr E0 E) as (e0 & e & S0 & S1 & _ & Hle). destruct (learn_step (S n) m m2 Hlr E E2) as (e1 & _ & S1' & _ & Hp & _).
    pose proof (eq_trans (eq_sym S1) S1') as Q. injection Q as <-.
    destruct (IH m0 E0) as (e0' & S0' & _ & Hi). pose proof (eq_trans (eq_sym S0) S0') as Q. injection Q as <-.
    exists e. split; [exact S1|]. split; [exact Hp|]. cbn [pow]. pose proof (learn_factor Hlr) as HF. eapply Rle_trans; [exact Hle|].
    rewrite Rmult_assoc. now apply Rmult_le_compat_l.
Qed.

(** Every training label is reproduced to any accuracy. *)
Theorem learn_labels eps : 0 < lr < 2 -> 0 < eps -> exists n0, forall n m, (n0 <= n)%nat -> regression_boost_train d cfg n (Fin lr) = Ok m ->
  forall row l, In (row, l) (combine (feature_rows d) ls) ->
  exists p, regression_boost_predict m row = Ok (map Fin p) /\ length p = nt /\ forall j, (j < nt)%nat -> Rabs (nth j p 0 - nth j l 0) < eps.
Proof.
  intros Hlr He. destruct (real_rect nc nt d ls W Hl) as [Rl Hne].
  assert (HN : 0 < N) by (apply INR_pos; auto). assert (Hkp : 0 < INR nt) by (apply lt_0_INR; lia).
  set (q := 1 - lr * (2 - lr) / (N * N)).
  assert (Hq : 0 <= q < 1).
  { split; [apply learn_factor; lra|]. unfold q. assert (0 < lr * (2 - lr) / (N * N)); [|lra].
    apply Rmult_lt_0_compat; [nra|]. apply Rinv_0_lt_compat. nra. }
  set (V := total_variance nt ls / INR nt).
  assert (HV : 0 <= V) by (apply Rmult_le_pos; [apply total_variance_nonneg|]; left; now apply Rinv_0_lt_compat).
  set (y := eps * eps / ((V + 1) * (INR nt * N))).
  assert (HD : 0 < (V + 1) * (INR nt * N)) by (apply Rmult_lt_0_compat; nra).
  assert (Hy : 0 < y) by (apply Rmult_lt_0_compat; [nra|now apply Rinv_0_lt_compat]).
  destruct (pow_lt_1_zero q ltac:(rewrite Rabs_pos_eq; lra) y Hy) as (n0 & Hn0). exists n0. intros n m Hn E row l Hin.
  specialize (Hn0 n Hn). rewrite Rabs_pos_eq in Hn0 by (apply pow_le; lra).
  destruct (learn_geometric n m ltac:(lra) E) as (e & Es & He0 & Hle). fold q V in Hle.
  destruct (learn_exists (S n)) as (m' & E').
  destruct (score_squares n m m' e E E' Es) as (ps & HP & HL & Rp & Esq).
  apply In_nth_error in Hin as (i & Hi).
  rewrite nth_error_combine in Hi. destruct (nth_error (feature_rows d) i) as [row'|] eqn:Hr; [|discriminate].
  destruct (nth_error ls i) as [l'|] eqn:Hlab; [|discriminate]. injection Hi as -> ->.
  destruct (nth_error ps i) as [p|] eqn:Hpi.
  2:{ apply nth_error_None in Hpi. assert (i < length ls)%nat by (apply nth_error_Some; congruence). lia. }
  destruct (proj2 (proj1 (Forall2_nth _ _ _) HP) i row p Hr Hpi) as [Ep Lp].
  exists p. split; [exact Ep|]. split; [exact Lp|]. intros j Hj.
  assert (Ll : length l = nt) by (exact (proj1 (Forall_forall _ _) Rl _ (nth_error_In _ _ Hlab))).
  assert (Hmem : In (vsub l p) (map2 vsub ls ps)) by (apply (nth_error_In _ i); now rewrite nth_error_map2, Hlab, Hpi).
  assert (B1 : nth j (vsub l p) 0 * nth j (vsub l p) 0 <= e * INR nt * N).
  { rewrite Esq. eapply Rle_trans; [|apply (Rsum_member (fun y => Rsum (map (fun j => nth j y 0 * nth j y 0) (seq 0 nt))) (vsub l p)); [|exact Hmem]].
    - apply (Rsum_member (fun j => nth j (vsub l p) 0 * nth j (vsub l p) 0) j); [intros x _; apply Rle_0_sqr|apply in_seq; lia].
    - intros x _. apply Rsum_nonneg. intros z Hz. apply in_map_iff in Hz as (u & <- & _). apply Rle_0_sqr. }
  assert (Hv : nth j (vsub l p) 0 = nth j l 0 - nth j p 0) by (apply nth_map2; lia). rewrite Hv in B1.
  assert (B2 : e * INR nt * N < eps * eps).
  { apply Rle_lt_trans with (q ^ n * (V * (INR nt * N))).
    - rewrite (Rmult_assoc e), <- (Rmult_assoc (q ^ n)). apply Rmult_le_compat_r; [nra|exact Hle].
    - apply Rle_lt_trans with (q ^ n * ((V + 1) * (INR nt * N))); [apply Rmult_le_compat_l; [apply pow_le; lra|nra]|].
      apply Rmult_lt_reg_r with (/ ((V + 1) * (INR nt * N))); [now apply Rinv_0_lt_compat|].
      rewrite Rmult_assoc, Rinv_r, Rmult_1_r by lra. exact Hn0. }
  rewrite Rabs_minus_sym. rewrite <- (Rabs_pos_eq eps) by lra. apply Rsqr_lt_abs_0. unfold Rsqr. lra.
Qed.
End Learn.

Lemma map2_as_map {A B C} (f : A -> B -> C) a b : map2 f a b = map (fun p => f (fst p) (snd p)) (combine a b).
Proof. revert b. induction a as [|x a IH]; intros [|y b]; cbn; auto. f_equal. apply IH. Qed.

Lemma residual_table_eq d ls ps : residual_table d ls ps = mkDS (O := xr_ops) (feature_rows d) (map (map Fin) (map2 vsub ls ps)) (feature_columns d).
Proof.
  unfold residual_table. f_equal. rewrite map2_as_map, map_map. apply map_ext. intros [a b]. cbn [fst snd]. unfold vsub.
  now rewrite map2_as_map, map_map.
Qed.

Theorem learn_tree' nc nt (d : @dataset xr_ops) ls cfg n lr m m' :
  wf_dataset nc nt d -> real_labels ls d -> (0 < nt)%nat -> standard cfg -> tc_number_of_classes cfg = N.of_nat nt ->
  regression_boost_train d cfg n (Fin lr) = Ok m -> regression_boost_train d cfg (S n) (Fin lr) = Ok m' ->
  exists ps rt e et, predicts nt d m ps /\
    regression_tree_new (residual_table d ls ps) cfg = Ok rt /\ calculate_overall_mean_squared_error (residual_table d ls ps) rt = Ok (Fin et) /\
    regression_boost_score m d = Ok (Fin e) /\
    regression_boost_score m' d = Ok (Fin (e - lr * (2 - lr) * (e - et))).
Proof.
  intros W Hl Hk Hs Hc E E'. destruct (learn_tree nc nt d ls cfg lr W Hl Hk Hs Hc n m m' E E') as (ps & rt & e & et & H1 & _ & _ & (_ & H2 & H2') & _ & _ & H3 & H4).
  exists ps, rt, e, et. rewrite residual_table_eq. auto.
Qed.
