(** Little to gain on consistent data means that the labels are close together (C83). *)
From Coq Require Import Reals Lra Lia ZArith Permutation Sorted.
From Flocq Require Import Core.
From Verif Require Import Base Num ModelCommon ModelTree Lib XR Spec SpecTree SpecExact SpecScore SpecFit ProofReal ProofData ProofSort
  ProofSplit ProofSplit2 ProofTree ProofTree3 ProofScore ProofSplitExact ProofSplitExact2 ProofTreeExact.
Local Open Scope R_scope.

Lemma Rsum_ge_entry l x : (forall y, In y l -> 0 <= y) -> In x l -> x <= Rsum l.
Proof.
  induction l as [|a l IH]; intros H Hx; [destruct Hx|]. rewrite Rsum_cons. pose proof (H a (or_introl eq_refl)).
  assert (Hl : forall y, In y l -> 0 <= y) by (intros; apply H; now right).
  destruct Hx as [->|Hx]; [pose proof (Rsum_nonneg _ Hl); lra|]. pose proof (IH Hl Hx). lra.
Qed.

(** A sum of terms that are each at least [-s], one of them [c]. *)
Lemma Rsum_one_large s c l : 0 <= s -> (forall x, In x l -> - s <= x) -> In c l -> c - INR (length l) * s <= Rsum l.
Proof.
  intros Hs H Hc. assert (Hlow : forall l, (forall x, In x l -> - s <= x) -> - (INR (length l) * s) <= Rsum l).
  { clear -Hs. induction l as [|a l IH]; intros H; [cbn; lra|]. rewrite Rsum_cons. cbn [length]. rewrite S_INR.
    pose proof (H a (or_introl eq_refl)). specialize (IH (fun x Hx => H x (or_intror Hx))). lra. }
  revert H Hc. induction l as [|a l IH]; intros H Hc; [destruct Hc|]. rewrite Rsum_cons. cbn [length]. rewrite S_INR.
  destruct Hc as [->|Hc].
  - pose proof (Hlow l (fun x Hx => H x (or_intror Hx))). lra.
  - pose proof (H a (or_introl eq_refl)). pose proof (IH (fun x Hx => H x (or_intror Hx)) Hc). lra.
Qed.

(** Deviations that add up to zero, each at most [s] or equal to [c]. *)
Lemma deviations_balance s c l : 0 <= s -> (forall x, In x l -> Rabs x <= s \/ x = c) -> In c l -> Rsum l = 0 -> Rabs c <= INR (length l) * s.
Proof.
  intros Hs H Hc H0. destruct (Rle_dec 0 c) as [Hp|Hn].
  - rewrite Rabs_pos_eq by auto.
    pose proof (Rsum_one_large s c l Hs ltac:(intros x Hx; destruct (H x Hx) as [Hx'| ->]; [apply Rabs_le_inv in Hx'|]; lra) Hc). lra.
  - rewrite Rabs_left1 by lra.
    pose proof (Rsum_one_large s (- c) (map (fun x => -1 * x) l) Hs) as H1. rewrite (Rsum_map_mult (-1) (fun x => x)), map_id, H0, map_length in H1.
    assert (- c - INR (length l) * s <= -1 * 0); [|lra]. apply H1.
    + intros x Hx. apply in_map_iff in Hx as (y & <- & Hy). destruct (H y Hy) as [Hy'| ->]; [apply Rabs_le_inv in Hy'|]; lra.
    + replace (- c) with (-1 * c) by lra. now apply (in_map (fun x => -1 * x)).
Qed.

(** Little gain from a cut: the right side has nearly the overall mean. *)
Lemma small_gain_means E k a b t :
  a ++ b <> [] -> b <> [] -> (t < k)%nat -> 0 <= E ->
  total_variance k (a ++ b) - remaining_variance k a b <= E ->
  Rabs (Rsum (target t b) - INR (length b) * mean (target t (a ++ b))) <= INR (length (a ++ b)) * sqrt E.
Proof.
  intros Hne Hb Ht HE H. rewrite total_variance_tsse, remaining_tsse in H by auto.
  pose proof (INR_pos _ Hne) as Hp. set (N := INR (length (a ++ b))) in *.
  assert (Hle : tsse k (a ++ b) <= tsse k a + tsse k b + N * E).
  { apply Rmult_le_reg_r with (/ N); [now apply Rinv_0_lt_compat|]. unfold Rdiv in H.
    replace ((tsse k a + tsse k b + N * E) * / N) with ((tsse k a + tsse k b) * / N + E) by (field; lra). lra. }
  set (f := fun j => sse (target j (a ++ b)) - (sse (target j a) + sse (target j b))).
  assert (Hf : forall j, f j = INR (length a) * ((mean (target j (a ++ b)) - mean (target j a)) * (mean (target j (a ++ b)) - mean (target j a)))
                             + INR (length b) * ((mean (target j (a ++ b)) - mean (target j b)) * (mean (target j (a ++ b)) - mean (target j b)))).
  { intros j. unfold f. unfold sse at 1. rewrite target_app, dev_app, !dev_mean, !target_length. lra. }
  assert (Hn : forall n x, 0 <= INR n * (x * x)).
  { intros n x. apply Rmult_le_pos; [apply pos_INR|apply Rle_0_sqr]. }
  assert (Hf0 : forall x, In x (map f (seq 0 k)) -> 0 <= x).
  { intros x Hx. apply in_map_iff in Hx as (j & <- & _). rewrite Hf.
    pose proof (Hn (length a) (mean (target j (a ++ b)) - mean (target j a))).
    pose proof (Hn (length b) (mean (target j (a ++ b)) - mean (target j b))). lra. }
  assert (Hs : Rsum (map f (seq 0 k)) <= N * E).
  { unfold tsse in Hle. rewrite <- Rsum_map_plus in Hle.
    assert (E1 : Rsum (map f (seq 0 k)) + Rsum (map (fun x => sse (target x a) + sse (target x b)) (seq 0 k)) =
                Rsum (map (fun t => sse (target t (a ++ b))) (seq 0 k))).
    { rewrite <- Rsum_map_plus. apply Rsum_map_ext. intros j _. unfold f. lra. }
    lra. }
  assert (Ht0 : f t <= N * E).
  { eapply Rle_trans; [|exact Hs]. apply Rsum_ge_entry; auto. apply in_map. apply in_seq. lia. }
  rewrite Hf in Ht0. pose proof (Hn (length a) (mean (target t (a ++ b)) - mean (target t a))) as Ha0.
  set (m := mean (target t (a ++ b))) in *. set (mb := mean (target t b)) in *. pose proof (INR_pos b Hb) as Hpb.
  assert (HbN : INR (length b) <= N) by (unfold N; apply le_INR; rewrite app_length; lia).
  assert (ES : Rsum (target t b) = INR (length b) * mb).
  { unfold mb. rewrite <- (target_length t b). symmetry. apply mean_sum. intros E0. apply map_eq_nil in E0. contradiction. }
  rewrite ES. set (nb := INR (length b)) in *.
  assert (Hsq : (nb * mb - nb * m) * (nb * mb - nb * m) <= (N * sqrt E) * (N * sqrt E)).
  { replace ((nb * mb - nb * m) * (nb * mb - nb * m)) with (nb * (nb * ((m - mb) * (m - mb)))) by ring.
    replace ((N * sqrt E) * (N * sqrt E)) with (N * (N * (sqrt E * sqrt E))) by ring. rewrite sqrt_sqrt by auto.
    apply Rmult_le_compat; [lra|apply Rmult_le_pos; [lra|apply Rle_0_sqr]|lra|]. lra. }
  apply Rsqr_le_abs_0 in Hsq. rewrite (Rabs_pos_eq (N * sqrt E)) in Hsq; [exact Hsq|]. apply Rmult_le_pos; [lra|apply sqrt_pos].
Qed.

(** Little to gain: every row above the minimum of some column nearly has the mean label. *)
Lemma above_minimum_near nc nt (d : @dataset xr_ops) ls E j (col : list xr) (r : list (xr * nat)) i v id (m : xr * nat) t :
  wf_dataset nc nt d -> real_labels ls d -> 0 <= E ->
  (forall j r i v, considered d j r i v -> cut_gain nt i (labels_in_order ls r) <= E) ->
  nth_error (feature_columns d) j = Some col -> sorted_version col r ->
  nth_error r i = Some (v, id) -> hd_error r = Some m -> xltb (fst m) v = true -> (t < nt)%nat ->
  Rabs (nth t (nth id ls []) 0 - mean (target t ls)) <= 2 * (INR (length ls) * sqrt E).
Proof.
  intros W Hl HE Hmax Hc HS Hi Hm Hlt Ht.
  assert (L : length col = length ls) by (eapply wf_col_length; eauto; eapply nth_error_In; eauto).
  set (M := labels_in_order ls r). pose proof (labels_in_order_perm ls col r HS L) as HP. fold M in HP.
  assert (LM : length M = length r) by apply map_length.
  assert (Hsum : forall i' v' id', nth_error r i' = Some (v', id') -> xltb (fst m) v' = true ->
    Rabs (Rsum (target t (skipn i' M)) - INR (length (skipn i' M)) * mean (target t ls)) <= INR (length ls) * sqrt E).
  { intros i' v' id' Hi' Hlt'.
    assert (Hlen : (i' < length M)%nat) by (rewrite LM; apply nth_error_Some; congruence).
    assert (Hcons : considered d j r i' v') by (split; [eauto|]; exists id', m; auto).
    specialize (Hmax _ _ _ _ Hcons). unfold cut_gain in Hmax. fold M in Hmax.
    rewrite <- (firstn_skipn i' M) in Hmax at 1.
    assert (Em : mean (target t ls) = mean (target t M)) by (apply mean_perm; apply Permutation_map; now symmetry).
    assert (EL : length ls = length M) by (apply Permutation_length; now symmetry). rewrite Em, EL.
    pose proof (small_gain_means E nt (firstn i' M) (skipn i' M) t) as Hg. rewrite !firstn_skipn in Hg. rewrite firstn_skipn in Hmax.
    apply Hg; auto.
    - intros E0. rewrite E0 in Hlen. simpl in Hlen. lia.
    - intros E0. apply (f_equal (@length _)) in E0. rewrite skipn_length in E0. simpl in E0. lia. }
  assert (HMi : nth_error M i = Some (nth id ls [])).
  { unfold M, labels_in_order. rewrite nth_error_map, Hi. reflexivity. }
  pose proof (Hsum i v id Hi Hlt) as H1. rewrite (skipn_nth M i _ HMi) in H1.
  cbn [target map length] in H1. rewrite Rsum_cons, S_INR in H1. fold (target t (skipn (S i) M)) in H1.
  assert (H2 : Rabs (Rsum (target t (skipn (S i) M)) - INR (length (skipn (S i) M)) * mean (target t ls)) <= INR (length ls) * sqrt E).
  { destruct (nth_error r (S i)) as [[v' id']|] eqn:Hi'.
    - apply (Hsum (S i) v' id' Hi'). destruct HS as [_ HS].
      assert (Hle : xleb v v' = true).
      { assert (El : r = firstn (S i) r ++ skipn (S i) r) by now rewrite firstn_skipn.
        rewrite El in HS. change v with (fst (v, id)). change v' with (fst (v', id')). apply pair_lt_le.
        apply (StronglySorted_app_rel _ _ _ HS).
        - apply nth_error_In with i. transitivity (nth_error r i); [|exact Hi]. rewrite El at 2. symmetry. apply nth_error_app1.
          rewrite firstn_length. assert (S i < length r)%nat by (apply nth_error_Some; congruence). lia.
        - apply nth_error_In with 0%nat. rewrite nth_error_skipn_add. now rewrite Nat.add_0_r. }
      unfold xltb in *. apply andb_true_iff in Hlt as [A B]. apply negb_true_iff in B. apply andb_true_iff. split.
      + eapply xleb_trans; eauto.
      + apply negb_true_iff. destruct (xleb v' (fst m)) eqn:C; auto. rewrite (xleb_trans _ _ _ Hle C) in B. discriminate.
    - apply nth_error_None in Hi'. rewrite skipn_all2 by lia. cbn [target map length Rsum fold_right INR]. rewrite Rmult_0_l, Rminus_0_r, Rabs_R0.
      apply Rmult_le_pos; [apply pos_INR|apply sqrt_pos]. }
  apply Rabs_le_inv in H1, H2. apply Rabs_le. lra.
Qed.

(** Little to gain on consistent data: all labels are nearly the mean. *)
Lemma small_gain_near_labels nc nt (d : @dataset xr_ops) ls E :
  wf_dataset nc nt d -> real_labels ls d -> consistent d -> 0 <= E ->
  (forall j r i v, considered d j r i v -> cut_gain nt i (labels_in_order ls r) <= E) ->
  forall l t, In l ls -> (t < nt)%nat -> Rabs (nth t l 0 - mean (target t ls)) <= 2 * (INR (length ls) * INR (length ls)) * sqrt E.
Proof.
  intros W Hl HC HE Hmax. set (s := INR (length ls) * sqrt E).
  assert (Hs : 0 <= s) by (apply Rmult_le_pos; [apply pos_INR|apply sqrt_pos]).
  destruct (real_rect _ _ _ _ W Hl) as [Hrect Hne]. pose proof (xr_lens _ _ _ _ W Hl) as HL.
  assert (Hsamp : forall i row, nth_error (feature_rows d) i = Some row -> In (row, map Fin (nth i ls [])) (samples d)).
  { intros i row Hi. assert (Hlt : (i < length ls)%nat) by (rewrite <- HL; apply nth_error_Some; congruence).
    apply nth_error_In with i. unfold samples. rewrite nth_error_combine. xr. rewrite Hi, Hl, nth_error_map.
    now rewrite (nth_error_nth' ls [] Hlt). }
  (* a row either has the mean label or sits at the minimum of every column *)
  assert (Hcase : forall i row t, nth_error (feature_rows d) i = Some row -> (t < nt)%nat ->
    Rabs (nth t (nth i ls []) 0 - mean (target t ls)) <= 2 * s \/
    forall j x i' row' x', nth_error row j = Some x -> nth_error (feature_rows d) i' = Some row' -> nth_error row' j = Some x' -> xleb x x' = true).
  { intros i row t Hi Ht. destruct (Rle_dec (Rabs (nth t (nth i ls []) 0 - mean (target t ls))) (2 * s)) as [|Hneq]; [now left|]. right.
    intros j x i' row' x' Hx Hi' Hx'.
    pose proof (wf_rows _ _ _ W) as Rr. unfold rectangular in Rr. rewrite Forall_forall in Rr.
    assert (Hj : (j < nc)%nat). { rewrite <- (Rr row (nth_error_In _ _ Hi)). apply nth_error_Some. congruence. }
    destruct (wf_columns _ _ _ W) as [Lc Htr].
    destruct (nth_error (feature_columns d) j) as [col|] eqn:Hc; [|apply nth_error_None in Hc; lia].
    destruct (Htr _ _ Hc) as [Lcol Hent].
    destruct (get_sorted_Ok xr_laws col) as (r & _ & HS).
    { right. apply (wf_column_num nc nt d); auto. eapply nth_error_In; eauto. }
    assert (Hin : forall k rw y, nth_error (feature_rows d) k = Some rw -> nth_error rw j = Some y -> In (y, k) r).
    { intros k rw y Hk Hy. destruct HS as [HP _]. apply (Permutation_in _ (Permutation_sym HP)). unfold value_positions.
      apply nth_error_In with k. rewrite nth_error_combine. destruct (Hent _ _ Hk) as [_ Eq]. rewrite Eq, Hy.
      assert (Hlt : (k < length col)%nat) by (rewrite Lcol; apply nth_error_Some; congruence).
      rewrite (nth_error_nth' _ 0%nat) by now rewrite seq_length. now rewrite seq_nth. }
    destruct (hd_error r) as [m|] eqn:Hm; [|destruct r; [|discriminate]; destruct (Hin _ _ _ Hi Hx)].
    pose proof (Hin _ _ _ Hi Hx) as Hin1. apply In_nth_error in Hin1 as (p & Hp).
    pose proof (Hin _ _ _ Hi' Hx') as Hin2. apply In_nth_error in Hin2 as (p' & Hp').
    destruct (xltb (fst m) x) eqn:Hlt.
    - exfalso. apply Hneq. eapply (above_minimum_near nc nt d ls E j col r p x i m t); eauto.
    - assert (Hnum : forall k rw y, nth_error (feature_rows d) k = Some rw -> nth_error rw j = Some y -> xleb y y = true).
      { intros k rw y Hk Hy. pose proof (wf_nonan _ _ _ W) as HN. rewrite Forall_forall in HN. specialize (HN _ (nth_error_In _ _ Hk)).
        rewrite Forall_forall in HN. exact (HN _ (nth_error_In _ _ Hy)). }
      assert (Hle : forall q y k, nth_error r q = Some (y, k) -> xleb y y = true -> xleb (fst m) y = true).
      { intros q y k Hq Hy. destruct (sorted_head_le r m q (y, k) (proj2 HS) Hm Hq) as [->|Hle]; [|exact Hle].
        destruct r; [discriminate|]. injection Hm as <-. injection Hq as ->. exact Hy. }
      pose proof (Hle _ _ _ Hp (Hnum _ _ _ Hi Hx)) as A. pose proof (Hle _ _ _ Hp' (Hnum _ _ _ Hi' Hx')) as B.
      unfold xltb in Hlt. rewrite A in Hlt. cbn [andb] in Hlt. apply negb_false_iff in Hlt. eapply xleb_trans; eauto. }
  assert (Hall : forall t, (t < nt)%nat -> forall i row, nth_error (feature_rows d) i = Some row ->
    Rabs (nth t (nth i ls []) 0 - mean (target t ls)) <= INR (length ls) * (2 * s)).
  { intros t Ht i row Hi. destruct (Hcase i row t Hi Ht) as [Hok|Hmin].
    { assert (1 <= INR (length ls)) by (change 1 with (INR 1); apply le_INR; destruct ls; [congruence|cbn; lia]).
      eapply Rle_trans; [exact Hok|]. rewrite <- (Rmult_1_l (2 * s)) at 1. apply Rmult_le_compat_r; lra. }
    set (mu := mean (target t ls)). set (c := nth t (nth i ls []) 0 - mu).
    assert (Hterm : forall x, In x (map (fun l => nth t l 0 - mu) ls) -> Rabs x <= 2 * s \/ x = c).
    { intros x Hx. apply in_map_iff in Hx as (l & <- & Hlin). apply In_nth_error in Hlin as (k & Hk).
      assert (Hklt : (k < length (feature_rows d))%nat) by (rewrite HL; apply nth_error_Some; congruence).
      destruct (nth_error (feature_rows d) k) as [rw|] eqn:Hrw; [|apply nth_error_None in Hrw; lia].
      assert (El : l = nth k ls []) by (symmetry; now apply nth_error_nth). subst l.
      destruct (Hcase k rw t Hrw Ht) as [He|Hmin']; [left; exact He|]. right.
      assert (Erow : rw = row).
      { pose proof (wf_rows _ _ _ W) as Rr. unfold rectangular in Rr. rewrite Forall_forall in Rr.
        apply nth_error_ext. intros j. destruct (nth_error rw j) as [x|] eqn:Ex.
        - destruct (nth_error row j) as [y|] eqn:Ey.
          + f_equal. apply xleb_antisym; [exact (Hmin' j x i row y Ex Hi Ey)|exact (Hmin j y k rw x Ey Hrw Ex)].
          + apply nth_error_None in Ey. assert (j < length rw)%nat by (apply nth_error_Some; congruence).
            rewrite (Rr rw (nth_error_In _ _ Hrw)) in *. rewrite (Rr row (nth_error_In _ _ Hi)) in *. lia.
        - destruct (nth_error row j) as [y|] eqn:Ey; auto.
          apply nth_error_None in Ex. assert (j < length row)%nat by (apply nth_error_Some; congruence).
          rewrite (Rr rw (nth_error_In _ _ Hrw)) in *. rewrite (Rr row (nth_error_In _ _ Hi)) in *. lia. }
      subst rw. pose proof (HC _ _ _ (Hsamp _ _ Hrw) (Hsamp _ _ Hi)) as Elab.
      apply (f_equal (map xval)) in Elab. rewrite !map_xval_Fin in Elab. unfold c. now rewrite Elab. }
    assert (Hsum : Rsum (map (fun l => nth t l 0 - mu) ls) = 0).
    { assert (E1 : Rsum (map (fun l => nth t l 0 - mu) ls) + Rsum (map (fun _ => mu) ls) = Rsum (target t ls)).
      { rewrite <- Rsum_map_plus. unfold target. apply Rsum_map_ext. intros; lra. }
      rewrite Rsum_map_const in E1.
      assert (E2 : INR (length ls) * mu = Rsum (target t ls)).
      { unfold mu. rewrite <- (target_length t ls). apply mean_sum. intros E0. apply map_eq_nil in E0. contradiction. }
      lra. }
    assert (Hilt : (i < length ls)%nat) by (rewrite <- HL; apply nth_error_Some; congruence).
    assert (Hc : In c (map (fun l => nth t l 0 - mu) ls)).
    { unfold c. apply (in_map (fun l => nth t l 0 - mu)). now apply nth_In. }
    pose proof (deviations_balance (2 * s) c _ ltac:(lra) Hterm Hc Hsum) as HB. rewrite map_length in HB. exact HB. }
  intros l t Hlin Ht. apply In_nth_error in Hlin as (i & Hi).
  assert (Hlt : (i < length (feature_rows d))%nat) by (rewrite HL; apply nth_error_Some; congruence).
  destruct (nth_error (feature_rows d) i) as [row|] eqn:Hrow; [|apply nth_error_None in Hrow; lia].
  assert (El : l = nth i ls []) by (symmetry; now apply nth_error_nth). rewrite El.
  eapply Rle_trans; [exact (Hall t Ht i row Hrow)|]. unfold s. lra.
Qed.
