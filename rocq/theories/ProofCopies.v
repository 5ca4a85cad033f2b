(** Repeating every training row (C72). *)
From Coq Require Import Reals Lra Lia ZArith Permutation Sorted.
From Verif Require Import Base Num ModelCommon ModelTree ModelBoost Spec SpecTree SpecScore SpecFit SpecOrder Lib ProofData ProofSort
  ProofSplit ProofSplit2 ProofTree ProofTree3 ProofTransform ProofScore ProofScore2 ProofBoost ProofBoost2 XR SpecExact SpecError SpecClass ProofReal ProofSplitExact
  ProofSplitExact2 ProofTreeExact ProofScoreExact ProofLeaf ProofBoostExact ProofClassExact ProofClassRun ProofOrder ProofOrderExact ProofRedundant SpecCopies.
Local Open Scope R_scope.

(** ** Lists of copies *)

Section Lists.
Context (m : nat) (Hm : (0 < m)%nat).

Lemma copies_length {A} (l : list A) : length (copies m l) = (length l * m)%nat.
Proof. clear Hm. unfold copies. induction l as [|x l IH]; cbn; auto. rewrite app_length, repeat_length, IH. lia. Qed.

Lemma copies_app {A} (a b : list A) : copies m (a ++ b) = copies m a ++ copies m b.
Proof. unfold copies. apply flat_map_app. Qed.

Lemma copies_map {A B} (f : A -> B) l : copies m (map f l) = map f (copies m l).
Proof. unfold copies. induction l as [|x l IH]; cbn; auto. rewrite map_app, IH. f_equal. clear. induction m; cbn; congruence. Qed.

Lemma copies_in {A} (x : A) l : In x (copies m l) <-> In x l.
Proof.
  unfold copies. rewrite in_flat_map. split.
  - intros (y & Hy & H). apply repeat_spec in H. now subst.
  - intros H. exists x. split; auto. destruct m; [lia|]. now left.
Qed.

Lemma copies_filter {A} (p : A -> bool) l : filter p (copies m l) = copies m (filter p l).
Proof.
  unfold copies. induction l as [|x l IH]; cbn; auto. rewrite filter_app, IH. destruct (p x) eqn:E; cbn.
  - f_equal. clear IH. induction m; cbn; auto. rewrite E. destruct n; [reflexivity|]. f_equal. apply IHn. lia.
  - clear IH. assert (filter p (repeat x m) = []) as ->; [|reflexivity]. clear Hm. induction m; cbn; auto. now rewrite E.
Qed.

Lemma combine_app {A B} (a1 a2 : list A) (b1 b2 : list B) : length a1 = length b1 ->
  combine (a1 ++ a2) (b1 ++ b2) = combine a1 b1 ++ combine a2 b2.
Proof. revert b1. induction a1 as [|x a IH]; intros [|y b] H; cbn in *; try discriminate; auto. f_equal. apply IH. congruence. Qed.

Lemma combine_repeat {A B} (x : A) (y : B) k : combine (repeat x k) (repeat y k) = repeat (x, y) k.
Proof. induction k; cbn; congruence. Qed.

Lemma copies_combine {A B} (a : list A) (b : list B) : length a = length b -> combine (copies m a) (copies m b) = copies m (combine a b).
Proof.
  unfold copies. revert b. induction a as [|x a IH]; intros [|y b] H; cbn in *; try discriminate; auto.
  rewrite combine_app by now rewrite !repeat_length. rewrite combine_repeat, IH by congruence. reflexivity.
Qed.

Lemma nth_error_repeat' {A} (x : A) k t : (t < k)%nat -> nth_error (repeat x k) t = Some x.
Proof. revert t. induction k; intros [|t] H; cbn; auto; try lia. apply IHk. lia. Qed.

Lemma copies_nth_error {A} (l : list A) i t : (t < m)%nat -> nth_error (copies m l) (i * m + t) = nth_error l i.
Proof.
  intros Ht. unfold copies. revert i. induction l as [|x l IH]; intros i; cbn.
  - now rewrite !(proj2 (nth_error_None _ _)) by (cbn; lia).
  - destruct i as [|i]; cbn [nth_error].
    + rewrite nth_error_app1 by (rewrite repeat_length; lia). now apply nth_error_repeat'.
    + rewrite nth_error_app2 by (rewrite repeat_length; lia). rewrite repeat_length.
      replace (S i * m + t - m)%nat with (i * m + t)%nat by lia. apply IH.
Qed.

Lemma copies_firstn {A} (l : list A) i x rest t : skipn i l = x :: rest -> (t <= m)%nat ->
  firstn (i * m + t) (copies m l) = copies m (firstn i l) ++ repeat x t /\
  skipn (i * m + t) (copies m l) = repeat x (m - t) ++ copies m rest.
Proof.
  intros E Ht. assert (El : l = firstn i l ++ x :: rest) by (rewrite <- E; symmetry; apply firstn_skipn).
  assert (Li : length (firstn i l) = i).
  { rewrite firstn_length. assert (i < length l)%nat; [|lia]. destruct (le_lt_dec (length l) i); auto. rewrite skipn_all2 in E by auto. discriminate. }
  assert (Em : repeat x m = repeat x t ++ repeat x (m - t)) by (rewrite <- repeat_app; f_equal; lia).
  assert (Ec : copies m l = (copies m (firstn i l) ++ repeat x t) ++ repeat x (m - t) ++ copies m rest).
  { rewrite El at 1. rewrite copies_app. cbn [copies flat_map]. fold (copies m rest). rewrite Em, <- !app_assoc. reflexivity. }
  assert (Lc : length (copies m (firstn i l) ++ repeat x t) = (i * m + t)%nat).
  { rewrite app_length, copies_length, repeat_length, Li. reflexivity. }
  rewrite Ec. split.
  - rewrite <- Lc, firstn_app, Nat.sub_diag, firstn_all. cbn [firstn]. apply app_nil_r.
  - rewrite <- Lc, skipn_app, Nat.sub_diag, skipn_all. reflexivity.
Qed.

(** ** Real sums over copies *)

Lemma Rsum_repeat x k : Rsum (repeat x k) = INR k * x.
Proof. induction k as [|k IH]; cbn [repeat]; [cbn; lra|]. rewrite Rsum_cons, IH, S_INR. lra. Qed.

Lemma Rsum_copies l : Rsum (copies m l) = INR m * Rsum l.
Proof. unfold copies. induction l as [|x l IH]; cbn [flat_map]; [cbn; lra|]. rewrite Rsum_app, IH, Rsum_repeat, Rsum_cons. lra. Qed.

Lemma INR_m : 0 < INR m.
Proof. now apply lt_0_INR. Qed.

Lemma mean_copies l : mean (copies m l) = mean l.
Proof.
  unfold mean. rewrite Rsum_copies, copies_length, mult_INR. pose proof INR_m.
  destruct l as [|x l]; [cbn; unfold Rdiv; rewrite !Rmult_0_r, !Rmult_0_l; reflexivity|].
  assert (0 < INR (length (x :: l))) by (apply INR_pos; discriminate). field. split; lra.
Qed.

Lemma dev_copies c l : dev c (copies m l) = INR m * dev c l.
Proof. unfold dev. rewrite <- copies_map. apply Rsum_copies. Qed.

Lemma sse_copies l : sse (copies m l) = INR m * sse l.
Proof. unfold sse. rewrite mean_copies. apply dev_copies. Qed.

Lemma target_copies t ls : target t (copies m ls) = copies m (target t ls).
Proof. unfold target. symmetry. apply copies_map. Qed.

Lemma tsse_copies k ls : tsse k (copies m ls) = INR m * tsse k ls.
Proof. unfold tsse. rewrite <- Rsum_map_mult. apply Rsum_map_ext. intros t _. rewrite target_copies. apply sse_copies. Qed.

(** Adding [t] copies of a value: concave in [t]. *)
Lemma dev_repeat c x t : dev c (repeat x t) = INR t * ((x - c) * (x - c)).
Proof. unfold dev. induction t as [|t IH]; [cbn; lra|]. cbn [repeat map]. rewrite Rsum_cons, IH, S_INR. lra. Qed.

Lemma sse_add a x t : a <> [] ->
  sse (a ++ repeat x t) = sse a + INR (length a) * INR t / (INR (length a) + INR t) * ((x - mean a) * (x - mean a)).
Proof.
  intros Ha. pose proof (INR_pos a Ha) as H0. pose proof (pos_INR t) as H1. set (c := mean (a ++ repeat x t)).
  assert (Ec : (INR (length a) + INR t) * c = INR (length a) * mean a + INR t * x).
  { unfold c. rewrite mean_sum by auto. rewrite <- Rsum_repeat, <- Rsum_app, <- (repeat_length x t) at 1. rewrite <- plus_INR, <- app_length.
    apply mean_sum. destruct a; [congruence|discriminate]. }
  unfold sse at 1. fold c. rewrite dev_app, (dev_mean c a), dev_repeat.
  set (p := INR (length a)) in *. set (q := INR t) in *. set (u := mean a) in *.
  assert (c = (p * u + q * x) / (p + q)) as ->. { apply (Rmult_eq_reg_l (p + q)); [|lra]. rewrite Ec. field. lra. }
  field. lra.
Qed.

Lemma sse_concave a x t : (t <= m)%nat ->
  (INR m - INR t) * sse a + INR t * sse (a ++ repeat x m) <= INR m * sse (a ++ repeat x t).
Proof.
  intros Ht. apply le_INR in Ht. pose proof INR_m as H0. pose proof (pos_INR t) as H1.
  destruct a as [|y a].
  - cbn [app]. assert (Z : forall k, sse (repeat x k) = 0).
    { intros k. pose proof (sse_le_dev x (repeat x k)) as H. rewrite dev_repeat in H. pose proof (dev_nonneg (mean (repeat x k)) (repeat x k)) as H2.
      fold (sse (repeat x k)) in H2. replace (INR k * ((x - x) * (x - x))) with 0 in H by ring. lra. }
    rewrite !Z. change (sse []) with (sse (repeat x 0)). rewrite Z. lra.
  - rewrite !sse_add by discriminate. assert (H2 : 0 < INR (length (y :: a))) by (apply INR_pos; discriminate).
    set (p := INR (length (y :: a))) in *. set (q := INR t) in *. set (w := (x - mean (y :: a)) * (x - mean (y :: a))).
    assert (0 <= w) by (unfold w; apply Rle_0_sqr). set (M := INR m) in *.
    assert (q * (p * M / (p + M)) <= M * (p * q / (p + q))).
    { apply (Rmult_le_reg_r ((p + M) * (p + q))); [apply Rmult_lt_0_compat; lra|].
      replace (q * (p * M / (p + M)) * ((p + M) * (p + q))) with ((q * p * M) * (p + q)) by (field; lra).
      replace (M * (p * q / (p + q)) * ((p + M) * (p + q))) with ((q * p * M) * (p + M)) by (field; lra).
      apply Rmult_le_compat_l; [|lra]. apply Rmult_le_pos; [apply Rmult_le_pos|]; lra. }
    assert (q * (p * M / (p + M)) * w <= M * (p * q / (p + q)) * w) by (apply Rmult_le_compat_r; auto). lra.
Qed.

Lemma target_repeat t (x : list R) k : target t (repeat x k) = repeat (nth t x 0) k.
Proof. unfold target. induction k; cbn; congruence. Qed.

Lemma tsse_concave k a x t : (t <= m)%nat ->
  (INR m - INR t) * tsse k a + INR t * tsse k (a ++ repeat x m) <= INR m * tsse k (a ++ repeat x t).
Proof.
  intros Ht. unfold tsse. rewrite <- !Rsum_map_mult, <- Rsum_map_plus. apply Rsum_map_le. intros j _.
  rewrite !target_app, !target_repeat. now apply sse_concave.
Qed.

(** ** The gain of a cut *)

Lemma cut_gain_tsse k i L : L <> [] -> cut_gain k i L = (tsse k L - (tsse k (firstn i L) + tsse k (skipn i L))) / INR (length L).
Proof.
  intros H. unfold cut_gain. rewrite total_variance_tsse by auto. rewrite remaining_tsse by now rewrite firstn_skipn. rewrite firstn_skipn.
  unfold Rdiv. ring.
Qed.

Lemma copies_nonempty {A} (l : list A) : l <> [] -> copies m l <> [].
Proof. intros H E. apply (f_equal (@length A)) in E. rewrite copies_length in E. destruct l; [congruence|]. cbn in E. lia. Qed.

Lemma cut_gain_copies k i L : L <> [] -> (i <= length L)%nat -> cut_gain k (i * m) (copies m L) = cut_gain k i L.
Proof.
  intros H Hi. rewrite !cut_gain_tsse by (auto using copies_nonempty).
  assert (E : firstn (i * m) (copies m L) = copies m (firstn i L) /\ skipn (i * m) (copies m L) = copies m (skipn i L)).
  { destruct (skipn i L) as [|x rest] eqn:Es.
    - assert (i = length L). { apply (f_equal (@length _)) in Es. rewrite skipn_length in Es. cbn in Es. lia. }
      subst i. rewrite <- copies_length, !firstn_all, skipn_all. auto.
    - destruct (copies_firstn L i x rest 0 Es) as [A B]; [lia|]. rewrite Nat.add_0_r in A, B. rewrite A, B, Nat.sub_0_r. cbn. rewrite app_nil_r. auto. }
  destruct E as [-> ->]. rewrite !tsse_copies, copies_length, mult_INR. pose proof INR_m. pose proof (INR_pos L H). field. split; lra.
Qed.

(** Between two multiples of [m] the gain is at most the interpolation of its neighbours. *)
Lemma cut_gain_between k i t L : (i < length L)%nat -> (t <= m)%nat ->
  INR m * cut_gain k (i * m + t) (copies m L) <= (INR m - INR t) * cut_gain k i L + INR t * cut_gain k (S i) L.
Proof.
  intros Hi Ht. assert (H : L <> []) by (destruct L; [cbn in Hi; lia|discriminate]).
  rewrite <- (cut_gain_copies k i L), <- (cut_gain_copies k (S i) L) by (auto; lia).
  destruct (skipn i L) as [|x rest] eqn:Es; [apply (f_equal (@length _)) in Es; rewrite skipn_length in Es; cbn in Es; lia|].
  destruct (copies_firstn L i x rest t Es Ht) as [At Bt].
  destruct (copies_firstn L i x rest 0 Es ltac:(lia)) as [A0 B0].
  destruct (copies_firstn L i x rest m Es ltac:(lia)) as [Am Bm].
  replace (S i * m)%nat with (i * m + m)%nat by lia. rewrite Nat.add_0_r in A0, B0.
  rewrite !cut_gain_tsse by auto using copies_nonempty. rewrite At, Bt, A0, B0, Am, Bm.
  rewrite Nat.sub_0_r, Nat.sub_diag. cbn [repeat app]. rewrite app_nil_r.
  pose proof (tsse_concave k (copies m (firstn i L)) x t Ht) as C1.
  pose proof (tsse_concave k (copies m rest) x (m - t) ltac:(lia)) as C2. rewrite minus_INR in C2 by auto.
  rewrite !(tsse_perm k (repeat x _ ++ copies m rest) (copies m rest ++ repeat x _) (Permutation_app_comm _ _)).
  pose proof (INR_pos (copies m L) (copies_nonempty L H)) as HN. set (N := INR (length (copies m L))) in *.
  set (T := tsse k (copies m L)). unfold Rdiv. apply (Rmult_le_reg_r N); auto.
  assert (F : / N * N = 1) by (apply Rinv_l; lra).
  rewrite Rmult_plus_distr_r, !Rmult_assoc, F. lra.
Qed.
End Lists.

(** ** Sorted columns *)

Definition spread (m : nat) (p : xr * nat) : list (xr * nat) := map (fun t => (fst p, (snd p * m + t)%nat)) (seq 0 m).

Lemma combine_repeat_seq {A} (x : A) a k : combine (repeat x k) (seq a k) = map (fun t => (x, (a + t)%nat)) (seq 0 k).
Proof.
  revert a. induction k as [|k IH]; intros a; cbn; auto. rewrite Nat.add_0_r. f_equal. rewrite IH, <- seq_shift, map_map.
  apply map_ext. intros t. f_equal. lia.
Qed.

Lemma combine_copies_seq m (col : list xr) s :
  combine (copies m col) (seq (s * m) (length col * m)) = flat_map (spread m) (combine col (seq s (length col))).
Proof.
  unfold copies. revert s. induction col as [|x col IH]; intros s; cbn; auto.
  rewrite seq_app, combine_app by now rewrite repeat_length, seq_length. rewrite combine_repeat_seq. f_equal.
  specialize (IH (S s)). cbn in IH. rewrite Nat.add_comm. exact IH.
Qed.

Lemma value_positions_copies m (col : list xr) :
  @value_positions xr_ops (copies m col) = flat_map (spread m) (@value_positions xr_ops col).
Proof. unfold value_positions. pose proof (combine_copies_seq m col 0) as H. rewrite copies_length. exact H. Qed.

Lemma flat_map_perm {A B} (f : A -> list B) l l' : Permutation l l' -> Permutation (flat_map f l) (flat_map f l').
Proof.
  induction 1 as [|x l l' H IH|x y l|l l' l'' H1 IH1 H2 IH2]; cbn; auto.
  - now apply Permutation_app_head.
  - rewrite !app_assoc. apply Permutation_app_tail. apply Permutation_app_comm.
  - now transitivity (flat_map f l').
Qed.

Lemma StronglySorted_app_intro {A} (R : A -> A -> Prop) a b : StronglySorted R a -> StronglySorted R b ->
  (forall x y, In x a -> In y b -> R x y) -> StronglySorted R (a ++ b).
Proof.
  induction 1 as [|x a Ha IH HF]; cbn; intros Hb H; auto. constructor.
  - apply IH; auto.
  - apply Forall_app. split; auto. apply Forall_forall. auto.
Qed.

Lemma run_sorted (v : xr) a k s : @is_num xr_ops v -> StronglySorted (@pair_lt xr_ops) (map (fun t => (v, (a + t)%nat)) (seq s k)).
Proof.
  intros Hp. revert s. induction k as [|k IH]; intros s; cbn [seq map]; constructor.
  - apply IH.
  - apply Forall_forall. intros q Hq. apply in_map_iff in Hq as (t & <- & Ht). apply in_seq in Ht. right. cbn [fst snd].
    split; [exact (feqb_refl_num xr_laws v Hp)|lia].
Qed.

Lemma spread_sorted m p : @is_num xr_ops (fst p) -> StronglySorted (@pair_lt xr_ops) (spread m p).
Proof. intros Hp. exact (run_sorted (fst p) (snd p * m) m 0 Hp). Qed.

Lemma sorted_copies m col r : @sorted_version xr_ops col r -> Forall (@is_num xr_ops) col ->
  @sorted_version xr_ops (copies m col) (flat_map (spread m) r).
Proof.
  intros [HP HS] Hn. split.
  - rewrite value_positions_copies. now apply flat_map_perm.
  - assert (Hr : Forall (fun p => @is_num xr_ops (fst p)) r).
    { apply Forall_forall. intros p Hp. eapply Permutation_in in Hp; [|exact HP]. destruct p as [v i]. apply in_combine_l in Hp.
      exact (proj1 (Forall_forall _ _) Hn v Hp). }
    clear HP Hn. induction HS as [|p r HS IH HF]; cbn; [constructor|]. inversion Hr as [|? ? Hp Hr']; subst.
    apply StronglySorted_app_intro; [now apply spread_sorted|now apply IH|].
    intros x y Hx Hy. apply in_flat_map in Hy as (q & Hq & Hy). apply in_map_iff in Hx as (t & <- & Ht). apply in_map_iff in Hy as (t' & <- & Ht').
    apply in_seq in Ht, Ht'. pose proof (proj1 (Forall_forall _ _) HF q Hq) as [H|[H1 H2]]; [now left|right]. split; auto.
    destruct p as [vp ip], q as [vq iq]. cbn [fst snd] in *. nia.
Qed.

Lemma nth_by_error {A} (l : list A) i dflt : nth i l dflt = match nth_error l i with Some x => x | None => dflt end.
Proof. revert i. induction l as [|x l IH]; intros [|i]; cbn; auto. Qed.

Lemma labels_in_order_copies m ls r : labels_in_order (copies m ls) (flat_map (spread m) r) = copies m (labels_in_order ls r).
Proof.
  unfold labels_in_order. induction r as [|p r IH]; cbn; auto. rewrite map_app, IH. f_equal. unfold spread. rewrite map_map. cbn [snd].
  transitivity (map (fun _ : nat => nth (snd p) ls []) (seq 0 m)).
  - apply map_ext_in. intros t Ht. apply in_seq in Ht. rewrite !nth_by_error. now rewrite copies_nth_error by lia.
  - generalize 0%nat. clear. induction m; intros s; cbn; congruence.
Qed.

Lemma flat_map_spread_nth m r i t p : (t < m)%nat -> nth_error r i = Some p ->
  nth_error (flat_map (spread m) r) (i * m + t) = Some (fst p, (snd p * m + t)%nat).
Proof.
  intros Ht. assert (Lp : forall q, length (spread m q) = m) by (intros; unfold spread; now rewrite map_length, seq_length).
  revert i. induction r as [|q r IH]; intros [|i] E; cbn in *; try discriminate.
  - injection E as ->. rewrite nth_error_app1 by now rewrite Lp. unfold spread. rewrite nth_error_map, (nth_error_nth' _ 0%nat) by now rewrite seq_length.
    cbn. now rewrite seq_nth.
  - rewrite nth_error_app2 by (rewrite Lp; lia). rewrite Lp. replace (m + i * m + t - m)%nat with (i * m + t)%nat by lia. auto.
Qed.

Lemma flat_map_spread_length m r : length (flat_map (spread m) r) = (length r * m)%nat.
Proof. induction r as [|q r IH]; cbn; auto. rewrite app_length, IH. unfold spread. rewrite map_length, seq_length. lia. Qed.

(** ** The data set with repeated rows *)

Section Data.
Context (m : nat) (Hm : (0 < m)%nat).

Lemma copies_Forall {A} (P : A -> Prop) l : Forall P l -> Forall P (copies m l).
Proof. rewrite !Forall_forall. intros H x Hx. apply H. now apply (copies_in m Hm). Qed.

Lemma repeat_rows_wf {O : NumOps} nc nt (d : @dataset O) : wf_dataset nc nt d -> wf_dataset nc nt (repeat_rows m d).
Proof.
  intros W. destruct W as [W1 W2 W3 W4 W5 W6 W7]. constructor; cbn [repeat_rows feature_rows labels feature_columns]; auto.
  - now apply copies_nonempty.
  - rewrite !copies_length. congruence.
  - now apply copies_Forall.
  - now apply copies_Forall.
  - destruct W5 as [H1 H2]. split; [now rewrite map_length|]. intros j col' E. rewrite nth_error_map in E.
    destruct (nth_error (feature_columns d) j) as [col|] eqn:Ec; [|discriminate]. injection E as <-. destruct (H2 j col Ec) as [HL H3].
    split; [now rewrite !copies_length, HL|]. intros i row Hi.
    rewrite (Nat.div_mod i m) in Hi by lia. rewrite (Nat.div_mod i m) by lia. rewrite (Nat.mul_comm m) in *.
    assert (i mod m < m)%nat by (apply Nat.mod_upper_bound; lia). rewrite copies_nth_error in Hi by auto. rewrite copies_nth_error by auto.
    apply H3; auto.
  - now apply copies_Forall.
Qed.

Lemma samples_repeat {O : NumOps} nc nt (d : @dataset O) : wf_dataset nc nt d -> samples (repeat_rows m d) = copies m (samples d).
Proof. intros W. unfold samples. cbn [repeat_rows feature_rows labels]. apply copies_combine. symmetry. exact (wf_lengths _ _ _ W). Qed.

Lemma repeat_rows_of_samples {O : NumOps} nc nt (d d' : @dataset O) : wf_dataset nc nt d -> wf_dataset nc nt d' ->
  samples d' = copies m (samples d) -> d' = repeat_rows m d.
Proof.
  intros W W' H. apply (dataset_eq nc nt); auto; [now apply repeat_rows_wf|]. rewrite H. symmetry. exact (samples_repeat nc nt d W).
Qed.

Lemma real_labels_repeat ls (d : @dataset xr_ops) : real_labels ls d -> real_labels (copies m ls) (repeat_rows m d).
Proof.
  unfold real_labels. cbn [repeat_rows labels]. intros H. etransitivity; [apply (f_equal (copies m)); exact H|]. apply copies_map.
Qed.

Lemma rl_repeat (d : @dataset xr_ops) : rl (repeat_rows m d) = copies m (rl d).
Proof. unfold rl. cbn [repeat_rows labels]. symmetry. apply copies_map. Qed.

(** ** The chosen question *)

Context (nc nt : nat) (d : @dataset xr_ops) (ls : list (list R)) (W : wf_dataset nc nt d) (Hl : real_labels ls d).

Lemma considered_repeat j r i v t : (t < m)%nat -> considered d j r i v ->
  considered (repeat_rows m d) j (flat_map (spread m) r) (i * m + t) v.
Proof.
  intros Ht [(col & Hc & HS) (id & p & Hi & Hp & Hlt)]. split.
  - exists (copies m col). split; [cbn [repeat_rows feature_columns]; rewrite nth_error_map, Hc; reflexivity|].
    apply sorted_copies; auto. eapply wf_column_num; eauto. eapply nth_error_In; eauto.
  - exists (id * m + t)%nat, (fst p, (snd p * m)%nat). split; [exact (flat_map_spread_nth m r i t (v, id) Ht Hi)|]. split; auto.
    destruct r as [|p0 r]; [discriminate|]. injection Hp as ->. cbn. unfold spread. destruct m; [lia|]. cbn. do 2 f_equal. lia.
Qed.

Lemma considered_unrepeat j r' i' v : considered (repeat_rows m d) j r' i' v ->
  exists r i t, r' = flat_map (spread m) r /\ i' = (i * m + t)%nat /\ (t < m)%nat /\ considered d j r i v.
Proof.
  intros [(col' & Hc' & HS') (id & p & Hi & Hp & Hlt)]. cbn [repeat_rows feature_columns] in Hc'. rewrite nth_error_map in Hc'.
  destruct (nth_error (feature_columns d) j) as [col|] eqn:Hc; [|discriminate]. injection Hc' as <-.
  assert (Hn : Forall (@is_num xr_ops) col) by (eapply wf_column_num; eauto; eapply nth_error_In; eauto).
  pose proof (proj2 (the_sort_spec xr_laws col Hn)) as HS. set (r := the_sort col) in *.
  assert (r' = flat_map (spread m) r) as -> by (eapply (sorted_version_unique xr_laws); [exact HS'|now apply sorted_copies]).
  exists r, (i' / m)%nat, (i' mod m)%nat. split; auto. split; [rewrite Nat.mul_comm; apply Nat.div_mod; lia|].
  assert (Ht : (i' mod m < m)%nat) by (apply Nat.mod_upper_bound; lia). split; auto. split; [eauto|].
  assert (Hi2 : nth_error (flat_map (spread m) r) (i' / m * m + i' mod m) = Some (v, id)).
  { rewrite (Nat.mul_comm (i' / m)), <- Nat.div_mod by lia. exact Hi. }
  destruct (nth_error r (i' / m)) as [q|] eqn:Eq.
  2: { apply nth_error_None in Eq. assert (nth_error (flat_map (spread m) r) (i' / m * m + i' mod m) = None); [|congruence].
       apply nth_error_None. rewrite flat_map_spread_length. apply (Nat.mul_le_mono_r _ _ m) in Eq. etransitivity; [exact Eq|apply Nat.le_add_r]. }
  rewrite (flat_map_spread_nth m r _ _ q Ht Eq) in Hi2. injection Hi2 as <- _.
  destruct r as [|q0 r0] eqn:Er; [discriminate|]. exists (snd q), q0. split; [now destruct q|]. split; auto.
  cbn in Hp. unfold spread in Hp. destruct m; [lia|]. cbn in Hp. injection Hp as <-. exact Hlt.
Qed.

Lemma considered_length j r i v : considered d j r i v -> length r = length ls /\ (i < length r)%nat.
Proof.
  intros [(col & Hc & HS) (id & p & Hi & Hp & Hlt)]. split; [|apply nth_error_Some; congruence].
  transitivity (length (@value_positions xr_ops col)); [exact (Permutation_length (proj1 HS))|].
  unfold value_positions. rewrite combine_length, seq_length, Nat.min_id.
  eapply wf_col_length; eauto. eapply nth_error_In; eauto.
Qed.

Lemma considered_unique j r r' i v i' v' : considered d j r i v -> considered d j r' i' v' -> r = r'.
Proof.
  intros [(col & Hc & HS) _] [(col' & Hc' & HS') _]. rewrite Hc in Hc'. injection Hc' as <-. eapply (sorted_version_unique xr_laws); eauto.
Qed.

(** The next cut in the same column is considered too, if there is one. *)
Lemma considered_next j r i v : considered d j r i v -> (S i < length r)%nat -> exists v', considered d j r (S i) v'.
Proof.
  intros [(col & Hc & HS) (id & p & Hi & Hp & Hlt)] H. destruct (nth_error r (S i)) as [[v' id']|] eqn:Es; [|apply nth_error_None in Es; lia].
  exists v'. split; [eauto|]. exists id', p. split; auto. split; auto.
  destruct (nth_error_split _ _ Es) as (a & b & -> & La). rewrite nth_error_app1 in Hi by lia.
  pose proof (StronglySorted_app_rel _ _ _ (proj2 HS) (v, id) (v', id') (nth_error_In _ _ Hi) (or_introl eq_refl)) as Hrel.
  apply pair_lt_le in Hrel. cbn [fst] in Hrel.
  change (@fleb xr_ops) with xleb in Hrel. unfold xltb in *. apply andb_true_iff in Hlt as [L1 L2]. apply negb_true_iff in L2.
  assert (H1 : xleb (fst p) v' = true) by exact (fleb_trans _ xr_laws _ _ _ L1 Hrel). rewrite H1.
  destruct (xleb v' (fst p)) eqn:E; auto. exfalso. assert (xleb v (fst p) = true) by exact (fleb_trans _ xr_laws _ _ _ Hrel E). congruence.
Qed.

Lemma gain_at_end k L : L <> [] -> cut_gain k (length L) L = 0.
Proof.
  intros H. unfold cut_gain. rewrite firstn_all, skipn_all. apply gain_empty; auto. now rewrite app_nil_r.
Qed.

Lemma order_length j r i v : considered d j r i v -> length (labels_in_order ls r) = length r /\ labels_in_order ls r <> [].
Proof.
  intros H. pose proof (considered_length j r i v H) as [_ Hi]. unfold labels_in_order. rewrite map_length. split; auto.
  intros E. apply map_eq_nil in E. subst. cbn in Hi. lia.
Qed.

Theorem split_repeat : find_best_split (repeat_rows m d) (N.of_nat nt) = find_best_split d (N.of_nat nt).
Proof.
  destruct (split_usable xr_laws nc nt d W) as (b & Eb & _).
  destruct (split_usable xr_laws nc nt _ (repeat_rows_wf nc nt d W)) as (b' & Eb' & _).
  rewrite Eb, Eb'. f_equal.
  destruct (split_exact nc nt d ls b W Hl Eb) as (g & Eg & Hmax & Hcase).
  destruct (split_exact nc nt _ (copies m ls) b' (repeat_rows_wf nc nt d W) (real_labels_repeat ls d Hl) Eb') as (g' & Eg' & Hmax' & Hcase').
  assert (G0 : 0 <= g) by (destruct Hcase as [[-> _]|[? _]]; lra).
  assert (G0' : 0 <= g') by (destruct Hcase' as [[-> _]|[? _]]; lra).
  (* the gain of a copied cut *)
  assert (Same : forall j r i v, considered d j r i v ->
    considered (repeat_rows m d) j (flat_map (spread m) r) (i * m) v /\
    cut_gain nt (i * m) (labels_in_order (copies m ls) (flat_map (spread m) r)) = cut_gain nt i (labels_in_order ls r)).
  { intros j r i v H. pose proof (considered_repeat j r i v 0 Hm H) as H1. rewrite Nat.add_0_r in H1. split; auto.
    rewrite labels_in_order_copies. destruct (order_length j r i v H) as [L1 L2]. destruct (considered_length j r i v H).
    apply cut_gain_copies; auto. lia. }
  (* a cut among the copies of one row *)
  assert (Between : forall j r i v t, (t < m)%nat -> considered d j r i v ->
    INR m * cut_gain nt (i * m + t) (labels_in_order (copies m ls) (flat_map (spread m) r)) <=
    (INR m - INR t) * cut_gain nt i (labels_in_order ls r) + INR t * g).
  { intros j r i v t Ht H. rewrite labels_in_order_copies. destruct (order_length j r i v H) as [L1 L2]. destruct (considered_length j r i v H).
    eapply Rle_trans; [apply (cut_gain_between m Hm); lia|]. apply Rplus_le_compat_l. apply Rmult_le_compat_l; [apply pos_INR|].
    destruct (Nat.eq_dec (S i) (length r)) as [E|E].
    - rewrite E, <- L1, gain_at_end by auto. exact G0.
    - destruct (considered_next j r i v H ltac:(lia)) as (v' & H'). exact (Hmax _ _ _ _ H'). }
  assert (Mpos := INR_m m Hm).
  assert (Le : g <= g').
  { destruct Hcase as [[-> _]|(Hg & j & r & i & v & Hc & Hcut & _)]; auto. destruct (Same j r i v Hc) as [Hc1 E1]. rewrite <- Hcut, <- E1. eauto. }
  assert (Ge : g' <= g).
  { destruct Hcase' as [[-> _]|(Hg & j & r' & i' & v & Hc & Hcut & _)]; auto.
    destruct (considered_unrepeat j r' i' v Hc) as (r & i & t & -> & -> & Ht & Hc0). pose proof (Between j r i v t Ht Hc0) as H. rewrite Hcut in H.
    pose proof (Hmax _ _ _ _ Hc0) as H1. apply lt_INR in Ht.
    assert ((INR m - INR t) * cut_gain nt i (labels_in_order ls r) <= (INR m - INR t) * g) by (apply Rmult_le_compat_l; lra).
    apply (Rmult_le_reg_l (INR m)); auto. lra. }
  assert (g' = g) by lra. subst g'.
  destruct Hcase as [[-> ->]|(Hg & j & r & i & v & Hc & Hcut & Hq & Hi & Hj)].
  { destruct Hcase' as [[_ ->]|[? _]]; [reflexivity|lra]. }
  destruct Hcase' as [[-> _]|(_ & j' & r' & i' & v' & Hc' & Hcut' & Hq' & Hi' & Hj')]; [lra|].
  destruct (considered_unrepeat j' r' i' v' Hc') as (r2 & i2 & t & -> & -> & Ht & Hc2). destruct (Same _ _ _ _ Hc2) as [Hc2' E2].
  assert (t = 0%nat) as ->.
  { destruct t as [|t]; auto. exfalso. pose proof (Hi' (i2 * m)%nat v' ltac:(lia) Hc2') as H. rewrite E2 in H.
    pose proof (Between j' r2 i2 v' (S t) Ht Hc2) as H1. rewrite Hcut' in H1. apply lt_INR in Ht.
    assert ((INR m - INR (S t)) * cut_gain nt i2 (labels_in_order ls r2) < (INR m - INR (S t)) * g) by (apply Rmult_lt_compat_l; lra). lra. }
  rewrite Nat.add_0_r in *. rewrite E2 in Hcut'. destruct (Same _ _ _ _ Hc) as [Hc1 E1].
  assert (j' = j) as ->.
  { destruct (lt_eq_lt_dec j j') as [[H|H]|H]; auto; exfalso.
    - pose proof (Hj' _ _ _ _ H Hc1) as H1. lra.
    - pose proof (Hj _ _ _ _ H Hc2) as H1. lra. }
  assert (r2 = r) as -> by (eapply considered_unique; eauto).
  assert (i2 = i) as ->.
  { destruct (lt_eq_lt_dec i2 i) as [[H|H]|H]; auto; exfalso.
    - pose proof (Hi _ _ H Hc2) as H1. lra.
    - assert (Hlt : (i * m < i2 * m)%nat) by (apply Nat.mul_lt_mono_pos_r; auto). pose proof (Hi' _ _ Hlt Hc1) as H1. lra. }
  assert (v' = v) as ->. { destruct Hc as [_ (id & p & Ei & _)]. destruct Hc2 as [_ (id' & p' & Ei' & _)]. congruence. }
  destruct b as [bg bq], b' as [bg' bq']. cbn in *. congruence.
Qed.
End Data.

(** ** Growing a tree *)

Section Trees.
Context (m : nat) (Hm : (0 < m)%nat) (nc nt : nat).

Lemma built_repeat {L} (mk : @dataset xr_ops -> res L) (R : L -> L -> Prop) cfg :
  standard cfg -> tc_number_of_classes cfg = N.of_nat nt ->
  (forall x l l', wf_dataset nc nt x -> real_labels (rl x) x -> mk x = Ok l -> mk (repeat_rows m x) = Ok l' -> R l l') ->
  forall level d t, built mk cfg level d t -> forall t', built mk cfg level (repeat_rows m d) t' ->
  wf_dataset nc nt d -> real_labels (rl d) d -> same_questions R t t'.
Proof.
  intros Hs Hk HR level d t B.
  induction B as [level d s l Es Est El|level d s fd td t f Es Est Ep Bt IHt Bf IHf]; intros t' B' W Hl;
    pose proof (split_repeat m Hm nc nt d (rl d) W Hl) as Hq; rewrite Hs, Hk in Es;
    change (find_best_split d (N.of_nat nt) = Ok s) in Es;
    inversion B' as [lv dd s' l' Es' Est' El'|lv dd s' fd' td' u g Es' Est' Ep' Bt' Bf']; subst;
    rewrite Hs, Hk in Es'; change (find_best_split (repeat_rows m d) (N.of_nat nt) = Ok s') in Es'; rewrite Hq, Es in Es'; injection Es' as <-;
    try congruence.
  - constructor. exact (HR d l l' W Hl El El').
  - pose proof (repeat_rows_wf m Hm nc nt d W) as W'.
    destruct (partition_wf nc nt d _ fd td W Ep) as (_ & Wf & Wt & St & Sf).
    destruct (partition_wf nc nt _ _ fd' td' W' Ep') as (_ & Wf' & Wt' & St' & Sf').
    rewrite (samples_repeat m nc nt d W) in St', Sf'. rewrite (copies_filter m Hm) in St', Sf'.
    rewrite <- St in St'. rewrite <- Sf in Sf'.
    apply (repeat_rows_of_samples m Hm nc nt) in St', Sf'; auto. subst fd' td'.
    constructor.
    + apply IHt; auto. apply (finite_sub nc nt d); auto. rewrite St. apply incl_filter.
    + apply IHf; auto. apply (finite_sub nc nt d); auto. rewrite Sf. apply incl_filter.
Qed.

Lemma vs_copies k ls : vs k (copies m ls) = map (fun x => INR m * x) (vs k ls).
Proof. unfold vs. rewrite map_map. apply map_ext. intros j. rewrite target_copies. apply Rsum_copies. Qed.

Lemma means_copies k ls : means k (copies m ls) = means k ls.
Proof. unfold means. apply map_ext. intros j. rewrite target_copies. now apply mean_copies. Qed.

Lemma xdiv_scale c a b : 0 < c -> xdiv (Fin (c * a)) (Fin (c * b)) = xdiv (Fin a) (Fin b).
Proof.
  intros Hc. cbn. destruct (Req_EM_T (c * b) 0) as [Hb|Hb], (Req_EM_T b 0) as [Hb'|Hb']; try nra.
  - destruct (Req_EM_T (c * a) 0) as [Ha|Ha], (Req_EM_T a 0) as [Ha'|Ha']; try nra; auto.
    f_equal. destruct (Rle_dec 0 (c * a)), (Rle_dec 0 a); auto; nra.
  - f_equal. field. split; lra.
Qed.

Definition rterm (r : R) : R := Rabs r * (1 - Rabs r).

Lemma dterm_real ls : map (map (@dterm xr_ops)) (map (map Fin) ls) = map (map Fin) (map (map rterm) ls).
Proof. rewrite !map_map. apply map_ext. intros l. rewrite !map_map. apply map_ext. intros r. reflexivity. Qed.

Lemma calculator_repeat kind (x : @dataset xr_ops) : wf_dataset nc nt x -> real_labels (rl x) x ->
  leaf_output_calculator_new kind (repeat_rows m x) = leaf_output_calculator_new kind x.
Proof.
  intros W Hl. pose proof (repeat_rows_wf m Hm nc nt x W) as W'. pose proof (real_labels_repeat m (rl x) x Hl) as Hl'.
  destruct (real_rect _ _ _ _ W Hl) as [Rl Nl]. destruct (real_rect _ _ _ _ W' Hl') as [Rl' Nl'].
  unfold real_labels in Hl, Hl'. destruct kind.
  - cbn [leaf_output_calculator_new]. unfold calculate_leaf_output_squared_loss.
    assert (Hne : forall y : @dataset xr_ops, wf_dataset nc nt y -> labels y <> []) by exact (wf_labels_nonempty nc nt).
    rewrite (calculate_average_f64_vector_eq nt (labels x)) by (auto; exact (wf_labels _ _ _ W)).
    rewrite (calculate_average_f64_vector_eq nt (labels (repeat_rows m x))) by (auto; exact (wf_labels _ _ _ W')).
    f_equal. rewrite Hl, Hl'. etransitivity; [apply colmean_Fin; auto|]. symmetry. etransitivity; [apply colmean_Fin; auto|].
    now rewrite means_copies.
  - assert (Rd : forall ll, rectangular nt ll -> rectangular nt (map (map rterm) ll)).
    { intros ll H. unfold rectangular in *. rewrite Forall_map. eapply Forall_impl; [|exact H]. intros a Ha. now rewrite map_length. }
    assert (C : forall (y : @dataset xr_ops) ll, wf_dataset nc nt y -> labels y = map (map Fin) ll -> rectangular nt ll ->
      leaf_output_calculator_new MultiClassClassification y =
      Ok (map (fun e => xmul e (xdiv (xsub (Fin (INR nt)) (Fin 1)) (Fin (INR nt))))
          (map2 xdiv (map Fin (vs nt ll)) (map Fin (vs nt (map (map rterm) ll)))))).
    { intros y ll Wy E Ry. rewrite (class_calc_eq nc nt y Wy). f_equal. apply (f_equal (map _)). apply (f_equal2 (map2 xdiv)).
      - etransitivity; [apply (f_equal (@colsum xr_ops nt)); exact E|]. now apply colsum_Fin.
      - etransitivity; [apply (f_equal (fun v => @colsum xr_ops nt (map (map (@dterm xr_ops)) v))); exact E|]. cbv beta.
        etransitivity; [apply (f_equal (@colsum xr_ops nt)); exact (dterm_real ll)|]. apply colsum_Fin. auto. }
    rewrite (C _ _ W' Hl' Rl'), (C _ _ W Hl Rl). f_equal. apply (f_equal (map _)). rewrite <- copies_map, !vs_copies.
    generalize (vs nt (rl x)) as p, (vs nt (map (map rterm) (rl x))) as q.
    induction p as [|a p IH]; intros [|b q]; cbn [map map2]; auto. apply (f_equal2 cons); [|apply IH]. apply xdiv_scale. now apply INR_m.
Qed.

Lemma votes_copies (ls : list (list (@F xr_ops))) i : votes (copies m ls) i = (votes ls i * m)%nat.
Proof. unfold votes. rewrite (copies_filter m Hm). apply copies_length. Qed.

Lemma most_votes_copies k (ls : list (list (@F xr_ops))) c : most_votes k (copies m ls) c <-> most_votes k ls c.
Proof.
  unfold most_votes. split; intros [H1 H2]; split; auto; intros i Hi; destruct (H2 i Hi) as [A B]; rewrite !votes_copies in *; split; try nia.
Qed.

Context (d : @dataset xr_ops) (cfg : tree_config) (ls : list (list R)) (W : wf_dataset nc nt d) (Hl : real_labels ls d)
  (Hs : standard cfg) (Hk : tc_number_of_classes cfg = N.of_nat nt).

Lemma finite_d : real_labels (rl d) d.
Proof. now rewrite (real_rl ls d Hl). Qed.

Definition repeated_wf (l l' : regression_leaf) : Prop :=
  exists x, rl_data l = Some x /\ rl_data l' = Some (repeat_rows m x) /\ wf_dataset nc nt x /\ real_labels (rl x) x.

Lemma regression_repeat_wf t t' : regression_tree_new d cfg = Ok t -> regression_tree_new (repeat_rows m d) cfg = Ok t' ->
  same_questions repeated_wf t t'.
Proof.
  rewrite !regression_tree_new_eq. intros E E'. apply build_with_built in E, E'.
  eapply (built_repeat _ repeated_wf); eauto using finite_d. intros x l l' Wx Lx El El'.
  injection El as <-. injection El' as <-. exists x. cbn [rl_data]. auto.
Qed.

Lemma same_questions_impl {L} (R R' : L -> L -> Prop) t t' : (forall l l', R l l' -> R' l l') -> same_questions R t t' -> same_questions R' t t'.
Proof. intros H. induction 1; constructor; auto. Qed.

Theorem regression_repeat t t' : regression_tree_new d cfg = Ok t -> regression_tree_new (repeat_rows m d) cfg = Ok t' ->
  same_questions (repeated_leaf m) t t'.
Proof.
  intros E E'. apply (same_questions_impl repeated_wf); [|now apply regression_repeat_wf].
  intros l l' (x & A & B & _). exists x. auto.
Qed.

Theorem grad_boost_repeat kind :
  grad_boost_tree_new (repeat_rows m d) cfg (leaf_output_calculator_new kind) = grad_boost_tree_new d cfg (leaf_output_calculator_new kind).
Proof.
  destruct (grad_boost_total xr_laws nc nt d cfg kind W Hs Hk) as (t & E).
  destruct (grad_boost_total xr_laws nc nt _ cfg kind (repeat_rows_wf m Hm nc nt d W) Hs Hk) as (t' & E'). rewrite E, E'. revert E E'.
  rewrite !grad_boost_tree_new_eq. intros E E'. apply build_with_built in E, E'. f_equal. symmetry. apply same_questions_eq.
  eapply (built_repeat _ eq); eauto using finite_d. intros x l l' Wx Lx El El'. unfold mk_gb in *.
  rewrite (calculator_repeat kind x Wx Lx) in El'. congruence.
Qed.

Theorem amg_repeat kind :
  amg_boost_tree_new (repeat_rows m d) cfg (leaf_output_calculator_new kind) = amg_boost_tree_new d cfg (leaf_output_calculator_new kind).
Proof.
  destruct (amg_total xr_laws nc nt d cfg kind W Hs Hk) as (t & E).
  destruct (amg_total xr_laws nc nt _ cfg kind (repeat_rows_wf m Hm nc nt d W) Hs Hk) as (t' & E'). rewrite E, E'. revert E E'.
  rewrite !amg_boost_tree_new_eq. intros E E'. apply build_with_built in E, E'. f_equal. symmetry. apply same_questions_eq.
  eapply (built_repeat _ eq); eauto using finite_d. intros x l l' Wx Lx El El'. unfold mk_amg in *.
  rewrite (calculator_repeat kind x Wx Lx) in El'. congruence.
Qed.

Lemma repeat_lookup {A} (f : regression_leaf -> res A) t t' row :
  (forall l l', repeated_wf l l' -> f l' = f l) -> same_questions repeated_wf t t' ->
  bind (find_leaf_node_for_data row t') f = bind (find_leaf_node_for_data row t) f.
Proof.
  intros Hf. induction 1 as [q x x' Hx|q t f0 t' f0' Ht IHt Hff IHf]; cbn.
  - now apply Hf.
  - destruct (solve q row) as [[|]| |]; cbn; auto.
Qed.

Lemma vote_repeat (x : @dataset xr_ops) row : (0 < nt)%nat -> (Z.of_nat nt <= 2 ^ 53)%Z -> wf_dataset nc nt x ->
  predict_class row (leaf_node (bs_question no_split) (mkRL (Some (repeat_rows m x)))) = predict_class row (leaf_node (bs_question no_split) (mkRL (Some x))).
Proof.
  intros H0 Hz Wx. pose proof (repeat_rows_wf m Hm nc nt x Wx) as Wx'.
  destruct (predict_class_leaf xr_laws nt (leaf_node (bs_question no_split) (mkRL (Some x))) row x) as (c & v & -> & Hv & Hc); auto.
  { exact (wf_labels_nonempty nc nt x Wx). } { exact (wf_labels _ _ _ Wx). }
  destruct (predict_class_leaf xr_laws nt (leaf_node (bs_question no_split) (mkRL (Some (repeat_rows m x)))) row (repeat_rows m x)) as (c' & v' & -> & Hv' & Hc'); auto.
  { exact (wf_labels_nonempty nc nt _ Wx'). } { exact (wf_labels _ _ _ Wx'). }
  cbn [repeat_rows labels] in Hc'. apply (proj1 (most_votes_copies nt (labels x) c')) in Hc'. assert (c' = c) as -> by exact (most_votes_unique nt (labels x) c' c Hc' Hc).
  f_equal. exact (one_hot_unique nt (N.of_nat c) v' v Hv' Hv).
Qed.

Theorem regression_repeat_answers t t' : (0 < nt)%nat -> (Z.of_nat nt <= 2 ^ 53)%Z ->
  regression_tree_new d cfg = Ok t -> regression_tree_new (repeat_rows m d) cfg = Ok t' ->
  (forall row, predict_class row t' = predict_class row t) /\
  (forall test, calculate_accuracy test t' = calculate_accuracy test t) /\
  (forall test, calculate_overall_mean_squared_error test t' = calculate_overall_mean_squared_error test t).
Proof.
  intros H0 Hz E E'. pose proof (regression_repeat_wf t t' E E') as HR.
  assert (Hp : forall row, predict_class row t' = predict_class row t).
  { intros row. unfold predict_class. apply repeat_lookup; auto.
    intros [l] [l'] (x & A & B & Wx & Lx). cbn [rl_data] in A, B. subst l l'. exact (vote_repeat x row H0 Hz Wx). }
  split; [exact Hp|]. split.
  - intros test. unfold calculate_accuracy. f_equal. apply for_range_ext. intros acc i _. destruct (idx (feature_rows test) i); cbn [bind]; auto. now rewrite Hp.
  - intros test. unfold calculate_overall_mean_squared_error. f_equal. apply for_range_ext. intros acc i _.
    destruct (idx (feature_rows test) i) as [row| |]; cbn [bind]; auto.
    apply (repeat_lookup (fun leaf => d0 <- unwrap (rl_data leaf);; prediction <- calculate_average_label_vector (labels d0);;
      actual <- idx (labels test) i;; e <- mean_sum_of_squared_differences_between_vectors prediction actual;; Ok (fadd acc e))); auto.
    intros l l' (x & -> & -> & Wx & Lx). cbn [unwrap bind]. pose proof (repeat_rows_wf m Hm nc nt x Wx) as Wx'.
    rewrite (avg_label_eq nt (labels x)) by (try exact (wf_labels_nonempty nc nt x Wx); exact (wf_labels _ _ _ Wx)).
    rewrite (avg_label_eq nt (labels (repeat_rows m x))) by (try exact (wf_labels_nonempty nc nt _ Wx'); exact (wf_labels _ _ _ Wx')).
    assert (@colmean xr_ops nt (labels (repeat_rows m x)) = @colmean xr_ops nt (labels x)) as ->; [|reflexivity].
    pose proof (real_labels_repeat m (rl x) x Lx) as Lx'. destruct (real_rect _ _ _ _ Wx Lx) as [Rl Nl].
    destruct (real_rect _ _ _ _ Wx' Lx') as [Rl' Nl']. rewrite Lx, Lx'. etransitivity; [apply colmean_Fin; auto|]. symmetry.
    etransitivity; [apply colmean_Fin; auto|]. now rewrite means_copies.
Qed.

(** ** Ensembles *)

Lemma residual_repeat (f : list xr -> res (list xr)) (g : list xr -> list xr) scores scores' :
  mapM f (feature_rows d) = Ok scores -> mapM f (feature_rows (repeat_rows m d)) = Ok scores' ->
  mkDS (feature_rows (repeat_rows m d)) (differences (labels (repeat_rows m d)) (map g scores')) (feature_columns (repeat_rows m d)) =
  repeat_rows m (mkDS (feature_rows d) (differences (labels d) (map g scores)) (feature_columns d)).
Proof.
  intros E E'. rewrite (mapM_values f [] _ _ E), (mapM_values f [] _ _ E'). unfold repeat_rows. cbn [feature_rows labels feature_columns]. f_equal.
  unfold differences. rewrite <- !copies_map, copies_combine; [symmetry; apply copies_map|].
  rewrite !map_length. exact (wf_lengths _ _ _ W).
Qed.
End Trees.

Section Ensembles.
Context (m : nat) (Hm : (0 < m)%nat) (nc nt : nat) (d : @dataset xr_ops) (cfg : tree_config) (W : wf_dataset nc nt d)
  (Hs : standard cfg) (Hk : tc_number_of_classes cfg = N.of_nat nt) (n : nat) (lr : R) (Hz : (Z.of_nat nt <= 2 ^ 53)%Z).

Theorem regression_ensemble_repeat ls (Hl : real_labels ls d) : regression_boost_train (repeat_rows m d) cfg n (Fin lr) = regression_boost_train d cfg n (Fin lr).
Proof.
  set (d' := repeat_rows m d). set (ls' := copies m ls).
  pose proof (repeat_rows_wf m Hm nc nt d W : wf_dataset nc nt d') as W'. pose proof (real_labels_repeat m ls d Hl : real_labels ls' d') as Hl'.
  destruct (regression_train_total xr_laws nc nt d cfg n (Fin lr) W Hs Hk Hz) as (mm & E & _).
  destruct (regression_train_total xr_laws nc nt d' cfg n (Fin lr) W' Hs Hk Hz) as (mm' & E' & _).
  etransitivity; [exact E'|symmetry; etransitivity; [exact E|]]. f_equal.
  destruct (guess_real _ _ _ _ _ _ _ _ W Hl E) as (Hg & Hr & HT). destruct (guess_real _ _ _ _ _ _ _ _ W' Hl' E') as (Hg' & Hr' & HT').
  assert (Eg : m_initial_guess mm = m_initial_guess mm').
  { rewrite Hg, Hg'. unfold ls'. now rewrite means_copies. }
  apply (model_eq mm mm' n); auto; [congruence|].
  assert (St : forall k, (k <= n)%nat -> firstn k (m_trees mm) = firstn k (m_trees mm')).
  { induction k as [|k IH]; intros Hkn; [reflexivity|]. specialize (IH ltac:(lia)).
    assert (Step : forall dd ll m0, wf_dataset nc nt dd -> real_labels ll dd -> regression_boost_train dd cfg n (Fin lr) = Ok m0 ->
      exists ps t, mapM (regression_boost_predict (first_trees k m0)) (feature_rows dd) = Ok (map (map Fin) ps) /\
        nth_error (m_trees m0) k = Some t /\ rectangular nt ps /\ length ps = length ll /\
        grad_boost_tree_new (mkDS (feature_rows dd) (differences (labels dd) (map (map Fin) ps)) (feature_columns dd)) cfg
          (leaf_output_calculator_new Regression) = Ok t).
    { clear -Hkn. intros d ls m W Hl E. destruct (guess_real _ _ _ _ _ _ _ _ W Hl E) as (Hg & Hlr & HT).
      destruct (regression_stage d cfg n (Fin lr) m k (wf_lengths _ _ _ W) E ltac:(lia)) as (preds & t & Ep & _ & Ht & Eb).
      destruct (predictions_real nt (first_trees k m) (means nt ls) lr (feature_rows d)) as (ps & HP); auto.
      { apply means_length. }
      { intros row' Hin. eapply trained_finite; eauto; [lia|]. eapply row_long; eauto. }
      unfold regression_boost_all_predictions in Ep. rewrite all_predictions_eq in Ep.
      pose proof (Forall2_real nt _ _ ps preds HP Ep) as ->.
      exists ps, t. split; [exact Ep|]. split; [exact Ht|]. split; [exact (Forall2_rect _ _ _ _ HP)|]. split; [|exact Eb].
      rewrite <- (Forall2_length _ _ _ HP). eapply xr_len; eauto. }
    destruct (Step d ls mm W Hl E) as (ps & t & Ep & Ht & Rp & Lp & Et).
    destruct (Step d' ls' mm' W' Hl' E') as (ps' & t' & Ep' & Ht' & Rp' & Lp' & Et').
    assert (Ef : first_trees k mm' = first_trees k mm) by (apply first_eq; congruence).
    rewrite Ef in Ep'.
    pose proof (residual_repeat m nc nt d W _ (fun s => s) _ _ Ep Ep') as HR. rewrite !map_id in HR.
    destruct (residual_data nc nt d ls ps W Hl Lp Rp) as [Wr Hlr0].
    assert (t' = t) as ->.
    { assert (Ok t' = Ok t) as H; [|now injection H]. etransitivity; [symmetry; exact Et'|]. etransitivity; [|exact Et].
      etransitivity; [exact (f_equal (fun x => grad_boost_tree_new x cfg (leaf_output_calculator_new Regression)) HR)|].
      exact (grad_boost_repeat m Hm nc nt _ cfg _ Wr Hlr0 Hs Hk Regression). }
    rewrite (firstn_snoc _ _ _ Ht), (firstn_snoc _ _ _ Ht'). now rewrite IH. }
  now apply St.
Qed.

Context (H2 : (2 <= nt)%nat) (HO : one_hot_labels nt d).

Lemma one_hot_repeat : one_hot_labels nt (repeat_rows m d).
Proof. unfold one_hot_labels in *. cbn [repeat_rows labels]. now apply copies_Forall. Qed.

Lemma fitted_repeat {L} (mk : @dataset xr_ops -> res L) ss ss' t t' (f : list xr -> res (list xr)) :
  (forall x l l', wf_dataset nc nt x -> real_labels (rl x) x -> mk x = Ok l -> mk (repeat_rows m x) = Ok l' -> l = l') ->
  rectangular nt ss -> length ss = length (feature_rows d) ->
  mapM f (feature_rows d) = Ok (map (map Fin) ss) -> mapM f (feature_rows (repeat_rows m d)) = Ok (map (map Fin) ss') ->
  built mk cfg 0 (fitted d (map (map Fin) ss)) t -> built mk cfg 0 (fitted (repeat_rows m d) (map (map Fin) ss')) t' -> t = t'.
Proof.
  intros Hmk Rs Ls E E' B B'. destruct (fitted_ok nc nt d ss H2 W HO Rs Ls) as (r & _ & Wr & Lr & _).
  pose proof (residual_repeat m nc nt d W f (@softmax xr_ops) _ _ E E') as HR.
  apply same_questions_eq.
  apply (built_repeat m Hm nc nt mk eq cfg Hs Hk Hmk 0 (fitted d (map (map Fin) ss)) t B t'); [|exact Wr|exact Lr].
  exact (eq_ind _ (fun x => built mk cfg 0 x t') B' _ HR).
Qed.

Theorem multi_class_repeat : multi_class_boost_train (repeat_rows m d) cfg n (Fin lr) = multi_class_boost_train d cfg n (Fin lr).
Proof.
  set (d' := repeat_rows m d). pose proof (repeat_rows_wf m Hm nc nt d W : wf_dataset nc nt d') as W'. pose proof (one_hot_repeat : one_hot_labels nt d') as HO'.
  destruct (multi_class_train_total xr_laws nc nt d cfg n (Fin lr) W Hs Hk Hz) as (mm & E & _).
  destruct (multi_class_train_total xr_laws nc nt d' cfg n (Fin lr) W' Hs Hk Hz) as (mm' & E' & _).
  etransitivity; [exact E'|symmetry; etransitivity; [exact E|]]. f_equal.
  destruct (multi_guess nc nt d cfg n (Fin lr) mm) as (Hg & Hr & HT); auto; [lia|].
  destruct (multi_guess nc nt d' cfg n (Fin lr) mm') as (Hg' & Hr' & HT'); auto; [lia|].
  apply (model_eq mm mm' n); auto; try congruence.
  assert (St : forall k, (k <= n)%nat -> firstn k (m_trees mm) = firstn k (m_trees mm')); [|now apply St].
  induction k as [|k IH]; intros Hkn; [reflexivity|]. specialize (IH ltac:(lia)).
  destruct (multi_stage_exact nc nt d cfg n lr mm k) as (ss & t & Es & Ht & Rs & Ls & B); auto.
  destruct (multi_stage_exact nc nt d' cfg n lr mm' k) as (ss' & t' & Es' & Ht' & Rs' & Ls' & B'); auto.
  assert (Ef : first_trees k mm' = first_trees k mm) by (apply first_eq; congruence).
  rewrite Ef in Es'.
  assert (t = t') as <-.
  { eapply (fitted_repeat (mk_gb (leaf_output_calculator_new MultiClassClassification)) ss ss'); eauto.
    intros x l l' Wx Lx El El'. unfold mk_gb in *. rewrite (calculator_repeat m Hm nc nt _ x Wx Lx) in El'. congruence. }
  rewrite (firstn_snoc _ _ _ Ht), (firstn_snoc _ _ _ Ht'). now rewrite IH.
Qed.

Theorem amg_ensemble_repeat : amg_boost_train (repeat_rows m d) cfg n (Fin lr) = amg_boost_train d cfg n (Fin lr).
Proof.
  set (d' := repeat_rows m d). pose proof (repeat_rows_wf m Hm nc nt d W : wf_dataset nc nt d') as W'. pose proof (one_hot_repeat : one_hot_labels nt d') as HO'.
  destruct (amg_train_total xr_laws nc nt d cfg n (Fin lr) W ltac:(lia) Hs Hk Hz) as (mm & E & _).
  destruct (amg_train_total xr_laws nc nt d' cfg n (Fin lr) W' ltac:(lia) Hs Hk Hz) as (mm' & E' & _).
  etransitivity; [exact E'|symmetry; etransitivity; [exact E|]]. f_equal.
  destruct (amg_guess nc nt d cfg n (Fin lr) mm) as (Hg & Hr & HT); auto; [lia|].
  destruct (amg_guess nc nt d' cfg n (Fin lr) mm') as (Hg' & Hr' & HT'); auto; [lia|].
  apply (model_eq mm mm' n); auto; try congruence.
  assert (St : forall k, (k <= n)%nat -> firstn k (m_trees mm) = firstn k (m_trees mm')); [|now apply St].
  induction k as [|k IH]; intros Hkn; [reflexivity|]. specialize (IH ltac:(lia)).
  destruct (amg_stage_exact nc nt d cfg n lr mm k) as (ss & t & Es & Ht & Rs & Ls & B); auto.
  destruct (amg_stage_exact nc nt d' cfg n lr mm' k) as (ss' & t' & Es' & Ht' & Rs' & Ls' & B'); auto.
  assert (Ef : first_trees k mm' = first_trees k mm) by (apply first_eq; congruence).
  rewrite Ef in Es'.
  assert (t = t') as <-.
  { eapply (fitted_repeat (mk_amg (leaf_output_calculator_new MultiClassClassification)) ss ss'); eauto.
    intros x l l' Wx Lx El El'. unfold mk_amg in *. rewrite (calculator_repeat m Hm nc nt _ x Wx Lx) in El'. congruence. }
  rewrite (firstn_snoc _ _ _ Ht), (firstn_snoc _ _ _ Ht'). now rewrite IH.
Qed.
End Ensembles.

(** ** The copies in any order *)

Section AnyOrder.
Context (m : nat) (Hm : (0 < m)%nat) (nc nt : nat) (d d' : @dataset xr_ops) (ls : list (list R)) (cfg : tree_config)
  (W : wf_dataset nc nt d) (W' : wf_dataset nc nt d') (Hl : real_labels ls d) (Ht : ties_agree d)
  (HP : Permutation (samples d') (copies m (samples d))) (Hs : standard cfg) (Hk : tc_number_of_classes cfg = N.of_nat nt).

Lemma repeat_ties : ties_agree (repeat_rows m d).
Proof.
  apply (ties_agree_sub nc nt d); auto; [now apply repeat_rows_wf|]. rewrite (samples_repeat m nc nt d W). intros p Hp. exact (proj1 (copies_in m Hm p (samples d)) Hp).
Qed.

Lemma repeat_perm : Permutation (samples (repeat_rows m d)) (samples d').
Proof. rewrite (samples_repeat m nc nt d W). symmetry. exact HP. Qed.

Theorem any_order_boosted kind :
  grad_boost_tree_new d' cfg (leaf_output_calculator_new kind) = grad_boost_tree_new d cfg (leaf_output_calculator_new kind) /\
  amg_boost_tree_new d' cfg (leaf_output_calculator_new kind) = amg_boost_tree_new d cfg (leaf_output_calculator_new kind).
Proof.
  pose proof (repeat_rows_wf m Hm nc nt d W) as Wr. pose proof (real_labels_repeat m ls d Hl) as Lr.
  split; etransitivity.
  - exact (exact_grad_boost_order kind nc nt _ d' _ cfg Wr W' Lr repeat_ties repeat_perm Hs Hk).
  - exact (grad_boost_repeat m Hm nc nt d cfg ls W Hl Hs Hk kind).
  - exact (exact_amg_order kind nc nt _ d' _ cfg Wr W' Lr repeat_ties repeat_perm Hs Hk).
  - exact (amg_repeat m Hm nc nt d cfg ls W Hl Hs Hk kind).
Qed.

Theorem any_order_answers t t' : (0 < nt)%nat -> (Z.of_nat nt <= 2 ^ 53)%Z ->
  regression_tree_new d cfg = Ok t -> regression_tree_new d' cfg = Ok t' ->
  (forall row, predict_class row t' = predict_class row t) /\
  (forall test, calculate_accuracy test t' = calculate_accuracy test t) /\
  (forall test, calculate_overall_mean_squared_error test t' = calculate_overall_mean_squared_error test t).
Proof.
  intros H0 Hz E E'. pose proof (repeat_rows_wf m Hm nc nt d W) as Wr. pose proof (real_labels_repeat m ls d Hl) as Lr.
  destruct (regression_total xr_laws nc nt (repeat_rows m d) cfg Wr Hs Hk) as (u & Eu).
  destruct (regression_repeat_answers m Hm nc nt d cfg ls W Hl Hs Hk t u H0 Hz E Eu) as (A1 & A2 & A3).
  destruct (exact_regression_answers nc nt _ d' _ cfg u t' Wr W' Lr repeat_ties repeat_perm Hs Hk Eu E') as (B1 & B2 & B3).
  split; [|split]; intros; etransitivity; eauto.
Qed.
End AnyOrder.
