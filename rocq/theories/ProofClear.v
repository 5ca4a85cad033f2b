(** Decisions that are clear by more than the rounding error are the same in binary64 and in exact arithmetic (C91). *)
From Coq Require Import Reals Lra Lia ZArith.
From Flocq Require Import Core.
From Flocq Require Import IEEE754.BinarySingleNaN.
From Verif Require Import Base Num ModelCommon ModelTree ModelBoost Lib Spec SpecTree F64 XR SpecExact SpecInt SpecNear SpecNode SpecScore SpecClear ProofReal ProofData ProofTree
  ProofScore ProofSplitExact ProofScoreExact ProofTreeExact ProofInt ProofInt2 ProofNear3 ProofNode ProofBelow SpecFitFloat ProofFitFloat.
Local Open Scope R_scope.

(* ------------------------------------------------------------------ *)
(** ** Labels that move a little move the variance reductions a little *)

Definition near (e : R) (xs ys : list R) : Prop := Forall2 (fun x y => Rabs (x - y) <= e) xs ys.
Definition small (B : R) (xs : list R) : Prop := Forall (fun x => Rabs x <= B) xs.

Lemma near_sum e xs ys : near e xs ys -> Rabs (Rsum xs - Rsum ys) <= INR (length xs) * e.
Proof.
  induction 1 as [|x y xs ys H _ IH].
  - cbn. rewrite Rmult_0_l, Rminus_0_r, Rabs_R0. lra.
  - cbn [length]. rewrite S_INR, !Rsum_cons. replace (x + Rsum xs - (y + Rsum ys)) with ((x - y) + (Rsum xs - Rsum ys)) by ring.
    eapply Rle_trans; [apply Rabs_triang|]. lra.
Qed.

Lemma near_mean e xs ys : 0 <= e -> near e xs ys -> Rabs (mean xs - mean ys) <= e.
Proof.
  intros He H. destruct xs as [|x xs].
  - inversion H; subst. rewrite Rminus_eq_0, Rabs_R0. exact He.
  - pose proof (near_sum _ _ _ H) as S. pose proof (Forall2_length _ _ _ H) as L. unfold mean. rewrite <- L.
    assert (P : 0 < INR (length (x :: xs))) by (apply INR_pos; discriminate).
    replace (Rsum (x :: xs) / INR (length (x :: xs)) - Rsum ys / INR (length (x :: xs))) with ((Rsum (x :: xs) - Rsum ys) * / INR (length (x :: xs))) by (field; lra).
    rewrite Rabs_mult, (Rabs_pos_eq (/ _)) by (left; now apply Rinv_0_lt_compat).
    apply Rle_trans with (INR (length (x :: xs)) * e * / INR (length (x :: xs))); [|right; field; lra].
    apply Rmult_le_compat_r; [left; now apply Rinv_0_lt_compat|exact S].
Qed.

Lemma small_mean B xs : 0 <= B -> small B xs -> Rabs (mean xs) <= B.
Proof.
  intros HB H. eapply Rle_trans; [apply mean_abs|]. apply mean_le; auto. intros x Hx. apply in_map_iff in Hx as (y & <- & Hy).
  exact (proj1 (Forall_forall _ _) H y Hy).
Qed.

Lemma variance_mean xs : variance xs = mean (map (fun x => (x - mean xs) * (x - mean xs)) xs).
Proof. unfold variance. generalize (mean xs). intros m. unfold mean. now rewrite map_length. Qed.

Lemma near_map2 {A} (f g : A -> R) (e : R) (l : list A) : (forall a, In a l -> Rabs (f a - g a) <= e) -> near e (map f l) (map g l).
Proof. intros H. apply Forall2_map_same. exact H. Qed.

Lemma near_variance e B xs ys : 0 <= e -> 0 <= B -> near e xs ys -> small B xs -> small B ys ->
  Rabs (variance xs - variance ys) <= 8 * B * e.
Proof.
  intros He HB H Hx Hy. rewrite !variance_mean. pose proof (near_mean _ _ _ He H) as Hm.
  pose proof (small_mean _ _ HB Hx) as Bx. pose proof (small_mean _ _ HB Hy) as By.
  apply near_mean; [apply Rmult_le_pos; lra|]. revert Hm Bx By. generalize (mean xs) (mean ys). intros a b Hm Ba Bb.
  unfold near. induction H as [|x y xs ys Hxy H IH]; cbn [map]; constructor.
  - inversion Hx; inversion Hy; subst. replace ((x - a) * (x - a) - (y - b) * (y - b)) with (((x - y) - (a - b)) * ((x - a) + (y - b))) by ring.
    rewrite Rabs_mult. apply Rle_trans with ((2 * e) * (4 * B)); [|right; ring].
    apply Rmult_le_compat; try apply Rabs_pos.
    + unfold Rminus at 1. eapply Rle_trans; [apply Rabs_triang|]. rewrite Rabs_Ropp. lra.
    + eapply Rle_trans; [apply Rabs_triang|]. unfold Rminus.
      eapply Rle_trans; [apply Rplus_le_compat; apply Rabs_triang|]. rewrite !Rabs_Ropp. lra.
  - apply IH; [now inversion Hx|now inversion Hy].
Qed.

Lemma near_target e t a b : 0 <= e -> Forall2 (near e) a b -> near e (target t a) (target t b).
Proof.
  intros He H. unfold near, target. induction H as [|x y a b Hxy H IH]; cbn [map]; constructor; auto.
  clear -Hxy He. revert t. induction Hxy as [|u v x y Huv H IH]; intros [|t]; cbn [nth]; auto; rewrite Rminus_0_r, Rabs_R0; exact He.
Qed.

Lemma small_target B t a : 0 <= B -> Forall (small B) a -> small B (target t a).
Proof.
  intros HB H. unfold small, target. induction H as [|x a Hx H IH]; cbn [map]; constructor; auto.
  clear -Hx HB. revert t. induction Hx as [|u x Hu H IH]; intros [|t]; cbn [nth]; auto; rewrite Rabs_R0; exact HB.
Qed.

Lemma near_total e B k a b : 0 <= e -> 0 <= B -> Forall2 (near e) a b -> Forall (small B) a -> Forall (small B) b ->
  Rabs (total_variance k a - total_variance k b) <= INR k * (8 * B * e).
Proof.
  intros He HB H Ha Hb. unfold total_variance. replace (INR k) with (INR (length (map (fun t => variance (target t a)) (seq 0 k)))) by now rewrite map_length, seq_length.
  apply near_sum. apply near_map2. intros t _. apply near_variance; auto; [now apply near_target|now apply small_target|now apply small_target].
Qed.

Lemma near_remaining e B k a b a' b' : 0 <= e -> 0 <= B -> Forall2 (near e) a a' -> Forall2 (near e) b b' ->
  Forall (small B) a -> Forall (small B) a' -> Forall (small B) b -> Forall (small B) b' ->
  Rabs (remaining_variance k a b - remaining_variance k a' b') <= INR k * (8 * B * e).
Proof.
  intros He HB Ha Hb S1 S2 S3 S4. unfold remaining_variance. rewrite <- (Forall2_length _ _ _ Ha), <- (Forall2_length _ _ _ Hb).
  pose proof (near_total e B k a a' He HB Ha S1 S2) as Ta. pose proof (near_total e B k b b' He HB Hb S3 S4) as Tb.
  set (K := INR k * (8 * B * e)) in *. assert (K0 : 0 <= K) by (eapply Rle_trans; [apply Rabs_pos|exact Ta]).
  destruct (Nat.eq_dec (length a + length b) 0) as [Z|NZ].
  - assert (length a = 0 /\ length b = 0)%nat as [-> ->] by lia. cbn [Nat.add INR]. unfold Rdiv. rewrite !Rmult_0_l, Rminus_eq_0, Rabs_R0. exact K0.
  - assert (P : 0 < INR (length a + length b)) by (apply lt_0_INR; lia). rewrite plus_INR in *. pose proof (pos_INR (length a)) as A0. pose proof (pos_INR (length b)) as B0.
    set (n := INR (length a)) in *. set (m := INR (length b)) in *.
    replace (n / (n + m) * total_variance k a + m / (n + m) * total_variance k b - (n / (n + m) * total_variance k a' + m / (n + m) * total_variance k b'))
      with (n / (n + m) * (total_variance k a - total_variance k a') + m / (n + m) * (total_variance k b - total_variance k b')) by (field; lra).
    eapply Rle_trans; [apply Rabs_triang|]. rewrite !Rabs_mult.
    assert (Q : forall z, 0 <= z -> Rabs (z / (n + m)) = z / (n + m)).
    { intros z Hz. apply Rabs_pos_eq. apply Rmult_le_pos; auto. left. now apply Rinv_0_lt_compat. }
    rewrite !Q by assumption. apply Rle_trans with (n / (n + m) * K + m / (n + m) * K); [|right; field; lra].
    apply Rplus_le_compat; apply Rmult_le_compat_l; auto; apply Rmult_le_pos; auto; left; now apply Rinv_0_lt_compat.
Qed.

Lemma Forall2_firstn {A B} (R : A -> B -> Prop) a b i : Forall2 R a b -> Forall2 R (firstn i a) (firstn i b).
Proof. intros H. revert i. induction H; intros [|i]; cbn; constructor; auto. Qed.

Lemma Forall2_skipn {A B} (R : A -> B -> Prop) a b i : Forall2 R a b -> Forall2 R (skipn i a) (skipn i b).
Proof. intros H. revert i. induction H as [|x y a b Hxy H IH]; intros [|i]; cbn; auto. Qed.

Lemma Forall_firstn' {A} (R : A -> Prop) a i : Forall R a -> Forall R (firstn i a).
Proof. intros H. revert i. induction H; intros [|i]; cbn; constructor; auto. Qed.

Lemma Forall_skipn' {A} (R : A -> Prop) a i : Forall R a -> Forall R (skipn i a).
Proof. intros H. revert i. induction H as [|x a Hx H IH]; intros [|i]; cbn; auto. Qed.

Lemma near_cut e B k i a b : 0 <= e -> 0 <= B -> Forall2 (near e) a b -> Forall (small B) a -> Forall (small B) b ->
  Rabs (cut_gain k i a - cut_gain k i b) <= 16 * INR k * B * e.
Proof.
  intros He HB H Ha Hb. unfold cut_gain.
  pose proof (near_total e B k a b He HB H Ha Hb) as T.
  pose proof (near_remaining e B k (firstn i a) (skipn i a) (firstn i b) (skipn i b) He HB (Forall2_firstn _ _ _ i H) (Forall2_skipn _ _ _ i H)
    (Forall_firstn' _ _ i Ha) (Forall_firstn' _ _ i Hb) (Forall_skipn' _ _ i Ha) (Forall_skipn' _ _ i Hb)) as R.
  replace (total_variance k a - remaining_variance k (firstn i a) (skipn i a) - (total_variance k b - remaining_variance k (firstn i b) (skipn i b)))
    with ((total_variance k a - total_variance k b) + - (remaining_variance k (firstn i a) (skipn i a) - remaining_variance k (firstn i b) (skipn i b))) by ring.
  eapply Rle_trans; [apply Rabs_triang|]. rewrite Rabs_Ropp. lra.
Qed.

Lemma near_order e (a b : list (list R)) (r : list (xr * nat)) : Forall2 (near e) a b -> Forall2 (near e) (labels_in_order a r) (labels_in_order b r).
Proof.
  intros H. unfold labels_in_order. induction r as [|[v i] r IH]; cbn [map snd]; constructor; auto. clear -H. revert i.
  induction H as [|x y a b Hxy H IH]; intros [|i]; cbn [nth]; auto; constructor.
Qed.

Lemma small_order B (a : list (list R)) (r : list (xr * nat)) : Forall (small B) a -> Forall (small B) (labels_in_order a r).
Proof.
  intros H. unfold labels_in_order. induction r as [|[v i] r IH]; cbn [map snd]; constructor; auto. clear -H. revert i.
  induction H as [|x a Hx H IH]; intros [|i]; cbn [nth]; auto; constructor.
Qed.

(* ------------------------------------------------------------------ *)
(** ** One node *)

Lemma Fin_inj (a b : list R) : map Fin a = map Fin b -> a = b.
Proof. revert b. induction a as [|x a IH]; intros [|y b] H; try discriminate; auto. injection H as <- H. f_equal. auto. Qed.

Lemma Fin_labels_inj (a b : list (list R)) : map (map Fin) a = map (map Fin) b -> a = b.
Proof. revert b. induction a as [|x a IH]; intros [|y b] H; try discriminate; auto. injection H as H1 H. apply Fin_inj in H1. subst. f_equal. auto. Qed.

Lemma question_dec (j j' : N) (v v' : xr) : @Question xr_ops j v = Question j' v' \/ @Question xr_ops j v <> Question j' v'.
Proof.
  destruct (N.eq_dec j j') as [->|N]; [|right; congruence].
  assert (D : {v = v'} + {v <> v'}) by (decide equality; apply Req_EM_T).
  destruct D as [->|N]; [now left|right]. intros E. apply N. exact (f_equal (@q_value xr_ops) E).
Qed.

Lemma like_below {O : NumOps} {L} (row : list F) (n tb : tree_node L) q (d d' : dataset) : path row n = q :: path row tb ->
  samples d' = filter (fun p => Bool.eqb (answers q (fst p)) (answers q row)) (samples d) -> samples_like row n d = samples_like row tb d'.
Proof. unfold samples_like. intros -> ->. rewrite ProofNode.filter_twice. reflexivity. Qed.

Section Clear.
Context (P : platform).
Local Notation FO := (f64_ops P).

(** Data set [x] of exact arithmetic has the rows of the binary64 set [d], and labels within [e] of those of [d]. *)
Definition tracks (e : R) (d : @dataset FO) (x : @dataset xr_ops) : Prop :=
  Forall2 (fun (s : list f64 * list f64) (s' : list xr * list xr) => fst s' = map exact_value (fst s) /\
    Forall2 (fun a y => exists r, y = Fin r /\ Rabs (B2R a - r) <= e) (snd s) (snd s')) (@samples FO d) (@samples xr_ops x).

Lemma Forall2_combine {A B C D} (Q : A -> C -> Prop) (R : B -> D -> Prop) a b c d :
  length b = length a -> length d = length c ->
  Forall2 (fun s s' => Q (fst s) (fst s') /\ R (snd s) (snd s')) (combine a b) (combine c d) -> Forall2 Q a c /\ Forall2 R b d.
Proof.
  revert b c d. induction a as [|x a IH]; intros [|y b] [|z c] [|w d] H1 H2 H; try discriminate; inversion H; subst; [split; constructor|].
  destruct (IH b c d) as [I J]; auto. destruct H5 as [H5 H6]. split; constructor; auto.
Qed.

Lemma tracks_parts e nc nt (d : @dataset FO) (x : @dataset xr_ops) : @wf_dataset FO nc nt d -> @wf_dataset xr_ops nc nt x -> tracks e d x ->
  feature_rows x = map (map exact_value) (feature_rows d) /\ feature_columns x = feature_columns (exact_data d) /\
  exists ls, real_labels ls x /\ Forall2 (near e) (real_values d) ls /\ length ls = length (labels d).
Proof.
  intros W W' H. pose proof (wf_lengths _ _ _ W) as L. pose proof (wf_lengths _ _ _ W') as L'.
  unfold tracks, samples in H.
  destruct (Forall2_combine (fun (a : list f64) b => b = map exact_value a) (fun (a : list f64) b => Forall2 (fun (a : f64) y => exists r, y = Fin r /\ Rabs (B2R a - r) <= e) a b)
    (feature_rows d) (labels d) (feature_rows x) (labels x) L L' H) as [H1 H2].
  assert (Er : feature_rows x = map (map exact_value) (feature_rows d)).
  { clear -H1. revert H1. generalize (feature_rows x). induction (feature_rows d) as [|a r IH]; intros l H; inversion H; subst; cbn [map]; auto. f_equal. auto. }
  split; [exact Er|]. split.
  - pose proof (exact_wf P nc nt d W) as Wx. pose proof (wf_columns _ _ _ W') as T1. rewrite Er in T1. exact (is_transpose_unique nc _ _ _ T1 (wf_columns _ _ _ Wx)).
  - unfold real_labels, real_values. clear -H2. revert H2. generalize (labels x). induction (labels d) as [|a l IH]; intros l' H; inversion H; subst.
    + exists []. repeat split; constructor.
    + destruct (IH _ H4) as (ls & E & N & Len).
      assert (exists v, y = map Fin v /\ near e (map B2R a) v) as (v & -> & Hv).
      { clear -H2. induction H2 as [|p q a y (r & -> & Hr) H IH]; [exists []; split; [reflexivity|constructor]|]. destruct IH as (v & -> & Hv). exists (r :: v). split; [reflexivity|constructor; auto]. }
      exists (v :: ls). split; [|split].
      * cbn [map]. f_equal. exact E.
      * constructor; auto.
      * cbn [length]. f_equal. exact Len.
Qed.

Lemma tracks_filter e (d : @dataset FO) (x : @dataset xr_ops) (fd : @dataset FO) (fx : @dataset xr_ops) (p : list f64 * list f64 -> bool) (p' : list xr * list xr -> bool) :
  (forall s s', fst s' = map exact_value (fst s) -> p' s' = p s) ->
  @samples FO fd = filter p (@samples FO d) -> @samples xr_ops fx = filter p' (@samples xr_ops x) -> tracks e d x -> tracks e fd fx.
Proof.
  intros Hp E1 E2 H. unfold tracks in *. rewrite E1, E2. clear E1 E2. induction H as [|s s' l l' [H1 H2] H IH]; cbn [filter]; [constructor|].
  rewrite (Hp s s' H1). destruct (p s); auto.
Qed.

Lemma exact_answers (q : @question FO) (row : list f64) : @answers xr_ops (exact_question q) (map exact_value row) = @answers FO q row.
Proof.
  unfold answers, exact_question. cbn [q_column q_value]. rewrite nth_error_map. change (@F FO) with f64 in *. destruct (nth_error row (N.to_nat (q_column q))) as [v|]; [|reflexivity].
  exact (exact_leb (q_value q) v).
Qed.

Section Node.
Context (nc nt : nat) (B e : R) (d : @dataset FO) (x : @dataset xr_ops).
Context (W : @wf_dataset FO nc nt d) (Wx : @wf_dataset xr_ops nc nt x) (T : tracks e d x).
Context (Hb : bounded_labels B d) (Ho : ordinary_table B d) (Hk : (Z.of_nat nt <= 2 ^ 40)%Z) (He : 0 <= e).
Context (ls : list (list R)) (Hl : real_labels ls x) (HB : Forall (small B) ls).

Let G := 16 * INR nt * B * e.
Let err := real_gain_error nt (length (labels d)) B.

Lemma B_nonneg : 0 <= B.
Proof. destruct Ho as [[H _] _]. eapply Rle_trans; [|exact H]. left. apply Rinv_0_lt_compat. apply pow_lt. lra. Qed.

Lemma near_labels : Forall2 (near e) (real_values d) ls.
Proof.
  destruct (tracks_parts e nc nt d x W Wx T) as (_ & _ & ls' & Hl' & Hn & _).
  unfold real_labels in *. rewrite Hl in Hl'. apply Fin_labels_inj in Hl'. subst ls'. exact Hn.
Qed.

Lemma near_gains r i : Rabs (cut_gain nt i (labels_in_order (real_values d) r) - cut_gain nt i (labels_in_order ls r)) <= G.
Proof.
  apply near_cut; [exact He|exact B_nonneg|apply near_order; exact near_labels| |now apply small_order].
  apply small_order. unfold real_values. apply Forall_forall. intros v Hv. apply in_map_iff in Hv as (l & <- & Hin).
  apply Forall_forall. intros y Hy. apply in_map_iff in Hy as (z & <- & Hz). exact (proj2 (Hb l z Hin Hz)).
Qed.

Lemma same_considered j r i v : considered x j r i v <-> considered (exact_data d) j r i v.
Proof. unfold considered. destruct (tracks_parts e nc nt d x W Wx T) as (_ & -> & _). tauto. Qed.

Lemma clear_same margin q b s : 2 * err + 2 * G <= margin -> clear_question margin nt x ls q ->
  @find_best_split FO d (N.of_nat nt) = Ok b -> @find_best_split xr_ops x (N.of_nat nt) = Ok s ->
  exact_question (bs_question b) = q /\ bs_question s = q /\ @feqb FO (bs_gain b) (@f0 FO) = false.
Proof.
  intros Hm (j & r & i & v & Hc & -> & Hbest & Hother) Eb Es.
  destruct (split_near P B nc nt d W Hb Ho Hk b Eb) as (Fb & Hup & Hcase).
  assert (E0 : 0 <= err) by exact (err_nonneg P B nt d Ho). set (gb := B2R (bs_gain b : f64)).
  assert (G0 : 0 <= G) by (eapply Rle_trans; [apply Rabs_pos|apply (near_gains r i)]).
  pose proof (near_gains r i) as N0. apply Rabs_le_inv in N0.
  assert (U0 : cut_gain nt i (labels_in_order (real_values d) r) <= gb + err) by exact (Hup j r i v (proj1 (same_considered _ _ _ _) Hc)).
  assert (Pos : 0 < gb) by lra.
  split; [|split].
  - destruct Hcase as [->|(_ & j' & r' & i' & v' & Hc' & Eq & Hg)]; [exfalso; apply (Rlt_irrefl 0); exact Pos|]. rewrite Eq.
    destruct (question_dec (N.of_nat j') (N.of_nat j) v' v) as [Y|N]; [exact Y|exfalso].
    pose proof (Hother j' r' i' v' (proj2 (same_considered _ _ _ _) Hc') N) as H1. pose proof (near_gains r' i') as N1. apply Rabs_le_inv in N1. assert (Hg' : Rabs (gb - cut_gain nt i' (labels_in_order (real_values d) r')) <= err) by exact Hg. apply Rabs_le_inv in Hg'. lra.
  - destruct (split_exact nc nt x ls s Wx Hl Es) as (g & Eg & Hmax & Hc').
    pose proof (Hmax _ _ _ _ Hc) as M0.
    destruct Hc' as [[Z _]|(Pg & j' & r' & i' & v' & Hc' & Eg' & Eq & _)]; [lra|]. rewrite Eq.
    destruct (question_dec (N.of_nat j') (N.of_nat j) v' v) as [Y|N]; [exact Y|exfalso].
    pose proof (Hother j' r' i' v' Hc' N) as H1. lra.
  - revert Pos. unfold gb. generalize (bs_gain b : f64). intros g Pos. change (Beqb g (B754_zero false) = false).
    destruct g as [sg|sg| |[|] m ex Hm']; cbn in Pos; try lra; try reflexivity; destruct sg; reflexivity.
Qed.

Lemma none_considered b : (forall j r i v, ~ considered x j r i v) -> @find_best_split FO d (N.of_nat nt) = Ok b -> @feqb FO (bs_gain b) (@f0 FO) = true.
Proof.
  intros Hn Eb. destruct (split_near P B nc nt d W Hb Ho Hk b Eb) as (_ & _ & [->|(_ & j & r & i & v & Hc & _)]); [reflexivity|].
  exfalso. exact (Hn j r i v (proj2 (same_considered _ _ _ _) Hc)).
Qed.

End Node.

(* ------------------------------------------------------------------ *)
(** ** The path of a row *)

(** [clear_path] for a tree built at depth [level]. *)
Definition clear_from {L} (margin : R) (nc nt : nat) (levels level : N) (x : @dataset xr_ops) (t : @tree_node xr_ops L) (row : list xr) : Prop :=
  (forall k q here ls, nth_error (path row t) k = Some q -> at_node nc nt x (firstn k (path row t)) row here -> real_labels ls here ->
     clear_question margin nt here ls q) /\
  (forall here, at_node nc nt x (path row t) row here ->
     (level + N.of_nat (length (path row t)))%N = levels \/ (forall j r i v, ~ considered here j r i v) \/
     (forall l l', In l (labels here) -> In l' (labels here) -> l = l')).

Definition small_data (B : R) (x : @dataset xr_ops) : Prop := forall s r, In s (@samples xr_ops x) -> In (Fin r) (snd s) -> Rabs r <= B.

Lemma small_data_labels B nc nt (x : @dataset xr_ops) ls : @wf_dataset xr_ops nc nt x -> real_labels ls x -> small_data B x -> Forall (small B) ls.
Proof.
  intros W Hl H. apply Forall_forall. intros l Hin. apply Forall_forall. intros r Hr.
  assert (Hin' : In (map Fin l) (labels x)) by (unfold real_labels in Hl; rewrite Hl; now apply in_map).
  apply In_nth_error in Hin' as [i Hi].
  destruct (nth_error (feature_rows x) i) as [row|] eqn:E.
  - apply (H (row, map Fin l) r); [|now apply in_map]. eapply nth_error_In. apply pair_nth; eauto.
  - exfalso. apply nth_error_None in E. pose proof (nth_lt _ _ _ Hi) as Hlt.
    rewrite <- (wf_lengths _ _ _ W) in E. exact (Nat.lt_irrefl _ (Nat.lt_le_trans _ _ _ Hlt E)).
Qed.

Lemma gain_error_mono k n m B : (n <= m)%nat -> real_gain_error k n B <= real_gain_error k m B.
Proof.
  intros H. unfold real_gain_error. apply le_INR in H. pose proof (pos_INR k). apply Rmult_le_compat_r; [left; apply Rinv_0_lt_compat, pow_lt; lra|].
  apply Rmult_le_compat_r; [apply Rle_0_sqr|]. apply Rmult_le_compat_l; [apply Rmult_le_pos; lra|lra].
Qed.

Lemma follow {L L'} (mk : @dataset FO -> res L) (mk' : @dataset xr_ops -> res L') (cfg : @tree_config FO) (cfg' : @tree_config xr_ops)
    nc nt B e N margin (row : list f64) level d t :
  standard cfg -> standard cfg' -> tc_number_of_classes cfg = N.of_nat nt -> tc_number_of_classes cfg' = N.of_nat nt ->
  tc_max_levels cfg' = tc_max_levels cfg -> (Z.of_nat nt <= 2 ^ 40)%Z -> 0 <= e -> 2 * real_gain_error nt N B + 2 * (16 * INR nt * B * e) <= margin ->
  built mk cfg level d t -> forall x te, built mk' cfg' level x te ->
  @wf_dataset FO nc nt d -> @wf_dataset xr_ops nc nt x -> tracks e d x -> bounded_labels B d -> ordinary_table B d -> small_data B x ->
  (length (labels d) <= N)%nat -> clear_from margin nc nt (tc_max_levels cfg) level x te (map exact_value row) ->
  exists rest, map exact_question (@path FO L row t) = @path xr_ops L' (map exact_value row) te ++ rest /\
    (rest = [] \/ forall s s', In s (samples_like (map exact_value row) te x) -> In s' (samples_like (map exact_value row) te x) -> snd s = snd s').
Proof.
  intros Hs Hs' HK HK' Hm Hz He HM Bt.
  induction Bt as [level d s lf Es Est El|level d s fd td t f Es Est Ep Bt IHt Bf IHf]; intros x te Bx W Wx T Hb Ho Hsm HN HC.
  all: rewrite Hs, HK in Es; change (@find_best_split FO d (N.of_nat nt) = Ok s) in Es.
  all: inversion Bx as [? ? sx lx Esx Estx Elx|? ? sx fx tx tex fex Esx Estx Epx Btx Bfx]; subst.
  all: rewrite Hs', HK' in Esx; change (@find_best_split xr_ops x (N.of_nat nt) = Ok sx) in Esx.
  all: destruct (tracks_parts e nc nt d x W Wx T) as (Er & Ec & ls & Hl & Hn & Hlen).
  all: pose proof (small_data_labels B nc nt x ls Wx Hl Hsm) as HBl.
  all: assert (HM' : 2 * real_gain_error nt (length (labels d)) B + 2 * (16 * INR nt * B * e) <= margin)
    by (pose proof (gain_error_mono nt _ _ B HN); lra).
  - exists []. cbn. auto.
  - exfalso. destruct HC as [HC _]. specialize (HC 0%nat (bs_question sx) x ls eq_refl).
    assert (Hnode : at_node nc nt x [] (map exact_value row) x) by (split; [exact Wx|symmetry; apply answering_nil]).
    destruct (clear_same nc nt B e d x W Wx T Hb Ho Hz He ls Hl HBl margin (bs_question sx) s sx HM' (HC Hnode Hl) Es Esx) as (_ & _ & Hg).
    unfold stop_here in Est, Estx. apply orb_false_iff in Estx as [_ Estx]. rewrite Hm in Estx. rewrite Estx in Est. apply orb_true_iff in Est as [Est|Est]; [|discriminate].
    rewrite Hg in Est. discriminate.
  - destruct HC as [_ HC].
    assert (Hnode : at_node nc nt x [] (map exact_value row) x) by (split; [exact Wx|symmetry; apply answering_nil]).
    destruct (HC x Hnode) as [HC'|[HC'|HC']].
    + exfalso. cbn in HC'. unfold stop_here in Est. apply orb_false_iff in Est as [_ Est]. apply N.eqb_neq in Est. lia.
    + exfalso. pose proof (none_considered nc nt B e d x W Wx T Hb Ho Hz s HC' Es) as Hg.
      unfold stop_here in Est. apply orb_false_iff in Est as [Est _]. rewrite Est in Hg. discriminate.
    + eexists. split; [cbn [leaf_node path app]; reflexivity|]. right. intros s1 s2 H1 H2.
      unfold samples_like in H1, H2. apply filter_In in H1 as [H1 _]. apply filter_In in H2 as [H2 _].
      apply HC'; [destruct s1 as [a b]; exact (in_combine_r _ _ _ _ H1)|destruct s2 as [a b]; exact (in_combine_r _ _ _ _ H2)].
  - destruct HC as [HC1 HC2].
    assert (Hnode : at_node nc nt x [] (map exact_value row) x) by (split; [exact Wx|symmetry; apply answering_nil]).
    destruct (clear_same nc nt B e d x W Wx T Hb Ho Hz He ls Hl HBl margin (bs_question sx) s sx HM' (HC1 0%nat (bs_question sx) x ls eq_refl Hnode Hl) Es Esx) as (Eq & _ & _).
    destruct (partition_wf nc nt d _ fd td W Ep) as (_ & Wf & Wt & St & Sf).
    destruct (partition_wf nc nt x _ fx tx Wx Epx) as (_ & Wfx & Wtx & Stx & Sfx).
    assert (Ha : forall r : list f64, @answers xr_ops (bs_question sx) (map exact_value r) = @answers FO (bs_question s) r) by (intros r; rewrite <- Eq; apply exact_answers).
    assert (Sub : forall (p : list f64 * list f64 -> bool) (p' : list xr * list xr -> bool) (d' : @dataset FO) (x' : @dataset xr_ops),
      @wf_dataset FO nc nt d' -> @samples FO d' = filter p (@samples FO d) -> @samples xr_ops x' = filter p' (@samples xr_ops x) ->
      bounded_labels B d' /\ ordinary_table B d' /\ small_data B x' /\ (length (labels d') <= N)%nat).
    { intros p p' d' x' W' S1 S2.
      assert (Ll : (length (labels d') <= length (labels d))%nat).
      { assert (L1 : length (@samples FO d') = length (labels d')) by (unfold samples; rewrite combine_length, (wf_lengths _ _ _ W'); lia).
        assert (L2 : length (@samples FO d) = length (labels d)) by (unfold samples; rewrite combine_length, (wf_lengths _ _ _ W); lia).
        rewrite S1 in L1. rewrite <- L1, <- L2. apply filter_shorter. }
      split; [|split; [|split; [|lia]]].
      - intros l v Hin Hv. apply (Hb l v); auto.
        apply In_nth_error in Hin as [i Hi].
        assert (Hlt : (i < length (feature_rows d'))%nat) by (rewrite <- (wf_lengths _ _ _ W'); apply nth_error_Some; congruence).
        destruct (some_nth (feature_rows d') i Hlt) as (r & Hr).
        assert (Hin : In (r, l) (@samples FO d')) by (eapply nth_error_In; apply pair_nth; eauto).
        rewrite S1 in Hin. apply filter_In in Hin as [Hin _]. exact (in_combine_r _ _ _ _ Hin).
      - destruct Ho as [Ho1 Ho2]. split; [exact Ho1|]. lia.
      - intros s0 r Hin Hr. apply (Hsm s0 r); auto. rewrite S2 in Hin. now apply filter_In in Hin. }
    assert (Below : forall (b : bool) (tb : tree_node L') (xb : @dataset xr_ops), @answers xr_ops (bs_question sx) (map exact_value row) = b ->
      path (map exact_value row) (node_new (bs_question sx) tex fex) = bs_question sx :: path (map exact_value row) tb ->
      @samples xr_ops xb = filter (fun p => Bool.eqb (@answers xr_ops (bs_question sx) (fst p)) b) (@samples xr_ops x) ->
      clear_from margin nc nt (tc_max_levels cfg) (level + 1) xb tb (map exact_value row)).
    { intros b tb xb Eb Epath Sb.
      assert (Nd : forall qs here, at_node nc nt xb qs (map exact_value row) here -> at_node nc nt x (bs_question sx :: qs) (map exact_value row) here).
      { intros qs here [H1 H2]. split; [exact H1|]. rewrite answering_cons. change (@F xr_ops) with xr in *. rewrite Eb, H2, Sb. destruct b; f_equal; apply filter_ext; intros p;
          destruct (answers (bs_question sx) (fst p)); reflexivity. }
      split.
      - intros k q here ls' Hk Hh Hr. apply (HC1 (S k) q here ls'); auto; rewrite Epath; [exact Hk|]. cbn [firstn]. now apply Nd.
      - intros here Hh. rewrite Epath in HC2. specialize (HC2 here (Nd _ _ Hh)). cbn [length] in HC2. destruct HC2 as [HC2|HC2]; [left; lia|right; exact HC2]. }
    assert (Ea' := Ha row).
    destruct (@answers FO (bs_question s) row) eqn:Ea.
    + destruct (Sub _ _ td tx Wt St Stx) as (B1 & B2 & B3 & B4).
      assert (Ep1 : @path FO L row (node_new (bs_question s) t f) = bs_question s :: @path FO L row t) by (cbn [node_new path]; rewrite Ea; reflexivity).
      assert (Ep2 : @path xr_ops L' (map exact_value row) (node_new (bs_question sx) tex fex) = bs_question sx :: path (map exact_value row) tex)
        by (cbn [node_new path]; change (@F xr_ops) with xr; rewrite Ea'; reflexivity).
      assert (Sb : @samples xr_ops tx = filter (fun p => Bool.eqb (@answers xr_ops (bs_question sx) (fst p)) (@answers xr_ops (bs_question sx) (map exact_value row))) (@samples xr_ops x)).
      { rewrite Ea', Stx. apply filter_ext. intros p. destruct (answers (bs_question sx) (fst p)); reflexivity. }
      destruct (IHt tx tex Btx Wt Wtx) as (rest & E1 & E2); auto.
      { eapply tracks_filter; [|exact St|exact Stx|exact T]. intros s1 s2 Hf. exact (eq_trans (f_equal (@answers xr_ops (bs_question sx)) Hf) (Ha (fst s1))). }
      { apply (Below true); auto. now rewrite Sb, Ea'. }
      exists rest. rewrite Ep1, Ep2, (like_below _ _ _ _ _ _ Ep2 Sb). split; [|exact E2]. cbn [map app]. f_equal; [exact Eq|exact E1].
    + destruct (Sub _ _ fd fx Wf Sf Sfx) as (B1 & B2 & B3 & B4).
      assert (Ep1 : @path FO L row (node_new (bs_question s) t f) = bs_question s :: @path FO L row f) by (cbn [node_new path]; rewrite Ea; reflexivity).
      assert (Ep2 : @path xr_ops L' (map exact_value row) (node_new (bs_question sx) tex fex) = bs_question sx :: path (map exact_value row) fex)
        by (cbn [node_new path]; change (@F xr_ops) with xr; rewrite Ea'; reflexivity).
      assert (Sb : @samples xr_ops fx = filter (fun p => Bool.eqb (@answers xr_ops (bs_question sx) (fst p)) (@answers xr_ops (bs_question sx) (map exact_value row))) (@samples xr_ops x)).
      { rewrite Ea', Sfx. apply filter_ext. intros p. destruct (answers (bs_question sx) (fst p)); reflexivity. }
      destruct (IHf fx fex Bfx Wf Wfx) as (rest & E1 & E2); auto.
      { eapply tracks_filter; [|exact Sf|exact Sfx|exact T]. intros s1 s2 Hf. exact (f_equal negb (eq_trans (f_equal (@answers xr_ops (bs_question sx)) Hf) (Ha (fst s1)))). }
      { apply (Below false); auto. }
      exists rest. rewrite Ep1, Ep2, (like_below _ _ _ _ _ _ Ep2 Sb). split; [|exact E2]. cbn [map app]. f_equal; [exact Eq|exact E1].
Qed.
End Clear.
