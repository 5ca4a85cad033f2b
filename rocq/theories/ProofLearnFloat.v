(** Boosting learns the training labels up to rounding in binary64 when one feature tells the rows apart (C97). *)
From Coq Require Import Reals Lra Lia ZArith Permutation.
From Flocq Require Import Core.
From Flocq Require Import IEEE754.BinarySingleNaN.
From Verif Require Import Base Num F64 XR ModelCommon ModelTree ModelBoost Lib Spec SpecTree SpecExact SpecScore SpecPredict SpecFitFloat SpecInt SpecNear SpecLearn SpecError
  ProofReal ProofRound ProofError ProofData ProofSort ProofTree ProofTree3 ProofScore ProofBoost ProofBoost2 ProofLeaf ProofPredict ProofFitFloat
  ProofSplitExact ProofSplitExact2 ProofInt2 ProofInt4 ProofNear3 ProofClear ProofMse ProofLearn.
Local Open Scope R_scope.

(* ------------------------------------------------------------------ *)
(** ** What the leaf means capture *)

Section Capture.
Context {O : NumOps}.

(** Sum over the rows of the squared mean of their leaf. *)
Definition captured {L} (g : list F * list F -> R) (t : tree_node L) (d : dataset) : R :=
  Rsum (map (fun s => mean (map g (samples_like (fst s) t d)) * mean (map g (samples_like (fst s) t d))) (samples d)).

Lemma like_true {L} (q : question) (t f : tree_node L) d td (p : list F * list F) : samples td = filter (fun p => answers q (fst p)) (samples d) ->
  answers q (fst p) = true -> samples_like (fst p) (node_new q t f) d = samples_like (fst p) t td.
Proof. intros St Ha. unfold samples_like. simpl. rewrite Ha. rewrite St, filter_filter. apply filter_ext_In. intros z _. simpl. rewrite ?Ha. destruct (answers q (fst z)); reflexivity. Qed.

Lemma like_false {L} (q : question) (t f : tree_node L) d fd (p : list F * list F) : samples fd = filter (fun p => negb (answers q (fst p))) (samples d) ->
  answers q (fst p) = false -> samples_like (fst p) (node_new q t f) d = samples_like (fst p) f fd.
Proof. intros St Ha. unfold samples_like. simpl. rewrite Ha. rewrite St, filter_filter. apply filter_ext_In. intros z _. simpl. rewrite ?Ha. destruct (answers q (fst z)); reflexivity. Qed.

(** A sum over the rows of a node splits into those of its branches. *)
Lemma node_sum {L} (h : list F * list F -> list (list F * list F) -> R) (q : question) (t f : tree_node L) d fd td :
  samples td = filter (fun p => answers q (fst p)) (samples d) -> samples fd = filter (fun p => negb (answers q (fst p))) (samples d) ->
  Rsum (map (fun s => h s (samples_like (fst s) (node_new q t f) d)) (samples d)) =
  Rsum (map (fun s => h s (samples_like (fst s) t td)) (samples td)) + Rsum (map (fun s => h s (samples_like (fst s) f fd)) (samples fd)).
Proof.
  intros St Sf. rewrite (Rsum_split _ (fun p => answers q (fst p))), <- St, <- Sf. f_equal; apply Rsum_map_ext; intros p Hp.
  - rewrite St in Hp. apply filter_In in Hp as [Hp Ha]. now rewrite (like_true q t f d td p St Ha).
  - rewrite Sf in Hp. apply filter_In in Hp as [Hp Ha]. apply negb_true_iff in Ha. now rewrite (like_false q t f d fd p Sf Ha).
Qed.

Lemma leaf_like {L} q (l : L) d x : samples_like x (leaf_node q l) d = samples d.
Proof. apply filter_all. reflexivity. Qed.

Lemma shrink_exact {L} (mk : dataset -> res L) cfg nc nt (g : list F * list F -> R) (lr : R) level d t :
  built mk cfg level d t -> wf_dataset nc nt d ->
  Rsum (map (fun s => (g s - lr * mean (map g (samples_like (fst s) t d))) * (g s - lr * mean (map g (samples_like (fst s) t d)))) (samples d))
  = Rsum (map (fun s => g s * g s) (samples d)) - lr * (2 - lr) * captured g t d.
Proof.
  induction 1 as [level d s l Es Est El|level d s fd td t f Es Est Ep Bt IHt Bf IHf]; intros W.
  - unfold captured. set (xs := map g (samples d)).
    rewrite (Rsum_map_ext _ (fun s => (g s - lr * mean xs) * (g s - lr * mean xs))) by (intros x _; now rewrite leaf_like).
    rewrite (Rsum_map_ext (fun s0 => mean _ * _) (fun _ => mean xs * mean xs)) by (intros x _; now rewrite leaf_like).
    rewrite Rsum_map_const. replace (length (samples d)) with (length xs) by (unfold xs; apply map_length).
    rewrite <- (map_map g (fun y => (y - lr * mean xs) * (y - lr * mean xs))), <- (map_map g (fun y => y * y)). fold xs.
    change (dev (lr * mean xs) xs = sumsq xs - lr * (2 - lr) * (INR (length xs) * (mean xs * mean xs))). rewrite dev_expand. clearbody xs. destruct xs as [|x xs]; [cbn; lra|].
    assert (Hm : INR (length (x :: xs)) * mean (x :: xs) = Rsum (x :: xs)) by (apply mean_sum; discriminate).
    rewrite <- Hm. ring.
  - destruct (partition_wf nc nt d _ fd td W Ep) as (Hq & Wf & Wt & St & Sf).
    specialize (IHt Wt). specialize (IHf Wf). unfold captured in *.
    rewrite (node_sum (fun s l => (g s - lr * mean (map g l)) * (g s - lr * mean (map g l))) _ t f d fd td St Sf).
    rewrite (node_sum (fun s l => mean (map g l) * mean (map g l)) _ t f d fd td St Sf).
    rewrite (Rsum_split (fun s => g s * g s) (fun p => answers (bs_question s) (fst p))), <- St, <- Sf. rewrite IHt, IHf. ring.
Qed.

Lemma within_dev l : sumsq l = sse l + INR (length l) * (mean l * mean l).
Proof.
  unfold sse. rewrite dev_expand. destruct l as [|x l]; [cbn; lra|].
  assert (Hm : INR (length (x :: l)) * mean (x :: l) = Rsum (x :: l)) by (apply mean_sum; discriminate). rewrite <- Hm. ring.
Qed.

(** The rows' deviations from their leaf means are at most those from one mean. *)
Lemma captured_leaf {L} (mk : dataset -> res L) cfg nc nt (g : list F * list F -> R) level d t :
  built mk cfg level d t -> wf_dataset nc nt d -> sumsq (map g (samples d)) - captured g t d <= sse (map g (samples d)).
Proof.
  induction 1 as [level d s l Es Est El|level d s fd td t f Es Est Ep Bt IHt Bf IHf]; intros W.
  - unfold captured. rewrite (Rsum_map_ext _ (fun _ => mean (map g (samples d)) * mean (map g (samples d)))) by (intros x _; now rewrite leaf_like).
    rewrite Rsum_map_const, (within_dev (map g (samples d))), map_length. lra.
  - destruct (partition_wf nc nt d _ fd td W Ep) as (Hq & Wf & Wt & St & Sf).
    specialize (IHt Wt). specialize (IHf Wf). unfold captured in *.
    rewrite (node_sum (fun s l => mean (map g l) * mean (map g l)) _ t f d fd td St Sf).
    assert (HP : Permutation (map g (samples td) ++ map g (samples fd)) (map g (samples d))).
    { rewrite <- map_app, St, Sf. apply Permutation_map. symmetry. apply (Permutation_filter_split (fun p => answers (bs_question s) (fst p))). }
    rewrite <- (sse_perm _ _ HP).
    assert (Hs : sumsq (map g (samples d)) = sumsq (map g (samples td)) + sumsq (map g (samples fd))).
    { unfold sumsq. rewrite !map_map, (Rsum_split (fun s => g s * g s) (fun p => answers (bs_question s) (fst p))), <- St, <- Sf. reflexivity. }
    rewrite Hs. pose proof (sse_split (map g (samples td)) (map g (samples fd))). lra.
Qed.

(** The first question of a tree. *)
Lemma captured_node {L} (mk : dataset -> res L) cfg nc nt (g : list F * list F -> R) level q d fd td t f :
  built mk cfg level td t -> built mk cfg level fd f -> wf_dataset nc nt d -> partition d q = Ok (fd, td) ->
  sumsq (map g (samples d)) - captured g (node_new q t f) d <= sse (map g (samples td)) + sse (map g (samples fd)).
Proof.
  intros Bt Bf W Ep. destruct (partition_wf nc nt d _ fd td W Ep) as (Hq & Wf & Wt & St & Sf).
  pose proof (captured_leaf mk cfg nc nt g level td t Bt Wt). pose proof (captured_leaf mk cfg nc nt g level fd f Bf Wf). unfold captured in *.
  rewrite (node_sum (fun s l => mean (map g l) * mean (map g l)) _ t f d fd td St Sf).
  assert (Hs : sumsq (map g (samples d)) = sumsq (map g (samples td)) + sumsq (map g (samples fd))).
  { unfold sumsq. rewrite !map_map, (Rsum_split (fun s => g s * g s) (fun p => answers q (fst p))), <- St, <- Sf. reflexivity. }
  lra.
Qed.
End Capture.

(* ------------------------------------------------------------------ *)
(** ** The first question in binary64 *)

Section Root.
Context (P : platform).
Local Existing Instance f64_ops.
Local Remove Hints xr_ops : typeclass_instances.
Notation FO := (f64_ops P).

Definition entry (j : nat) (s : list f64 * list f64) : R := B2R (nth j (snd s) (B754_zero false)).

Lemma entry_target nc nt j (d : @dataset FO) : wf_dataset nc nt d -> target j (real_values d) = map (entry j) (samples d).
Proof.
  intros W. unfold target, real_values, samples. rewrite map_map. pose proof (wf_lengths _ _ _ W) as L. revert L. generalize (labels d), (feature_rows d).
  intros l rows. change (@F FO) with f64. revert l. induction rows as [|r rows IH]; intros [|x l] L; try discriminate; [reflexivity|].
  cbn. f_equal; [|apply IH; now injection L]. unfold entry. cbn [snd]. change 0 with (B2R (B754_zero false : f64)). exact (map_nth (fun x : f64 => B2R x) x (B754_zero false) j).
Qed.

Lemma eqb_t b : Bool.eqb b true = b. Proof. now destruct b. Qed.
Lemma eqb_f b : Bool.eqb b false = negb b. Proof. now destruct b. Qed.

Lemma exact_rows_answer (b : bool) (q : @question FO) (rows : list (list f64)) (l : list (list f64)) :
  labels_answering b (exact_question q) (map (map exact_value) rows) (map (map B2R) l) =
  map (fun s : list f64 * list f64 => map B2R (snd s)) (filter (fun p => Bool.eqb (@answers FO q (fst p)) b) (combine rows l)).
Proof.
  unfold labels_answering. revert l. induction rows as [|r rows IH]; intros [|x l]; try reflexivity. cbn [map combine filter fst].
  rewrite (exact_answers P q r). specialize (IH l). destruct (Bool.eqb (@answers FO q r) b); cbn [map snd]; [f_equal|]; exact IH.
Qed.

Lemma rv_samples nc nt (d : @dataset FO) : wf_dataset nc nt d -> real_values d = map (fun s => map B2R (snd s)) (samples d).
Proof.
  intros W. unfold real_values, samples. pose proof (wf_lengths _ _ _ W) as L. revert L. generalize (labels d), (feature_rows d).
  intros l rows. change (@F FO) with f64. revert l. induction rows as [|r rows IH]; intros [|x l] L; try discriminate; [reflexivity|]. cbn. f_equal. apply IH. now injection L.
Qed.

Lemma exact_parts nc nt (d : @dataset FO) q fd td : wf_dataset nc nt d -> partition d q = Ok (fd, td) ->
  labels_answering true (exact_question q) (feature_rows (exact_data d)) (real_values d) = real_values td /\
  labels_answering false (exact_question q) (feature_rows (exact_data d)) (real_values d) = real_values fd.
Proof.
  intros W Ep. destruct (partition_wf nc nt d _ fd td W Ep) as (Hq & Wf & Wt & St & Sf).
  rewrite (rv_samples _ _ td Wt), (rv_samples _ _ fd Wf), St, Sf. unfold real_values. cbn [feature_rows exact_data].
  rewrite !exact_rows_answer. unfold samples. split; f_equal; apply filter_ext; intros p; first [exact (eqb_t _)|exact (eqb_f _)].
Qed.

Section Near.
Context (nc nt : nat) (B : R) (d : @dataset FO) (W : wf_dataset nc nt d) (Hb : bounded_labels B d) (Ho : ordinary_table B d) (Hk : (Z.of_nat nt <= 2 ^ 40)%Z).
Let N := length (labels d).
Let err := real_gain_error nt N B.

Lemma root_near b j : find_best_split d (N.of_nat nt) = Ok b -> (j < nc)%nat -> tells_apart j (exact_data d) -> distinct_above_minimum (exact_data d) ->
  0 <= B2R (bs_gain b) /\ total_variance nt (real_values d) <= INR N * INR N * (B2R (bs_gain b) + err) /\
  (B2R (bs_gain b) = 0 \/
   B2R (bs_gain b) - err <= question_gain nt (exact_question (bs_question b)) (feature_rows (exact_data d)) (real_values d)).
Proof.
  intros E Hj Hkey Hd. destruct (split_near P B nc nt d W Hb Ho Hk b E) as (Fg & Hmax & Hcase). change (real_gain_error nt (@length (list f64) (labels d)) B) with err in Hmax, Hcase.
  pose proof (exact_wf P nc nt d W) as WX. pose proof (bounded_real_labels P B d Hb) as HX.
  assert (He : 0 <= err) by exact (err_nonneg P B nt d Ho).
  assert (H0 : 0 <= B2R (bs_gain b)) by (destruct Hcase as [->|[? _]]; [apply Rle_refl|lra]).
  split; [exact H0|]. split.
  - replace (INR N) with (INR (length (real_values d))) by (unfold real_values; now rewrite map_length).
    apply (apart_cuts nc nt (exact_data d) (real_values d) j); auto. lra.
  - destruct Hcase as [->|(Hg & j' & r & i & v & Hc & Eq & Hr)]; [left; reflexivity|right].
    rewrite Eq. rewrite (considered_once_gain nc nt (exact_data d) (real_values d) j' r i v WX HX Hc); [apply Rabs_le_inv in Hr; lra|].
    destruct Hc as [(col & Hcol & HS) (id & m & Hi & Hm & Hlt)].
    intros i1 i2 r1 r2 H1 H2 V1 V2. cbn [q_column q_value] in V1, V2. rewrite Nat2N.id in V1, V2.
    destruct (Nat.eq_dec i1 i2) as [|Hneq]; auto. exfalso.
    destruct r as [|m' r']; [discriminate|]. injection Hm as ->.
    destruct (sorted_entry_row nc nt (exact_data d) j' col _ m WX Hcol HS (or_introl eq_refl)) as (rm & Hrm & Hvm).
    exact (Hd j' i1 i2 r1 r2 v v (fst m) rm H1 H2 V1 V2 Hneq (nth_error_In _ _ Hrm) Hvm Hlt eq_refl).
Qed.

Lemma tsse_entries (e : @dataset FO) : wf_dataset nc nt e -> Rsum (map (fun j => sse (map (entry j) (samples e))) (seq 0 nt)) = tsse nt (real_values e).
Proof. intros We. unfold tsse. apply Rsum_map_ext. intros j _. now rewrite (entry_target nc nt j e We). Qed.

Lemma Rsum_map_minus {A} (f g : A -> R) l : Rsum (map (fun x => f x - g x) l) = Rsum (map f l) - Rsum (map g l).
Proof. induction l as [|a l IH]; cbn [map]; [cbn; lra|]. rewrite !Rsum_cons, IH. ring. Qed.

(** The leaf means capture a share [1 / N^2] of the squares, up to rounding. *)
Theorem root_captured {L} (mk : dataset -> res L) cfg t j : built mk cfg 0 d t -> standard cfg ->
  tc_number_of_classes cfg = N.of_nat nt -> tc_max_levels cfg <> 0%N -> (j < nc)%nat -> tells_apart j (exact_data d) -> distinct_above_minimum (exact_data d) ->
  Rsum (map (fun j => sumsq (map (entry j) (samples d))) (seq 0 nt)) / (INR N * INR N) - 2 * INR N * err
  <= Rsum (map (fun j => @captured FO L (entry j) t d) (seq 0 nt)).
Proof.
  intros Ht Hs Hc Hm Hj Hkey Hd.
  assert (HN : 1 <= INR N) by (apply (le_INR 1); exact (HN1 P nc nt d W)).
  assert (He : 0 <= err) by exact (err_nonneg P B nt d Ho).
  assert (LN : length (real_values d) = N) by (unfold real_values; now rewrite map_length).
  set (S := Rsum (map _ (seq 0 nt))). set (C := Rsum (map (fun j => @captured FO L (entry j) t d) (seq 0 nt))).
  assert (HS : INR N * total_variance nt (real_values d) <= S).
  { rewrite <- LN, tsse_total, <- (tsse_entries d W). unfold S. apply Rsum_map_le. intros i _. rewrite (within_dev (map _ _)).
    assert (0 <= INR (length (map (entry i) (samples d))) * (mean (map (entry i) (samples d)) * mean (map (entry i) (samples d)))); [|lra].
    apply Rmult_le_pos; [apply pos_INR|apply Rle_0_sqr]. }
  set (V := total_variance nt (real_values d)) in *. set (n := INR N) in *.
  assert (In2 : 0 < / (n * n) <= 1).
  { split; [apply Rinv_0_lt_compat; nra|]. rewrite <- Rinv_1. apply Rinv_le_contravar; nra. }
  assert (Key : forall q, V / (n * n) - 2 * err <= q -> S - C <= n * (V - q) -> S / (n * n) - 2 * n * err <= C).
  { intros q H1 H2. replace (S / (n * n)) with ((S - n * V) * / (n * n) + n * (V / (n * n))) by (field; lra).
    assert (A1 : (S - n * V) * / (n * n) <= (S - n * V) * 1) by (apply Rmult_le_compat_l; lra).
    assert (A2 : n * (V / (n * n) - 2 * err) <= n * q) by (apply Rmult_le_compat_l; lra). lra. }
  assert (Div : forall g, V <= n * n * g -> V / (n * n) <= g).
  { intros g Hg. apply Rmult_le_reg_r with (n * n); [nra|]. unfold Rdiv. rewrite Rmult_assoc, Rinv_l, Rmult_1_r by nra. lra. }
  inversion Ht as [level d' s lf Es Est El|level d' s fd td a b Es Est Ep Ba Bb]; subst.
  - unfold standard in Hs. rewrite Hs, Hc in Es. destruct (root_near s j Es Hj Hkey Hd) as (G0 & HV & _). fold V n in HV.
    unfold stop_here in Est. apply orb_true_iff in Est as [Est|Est]; [|apply N.eqb_eq in Est; congruence].
    assert (Eg : B2R (bs_gain s) = 0).
    { destruct (split_near P B nc nt d W Hb Ho Hk s Es) as (Fg & _). change (Beqb (bs_gain s) (B754_zero false : f64) = true) in Est. rewrite (Beqb_correct 53 1024 (bs_gain s) (B754_zero false) Fg eq_refl) in Est. revert Est. case Req_bool_spec; [intros Q _; exact Q|discriminate]. }
    rewrite Eg, Rplus_0_l in HV. apply (Key 0).
    + specialize (Div _ HV). lra.
    + rewrite Rminus_0_r. unfold n, V. rewrite <- LN, tsse_total, <- (tsse_entries d W). unfold S, C. rewrite <- Rsum_map_minus. apply Rsum_map_le. intros i _.
      exact (@captured_leaf FO L mk cfg nc nt (entry i) _ d _ Ht W).
  - unfold standard in Hs. rewrite Hs, Hc in Es. destruct (root_near s j Es Hj Hkey Hd) as (G0 & HV & HQ). fold V n in HV.
    pose proof (exact_wf P nc nt d W) as WX. pose proof (bounded_real_labels P B d Hb) as HX.
    pose proof (question_gain_nonneg nc nt (exact_data d) (real_values d) (exact_question (bs_question s)) WX HX) as Hq0.
    apply (Key (question_gain nt (exact_question (bs_question s)) (feature_rows (exact_data d)) (real_values d))).
    + specialize (Div _ HV). lra.
    + destruct (exact_parts nc nt d _ fd td W Ep) as [L1 L2]. unfold question_gain. rewrite L1, L2.
      destruct (partition_wf nc nt d _ fd td W Ep) as (_ & Wf & Wt & St & Sf).
      assert (HP : Permutation (real_values fd ++ real_values td) (real_values d)).
      { rewrite (rv_samples _ _ d W), (rv_samples _ _ td Wt), (rv_samples _ _ fd Wf), St, Sf, <- map_app.
        apply Permutation_map. rewrite Permutation_app_comm. symmetry. exact (Permutation_filter_split (fun p => answers (bs_question s) (fst p)) _). }
      rewrite remaining_tsse by (intros H0; rewrite H0 in HP; apply Permutation_nil in HP; rewrite HP in LN; cbn in LN; unfold n in HN; rewrite <- LN in HN; cbn in HN; lra).
      rewrite (Permutation_length HP), LN. fold n V.
      replace (n * (V - (V - (tsse nt (real_values fd) + tsse nt (real_values td)) / n))) with (tsse nt (real_values td) + tsse nt (real_values fd)) by (field; lra).
      rewrite <- (tsse_entries td Wt), <- (tsse_entries fd Wf), <- Rsum_map_plus. unfold S, C. rewrite <- Rsum_map_minus. apply Rsum_map_le. intros i _.
      exact (@captured_node FO L mk cfg nc nt (entry i) _ _ d fd td a b Ba Bb W Ep).
Qed.
End Near.

(* ------------------------------------------------------------------ *)
(** ** One iteration *)

(** Mean over the targets of the mean of the squared errors. *)
Definition mean_square_error (k : nat) (ls ps : list (list f64)) : R :=
  mean (map (fun j => mean (map (fun x => x * x) (errors j ls ps))) (seq 0 k)).


Lemma square_move (e M : R) xs ys : 0 <= e -> Forall2 (fun x y => Rabs (x - y) <= e) xs ys -> rms ys <= M ->
  mean (map (fun x => x * x) xs) <= mean (map (fun x => x * x) ys) + (2 * e * M + e * e).
Proof.
  intros He HF HM. pose proof (rms_move e xs ys He HF) as H. rewrite <- !rms_square. pose proof (rms_nonneg xs) as Q1. pose proof (rms_nonneg ys) as Q2.
  assert (A : rms xs * rms xs <= (rms ys + e) * (rms ys + e)) by (apply Rmult_le_compat; lra).
  assert (A2 : 2 * e * rms ys <= 2 * e * M) by (apply Rmult_le_compat_l; lra). lra.
Qed.

Lemma ulp1_val : ulp1 = bpow radix2 (-53). Proof. reflexivity. Qed.

Lemma mean_squares {A} (f : A -> R) (l : list A) : 0 < INR (length l) ->
  INR (length l) * mean (map (fun x => x * x) (map f l)) = Rsum (map (fun s => f s * f s) l).
Proof. intros H. rewrite map_map, mean_map. field. lra. Qed.

Lemma sub_le y c : 0 <= c -> y - c <= y.
Proof. intros H. lra. Qed.

Lemma abs_minus B a b : Rabs a <= B -> Rabs b <= B -> Rabs (a - b) <= 2 * B.
Proof. intros A A'. apply Rabs_le. apply Rabs_le_inv in A, A'. lra. Qed.

Lemma errors_small B j (ls ps : list (list f64)) : 0 <= B -> within B ls -> within B ps -> forall x, In x (errors j ls ps) -> Rabs x <= 2 * B.
Proof.
  intros HB Hl Hp x Hx. unfold errors in Hx. apply in_map_iff in Hx as ([l q] & <- & Hin). cbn [fst snd].
  destruct (within_nth B ls l j HB Hl (in_combine_l _ _ _ _ Hin)) as [_ A]. destruct (within_nth B ps q j HB Hp (in_combine_r _ _ _ _ Hin)) as [_ A'].
  exact (abs_minus _ _ _ A A').
Qed.

Lemma captured_nonneg {O : NumOps} {L} g (t : tree_node L) d : 0 <= captured g t d.
Proof. unfold captured. apply Rsum_nonneg. intros x Hx. apply in_map_iff in Hx as (s & <- & _). apply Rle_0_sqr. Qed.

Lemma learn_numbers sA sE sU sG sC err n k c B u :
  0 <= c <= 1 -> 1 <= n -> n <= 2 ^ 20 -> 1 <= k -> 0 < u -> u = bpow radix2 (-53) * B -> 0 < B ->
  err = 2880 * (k + 1) * (k + n) * (B * u) ->
  n * sU = n * sG - c * sC ->
  sA <= sU + k * (2 * ((24 * n + 49) * u) * (3 * B) + (24 * n + 49) * u * ((24 * n + 49) * u)) ->
  sG <= sE + k * (2 * (3 * u) * (2 * B) + 3 * u * (3 * u)) ->
  n * sG / (n * n) - 2 * n * err <= sC ->
  sA / k <= (1 - c / (n * n)) * (sE / k) + bpow radix2 (-39) * (k + n) * (B * B).
Proof.
  intros C0 N1 N20 K1 U1 Eu B0 Err TT TA TG HC.
  assert (E53 : bpow radix2 (-39) = 16384 * bpow radix2 (-53)) by (change 16384 with (bpow radix2 14); rewrite <- bpow_plus; reflexivity).
  assert (S53 : bpow radix2 (-53) <= / 1000000000).
  { change (bpow radix2 (-53)) with (/ 9007199254740992). apply Rinv_le_contravar; lra. }
  assert (A : (24 * n + 49) * u <= B).
  { rewrite Eu, <- Rmult_assoc. rewrite <- (Rmult_1_l B) at 2. apply Rmult_le_compat_r; [lra|].
    apply Rle_trans with (26000000 * / 1000000000); [|lra]. pose proof (bpow_ge_0 radix2 (-53)). apply Rmult_le_compat; try lra. }
  set (a := (24 * n + 49) * u) in *. assert (a0 : 0 <= a) by (apply Rmult_le_pos; lra).
  assert (u3 : 3 * u <= B) by (unfold a in A; nra).
  assert (A2 : a * a <= a * B) by (apply Rmult_le_compat_l; lra).
  assert (A3 : 3 * u * (3 * u) <= 3 * u * B) by (apply Rmult_le_compat_l; lra).
  assert (uB : 0 < B * u) by (apply Rmult_lt_0_compat; lra).
  assert (Q2 : 0 <= / (n * n) <= 1).
  { split; [left; apply Rinv_0_lt_compat; nra|]. rewrite <- Rinv_1. apply Rinv_le_contravar; nra. }
  assert (Q : 0 <= c / (n * n) <= 1) by (unfold Rdiv; nra).
  assert (HU : sU <= (1 - c / (n * n)) * sG + 2 * err).
  { assert (D : sU = sG - c * sC / n) by (apply Rmult_eq_reg_l with n; [|lra]; rewrite TT; field; lra).
    assert (e0 : 0 <= err) by (rewrite Err; repeat apply Rmult_le_pos; lra).
    assert (D2 : c * (n * sG / (n * n) - 2 * n * err) / n <= c * sC / n).
    { apply Rmult_le_compat_r; [left; apply Rinv_0_lt_compat; lra|]. apply Rmult_le_compat_l; lra. }
    replace (c * (n * sG / (n * n) - 2 * n * err) / n) with (c / (n * n) * sG - 2 * (c * err)) in D2 by (field; lra).
    assert (D3 : c * err <= 1 * err) by (apply Rmult_le_compat_r; lra). lra. }
  assert (HG : (1 - c / (n * n)) * sG <= (1 - c / (n * n)) * sE + k * (15 * (B * u))).
  { eapply Rle_trans; [apply Rmult_le_compat_l; [lra|exact TG]|]. rewrite Rmult_plus_distr_l. apply Rplus_le_compat_l.
    rewrite <- (Rmult_1_l (k * (15 * (B * u)))). assert (0 <= u * u) by (apply Rle_0_sqr).
    apply Rmult_le_compat; try lra; [apply Rmult_le_pos; lra|apply Rmult_le_compat_l; lra]. }
  assert (HA : k * (2 * a * (3 * B) + a * a) <= k * (7 * (a * B))) by (apply Rmult_le_compat_l; lra).
  apply Rmult_le_reg_r with k; [lra|]. unfold Rdiv at 1. rewrite Rmult_assoc, Rinv_l, Rmult_1_r by lra.
  replace (((1 - c / (n * n)) * (sE / k) + bpow radix2 (-39) * (k + n) * (B * B)) * k) with ((1 - c / (n * n)) * sE + k * (16384 * (k + n) * (B * u)))
    by (rewrite E53, Eu; field; lra).
  assert (Fin : k * (15 * (B * u)) + 2 * err + k * (7 * (a * B)) <= k * (16384 * (k + n) * (B * u))).
  { rewrite Err. unfold a. replace (k * (15 * (B * u)) + 2 * (2880 * (k + 1) * (k + n) * (B * u)) + k * (7 * ((24 * n + 49) * u * B)))
      with ((k * 15 + 5760 * ((k + 1) * (k + n)) + k * (168 * n + 343)) * (B * u)) by ring.
    replace (k * (16384 * (k + n) * (B * u))) with (k * (16384 * (k + n)) * (B * u)) by ring. apply Rmult_le_compat_r; [lra|].
    assert (P1 : (k + 1) * (k + n) <= 2 * k * (k + n)) by (apply Rmult_le_compat_r; lra).
    assert (P2 : 0 <= k * (k + n - 2)) by (apply Rmult_le_pos; lra). assert (P3 : 0 <= k * n) by (apply Rmult_le_pos; lra). assert (P4 : 0 <= k * k) by (apply Rmult_le_pos; lra). lra. }
  lra.
Qed.

Theorem learn_float_step nc nt (d : @dataset FO) cfg n (lr : f64) (m : regression_boost_model) k B ps j :
  wf_dataset nc nt d -> (0 < nt)%nat -> (Z.of_nat nt <= 2 ^ 40)%Z -> (Z.of_nat (length (labels d)) <= 2 ^ 20)%Z -> is_finite lr = true -> 0 <= B2R lr <= 2 ->
  standard cfg -> tc_number_of_classes cfg = N.of_nat nt -> tc_max_levels cfg <> 0%N ->
  (j < nc)%nat -> tells_apart j (exact_data d) -> distinct_above_minimum (exact_data d) ->
  bpow radix2 (-400) <= B <= bpow radix2 398 -> within B (labels d) ->
  regression_boost_train d cfg n lr = Ok m -> (k < n)%nat ->
  regression_boost_all_predictions (first_trees k m) d = Ok ps -> within B ps ->
  exists ps', regression_boost_all_predictions (first_trees (S k) m) d = Ok ps' /\
    mean_square_error nt (labels d) ps' <=
    (1 - B2R lr * (2 - B2R lr) / (INR (length (labels d)) * INR (length (labels d)))) * mean_square_error nt (labels d) ps +
    bpow radix2 (-39) * (INR nt + INR (length (labels d))) * (B * B).
Proof.
  intros W Hnt Hk HN Fl Hlr Hs Hc Hm Hj Hkey Hd HB HL E Hkn Eps Hps.
  assert (HB4 : bpow radix2 (-400) <= B <= bpow radix2 400) by (split; [lra|]; eapply Rle_trans; [apply HB|apply bpow_le; lia]).
  destruct (step_near P nc nt d cfg n lr m k B ps W ltac:(lia) Fl Hlr HB4 HL E Hkn Eps Hps) as (ps' & t & Eps' & Eb & WD & HDw & LD & L1 & L2 & _ & HE).
  exists ps'. split; [exact Eps'|]. set (D := mkDS (feature_rows d) (differences (labels d) ps) (feature_columns d)) in *.
  pose proof (uB_small B HB4) as [U1 U2]. pose proof (B_pos B HB4) as B0.
  set (N := length (labels d)) in *.
  assert (N1 : 1 <= INR N) by (apply (le_INR 1); exact (HN1 P nc nt d W)).
  assert (N20 : INR N <= 2 ^ 20).
  { rewrite INR_IZR_INZ. replace (2 ^ 20) with (IZR (2 ^ 20)) by (rewrite (pow_IZR 2 20); reflexivity). apply IZR_le. exact HN. }
  assert (K1 : 1 <= INR nt) by (apply (le_INR 1); lia).
  rewrite grad_boost_tree_new_eq in Eb. apply build_with_built in Eb.
  (* the residual table *)
  assert (Hb : bounded_labels (3 * B) D).
  { intros l x Hl Hx. exact (proj1 (Forall_forall _ _) (proj1 (Forall_forall _ _) HDw l Hl) x Hx). }
  assert (Ho : ordinary_table (3 * B) D).
  { split; [|unfold D, N in *; change (@F FO) with f64 in *; cbn [labels] in LD |- *; rewrite LD; exact HN].
    assert (E4 : forall e, (0 <= e)%Z -> bpow radix2 e = 2 ^ Z.to_nat e).
    { intros e He. rewrite (bpow_powerRZ radix2 e), <- (Z2Nat.id e) at 1 by lia. rewrite <- pow_powerRZ. reflexivity. }
    replace (2 ^ 400) with (bpow radix2 400) by (rewrite E4 by lia; reflexivity). rewrite <- bpow_opp. change (- (400))%Z with (-400)%Z.
    split; [lra|]. apply Rle_trans with (bpow radix2 2 * bpow radix2 398); [change (bpow radix2 2) with 4; lra|rewrite <- bpow_plus; apply bpow_le; lia]. }
  pose proof (root_captured nc nt (3 * B) D WD Hb Ho Hk _ cfg t j Eb Hs Hc Hm Hj Hkey Hd) as HC.
  assert (LS : length (samples D) = N) by (unfold samples; rewrite combine_length; pose proof (wf_lengths _ _ _ WD) as Q; change (@F FO) with f64 in *; lia).
  assert (LDN : length (labels D) = N) by exact LD. rewrite LDN in HC.
  set (err := real_gain_error nt N (3 * B)) in *. set (nn := INR N) in *. set (l := B2R lr) in *.
  assert (C0 : 0 <= l * (2 - l) <= 1).
  { split; [apply Rmult_le_pos; lra|]. pose proof (Rle_0_sqr (1 - l)) as Q. unfold Rsqr in Q. lra. }
  set (c0 := l * (2 - l)) in *.
  set (e1 := (24 * nn + 49) * (ulp1 * B)) in *. set (e2 := 3 * (ulp1 * B)) in *.
  assert (e10 : 0 <= e1) by (apply Rmult_le_pos; lra).
  set (Q := fun xs : list R => mean (map (fun x => x * x) xs)).
  set (up := fun i => map (fun s => entry i s - l * mean (map (entry i) (@samples_like FO _ (fst s) t D))) (samples D)).
  assert (T : forall i, (i < nt)%nat -> nn * Q (up i) = nn * Q (map (entry i) (samples D)) - c0 * @captured FO _ (entry i) t D /\
    Q (errors i (labels d) ps') <= Q (up i) + (2 * e1 * (3 * B) + e1 * e1) /\
    Q (map (entry i) (samples D)) <= Q (errors i (labels d) ps) + (2 * e2 * (2 * B) + e2 * e2)).
  { intros i Hi. destruct (HE i Hi) as [E1 E2].
    pose proof (@shrink_exact FO _ _ cfg nc nt (entry i) l 0%N D t Eb WD) as SE.
    assert (SQ : nn * Q (up i) = nn * Q (map (entry i) (samples D)) - c0 * @captured FO _ (entry i) t D).
    { assert (HP : 0 < INR (length (samples D))) by (rewrite LS; fold nn; lra).
      pose proof (mean_squares (fun s => entry i s - l * mean (map (entry i) (@samples_like FO _ (fst s) t D))) (samples D) HP) as M1.
      pose proof (mean_squares (entry i) (samples D) HP) as M2. unfold nn. rewrite <- LS.
      exact (eq_trans M1 (eq_trans SE (f_equal2 Rminus (eq_sym M2) eq_refl))). }
    assert (R3 : rms (map (entry i) (samples D)) <= 3 * B).
    { apply rms_bound; [|lra]. intros x Hx. apply in_map_iff in Hx as ([r v] & <- & Hin). unfold entry. cbn [snd].
      apply (within_nth (3 * B) (labels D) v i); [lra|exact HDw|exact (in_combine_r _ _ _ _ Hin)]. }
    split; [exact SQ|]. split.
    - apply square_move; [exact e10|exact E1|]. eapply Rle_trans; [|exact R3]. apply rms_le; [unfold up; now rewrite !map_length|].
      unfold up. rewrite !map_map. pose proof (@captured_nonneg FO _ (entry i) t D) as CN.
      assert (0 <= c0 * @captured FO _ (entry i) t D) by (apply Rmult_le_pos; lra). eapply Rle_trans; [apply Req_le; exact SE|]. exact (sub_le _ _ H).
    - apply square_move; [unfold e2; lra|exact E2|]. apply rms_bound; [|lra]. apply errors_small; auto. lra. }
  set (tot := fun f : nat -> R => Rsum (map f (seq 0 nt))).
  assert (TT : nn * tot (fun i => Q (up i)) = nn * tot (fun i => Q (map (entry i) (samples D))) - c0 * tot (fun i => @captured FO _ (entry i) t D)).
  { unfold tot. rewrite <- !Rsum_map_mult, <- Rsum_map_minus. apply Rsum_map_ext. intros i Hi. apply in_seq in Hi. exact (proj1 (T i ltac:(lia))). }
  assert (TA : tot (fun i => Q (errors i (labels d) ps')) <= tot (fun i => Q (up i)) + INR nt * (2 * e1 * (3 * B) + e1 * e1)).
  { unfold tot. rewrite <- (seq_length nt 0) at 3. rewrite <- (Rsum_map_const _ (seq 0 nt)), <- Rsum_map_plus. apply Rsum_map_le.
    intros i Hi. apply in_seq in Hi. exact (proj1 (proj2 (T i ltac:(lia)))). }
  assert (TG : tot (fun i => Q (map (entry i) (samples D))) <= tot (fun i => Q (errors i (labels d) ps)) + INR nt * (2 * e2 * (2 * B) + e2 * e2)).
  { unfold tot. rewrite <- (seq_length nt 0) at 3. rewrite <- (Rsum_map_const _ (seq 0 nt)), <- Rsum_map_plus. apply Rsum_map_le.
    intros i Hi. apply in_seq in Hi. exact (proj2 (proj2 (T i ltac:(lia)))). }
  assert (HC2 : nn * tot (fun i => Q (map (entry i) (samples D))) / (nn * nn) - 2 * nn * err <= tot (fun i => @captured FO _ (entry i) t D)).
  { eapply Rle_trans; [|exact HC]. apply Req_le. do 2 f_equal. unfold tot. rewrite <- Rsum_map_mult. apply Rsum_map_ext. intros i _.
    assert (HP : 0 < INR (length (samples D))) by (rewrite LS; fold nn; lra).
    pose proof (mean_squares (entry i) (samples D) HP) as M2. unfold sumsq, nn. rewrite <- LS, map_map. exact M2. }
  unfold mean_square_error. rewrite !mean_map, seq_length. fold nn.
  change (tot (fun i => Q (errors i (labels d) ps')) / INR nt <= (1 - c0 / (nn * nn)) * (tot (fun i => Q (errors i (labels d) ps)) / INR nt) + bpow radix2 (-39) * (INR nt + nn) * (B * B)).
  set (sA := tot (fun i => Q (errors i (labels d) ps'))) in *. set (sE := tot (fun i => Q (errors i (labels d) ps))) in *.
  set (sU := tot (fun i => Q (up i))) in *. set (sG := tot (fun i => Q (map (entry i) (samples D)))) in *. set (sC := tot _) in HC2, TT.
  assert (Err : err = 2880 * (INR nt + 1) * (INR nt + nn) * (B * (ulp1 * B))) by (unfold err; rewrite real_gain_error_alt; fold nn; ring).
  clearbody sA sE sU sG sC err. clear - TT TA TG HC2 Err C0 N1 N20 K1 U1 U2 B0 e10 e1 e2.
  exact (learn_numbers sA sE sU sG sC err nn (INR nt) c0 B (ulp1 * B) C0 N1 N20 K1 U1 eq_refl B0 Err TT TA TG HC2).
Qed.

(* ------------------------------------------------------------------ *)
(** ** A whole run *)

Lemma recurrence (q r : R) (e : nat -> R) n : 0 <= q <= 1 -> 0 <= r -> (forall i, (i < n)%nat -> e (S i) <= (1 - q) * e i + r) ->
  forall k, (k <= n)%nat -> e k <= (1 - q) ^ k * e 0%nat + INR k * r /\ q * (e k - (1 - q) ^ k * e 0%nat) <= r.
Proof.
  intros Hq Hr H. induction k as [|k IH]; intros Hk; [cbn; lra|]. destruct (IH ltac:(lia)) as [A1 A2]. specialize (H k ltac:(lia)).
  rewrite S_INR. cbn [pow]. set (x := (1 - q) ^ k * e 0%nat) in *. split.
  - assert (B1 : (1 - q) * e k <= (1 - q) * (x + INR k * r)) by (apply Rmult_le_compat_l; lra).
    assert (B2 : (1 - q) * (INR k * r) <= 1 * (INR k * r)) by (apply Rmult_le_compat_r; [apply Rmult_le_pos; [apply pos_INR|lra]|lra]).
    unfold x in *. lra.
  - assert (B1 : (1 - q) * (q * (e k - x)) <= (1 - q) * r) by (apply Rmult_le_compat_l; lra).
    assert (B2 : q * e (S k) <= q * ((1 - q) * e k + r)) by (apply Rmult_le_compat_l; lra).
    unfold x in *. lra.
Qed.

Theorem learn_float_run nc nt (d : @dataset FO) cfg n (lr : f64) (m : regression_boost_model) B j :
  let N := length (labels d) in let B' := (1 + 4 * sqrt (INR N)) * B in
  let c := B2R lr * (2 - B2R lr) / (INR N * INR N) in let r := bpow radix2 (-39) * (INR nt + INR N) * (B' * B') in
  wf_dataset nc nt d -> (0 < nt)%nat -> (Z.of_nat nt <= 2 ^ 40)%Z -> (Z.of_nat N <= 2 ^ 20)%Z -> is_finite lr = true -> 0 <= B2R lr <= 2 ->
  standard cfg -> tc_number_of_classes cfg = N.of_nat nt -> tc_max_levels cfg <> 0%N ->
  (j < nc)%nat -> tells_apart j (exact_data d) -> distinct_above_minimum (exact_data d) ->
  bpow radix2 (-400) <= B <= bpow radix2 300 -> within B (labels d) ->
  regression_boost_train d cfg n lr = Ok m -> INR n * (bpow radix2 (-48) * INR (N + 2) * B') <= B ->
  exists ps0, regression_boost_all_predictions (first_trees 0 m) d = Ok ps0 /\
    forall k, (k <= n)%nat -> exists ps, regression_boost_all_predictions (first_trees k m) d = Ok ps /\ within B' ps /\
      mean_square_error nt (labels d) ps <= (1 - c) ^ k * mean_square_error nt (labels d) ps0 + INR k * r /\
      (0 < c -> mean_square_error nt (labels d) ps <= (1 - c) ^ k * mean_square_error nt (labels d) ps0 + r / c).
Proof.
  intros N B' c r W Hnt Hk HN Fl Hlr Hs Hc Hm Hj Hkey Hd HB HL E Hn.
  assert (Run : forall k, (k <= n)%nat -> exists ps, regression_boost_all_predictions (first_trees k m) d = Ok ps /\ within B' ps).
  { intros k Hkn. destruct (boosting_run P nc nt d cfg n lr m B k W ltac:(lia) Fl Hlr HB HL E Hn Hkn) as (ps & A1 & A2 & _). eauto. }
  assert (N1 : (1 <= N)%nat) by exact (HN1 P nc nt d W). assert (N1' : 1 <= INR N) by now apply (le_INR 1).
  destruct (sqrt_count N N1 ltac:(lia)) as [Q1 Q2].
  assert (B0 : 0 < B) by (pose proof (bpow_gt_0 radix2 (-400)); lra).
  assert (HBB : B <= B') by (unfold B'; replace B with (1 * B) at 1 by ring; apply Rmult_le_compat_r; lra).
  assert (HB' : bpow radix2 (-400) <= B' <= bpow radix2 398).
  { split; [lra|]. unfold B'. apply Rle_trans with (bpow radix2 23 * bpow radix2 300); [|rewrite <- bpow_plus; apply bpow_le; lia].
    apply Rmult_le_compat; try lra. replace (bpow radix2 23) with (8 * bpow radix2 20) by (change 23%Z with (3 + 20)%Z; rewrite bpow_plus; reflexivity). lra. }
  assert (HL' : within B' (labels d)).
  { eapply Forall_impl; [|exact HL]. intros v Hv. eapply Forall_impl; [|exact Hv]. intros x [Fx Bx]. split; [exact Fx|lra]. }
  set (e := fun k => match regression_boost_all_predictions (first_trees k m) d with Ok ps => mean_square_error nt (labels d) ps | _ => 0 end).
  assert (Hq : 0 <= c <= 1).
  { assert (C0 : 0 <= B2R lr * (2 - B2R lr) <= 1).
    { split; [apply Rmult_le_pos; lra|]. pose proof (Rle_0_sqr (1 - B2R lr)) as Q. unfold Rsqr in Q. lra. }
    assert (I2 : 0 <= / (INR N * INR N) <= 1).
    { split; [left; apply Rinv_0_lt_compat; nra|]. rewrite <- Rinv_1. apply Rinv_le_contravar; nra. }
    unfold c, Rdiv. split; [apply Rmult_le_pos; lra|]. rewrite <- (Rmult_1_l 1). apply Rmult_le_compat; lra. }
  assert (Hr : 0 <= r).
  { unfold r. pose proof (pos_INR nt). repeat apply Rmult_le_pos; try lra. apply bpow_ge_0. }
  assert (Step : forall i, (i < n)%nat -> e (S i) <= (1 - c) * e i + r).
  { intros i Hi. destruct (Run i ltac:(lia)) as (ps & Eps & Hps).
    destruct (learn_float_step nc nt d cfg n lr m i B' ps j W Hnt Hk HN Fl Hlr Hs Hc Hm Hj Hkey Hd HB' HL' E Hi Eps Hps) as (ps' & Eps' & H).
    unfold e. rewrite Eps, Eps'. exact H. }
  pose proof (recurrence c r e n Hq Hr Step) as Rec.
  destruct (Run 0%nat ltac:(lia)) as (ps0 & Eps0 & _). exists ps0. split; [exact Eps0|]. intros k Hkn.
  destruct (Run k Hkn) as (ps & Eps & Hps). exists ps. split; [exact Eps|]. split; [exact Hps|]. destruct (Rec k Hkn) as [R1 R2]. unfold e in R1, R2. rewrite Eps, Eps0 in R1, R2.
  split; [exact R1|]. intros Hcp. apply Rmult_le_reg_l with c; [exact Hcp|]. rewrite Rmult_plus_distr_l.
  replace (c * (r / c)) with r by (field; lra). lra.
Qed.

(* ------------------------------------------------------------------ *)
(** ** The score *)

Lemma mse_rows k (ls ps : list (list f64)) : mean_square_error k ls ps = mean_squared_error k (map (map B2R) ps) (map (map B2R) ls).
Proof.
  unfold mean_square_error, mean_squared_error.
  assert (E : map (fun p => row_error k (fst p) (snd p)) (combine (map (map B2R) ps) (map (map B2R) ls)) =
    map (fun q : list f64 * list f64 => mean (map (fun j => (B2R (nth j (fst q) (B754_zero false)) - B2R (nth j (snd q) (B754_zero false))) *
      (B2R (nth j (fst q) (B754_zero false)) - B2R (nth j (snd q) (B754_zero false)))) (seq 0 k))) (combine ls ps)).
  { revert ls. induction ps as [|p ps IH]; intros [|x l]; try reflexivity. cbn [map combine fst snd]. f_equal; [|apply IH].
    unfold row_error. f_equal. apply map_ext. intros j. 
    assert (G : forall y : list f64, nth j (map B2R y) 0 = B2R (nth j y (B754_zero false))) by (intros y; exact (map_nth (fun v : f64 => B2R v) y (B754_zero false) j)).
    rewrite (G p), (G x). ring. }
  rewrite E, (mean_map _ (combine ls ps)), mean_map.
  set (h := fun (j : nat) (q : list f64 * list f64) => (B2R (nth j (fst q) (B754_zero false)) - B2R (nth j (snd q) (B754_zero false))) *
      (B2R (nth j (fst q) (B754_zero false)) - B2R (nth j (snd q) (B754_zero false)))).
  rewrite (Rsum_map_ext _ (fun j => / INR (length (combine ls ps)) * Rsum (map (h j) (combine ls ps)))).
  2:{ intros j _. unfold errors. rewrite map_map, mean_map. unfold Rdiv. rewrite Rmult_comm. reflexivity. }
  rewrite Rsum_map_mult.
  rewrite (Rsum_map_ext _ (fun q => / INR (length (seq 0 k)) * Rsum (map (fun j => h j q) (seq 0 k))) (combine ls ps)).
  2:{ intros q _. rewrite mean_map. unfold Rdiv. rewrite Rmult_comm. reflexivity. }
  rewrite Rsum_map_mult, (Rsum_swap h). unfold Rdiv. ring.
Qed.

Notation real := (map (map B2R)).

Theorem learn_float_step' nc nt (d : @dataset FO) cfg n (lr : f64) (m : regression_boost_model) k B ps j :
  let N := length (labels d) in
  wf_dataset nc nt d -> (0 < nt)%nat -> (Z.of_nat nt <= 2 ^ 40)%Z -> (Z.of_nat N <= 2 ^ 20)%Z -> is_finite lr = true -> 0 <= B2R lr <= 2 ->
  standard cfg -> tc_number_of_classes cfg = N.of_nat nt -> tc_max_levels cfg <> 0%N ->
  (j < nc)%nat -> tells_apart j (exact_data d) -> distinct_above_minimum (exact_data d) ->
  bpow radix2 (-400) <= B <= bpow radix2 398 -> within B (labels d) ->
  regression_boost_train d cfg n lr = Ok m -> (k < n)%nat ->
  regression_boost_all_predictions (first_trees k m) d = Ok ps -> within B ps ->
  exists ps', regression_boost_all_predictions (first_trees (S k) m) d = Ok ps' /\
    mean_squared_error nt (real ps') (real (labels d)) <=
    (1 - B2R lr * (2 - B2R lr) / (INR N * INR N)) * mean_squared_error nt (real ps) (real (labels d)) + bpow radix2 (-39) * (INR nt + INR N) * (B * B).
Proof.
  intros N W Hnt Hk HN Fl Hlr Hs Hc Hm Hj Hkey Hd HB HL E Hkn Eps Hps.
  destruct (learn_float_step nc nt d cfg n lr m k B ps j W Hnt Hk HN Fl Hlr Hs Hc Hm Hj Hkey Hd HB HL E Hkn Eps Hps) as (ps' & Eps' & H).
  exists ps'. split; [exact Eps'|]. rewrite !mse_rows in H. exact H.
Qed.

Theorem learn_float_run' nc nt (d : @dataset FO) cfg n (lr : f64) (m : regression_boost_model) B j :
  let N := length (labels d) in let B' := (1 + 4 * sqrt (INR N)) * B in
  let c := B2R lr * (2 - B2R lr) / (INR N * INR N) in let r := bpow radix2 (-39) * (INR nt + INR N) * (B' * B') in
  wf_dataset nc nt d -> (0 < nt)%nat -> (Z.of_nat nt <= 2 ^ 40)%Z -> (Z.of_nat N <= 2 ^ 20)%Z -> is_finite lr = true -> 0 <= B2R lr <= 2 ->
  standard cfg -> tc_number_of_classes cfg = N.of_nat nt -> tc_max_levels cfg <> 0%N ->
  (j < nc)%nat -> tells_apart j (exact_data d) -> distinct_above_minimum (exact_data d) ->
  bpow radix2 (-400) <= B <= bpow radix2 300 -> within B (labels d) ->
  regression_boost_train d cfg n lr = Ok m -> INR n * (bpow radix2 (-48) * INR (N + 2) * B') <= B ->
  exists ps0, regression_boost_all_predictions (first_trees 0 m) d = Ok ps0 /\
    let e0 := mean_squared_error nt (real ps0) (real (labels d)) in
    forall k, (k <= n)%nat -> exists ps, regression_boost_all_predictions (first_trees k m) d = Ok ps /\
      let e := mean_squared_error nt (real ps) (real (labels d)) in
      e <= (1 - c) ^ k * e0 + INR k * r /\ (0 < c -> e <= (1 - c) ^ k * e0 + r / c).
Proof.
  intros N B' c r W Hnt Hk HN Fl Hlr Hs Hc Hm Hj Hkey Hd HB HL E Hn.
  destruct (learn_float_run nc nt d cfg n lr m B j W Hnt Hk HN Fl Hlr Hs Hc Hm Hj Hkey Hd HB HL E Hn) as (ps0 & E0 & H).
  exists ps0. split; [exact E0|]. intros e0 k Hkn. destruct (H k Hkn) as (ps & Ek & _ & R1 & R2). exists ps. split; [exact Ek|].
  rewrite !mse_rows in R1, R2. exact (conj R1 R2).
Qed.

Theorem learn_float_score nc nt (d : @dataset FO) cfg n (lr : f64) (m : regression_boost_model) B j :
  let N := length (labels d) in let B' := (1 + 4 * sqrt (INR N)) * B in
  let c := B2R lr * (2 - B2R lr) / (INR N * INR N) in let r := bpow radix2 (-39) * (INR nt + INR N) * (B' * B') in
  accurate_square P ->
  wf_dataset nc nt d -> (0 < nt)%nat -> (Z.of_nat nt <= 2 ^ 40)%Z -> (Z.of_nat N <= 2 ^ 20)%Z -> is_finite lr = true -> 0 <= B2R lr <= 2 ->
  standard cfg -> tc_number_of_classes cfg = N.of_nat nt -> tc_max_levels cfg <> 0%N ->
  (j < nc)%nat -> tells_apart j (exact_data d) -> distinct_above_minimum (exact_data d) ->
  bpow radix2 (-400) <= B <= bpow radix2 300 -> within B (labels d) ->
  regression_boost_train d cfg n lr = Ok m -> INR n * (bpow radix2 (-48) * INR (N + 2) * B') <= B ->
  exists ps0, regression_boost_all_predictions (first_trees 0 m) d = Ok ps0 /\
    let e0 := mean_squared_error nt (real ps0) (real (labels d)) in
    forall k, (k <= n)%nat -> exists e, regression_boost_score (first_trees k m) d = Ok e /\ is_finite e = true /\
      B2R e <= (1 + bpow radix2 (-51) * INR (N + nt + 3)) * ((1 - c) ^ k * e0 + INR k * r) + bpow radix2 (-600).
Proof.
  intros N B' c r HA W Hnt Hk HN Fl Hlr Hs Hc Hm Hj Hkey Hd HB HL E Hn.
  destruct (learn_float_run nc nt d cfg n lr m B j W Hnt Hk HN Fl Hlr Hs Hc Hm Hj Hkey Hd HB HL E Hn) as (ps0 & E0 & H).
  exists ps0. split; [exact E0|]. intros e0 k Hkn. destruct (H k Hkn) as (ps & Ek & Hps & R1 & _). rewrite !mse_rows in R1.
  assert (N1 : (1 <= N)%nat) by exact (HN1 P nc nt d W).
  destruct (sqrt_count N N1 ltac:(lia)) as [Q1 Q2].
  assert (B0 : 0 < B) by (pose proof (bpow_gt_0 radix2 (-400)); lra).
  assert (HBB : B <= B') by (unfold B'; replace B with (1 * B) at 1 by ring; apply Rmult_le_compat_r; lra).
  assert (HB' : B' <= bpow radix2 400).
  { unfold B'. apply Rle_trans with (bpow radix2 23 * bpow radix2 300); [|rewrite <- bpow_plus; apply bpow_le; lia].
    apply Rmult_le_compat; try lra. replace (bpow radix2 23) with (8 * bpow radix2 20) by (change 23%Z with (3 + 20)%Z; rewrite bpow_plus; reflexivity). lra. }
  assert (Mod : forall b vs, b <= bpow radix2 400 -> within b vs -> moderate vs).
  { intros b vs Hb Hw. eapply Forall_impl; [|exact Hw]. intros v Hv. eapply Forall_impl; [|exact Hv]. intros x [Fx Bx]. split; [exact Fx|lra]. }
  destruct (regression_prefix_all nc nt d cfg n lr m k W E) as (ps1 & E1 & HF0).
  rewrite Ek in E1. injection E1 as <-.
  assert (HF : Forall2 (fun row p => regression_boost_predict (first_trees k m) row = Ok p /\ length p = nt) (feature_rows d) ps).
  { assert (HR : forall row, In row (feature_rows d) -> (nc <= length row)%nat) by (intros row Hr; exact (row_long nc nt d row W Hr)).
    clear - HF0 HR W E. induction HF0 as [|row p rows qs H1 H2 IH]; constructor.
    - split; [exact H1|]. destruct (regression_prefix_ok nc nt d cfg n lr m row k W E (HR row (or_introl eq_refl))) as (q & Eq & Lq).
      rewrite H1 in Eq. injection Eq as <-. exact Lq.
    - apply IH. intros; apply HR; now right. }
  assert (Hne : labels d <> []) by (intros Q; unfold N in N1; change (@F FO) with f64 in *; rewrite Q in N1; cbn in N1; lia).
  destruct (ensemble_score_float HA nt (first_trees k m) d ps Hnt Hk Hne ltac:(unfold N in HN; change (@F FO) with f64 in *; lia) (wf_labels _ _ _ W) (eq_sym (wf_lengths _ _ _ W)) HF (Mod B' ps HB' Hps) (Mod B _ ltac:(lra) HL)) as (e & Es & Fe & He).
  exists e. split; [exact Es|]. split; [exact Fe|]. apply Rabs_le_inv in He.
  assert (P0 : 0 <= bpow radix2 (-51) * INR (N + nt + 3)) by (apply Rmult_le_pos; [apply bpow_ge_0|apply pos_INR]).
  set (x := mean_squared_error nt (real ps) (real (labels d))) in *.
  assert (Mono : (1 + bpow radix2 (-51) * INR (N + nt + 3)) * x <= (1 + bpow radix2 (-51) * INR (N + nt + 3)) * ((1 - c) ^ k * e0 + INR k * r)) by (apply Rmult_le_compat_l; [lra|exact R1]).
  eapply Rle_trans; [|apply Rplus_le_compat_r; exact Mono]. destruct He as [_ He]. clear -He. unfold N in *. change (@F FO) with f64 in *. lra.
Qed.
End Root.
