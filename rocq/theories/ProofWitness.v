(** Concrete exact-arithmetic data sets: examples, and counterexamples with repeated feature values. *)
From Coq Require Import Reals Lra Permutation Sorted.
From Verif Require Import Base Num ModelCommon ModelTree Lib XR Spec SpecTree SpecExact ProofReal ProofData ProofSort ProofSplit ProofSplit2 ProofSplitExact ProofSplitExact2.
Local Open Scope R_scope.

(** A data set of real numbers, given by rows, columns and labels. *)
Definition real_data (rows cols ls : list (list R)) : @dataset xr_ops :=
  @mkDS xr_ops (map (map Fin) rows) (map (map Fin) ls) (map (map Fin) cols).

Lemma real_data_wf nc nt rows cols ls :
  rows <> [] -> length ls = length rows -> rectangular nc rows -> rectangular nt ls ->
  cols = map (fun j => map (fun row => nth j row 0) rows) (seq 0 nc) -> (N.of_nat nc <= 2 ^ 32)%N ->
  wf_dataset nc nt (real_data rows cols ls) /\ real_labels ls (real_data rows cols ls).
Proof.
  intros Hne L Hr Hl Hc Hn. split; [|reflexivity]. unfold real_data. constructor; cbn [feature_rows labels feature_columns]; auto.
  - intros E. apply map_eq_nil in E. contradiction.
  - rewrite !map_length. exact L.
  - unfold rectangular in *. rewrite Forall_map. eapply Forall_impl; [|exact Hr]. intros a Ha. cbv beta. now rewrite map_length.
  - unfold rectangular in *. rewrite Forall_map. eapply Forall_impl; [|exact Hl]. intros a Ha. cbv beta. now rewrite map_length.
  - split.
    + rewrite map_length, Hc, map_length, seq_length. reflexivity.
    + intros j col Hj. rewrite Hc, !nth_error_map in Hj. destruct (nth_error (seq 0 nc) j) as [j'|] eqn:Ej; [|discriminate].
      cbn in Hj. injection Hj as <-. assert (Hlt : (j < nc)%nat) by (rewrite <- (seq_length nc 0); apply nth_error_Some; congruence).
      rewrite (nth_error_nth' _ 0%nat) in Ej by now rewrite seq_length. rewrite seq_nth in Ej by auto. injection Ej as <-. simpl (0 + j)%nat.
      split; [now rewrite !map_length|]. intros i row Hi. rewrite nth_error_map in Hi.
      destruct (nth_error rows i) as [rr|] eqn:Er; [|discriminate]. cbn in Hi. injection Hi as <-.
      unfold rectangular in Hr. rewrite Forall_forall in Hr. specialize (Hr _ (nth_error_In _ _ Er)). cbv beta in Hr.
      split; [rewrite map_length; lia|]. rewrite !nth_error_map, Er. cbn [option_map].
      rewrite (nth_error_nth' rr 0) by lia. reflexivity.
  - rewrite Forall_map. apply Forall_forall. intros row _. rewrite Forall_map. apply Forall_forall. intros x _.
    unfold is_num. change (xleb (Fin x) (Fin x) = true). apply xleb_Fin. lra.
Qed.

Ltac real_wf := apply real_data_wf; [discriminate|reflexivity|repeat constructor|repeat constructor|reflexivity|vm_compute; discriminate].

Lemma lt_pair a b i j : a < b -> @pair_lt xr_ops (Fin a, i) (Fin b, j).
Proof. intros H. left. apply xltb_Fin. exact H. Qed.
Lemma eq_pair a i j : (i < j)%nat -> @pair_lt xr_ops (Fin a, i) (Fin a, j).
Proof. intros H. right. split; auto. apply xeqb_Fin. reflexivity. Qed.

(** *** Repeated value: column 0,1,1 *)

Definition col011 : list xr := [Fin 0; Fin 1; Fin 1].
Definition sort011 : list (xr * nat) := [(Fin 0, 0%nat); (Fin 1, 1%nat); (Fin 1, 2%nat)].
Lemma sort011_ok : @sorted_version xr_ops col011 sort011.
Proof.
  split; [reflexivity|]. repeat (apply SSorted_cons || apply SSorted_nil || apply Forall_cons || apply Forall_nil);
    try (apply lt_pair; lra); apply eq_pair; lia.
Qed.

Lemma considered_011 (d : @dataset xr_ops) j r i v :
  nth_error (feature_columns d) j = Some col011 -> considered d j r i v -> r = sort011 /\ (i = 1 \/ i = 2)%nat /\ v = Fin 1.
Proof.
  intros Hj [(col & Hj' & HS) (id & m & Hi & Hm & Hlt)]. rewrite Hj in Hj'. injection Hj' as <-.
  assert (E : r = sort011) by (eapply (sorted_version_unique xr_laws); [exact HS|exact sort011_ok]). subst r. split; auto.
  injection Hm as <-. cbn [fst] in Hlt. destruct i as [|[|[|i]]]; cbn in Hi.
  - injection Hi as <- <-. apply xltb_Fin in Hlt. lra.
  - injection Hi as <- <-. auto.
  - injection Hi as <- <-. auto.
  - destruct i; discriminate.
Qed.

Lemma considered_011_1 (d : @dataset xr_ops) j : nth_error (feature_columns d) j = Some col011 -> considered d j sort011 1 (Fin 1).
Proof.
  intros Hj. split; [exists col011; split; [exact Hj|exact sort011_ok]|]. exists 1%nat, (Fin 0, 0%nat). repeat split. apply xltb_Fin. cbn. lra.
Qed.
Lemma considered_011_2 (d : @dataset xr_ops) j : nth_error (feature_columns d) j = Some col011 -> considered d j sort011 2 (Fin 1).
Proof.
  intros Hj. split; [exists col011; split; [exact Hj|exact sort011_ok]|]. exists 2%nat, (Fin 0, 0%nat). repeat split. apply xltb_Fin. cbn. lra.
Qed.

Ltac real_compute :=
  unfold cut_gain, question_gain, remaining_variance, total_variance, variance, target, mean, Rsum, labels_in_order;
  simpl; try lra; try field; try lra.

Definition rep_a := real_data [[0]; [1]; [1]] [[0; 1; 1]] [[0]; [0]; [10]].
Definition rep_b := real_data [[0]; [1]; [1]] [[0; 1; 1]] [[0]; [10]; [0]].

Lemma rep_a_wf : wf_dataset 1 1 rep_a /\ real_labels [[0]; [0]; [10]] rep_a.
Proof. real_wf. Qed.
Lemma rep_b_wf : wf_dataset 1 1 rep_b /\ real_labels [[0]; [10]; [0]] rep_b.
Proof. real_wf. Qed.

Lemma rep_a_cut2 : cut_gain 1 2 (labels_in_order [[0]; [0]; [10]] sort011) = 200 / 9.
Proof. real_compute. Qed.
Lemma rep_a_cut1 : cut_gain 1 1 (labels_in_order [[0]; [0]; [10]] sort011) = 50 / 9.
Proof. real_compute. Qed.
Lemma rep_b_cut2 : cut_gain 1 2 (labels_in_order [[0]; [10]; [0]] sort011) = 50 / 9.
Proof. real_compute. Qed.
Lemma rep_b_cut1 : cut_gain 1 1 (labels_in_order [[0]; [10]; [0]] sort011) = 50 / 9.
Proof. real_compute. Qed.

Lemma answers_Fin c v (row : list xr) x : nth_error row c = Some (Fin x) -> answers (Question (N.of_nat c) (Fin v)) row = (if Rle_dec v x then true else false).
Proof. intros H. unfold answers. cbn [q_column q_value]. rewrite Nat2N.id. xr. rewrite H. reflexivity. Qed.

Lemma rep_a_split b : find_best_split rep_a 1 = Ok b -> bs_gain b = Fin (200 / 9) /\ bs_question b = @Question xr_ops 0 (Fin 1).
Proof.
  intros E. destruct rep_a_wf as [W Hl].
  destruct (split_exact 1 1 rep_a _ b W Hl E) as (g & Eg & Hmax & Hcase).
  pose proof (Hmax _ _ _ _ (considered_011_2 rep_a 0 eq_refl)) as H2. rewrite rep_a_cut2 in H2.
  destruct Hcase as [[-> _]|(Hg & j & r & i & v & Hc & Hcut & Hq & _)]; [lra|].
  assert (Hj : j = 0%nat).
  { destruct Hc as [(col & Hj & _) _]. destruct j as [|[|j]]; auto; discriminate. }
  subst j. destruct (considered_011 rep_a 0 r i v eq_refl Hc) as (-> & Hi & ->).
  split; [|exact Hq]. rewrite Eg. f_equal.
  destruct Hi as [-> | ->]; [rewrite rep_a_cut1 in Hcut|rewrite rep_a_cut2 in Hcut]; lra.
Qed.

Lemma rep_b_split b : find_best_split rep_b 1 = Ok b -> bs_gain b = Fin (50 / 9) /\ bs_question b = @Question xr_ops 0 (Fin 1).
Proof.
  intros E. destruct rep_b_wf as [W Hl].
  destruct (split_exact 1 1 rep_b _ b W Hl E) as (g & Eg & Hmax & Hcase).
  pose proof (Hmax _ _ _ _ (considered_011_2 rep_b 0 eq_refl)) as H2. rewrite rep_b_cut2 in H2.
  destruct Hcase as [[-> _]|(Hg & j & r & i & v & Hc & Hcut & Hq & _)]; [lra|].
  assert (Hj : j = 0%nat).
  { destruct Hc as [(col & Hj & _) _]. destruct j as [|[|j]]; auto; discriminate. }
  subst j. destruct (considered_011 rep_b 0 r i v eq_refl Hc) as (-> & Hi & ->).
  split; [|exact Hq]. rewrite Eg. f_equal.
  destruct Hi as [-> | ->]; [rewrite rep_b_cut1 in Hcut|rewrite rep_b_cut2 in Hcut]; lra.
Qed.

Ltac real_question :=
  unfold question_gain, labels_answering, real_data; cbn [feature_rows labels map combine filter fst snd];
  repeat match goal with |- context [@answers _ (Question (N.of_nat ?c) (Fin ?v)) ?row] =>
    let x := eval cbn in (nth c row XNaN) in
    match x with Fin ?y => rewrite (answers_Fin c v row y eq_refl) end end;
  repeat (destruct (Rle_dec _ _); try lra); cbn [Bool.eqb filter map snd].

Lemma rep_a_true_gain : question_gain 1 (@Question xr_ops 0 (Fin 1)) (feature_rows rep_a) [[0]; [0]; [10]] = 50 / 9.
Proof.
  unfold rep_a. change 0%N with (N.of_nat 0). real_question. real_compute.
Qed.

Lemma found nc nt (d : @dataset xr_ops) : wf_dataset nc nt d -> exists b, find_best_split d (N.of_nat nt) = Ok b.
Proof. intros W. destruct (split_usable xr_laws nc nt d W) as (b & E & _). eauto. Qed.

Theorem gain_not_true_gain :
  exists (nc nt : nat) (d : @dataset xr_ops) ls b,
    wf_dataset nc nt d /\ real_labels ls d /\ find_best_split d (N.of_nat nt) = Ok b /\
    bs_gain b <> Fin (question_gain nt (bs_question b) (feature_rows d) ls).
Proof.
  destruct rep_a_wf as [W Hl]. destruct (found _ _ _ W) as (b & E). exists 1%nat, 1%nat, rep_a, [[0]; [0]; [10]], b.
  split; auto. split; auto. split; auto. destruct (rep_a_split b E) as [Eg Eq]. rewrite Eg, Eq, rep_a_true_gain.
  intros C. injection C as C. lra.
Qed.

Theorem row_order_matters :
  exists (nc nt : nat) (d d' : @dataset xr_ops) ls b b',
    wf_dataset nc nt d /\ wf_dataset nc nt d' /\ real_labels ls d /\ Permutation (samples d) (samples d') /\
    find_best_split d (N.of_nat nt) = Ok b /\ find_best_split d' (N.of_nat nt) = Ok b' /\
    bs_gain b <> bs_gain b'.
Proof.
  destruct rep_a_wf as [W Hl]. destruct rep_b_wf as [W' Hl'].
  destruct (found _ _ _ W) as (b & E). destruct (found _ _ _ W') as (b' & E').
  exists 1%nat, 1%nat, rep_a, rep_b, [[0]; [0]; [10]], b, b'. repeat (split; [assumption || (apply perm_skip, perm_swap)|]).
  destruct (rep_a_split b E) as [-> _]. destruct (rep_b_split b' E') as [-> _]. intros C. injection C as C. lra.
Qed.

(** *** Two columns: the first one's overstated gain beats the second one's true gain *)

Definition rep_c := real_data [[0; 0]; [1; 0]; [1; 1]] [[0; 1; 1]; [0; 0; 1]] [[0]; [0]; [10]].
Lemma rep_c_wf : wf_dataset 2 1 rep_c /\ real_labels [[0]; [0]; [10]] rep_c.
Proof. real_wf. Qed.

Lemma rep_c_split b : find_best_split rep_c 1 = Ok b -> bs_question b = @Question xr_ops 0 (Fin 1).
Proof.
  intros E. destruct rep_c_wf as [W Hl].
  destruct (split_exact 2 1 rep_c _ b W Hl E) as (g & Eg & Hmax & Hcase).
  pose proof (Hmax _ _ _ _ (considered_011_2 rep_c 0 eq_refl)) as H2. rewrite rep_a_cut2 in H2.
  destruct Hcase as [[-> _]|(Hg & j & r & i & v & Hc & Hcut & Hq & Hfi & Hfj)]; [lra|].
  assert (Htop : g <= 200 / 9).
  { rewrite <- Hcut. unfold cut_gain. destruct Hc as [(col & Hj & HS) _].
    assert (L : length col = length [[0]; [0]; [10]]) by (eapply wf_col_length; eauto; eapply nth_error_In; eauto).
    rewrite <- (total_variance_perm 1 _ _ (labels_in_order_perm _ col r HS L)).
    pose proof (remaining_nonneg 1 (firstn i (labels_in_order [[0]; [0]; [10]] r)) (skipn i (labels_in_order [[0]; [0]; [10]] r))).
    assert (E0 : total_variance 1 [[0]; [0]; [10]] = 200 / 9) by real_compute. lra. }
  destruct j as [|j].
  - destruct (considered_011 rep_c 0 r i v eq_refl Hc) as (_ & _ & ->). exact Hq.
  - exfalso. specialize (Hfj 0%nat _ _ _ ltac:(lia) (considered_011_2 rep_c 0 eq_refl)). rewrite rep_a_cut2 in Hfj. lra.
Qed.

Lemma rep_c_gain0 : question_gain 1 (@Question xr_ops 0 (Fin 1)) (feature_rows rep_c) [[0]; [0]; [10]] = 50 / 9.
Proof. unfold rep_c. change 0%N with (N.of_nat 0). real_question. real_compute. Qed.
Lemma rep_c_gain1 : question_gain 1 (@Question xr_ops 1 (Fin 1)) (feature_rows rep_c) [[0]; [0]; [10]] = 200 / 9.
Proof. unfold rep_c. change 1%N with (N.of_nat 1). real_question. real_compute. Qed.

Theorem split_not_optimal :
  exists (nc nt : nat) (d : @dataset xr_ops) ls b q,
    wf_dataset nc nt d /\ real_labels ls d /\ find_best_split d (N.of_nat nt) = Ok b /\
    question_gain nt (bs_question b) (feature_rows d) ls < question_gain nt q (feature_rows d) ls.
Proof.
  destruct rep_c_wf as [W Hl]. destruct (found _ _ _ W) as (b & E).
  exists 2%nat, 1%nat, rep_c, [[0]; [0]; [10]], b, (@Question xr_ops 1 (Fin 1)).
  repeat (split; [assumption|]). rewrite (rep_c_split b E), rep_c_gain0, rep_c_gain1. lra.
Qed.

(** *** Distinct values: column 2,0,1 with labels 9,0,0 *)

Definition plain := real_data [[2]; [0]; [1]] [[2; 0; 1]] [[9]; [0]; [0]].
Definition plain_labels : list (list R) := [[9]; [0]; [0]].
Lemma plain_wf : wf_dataset 1 1 plain /\ real_labels plain_labels plain.
Proof. real_wf. Qed.

Lemma plain_distinct : distinct_above_minimum plain.
Proof.
  intros j i i' ri ri' v v' m rm Hi Hi' Hv Hv' Hne _ _ _ ->.
  destruct i as [|[|[|i]]], i' as [|[|[|i']]]; try congruence; cbn in Hi, Hi'; try (destruct i; discriminate); try (destruct i'; discriminate);
    injection Hi as <-; injection Hi' as <-; destruct j as [|[|j]]; cbn in Hv, Hv'; try discriminate;
    injection Hv as <-; injection Hv' as E; try lra.
Qed.

Definition sort_plain : list (xr * nat) := [(Fin 0, 1%nat); (Fin 1, 2%nat); (Fin 2, 0%nat)].
Lemma sort_plain_ok : @sorted_version xr_ops [Fin 2; Fin 0; Fin 1] sort_plain.
Proof.
  split.
  - unfold value_positions, sort_plain. cbn. etransitivity; [|apply perm_swap]. apply perm_skip. apply perm_swap.
  - repeat (apply SSorted_cons || apply SSorted_nil || apply Forall_cons || apply Forall_nil); apply lt_pair; lra.
Qed.

Lemma plain_split : exists b, find_best_split plain 1 = Ok b /\ bs_gain b = Fin 18 /\ bs_question b = @Question xr_ops 0 (Fin 2).
Proof.
  destruct plain_wf as [W Hl]. destruct (found _ _ _ W) as (b & E). exists b. split; auto.
  destruct (split_exact 1 1 plain _ b W Hl E) as (g & Eg & Hmax & Hcase).
  assert (H2 : considered plain 0 sort_plain 2 (Fin 2)).
  { split; [exists [Fin 2; Fin 0; Fin 1]; split; [reflexivity|exact sort_plain_ok]|]. exists 0%nat, (Fin 0, 1%nat). repeat split. apply xltb_Fin. cbn. lra. }
  apply Hmax in H2. assert (C2 : cut_gain 1 2 (labels_in_order plain_labels sort_plain) = 18) by (unfold plain_labels; real_compute).
  assert (C1 : cut_gain 1 1 (labels_in_order plain_labels sort_plain) = 9 / 2) by (unfold plain_labels; real_compute).
  rewrite C2 in H2. destruct Hcase as [[-> _]|(Hg & j & r & i & v & Hc & Hcut & Hq & _)]; [lra|].
  destruct Hc as [(col & Hj & HS) (id & m & Hi & Hm & Hlt)].
  destruct j as [|[|j]]; try discriminate. injection Hj as <-.
  assert (Er : r = sort_plain) by (eapply (sorted_version_unique xr_laws); [exact HS|exact sort_plain_ok]). subst r.
  injection Hm as <-. destruct i as [|[|[|i]]]; cbn in Hi.
  - injection Hi as <- <-. apply xltb_Fin in Hlt. cbn in Hlt. lra.
  - rewrite C1 in Hcut. lra.
  - injection Hi as <- <-. rewrite C2 in Hcut. subst g. auto.
  - destruct i; discriminate.
Qed.

Lemma plain_ties : ties_agree plain.
Proof.
  intros j ri li ri' li' v m rm H1 H2 V1 V2 _ _ _.
  unfold samples, plain, real_data in H1, H2. cbn [feature_rows labels map combine] in H1, H2.
  destruct H1 as [H1|[H1|[H1|[]]]], H2 as [H2|[H2|[H2|[]]]]; injection H1 as <- <-; injection H2 as <- <-; auto;
    destruct j as [|[|j]]; cbn in V1, V2; try discriminate; injection V1 as <-; injection V2 as E; lra.
Qed.

Lemma plain_permuted :
  let d' := real_data [[0]; [1]; [2]] [[0; 1; 2]] [[0]; [0]; [9]] in
  wf_dataset 1 1 plain /\ ties_agree plain /\ wf_dataset 1 1 d' /\ Permutation (samples plain) (samples d').
Proof.
  intros d'. split; [exact (proj1 plain_wf)|]. split; [exact plain_ties|].
  split; [refine (proj1 (_ : _ /\ real_labels [[0]; [0]; [9]] d')); real_wf|].
  unfold samples, d', plain, real_data. cbn [feature_rows labels map combine].
  etransitivity; [apply perm_swap|]. apply perm_skip, perm_swap.
Qed.

(** *** Labels 0,2 below and their mean 1 above: no question gains anything *)

Definition flat_labels : list (list R) := [[0]; [2]; [1]].
Definition flat := real_data [[0]; [0]; [1]] [[0; 0; 1]] flat_labels.
Definition sort_flat : list (xr * nat) := [(Fin 0, 0%nat); (Fin 0, 1%nat); (Fin 1, 2%nat)].
Lemma sort_flat_ok : @sorted_version xr_ops [Fin 0; Fin 0; Fin 1] sort_flat.
Proof.
  split; [reflexivity|]. repeat (apply SSorted_cons || apply SSorted_nil || apply Forall_cons || apply Forall_nil);
    try (apply lt_pair; lra); apply eq_pair; lia.
Qed.

Lemma flat_no_gain : wf_dataset 1 1 flat /\ real_labels flat_labels flat /\
  exists b, find_best_split flat 1 = Ok b /\ bs_gain b = Fin 0.
Proof.
  assert (WL : wf_dataset 1 1 flat /\ real_labels flat_labels flat) by real_wf.
  destruct WL as [W Hl]. split; auto. split; auto. destruct (found _ _ _ W) as (b & E). exists b. split; auto.
  destruct (split_exact 1 1 flat _ b W Hl E) as (g & Eg & _ & Hcase).
  destruct Hcase as [[-> _]|(Hg & j & r & i & v & Hc & Hcut & _)]; auto. exfalso.
  destruct Hc as [(col & Hj & HS) (id & m & Hi & Hm & Hlt)].
  destruct j as [|[|j]]; try discriminate. injection Hj as <-.
  assert (Er : r = sort_flat) by (eapply (sorted_version_unique xr_laws); [exact HS|exact sort_flat_ok]). subst r.
  injection Hm as <-. cbn [fst] in Hlt. destruct i as [|[|[|i]]]; cbn in Hi.
  - injection Hi as <- <-. apply xltb_Fin in Hlt. lra.
  - injection Hi as <- <-. apply xltb_Fin in Hlt. lra.
  - assert (C : cut_gain 1 2 (labels_in_order flat_labels sort_flat) = 0) by (unfold flat_labels; real_compute). lra.
  - destruct i; discriminate.
Qed.
