(** Five rows with a binary feature: every decision of a two-tree ensemble is clear. *)
From Coq Require Import Reals Lra Lia ZArith Sorted.
From Flocq Require Import Core.
From Flocq Require Import IEEE754.BinarySingleNaN.
From Verif Require Import Base Num ModelCommon ModelTree ModelBoost Lib Spec SpecTree F64 XR SpecExact SpecInt SpecNear SpecNode SpecScore SpecClear SpecFitFloat ProofReal ProofData ProofTree
  ProofScore ProofSplitExact ProofTree3 ProofBoost ProofTreeExact ProofBoostExact ProofError ProofInt ProofInt2 ProofNear3 ProofNode ProofBelow ProofFitFloat ProofClear ProofClear3 ProofClear4 ProofClear5 Decide Check Demo DemoInt DemoNear.
Local Open Scope R_scope.

Local Notation O := (f64_ops taylor_platform).

Definition blocks : @dataset O :=
  @mkDS O [[n64 0]; [n64 0]; [n64 0]; [n64 1]; [n64 1]]
    [[n64 1; n64 4]; [n64 2; n64 4]; [n64 2; n64 4]; [n64 9; n64 1]; [n64 12; n64 0]]
    [[n64 0; n64 0; n64 0; n64 1; n64 1]].

Definition block_rows : list (list xr) := [[Fin 0]; [Fin 0]; [Fin 0]; [Fin 1]; [Fin 1]].
Definition block_order : list (xr * nat) := [(Fin 0, 0%nat); (Fin 0, 1%nat); (Fin 0, 2%nat); (Fin 1, 3%nat); (Fin 1, 4%nat)].

Lemma exact_n64 z : (Z.abs z <= 2 ^ 53)%Z -> exact_value (n64 z) = Fin (IZR z).
Proof.
  intros Hz. destruct (of_Z_exact z Hz) as (V & F & _). unfold n64. rewrite <- V.
  destruct (f64_of_Z z) as [s|s| |s m e H]; try discriminate; reflexivity.
Qed.

Lemma block_columns nt (x : @dataset xr_ops) j col : @wf_dataset xr_ops 1 nt x -> nth_error (feature_columns x) j = Some col ->
  j = 0%nat /\ forall i row, nth_error (feature_rows x) i = Some row -> nth_error col i = nth_error row 0.
Proof.
  intros W Hc. destruct (wf_columns _ _ _ W) as [Hlen H]. assert (j < length (feature_columns x))%nat by (apply nth_error_Some; congruence).
  assert (j = 0)%nat by lia. subst j. split; [reflexivity|]. intros i row Hr. destruct (H 0%nat col Hc) as [_ H']. exact (proj2 (H' i row Hr)).
Qed.

Lemma block_column_in nt (x : @dataset xr_ops) j col r v id : @wf_dataset xr_ops 1 nt x -> nth_error (feature_columns x) j = Some col -> @sorted_version xr_ops col r ->
  In (v, id) r -> exists row, In row (feature_rows x) /\ nth_error row 0 = Some v.
Proof.
  intros W Hc [Hp _] Hin. apply (Permutation.Permutation_in _ Hp) in Hin. unfold value_positions in Hin. apply in_combine_l in Hin.
  apply In_nth_error in Hin as [i Hi]. destruct (block_columns nt x j col W Hc) as [_ H]. destruct (wf_columns _ _ _ W) as [Hlen Ht]. destruct (Ht j col Hc) as [Hl _].
  destruct (some_nth (feature_rows x) i) as (row & Hr). { assert (i < length col)%nat by (apply nth_error_Some; congruence). lia. }
  exists row. split; [exact (nth_error_In _ _ Hr)|]. rewrite <- (H i row Hr). exact Hi.
Qed.

Lemma block_considered nt (x : @dataset xr_ops) j r i v : @wf_dataset xr_ops 1 nt x -> considered x j r i v ->
  j = 0%nat /\ exists row row' m, In row (feature_rows x) /\ nth_error row 0 = Some v /\ In row' (feature_rows x) /\ nth_error row' 0 = Some m /\ xltb m v = true.
Proof.
  intros W [(col & Hc & Hs) (id & [m idm] & Hi & Hm & Hlt)]. split; [exact (proj1 (block_columns nt x j col W Hc))|].
  destruct (block_column_in nt x j col r v id W Hc Hs (nth_error_In _ _ Hi)) as (row & H1 & H2).
  assert (Hin : In (m, idm) r) by (destruct r; [discriminate|]; cbn in Hm; injection Hm as ->; now left).
  destruct (block_column_in nt x j col r m idm W Hc Hs Hin) as (row' & H3 & H4). exists row, row', m. auto.
Qed.

Lemma xlt_01 : xltb (Fin 0) (Fin 1) = true.
Proof. apply xltb_Fin. lra. Qed.

Lemma xlt_irr a : xltb (Fin a) (Fin a) = false.
Proof. apply Bool.not_true_is_false. rewrite xltb_Fin. lra. Qed.

Lemma xlt_10 : xltb (Fin 1) (Fin 0) = false.
Proof. apply Bool.not_true_is_false. rewrite xltb_Fin. lra. Qed.

(** Rows with one value leave nothing to consider. *)
Lemma uniform_unconsidered nt (x : @dataset xr_ops) a j r i v : @wf_dataset xr_ops 1 nt x -> (forall row, In row (feature_rows x) -> row = [Fin a]) -> ~ considered x j r i v.
Proof.
  intros W H Hc. destruct (block_considered nt x j r i v W Hc) as (_ & row & row' & m & H1 & H2 & H3 & H4 & Hlt).
  apply H in H1, H3. subst row row'. cbn in H2, H4. injection H2 as <-. injection H4 as <-. rewrite xlt_irr in Hlt. discriminate.
Qed.

Section Blocks.
Context (nt : nat) (x : @dataset xr_ops) (ls : list (list R)).
Hypothesis W : @wf_dataset xr_ops 1 nt x.
Hypothesis Hrows : feature_rows x = block_rows.
Hypothesis Hl : real_labels ls x.

Lemma blocks_question j r i v : considered x j r i v -> @Question xr_ops (N.of_nat j) v = Question 0 (Fin 1).
Proof.
  intros Hc. destruct (block_considered nt x j r i v W Hc) as (-> & row & row' & m & H1 & H2 & H3 & H4 & Hlt).
  rewrite Hrows in H1, H3. cbn in H1, H3.
  assert (Hv : v = Fin 0 \/ v = Fin 1).
  { destruct H1 as [<-|[<-|[<-|[<-|[<-|[]]]]]]; cbn in H2; injection H2 as <-; auto. }
  assert (Hm : m = Fin 0 \/ m = Fin 1).
  { destruct H3 as [<-|[<-|[<-|[<-|[<-|[]]]]]]; cbn in H4; injection H4 as <-; auto. }
  destruct Hv as [->| ->]; [|reflexivity]. exfalso. destruct Hm as [->| ->]; [rewrite xlt_irr in Hlt|rewrite xlt_10 in Hlt]; discriminate.
Qed.

Lemma blocks_labels : length ls = 5%nat.
Proof. pose proof (wf_lengths _ _ _ W) as H. rewrite Hrows, Hl, map_length in H. exact H. Qed.

Lemma blocks_cut : considered x 0 block_order 3 (Fin 1) /\ labels_in_order ls block_order = ls.
Proof.
  split.
  - destruct (wf_columns _ _ _ W) as [Hlen Ht]. destruct (some_nth (feature_columns x) 0 ltac:(lia)) as (col & Hc).
    destruct (block_columns nt x 0 col W Hc) as [_ Hv]. destruct (Ht 0%nat col Hc) as [Hl' _]. rewrite Hrows in Hv, Hl'.
    assert (Ec : col = [Fin 0; Fin 0; Fin 0; Fin 1; Fin 1]).
    { destruct col as [|a [|b [|c [|e [|f [|g col]]]]]]; try discriminate Hl'.
      pose proof (Hv 0%nat _ eq_refl) as E0. pose proof (Hv 1%nat _ eq_refl) as E1. pose proof (Hv 2%nat _ eq_refl) as E2.
      pose proof (Hv 3%nat _ eq_refl) as E3. pose proof (Hv 4%nat _ eq_refl) as E4. cbn in E0, E1, E2, E3, E4. injection E0 as ->. injection E1 as ->. injection E2 as ->. injection E3 as ->. injection E4 as ->. reflexivity. }
    split.
    + exists col. split; [exact Hc|]. rewrite Ec. split; [apply Permutation.Permutation_refl|].
      assert (EQ : forall a, xeqb (Fin a) (Fin a) = true) by (intros a; now apply xeqb_Fin).
      pose proof xlt_01 as LT. unfold block_order.
      repeat (constructor; [|repeat (constructor; [unfold pair_lt; cbn [fst snd]; first [left; exact LT|right; split; [apply EQ|lia]]|]); constructor]). constructor.
    + exists 3%nat, (Fin 0, 0%nat). split; [reflexivity|]. split; [reflexivity|]. exact xlt_01.
  - pose proof blocks_labels as L. destruct ls as [|a [|b [|c [|e [|f [|g l]]]]]]; try discriminate L. reflexivity.
Qed.

Context {L : Type} (mk : @dataset xr_ops -> res L) (cfg : @tree_config xr_ops) (t : @tree_node xr_ops L) (margin : R) (a : R).
Hypothesis Sc : standard cfg.
Hypothesis C : tc_number_of_classes cfg = N.of_nat nt.
Hypothesis M : (1 <= tc_max_levels cfg)%N.
Hypothesis Bt : built mk cfg 0 x t.
Hypothesis Ha : a = 0 \/ a = 1.
Hypothesis Hm : 0 <= margin < cut_gain nt 3 ls.

Let q : @question xr_ops := Question 0 (Fin 1).

Lemma at_root (here : @dataset xr_ops) row : @wf_dataset xr_ops 1 nt here -> samples here = answering_like [] row (samples x) -> here = x.
Proof. intros Wh Hs. rewrite answering_nil in Hs. exact (dataset_ext 1 nt here x Wh W Hs). Qed.

Lemma block_side (here : @dataset xr_ops) : @wf_dataset xr_ops 1 nt here -> samples here = answering_like [q] [Fin a] (samples x) ->
  forall row, In row (feature_rows here) -> row = [Fin a].
Proof.
  intros Wh Hs row Hin. assert (E : feature_rows here = map fst (samples here)) by (unfold samples; rewrite map_fst_combine; [reflexivity|symmetry; apply (wf_lengths _ _ _ Wh)]).
  rewrite E, Hs in Hin. apply in_map_iff in Hin as ([r l] & <- & Hin). unfold answering_like in Hin. apply filter_In in Hin as [Hin Hq]. cbn [fst] in *.
  apply in_combine_l in Hin. rewrite Hrows in Hin. cbn [forallb] in Hq. rewrite andb_true_r in Hq. apply Bool.eqb_prop in Hq.
  assert (A0 : @answers xr_ops q [Fin 0] = false) by (unfold answers; cbn; destruct (Rle_dec 1 0); [lra|reflexivity]).
  assert (A1 : @answers xr_ops q [Fin 1] = true) by (unfold answers; cbn; destruct (Rle_dec 1 1); [reflexivity|lra]).
  assert (Hr : r = [Fin 0] \/ r = [Fin 1]) by (cbn in Hin; destruct Hin as [<-|[<-|[<-|[<-|[<-|[]]]]]]; auto).
  destruct Ha as [->| ->], Hr as [->| ->]; try reflexivity; exfalso; congruence.
Qed.

Lemma blocks_path : @path xr_ops L [Fin a] t = [q].
Proof.
  destruct blocks_cut as [Hcut Hord].
  destruct (@path xr_ops L [Fin a] t) as [|q0 qs] eqn:Ep.
  - exfalso. destruct (leaf_split mk cfg 1 nt 0 x t [Fin a] Sc C Bt W) as (d' & s & W' & S' & Es & Hz). rewrite Ep in S', Hz. apply (at_root d') in S'; [subst d'|exact W'].
    destruct Hz as [Hz|Hz]; [|cbn in Hz; lia]. destruct (split_exact 1 nt x ls s W Hl Es) as (g & Eg & Hmax & _).
    pose proof (Hmax _ _ _ _ Hcut) as Hg. rewrite Hord in Hg. assert (Hz' : xeqb (bs_gain s) (Fin 0) = true) by exact Hz. rewrite Eg in Hz'. apply xeqb_Fin in Hz'. lra.
  - assert (q0 = q).
    { destruct (node_split mk cfg 1 nt 0 x t [Fin a] 0 q0 Sc C Bt W) as (d' & s & W' & S' & Es & Eq & Hz); [now rewrite Ep|]. cbn [firstn] in S'. apply (at_root d') in S'; [subst d'|exact W'].
      destruct (split_exact 1 nt x ls s W Hl Es) as (g & Eg & _ & [[Z _]|(_ & j & r & i & v & Hc & _ & Eq' & _)]).
      - exfalso. assert (Hz' : xeqb (bs_gain s) (Fin 0) = false) by exact Hz. rewrite Eg, Z in Hz'. assert (xeqb (Fin 0) (Fin 0) = true) by now apply xeqb_Fin. congruence.
      - rewrite <- Eq, Eq'. exact (blocks_question j r i v Hc). }
    subst q0. f_equal. destruct qs as [|q1 qs]; [reflexivity|]. exfalso.
    destruct (node_split mk cfg 1 nt 0 x t [Fin a] 1 q1 Sc C Bt W) as (d' & s & W' & S' & Es & Eq & Hz); [now rewrite Ep|]. rewrite Ep in S'. cbn [firstn] in S'.
    assert (Hrl : real_labels (rl d') d') by (refine (finite_sub _ _ x d' W W' _ _); [rewrite S'; apply filter_incl|rewrite (real_rl _ _ Hl); exact Hl]).
    destruct (split_exact 1 nt d' (rl d') s W' Hrl Es) as (g & Eg & _ & [[Z _]|(_ & j & r & i & v & Hc & _)]).
    + assert (Hz' : xeqb (bs_gain s) (Fin 0) = false) by exact Hz. rewrite Eg, Z in Hz'. assert (xeqb (Fin 0) (Fin 0) = true) by now apply xeqb_Fin. congruence.
    + exact (uniform_unconsidered nt d' a j r i v W' (block_side d' W' S') Hc).
Qed.

Lemma blocks_clear levels : clear_path margin 1 nt levels x t [Fin a].
Proof.
  destruct blocks_cut as [Hcut Hord]. unfold clear_path. rewrite blocks_path. split.
  - intros k q0 here ls' Hk [Wh Hs] Hr. destruct k as [|[|k]]; [|discriminate|discriminate]. cbn in Hk. injection Hk as <-. cbn [firstn] in Hs. apply (at_root here) in Hs; [subst here|exact Wh].
    assert (ls' = ls) by (apply Fin_labels_inj; unfold real_labels in *; congruence). subst ls'.
    exists 0%nat, block_order, 3%nat, (Fin 1). split; [exact Hcut|]. split; [reflexivity|]. rewrite Hord. split; [lra|].
    intros j' r' i' v' Hc Hne. exfalso. apply Hne. exact (blocks_question j' r' i' v' Hc).
  - intros here [Wh Hs]. right. left. intros j r i v. exact (uniform_unconsidered nt here a j r i v Wh (block_side here Wh Hs)).
Qed.
End Blocks.

(* ------------------------------------------------------------------ *)
(** ** The two stages *)

Lemma blocks_gain a1 b1 a2 b2 a3 b3 a4 b4 a5 b5 : cut_gain 2 3 [[a1; b1]; [a2; b2]; [a3; b3]; [a4; b4]; [a5; b5]] =
  6 / 25 * (((a1 + a2 + a3) / 3 - (a4 + a5) / 2) * ((a1 + a2 + a3) / 3 - (a4 + a5) / 2) + ((b1 + b2 + b3) / 3 - (b4 + b5) / 2) * ((b1 + b2 + b3) / 3 - (b4 + b5) / 2)).
Proof.
  unfold cut_gain, remaining_variance, total_variance, variance, mean, target, Rsum. cbn [seq map fold_right firstn skipn length Nat.add nth INR]. field.
Qed.

Definition block_values : list (list R) := [[1; 4]; [2; 4]; [2; 4]; [9; 1]; [12; 0]].

Lemma blocks_wf : @wf_dataset O 1 2 blocks.
Proof. check_wf. Qed.

Lemma blocks_exact : feature_rows (exact_data blocks) = block_rows /\ real_values blocks = block_values.
Proof.
  assert (V : forall z, (Z.abs z <= 2 ^ 53)%Z -> B2R (n64 z) = IZR z) by (intros z Hz; apply (of_Z_exact z Hz)).
  unfold exact_data, blocks, real_values. cbn [feature_rows labels map]. rewrite !exact_n64, !V by lia. auto.
Qed.

Lemma blocks_wfx : @wf_dataset xr_ops 1 2 (exact_data blocks).
Proof. exact (exact_wf taylor_platform 1 2 blocks blocks_wf). Qed.

Lemma blocks_bounded : bounded_labels 16 blocks.
Proof.
  intros l x Hl Hx.
  assert (H : is_finite (x : f64) = true /\ Bleb (Babs (x : f64)) (n64 16) = true).
  { cbn [blocks labels In] in Hl. destruct Hl as [<-|[<-|[<-|[<-|[<-|[]]]]]]; cbn [In] in Hx; destruct Hx as [<-|[<-|[]]]; vm_compute; auto. }
  destruct H as [Fx H]. split; [exact Fx|]. apply (value_within x 16); auto. lia.
Qed.

Lemma blocks_real : real_labels block_values (exact_data blocks).
Proof. rewrite <- (proj2 blocks_exact). exact (bounded_real_labels taylor_platform 16 blocks blocks_bounded). Qed.

Section Stages.
Context (cfg : @tree_config xr_ops) (n : nat) (me : @regression_boost_model xr_ops) (margin : R).
Hypothesis Sc : standard cfg.
Hypothesis C : tc_number_of_classes cfg = N.of_nat 2.
Hypothesis M : (1 <= tc_max_levels cfg)%N.
Hypothesis Hn : (n <= 2)%nat.
Hypothesis Ex : @regression_boost_train xr_ops (exact_data blocks) cfg n (Fin (1 / 2)) = Ok me.
Hypothesis Hm : 0 <= margin < 1.

Let g := means 2 block_values.

Lemma stage_guess row : @regression_boost_predict xr_ops (first_trees 0 me) row = Ok (map Fin g).
Proof.
  destruct (guess_real 1 2 (exact_data blocks) block_values cfg n (Fin (1 / 2)) me blocks_wfx blocks_real Ex) as (Hg & _ & _).
  unfold regression_boost_predict. rewrite predict_instance_raw. cbn. f_equal. exact Hg.
Qed.

Definition given (k : nat) (pe : list (list R)) : Prop :=
  Forall2 (fun row p => @regression_boost_predict xr_ops (first_trees k me) row = Ok (map Fin p) /\ length p = 2%nat) (feature_rows (exact_data blocks)) pe.

Lemma stage_data k pe t : (k < n)%nat -> given k pe -> nth_error (m_trees me) k = Some t ->
  let x := X (exact_data blocks) pe in
  @wf_dataset xr_ops 1 2 x /\ feature_rows x = block_rows /\ real_labels (map2 vsub block_values pe) x /\
  built (mk_gb (leaf_output_calculator_new Regression)) cfg 0 x t.
Proof.
  intros Hk HP Ht x. pose proof (Forall2_length _ _ _ HP) as L. rewrite (proj1 blocks_exact) in L.
  destruct (residual_data 1 2 (exact_data blocks) block_values pe blocks_wfx blocks_real) as [H1 H2]; [now rewrite <- L|exact (Forall2_rect _ _ _ _ HP)|].
  split; [exact H1|]. split; [exact (proj1 blocks_exact)|]. split; [exact H2|].
  destruct (regression_stage (exact_data blocks) cfg n (Fin (1 / 2)) me k (wf_lengths _ _ _ blocks_wfx) Ex Hk) as (ps0 & t0 & Eps0 & _ & Ht0 & Eb).
  pose proof (Epe 2 (exact_data blocks) k me pe HP) as Q. rewrite Eps0 in Q. injection Q as Q.
  rewrite Ht in Ht0. injection Ht0 as Q'. rewrite Q, <- Q' in Eb. rewrite grad_boost_tree_new_eq in Eb. apply build_with_built in Eb. exact Eb.
Qed.

Lemma stage_clear k pe a : (k < n)%nat -> given k pe -> margin < cut_gain 2 3 (map2 vsub block_values pe) -> a = 0 \/ a = 1 ->
  clear_stage margin 1 2 (tc_max_levels cfg) (exact_data blocks) me k [Fin a].
Proof.
  intros Hk HP Hg Ha ps t Eps Ht. destruct (stage_data k pe t Hk HP Ht) as (H1 & H2 & H3 & H4).
  pose proof (Epe 2 (exact_data blocks) k me pe HP) as Q. rewrite Eps in Q. injection Q as ->.
  exact (blocks_clear 2 _ _ H1 H2 H3 _ cfg t margin a Sc C M H4 Ha ltac:(lra) (tc_max_levels cfg)).
Qed.

Lemma given_0 : given 0 [g; g; g; g; g].
Proof. unfold given. rewrite (proj1 blocks_exact). unfold block_rows. repeat (constructor; [split; [apply stage_guess|reflexivity]|]). constructor. Qed.

Lemma gain_0 : 1 < cut_gain 2 3 (map2 vsub block_values [g; g; g; g; g]).
Proof.
  unfold g, means, block_values, mean, target, Rsum. cbn [seq map fold_right nth length map2 vsub combine fst snd INR]. rewrite blocks_gain. lra.
Qed.

(** What the first tree adds for the rows of each block. *)
Definition block_of (a : R) (ls : list (list R)) : list (list R) := if Req_EM_T a 0 then firstn 3 ls else skipn 3 ls.

Lemma stage_out t a : (0 < n)%nat -> nth_error (m_trees me) 0 = Some t -> a = 0 \/ a = 1 ->
  @gb_out xr_ops [Fin a] t = Ok (map Fin (means 2 (block_of a (map2 vsub block_values [g; g; g; g; g])))).
Proof.
  intros Hk Ht Ha. destruct (stage_data 0 _ t Hk given_0 Ht) as (H1 & H2 & H3 & H4). set (x := X (exact_data blocks) [g; g; g; g; g]) in *.
  set (ls := map2 vsub block_values [g; g; g; g; g]) in *. assert (G0 : 0 <= 0 < cut_gain 2 3 ls) by (pose proof gain_0; fold ls in H; lra).
  pose proof (blocks_path 2 x ls H1 H2 H3 _ cfg t 0 a Sc C M H4 Ha G0) as Hp.
  assert (Hr : real_labels (rl x) x) by (rewrite (real_rl _ _ H3); exact H3).
  destruct (regression_leaf_out cfg 1 2 0 x t [Fin a] H4 H1 Hr ltac:(cbn; lia)) as (ld & Eo & Sld & Wld & Hld).
  assert (E : rl ld = block_of a ls); [|now rewrite E in Eo].
  assert (El : labels ld = map snd (@samples xr_ops ld)) by (unfold samples; rewrite map_snd_combine; [reflexivity|symmetry; apply (wf_lengths _ _ _ Wld)]).
  unfold rl. rewrite El, Sld. unfold samples_like. rewrite Hp.
  assert (A0 : @answers xr_ops (Question 0 (Fin 1)) [Fin 0] = false) by (unfold answers; cbn; destruct (Rle_dec 1 0); [lra|reflexivity]).
  assert (A1 : @answers xr_ops (Question 0 (Fin 1)) [Fin 1] = true) by (unfold answers; cbn; destruct (Rle_dec 1 1); [reflexivity|lra]).
  assert (Es : @samples xr_ops x = combine block_rows (map (map Fin) ls)) by (unfold samples; rewrite H2, H3; reflexivity).
  rewrite Es. change ls with [nth 0 ls []; nth 1 ls []; nth 2 ls []; nth 3 ls []; nth 4 ls []]. unfold block_rows, block_of. cbn [combine map filter fst snd forallb].
  destruct Ha as [->| ->].
  - rewrite A0, A1. cbn [Bool.eqb andb map snd firstn]. rewrite !map_xval_Fin. destruct (Req_EM_T 0 0); [reflexivity|lra].
  - rewrite A0, A1. cbn [Bool.eqb andb map snd skipn]. rewrite !map_xval_Fin. destruct (Req_EM_T 1 0); [lra|reflexivity].
Qed.

Let low := vstep (1 / 2) g (means 2 (block_of 0 (map2 vsub block_values [g; g; g; g; g]))).
Let high := vstep (1 / 2) g (means 2 (block_of 1 (map2 vsub block_values [g; g; g; g; g]))).

Lemma stage_next a : (0 < n)%nat -> a = 0 \/ a = 1 ->
  @regression_boost_predict xr_ops (first_trees 1 me) [Fin a] = Ok (map Fin (vstep (1 / 2) g (means 2 (block_of a (map2 vsub block_values [g; g; g; g; g]))))).
Proof.
  intros Hk Ha. destruct (regression_stage (exact_data blocks) cfg n (Fin (1 / 2)) me 0 (wf_lengths _ _ _ blocks_wfx) Ex Hk) as (_ & t & _ & _ & Ht & _).
  destruct (guess_real 1 2 (exact_data blocks) block_values cfg n (Fin (1 / 2)) me blocks_wfx blocks_real Ex) as (_ & Hlr & _).
  exact (next_prediction 2 (exact_data blocks) cfg n (1 / 2) me 0 t [Fin a] g _ Ex Hlr Ht (stage_guess _) eq_refl (stage_out t a Hk Ht Ha) (means_length _ _)).
Qed.

Lemma given_1 : (0 < n)%nat -> given 1 [low; low; low; high; high].
Proof.
  intros Hk. unfold given. rewrite (proj1 blocks_exact). unfold block_rows.
  repeat (constructor; [split; [apply stage_next; auto|reflexivity]|]). constructor.
Qed.

Lemma gain_1 : 1 < cut_gain 2 3 (map2 vsub block_values [low; low; low; high; high]).
Proof.
  unfold low, high, block_of. destruct (Req_EM_T 0 0) as [_|H]; [|lra]. destruct (Req_EM_T 1 0) as [H|_]; [lra|].
  unfold vstep, g, means, block_values, mean, target, Rsum. cbn [seq map fold_right nth length map2 vsub combine fst snd INR firstn skipn]. rewrite blocks_gain. lra.
Qed.

Lemma blocks_stages_clear a k : (k < n)%nat -> a = 0 \/ a = 1 -> clear_stage margin 1 2 (tc_max_levels cfg) (exact_data blocks) me k [Fin a].
Proof.
  intros Hk Ha. destruct k as [|[|k]]; [|exact (stage_clear 1 _ a Hk (given_1 ltac:(lia)) ltac:(pose proof gain_1; lra) Ha)|lia].
  exact (stage_clear 0 _ a Hk given_0 ltac:(pose proof gain_0; lra) Ha).
Qed.
End Stages.

(* ------------------------------------------------------------------ *)
(** ** The hypotheses of the theorems *)

Definition blocks_cfg : @tree_config O := @mkTC O (split_finder_new Variance) false 2 5.
Definition blocks_cfg_exact : @tree_config xr_ops := @mkTC xr_ops (split_finder_new Variance) false 2 5.

Lemma blocks_ordinary : ordinary_table 16 blocks.
Proof.
  split; [|cbn; lia]. assert (H : 1 <= 2 ^ 396) by (apply pow_R1_Rle; lra).
  assert (E : 2 ^ 400 = 16 * 2 ^ 396) by (change 400%nat with (4 + 396)%nat; rewrite pow_add; lra). split; [|lra].
  rewrite <- (Rinv_inv 16). apply Rinv_le; lra.
Qed.

Lemma blocks_within : within 16 (labels blocks).
Proof. apply Forall_forall. intros l Hl. apply Forall_forall. intros v Hv. exact (blocks_bounded l v Hl Hv). Qed.

Lemma root5 : 2 <= sqrt (INR 5) <= 3.
Proof.
  cbn [INR]. split.
  - rewrite <- (sqrt_square 2) by lra. apply sqrt_le_1_alt. lra.
  - rewrite <- (sqrt_square 3) by lra. apply sqrt_le_1_alt. lra.
Qed.

Section Margin.
Let N := length (labels blocks).
Let B' := (1 + 4 * sqrt (INR N)) * 16.
Let e := bpow radix2 (-48) * INR (N + 2) * B'.

Lemma blocks_scale : 0 <= B' <= 208.
Proof. unfold B'. change N with 5%nat. pose proof root5. lra. Qed.

Lemma blocks_unit : 0 <= e <= bpow radix2 (-37).
Proof.
  unfold e. change N with 5%nat. replace (INR (5 + 2)) with 7 by (cbn; lra). pose proof blocks_scale as H. pose proof (bpow_gt_0 radix2 (-48)) as Hb.
  split; [apply Rmult_le_pos; lra|]. replace (bpow radix2 (-37)) with (bpow radix2 (-48) * 2048) by (change 2048 with (bpow radix2 11); rewrite <- bpow_plus; reflexivity).
  rewrite Rmult_assoc. apply Rmult_le_compat_l; lra.
Qed.

Lemma blocks_margin : 0 <= 2 * real_gain_error 2 N (4 * B') + 128 * INR 2 * B' * (sqrt (INR N) * INR (2 + 2) * e) < 1.
Proof.
  change N with 5%nat. pose proof blocks_scale as HB. pose proof blocks_unit as He. pose proof root5 as Hr. unfold real_gain_error.
  change (INR 2) with (1 + 1). change (INR 5) with (1 + 1 + 1 + 1 + 1) at 1. change (INR (2 + 2)) with (1 + 1 + 1 + 1).
  assert (H37 : bpow radix2 (-37) <= / 2 ^ 30) by (replace (/ 2 ^ 30) with (bpow radix2 (-30)) by (cbn [bpow]; f_equal; cbn; lra); apply bpow_le; lia).
  assert (H1 : 0 <= B' * B' <= 208 * 208) by (split; [apply Rmult_le_pos; lra|apply Rmult_le_compat; lra]).
  assert (H2 : 0 <= sqrt (INR 5) * e <= 3 * / 2 ^ 30) by (split; [apply Rmult_le_pos; lra|apply Rmult_le_compat; lra]).
  assert (H3 : 0 <= B' * (sqrt (INR 5) * e) <= 208 * (3 * / 2 ^ 30)) by (split; [apply Rmult_le_pos; lra|apply Rmult_le_compat; lra]).
  replace (128 * (1 + 1) * B' * (sqrt (INR 5) * (1 + 1 + 1 + 1) * e)) with (1024 * (B' * (sqrt (INR 5) * e))) by ring.
  replace (4 * B' * (4 * B')) with (16 * (B' * B')) by ring.
  set (b := B' * B') in *. set (c := B' * (sqrt (INR 5) * e)) in *. clearbody b c. cbn [INR].
  assert (0 <= 320 * (1 + 1 + 1) * (1 + 1 + (1 + 1 + 1 + 1 + 1)) * (16 * b) / 2 ^ 53 <= / 16) by lra. lra.
Qed.

Lemma blocks_iterations : INR 2 * e <= 16.
Proof. pose proof blocks_unit as He. assert (bpow radix2 (-37) <= bpow radix2 0) by (apply bpow_le; lia). change (bpow radix2 0) with 1 in H. cbn [INR]. lra. Qed.
End Margin.

Definition half : f64 := Bdiv mode_NE (n64 1) (n64 2).

Lemma half_value : is_finite half = true /\ B2R half = 1 / 2.
Proof.
  assert (F : is_finite half = true) by (vm_compute; reflexivity). split; [exact F|].
  assert (E : B2SF half = SpecFloat.S754_finite false 4503599627370496 (-53)) by (vm_compute; reflexivity).
  rewrite <- SF2R_B2SF, E. unfold SF2R, F2R. cbn [Fnum Fexp cond_Zopp].
  change (IZR 4503599627370496) with (IZR (Zpower radix2 52)). rewrite IZR_Zpower by lia. rewrite <- bpow_plus. change (52 + -53)%Z with (-1)%Z. cbn. lra.
Qed.

Lemma value_0 : map exact_value [n64 0] = [Fin 0] /\ map exact_value [n64 1] = [Fin 1].
Proof. cbn [map]. rewrite !exact_n64 by lia. auto. Qed.

Lemma blocks_tree_clear : exists t te,
  @regression_tree_new O blocks blocks_cfg = Ok t /\ @regression_tree_new xr_ops (exact_data blocks) blocks_cfg_exact = Ok te /\
  forall row, In row [[n64 0]; [n64 1]] ->
    clear_path (2 * real_gain_error 2 (length (labels blocks)) 16) 1 2 (tc_max_levels blocks_cfg) (exact_data blocks) te (map exact_value row) /\
    @path xr_ops _ (map exact_value row) te = [Question 0 (Fin 1)].
Proof.
  destruct (regression_total (f64_laws taylor_platform) 1 2 blocks blocks_cfg blocks_wf eq_refl eq_refl) as (t & Et).
  destruct (regression_total xr_laws 1 2 (exact_data blocks) blocks_cfg_exact blocks_wfx eq_refl eq_refl) as (te & Ete).
  exists t, te. split; [exact Et|]. split; [exact Ete|].
  assert (Bt : built mk_reg blocks_cfg_exact 0 (exact_data blocks) te) by (rewrite regression_tree_new_eq in Ete; now apply build_with_built in Ete).
  assert (Hm : 0 <= 2 * real_gain_error 2 (length (labels blocks)) 16 < cut_gain 2 3 block_values).
  { unfold block_values. rewrite blocks_gain. unfold real_gain_error. cbn [length labels blocks INR]. lra. }
  assert (G : forall a, a = 0 \/ a = 1 -> clear_path (2 * real_gain_error 2 (length (labels blocks)) 16) 1 2 (tc_max_levels blocks_cfg) (exact_data blocks) te [Fin a] /\
    @path xr_ops _ [Fin a] te = [Question 0 (Fin 1)]).
  { intros a Ha. split.
    - exact (blocks_clear 2 _ _ blocks_wfx (proj1 blocks_exact) blocks_real mk_reg blocks_cfg_exact te _ a eq_refl eq_refl ltac:(cbn; lia) Bt Ha Hm _).
    - exact (blocks_path 2 _ _ blocks_wfx (proj1 blocks_exact) blocks_real mk_reg blocks_cfg_exact te _ a eq_refl eq_refl ltac:(cbn; lia) Bt Ha Hm). }
  intros row [<-|[<-|[]]].
  - rewrite (proj1 value_0). apply G. now left.
  - rewrite (proj2 value_0). apply G. now right.
Qed.

Lemma blocks_ensemble_clear : let N := length (labels blocks) in
  let B' := (1 + 4 * sqrt (INR N)) * 16 in
  let e := bpow radix2 (-48) * INR (N + 2) * B' in
  let margin := 2 * real_gain_error 2 N (4 * B') + 128 * INR 2 * B' * (sqrt (INR N) * INR (2 + 2) * e) in
  exists m me, @regression_boost_train O blocks blocks_cfg 2 half = Ok m /\ @regression_boost_train xr_ops (exact_data blocks) blocks_cfg_exact 2 (Fin (B2R half)) = Ok me /\
  INR 2 * e <= 16 /\
  forall x k, In x ([n64 1] :: feature_rows blocks) -> (k < 2)%nat -> clear_stage margin 1 2 (tc_max_levels blocks_cfg) (exact_data blocks) me k (map exact_value x).
Proof.
  intros N B' e margin.
  destruct (regression_train_total (f64_laws taylor_platform) 1 2 blocks blocks_cfg 2 half blocks_wf eq_refl eq_refl ltac:(lia)) as (m & Em & _).
  destruct (regression_train_total xr_laws 1 2 (exact_data blocks) blocks_cfg_exact 2 (Fin (B2R half)) blocks_wfx eq_refl eq_refl ltac:(lia)) as (me & Eme & _).
  exists m, me. split; [exact Em|]. split; [exact Eme|]. split; [exact blocks_iterations|].
  rewrite (proj2 half_value) in Eme. assert (Hm : 0 <= margin < 1) by exact blocks_margin.
  assert (G : forall a k, (k < 2)%nat -> a = 0 \/ a = 1 -> clear_stage margin 1 2 (tc_max_levels blocks_cfg) (exact_data blocks) me k [Fin a]).
  { intros a k Hk Ha. exact (blocks_stages_clear blocks_cfg_exact 2 me margin eq_refl eq_refl ltac:(cbn; lia) (Nat.le_refl 2) Eme Hm a k Hk Ha). }
  intros x k Hx Hk. assert (Hv : x = [n64 0] \/ x = [n64 1]) by (cbn [feature_rows blocks In] in Hx; destruct Hx as [<-|[<-|[<-|[<-|[<-|[<-|[]]]]]]]; auto).
  destruct Hv as [->| ->]; [rewrite (proj1 value_0)|rewrite (proj2 value_0)]; apply G; auto.
Qed.
