(** Examples for classification leaves in binary64. *)
From Coq Require Import Reals Lra Lia ZArith.
From Flocq Require Import Core.
From Flocq Require Import IEEE754.BinarySingleNaN.
From Verif Require Import Base Num F64 ModelCommon ModelTree ModelBoost Spec SpecTree SpecScore SpecPredict SpecSaturate ProofRound ProofError ProofInt ProofSoftmax
  ProofLeafFloat ProofSaturate ProofCollapse ProofCollapse2 Decide Check Demo.
Local Open Scope R_scope.

Definition smallest : f64 := binary_normalize 53 1024 _ _ mode_NE 1 (-900) false.
Definition residual_entryb (x : f64) : bool :=
  is_finite x && Bleb (Babs x) Bone && (match x with B754_zero _ => true | _ => false end || Bleb smallest (Babs x)).

Lemma smallest_value : is_finite smallest = true /\ B2R smallest = bpow radix2 (-900).
Proof.
  split; [vm_compute; reflexivity|]. pose proof (binary_normalize_correct 53 1024 _ _ mode_NE 1 (-900) false) as C. cbn [round_mode] in C.
  assert (Ef : F2R (Float radix2 1 (-900)) = bpow radix2 (-900)) by (unfold F2R; cbn [Fnum Fexp]; ring).
  rewrite Ef in C. change (round radix2 (SpecFloat.fexp 53 1024) ZnearestE (bpow radix2 (-900))) with (rnd (bpow radix2 (-900))) in C.
  rewrite (rnd_format (bpow radix2 (-900))) in C by (apply ProofScoreF64.format_pow; lia).
  rewrite Rlt_bool_true in C; [apply C|]. rewrite Rabs_pos_eq by apply bpow_ge_0. apply bpow_lt. lia.
Qed.

Lemma residual_entryb_ok x : residual_entryb x = true -> residual_entry x.
Proof.
  unfold residual_entryb. intros H. apply andb_true_iff in H as [H1 H3]. apply andb_true_iff in H1 as [F H2].
  assert (Fa : is_finite (Babs x) = true) by now rewrite is_finite_Babs.
  split; [exact F|]. split.
  - rewrite <- B2R_Babs, <- Bone_1. apply finite_leb; auto.
  - apply orb_true_iff in H3 as [H3|H3].
    + left. destruct x; try discriminate; reflexivity.
    + right. destruct smallest_value as [Fs Vs]. rewrite <- Vs, <- B2R_Babs. apply finite_leb; auto.
Qed.

Local Notation O := (f64_ops taylor_platform).

Definition quarter (z : Z) : f64 := Bdiv mode_NE (n64 z) (n64 4).

(** Residuals of three rows: the first class is learned perfectly on the last row. *)
Definition leftovers : @dataset O :=
  @mkDS O [[n64 1]; [n64 2]; [n64 5]] [[quarter 2; quarter (-2)]; [quarter 3; quarter (-3)]; [n64 0; quarter (-1)]] [[n64 1; n64 2; n64 5]].
Definition leftovers_cfg : @tree_config O := @mkTC O (split_finder_new Variance) false 2 1.

Lemma leftovers_table : residual_table (labels leftovers).
Proof.
  unfold residual_table, leftovers. cbn [labels].
  repeat (apply Forall_cons; [repeat (apply Forall_cons; [apply residual_entryb_ok; vm_compute; reflexivity|]); apply Forall_nil|]). apply Forall_nil.
Qed.

(** The run that collapses, on a platform with a correctly rounded exponential. *)
Definition collapse_cfg : @tree_config (f64_ops rounded_platform) := @mkTC (f64_ops rounded_platform) (split_finder_new Variance) false 2 3.

Lemma collapse_case :
  exists (m : @multi_class_boost_model (f64_ops rounded_platform)) t scores,
    multi_class_boost_train (pair_run rounded_platform) collapse_cfg 2 rate = Ok m /\ nth_error (m_trees m) 1 = Some t /\
    mapM (multi_class_boost_raw (first_trees 1 m)) (feature_rows (pair_run rounded_platform)) = Ok scores /\
    samples_like [(B754_zero false : f64) : @F (f64_ops rounded_platform)] t (residual_data (pair_run rounded_platform) scores) <> [] /\
    (forall row y v, In (row, y) (samples_like [(B754_zero false : f64) : @F (f64_ops rounded_platform)] t (residual_data (pair_run rounded_platform) scores)) ->
       nth_error y 0 = Some v -> is_finite (v : f64) = true /\ B2R v = 0).
Proof.
  pose proof (proj1 rounded_accurate) as Hexp.
  destruct (collapse rounded_platform Hexp collapse_cfg eq_refl eq_refl ltac:(cbn; lia)) as (_ & (m & r & Em & _) & _).
  destruct (second_tree rounded_platform Hexp collapse_cfg eq_refl eq_refl ltac:(cbn; lia) 2 m Em ltac:(lia)) as (t & Ht & Hs & _ & S0 & _).
  exists m, t, [[top; bottom]; [bottom; top]]. split; [exact Em|]. split; [exact Ht|]. split; [exact Hs|].
  split.
  - intros N. pose proof (eq_trans (eq_sym S0) N) as D. discriminate D.
  - intros row y v H Hv. pose proof (eq_ind _ (fun l => In (row, y) l) H _ S0) as H'. destruct H' as [H'|[]].
    injection H' as <- <-. cbn [nth_error] in Hv. injection Hv as <-. split; vm_compute; reflexivity.
Qed.
