(** Data for the examples about the training error of regression ensembles in binary64. *)
From Coq Require Import Reals Lra Lia ZArith.
From Flocq Require Import Core.
From Flocq Require Import IEEE754.BinarySingleNaN.
From Verif Require Import Base Num F64 ModelCommon ModelTree ModelBoost Lib Spec SpecTree SpecExact SpecScore SpecPredict SpecFitFloat
  ProofReal ProofRound ProofInt ProofError ProofFitFloat ProofTreeF64 Decide Check Demo DemoPredict.
Local Open Scope R_scope.

(** Two rows that no question separates, with the labels 0.1 and 0.8; learning rate 1. *)
Definition drift : @dataset (f64_ops taylor_platform) :=
  @mkDS (f64_ops taylor_platform) [[n64 1]; [n64 1]] [[Bdiv mode_NE (n64 1) (n64 10)]; [Bdiv mode_NE (n64 8) (n64 10)]] [[n64 1; n64 1]].
Definition drift_cfg : @tree_config (f64_ops taylor_platform) := @mkTC (f64_ops taylor_platform) (split_finder_new Variance) false 1 3.

(** [x] times [2^100], for floats that are multiples of [2^-100]. *)
Definition scaled (x : f64) : Z := match x with B754_finite s m e _ => (if s then Zneg m else Zpos m) * 2 ^ (e + 100) | _ => 0 end.
Definition scalable (x : f64) : bool := match x with B754_finite _ _ e _ => (-100 <=? e)%Z | B754_zero _ => true | _ => false end.

Lemma scaled_ok x : scalable x = true -> B2R x = IZR (scaled x) * bpow radix2 (-100).
Proof.
  destruct x as [s| | |s m e H]; try discriminate; cbn [scalable scaled B2R]; intros Hs; [lra|]. apply Z.leb_le in Hs.
  unfold F2R. cbn [Fnum Fexp]. rewrite mult_IZR. change (2 ^ (e + 100))%Z with (Zpower radix2 (e + 100)). rewrite IZR_Zpower by lia.
  rewrite Rmult_assoc, <- bpow_plus. replace (e + 100 + -100)%Z with e by lia. destruct s; reflexivity.
Qed.

Definition scaled_errors (j : nat) (ls ps : list (list f64)) : list Z :=
  map (fun q => scaled (nth j (fst q) (B754_zero false)) - scaled (nth j (snd q) (B754_zero false)))%Z (combine ls ps).

Lemma scaled_errors_ok j ls ps : forallb (fun q => scalable (nth j (fst q) (B754_zero false)) && scalable (nth j (snd q) (B754_zero false))) (combine ls ps) = true ->
  errors j ls ps = map (fun z => IZR z * bpow radix2 (-100)) (scaled_errors j ls ps).
Proof.
  intros H. unfold errors, scaled_errors. rewrite map_map. apply map_ext_in. intros q Hq. rewrite forallb_forall in H. specialize (H q Hq).
  apply andb_true_iff in H as [H1 H2]. rewrite (scaled_ok _ H1), (scaled_ok _ H2), minus_IZR. ring.
Qed.

Definition Zsumsq (l : list Z) : Z := fold_right (fun z s => z * z + s)%Z 0%Z l.

Lemma scaled_rms_lt (a b : list Z) : length a = length b -> (Zsumsq a < Zsumsq b)%Z ->
  rms (map (fun z => IZR z * bpow radix2 (-100)) a) < rms (map (fun z => IZR z * bpow radix2 (-100)) b).
Proof.
  intros HL H. set (s := bpow radix2 (-100)). assert (Hs : 0 < s) by apply bpow_gt_0.
  assert (E : forall l, Rsum (map (fun x => x * x) (map (fun z => IZR z * s) l)) = IZR (Zsumsq l) * (s * s)).
  { induction l as [|z l IH]; [cbn; lra|]. cbn [map]. rewrite Rsum_cons, IH. change (Zsumsq (z :: l)) with (z * z + Zsumsq l)%Z. rewrite plus_IZR, mult_IZR. ring. }
  unfold rms. apply sqrt_lt_1_alt. unfold mean. rewrite !E, !map_length, HL.
  assert (Hb : 0 < INR (length b)) by (apply INR_pos; intros ->; destruct a; [cbn in H; lia|discriminate]).
  assert (Ha : (0 <= Zsumsq a)%Z) by (clear; induction a as [|z a IH]; cbn; [lia|]; fold (Zsumsq a); nia).
  pose proof (Rinv_0_lt_compat _ Hb) as Hi. pose proof (Rmult_lt_0_compat _ _ Hs Hs) as Hss. apply IZR_le in Ha. apply IZR_lt in H.
  split; [apply Rmult_le_pos; [apply Rmult_le_pos|]; lra|]. apply Rmult_lt_compat_r; [exact Hi|]. apply Rmult_lt_compat_r; lra.
Qed.

Lemma drift_within : within 1 (labels drift).
Proof.
  assert (H : forall x : f64, is_finite x = true -> Bleb (Babs x) (n64 1) = true -> is_finite x = true /\ Rabs (B2R x) <= 1).
  { intros x Fx Hx. split; [exact Fx|]. rewrite <- B2R_Babs. destruct (of_Z_exact 1) as (V & F1 & _); [lia|].
    change 1 with (IZR 1). rewrite <- V. apply finite_leb; auto. now rewrite is_finite_Babs. }
  unfold within, drift. cbn [labels].
  repeat (apply Forall_cons; [apply Forall_cons; [apply H; vm_compute; reflexivity|apply Forall_nil]|]). apply Forall_nil.
Qed.

Definition drift_m : res (@regression_boost_model (f64_ops taylor_platform)) := regression_boost_train drift drift_cfg 1 (n64 1).

Lemma drift_increases : exists m ps ps',
  regression_boost_train drift drift_cfg 1 (n64 1) = Ok m /\
  regression_boost_all_predictions (first_trees 0 m) drift = Ok ps /\
  regression_boost_all_predictions (first_trees 1 m) drift = Ok ps' /\
  rms (errors 0 (labels drift) ps) < rms (errors 0 (labels drift) ps').
Proof.
  set (good := fun m : @regression_boost_model (f64_ops taylor_platform) =>
    match regression_boost_all_predictions (first_trees 0 m) drift, regression_boost_all_predictions (first_trees 1 m) drift with
    | Ok ps, Ok ps' =>
        forallb (fun q : list f64 * list f64 => scalable (nth 0 (fst q) (B754_zero false)) && scalable (nth 0 (snd q) (B754_zero false))) (combine (labels drift) ps) &&
        forallb (fun q : list f64 * list f64 => scalable (nth 0 (fst q) (B754_zero false)) && scalable (nth 0 (snd q) (B754_zero false))) (combine (labels drift) ps') &&
        Nat.eqb (length (scaled_errors 0 (labels drift) ps)) (length (scaled_errors 0 (labels drift) ps')) &&
        (Zsumsq (scaled_errors 0 (labels drift) ps) <? Zsumsq (scaled_errors 0 (labels drift) ps'))%Z
    | _, _ => false end).
  assert (H : match drift_m with Ok m => good m | _ => false end = true) by (vm_compute; reflexivity).
  destruct drift_m as [m| |] eqn:E; [|discriminate H|discriminate H]. unfold good in H. clear good.
  destruct (regression_boost_all_predictions (first_trees 0 m) drift) as [ps| |] eqn:E0; [|discriminate H|discriminate H].
  destruct (regression_boost_all_predictions (first_trees 1 m) drift) as [ps'| |] eqn:E1; [|discriminate H|discriminate H].
  apply andb_true_iff in H as [H H4]. apply andb_true_iff in H as [H H3]. apply andb_true_iff in H as [H1 H2].
  exists m, ps, ps'. split; [exact E|]. split; [exact E0|]. split; [exact E1|].
  rewrite (scaled_errors_ok _ _ _ H1), (scaled_errors_ok _ _ _ H2). apply scaled_rms_lt; [now apply Nat.eqb_eq|now apply Z.ltb_lt].
Qed.

Lemma drift_sizes : 0 <= B2R (n64 1) <= 2 /\ bpow radix2 (-400) <= 1 <= bpow radix2 300 /\
  INR 1 * (bpow radix2 (-48) * INR (length (labels drift) + 2) * ((1 + 4 * sqrt (INR (length (labels drift)))) * 1)) <= 1.
Proof.
  destruct (of_Z_exact 1) as (V & _); [lia|]. split; [unfold n64; rewrite V; lra|]. split.
  { change 1 with (bpow radix2 0). split; apply bpow_le; lia. }
  change (length (labels drift)) with 2%nat. change (2 + 2)%nat with 4%nat.
  assert (Hs : sqrt (INR 2) <= 2). { apply Rle_trans with (sqrt (2 * 2)); [apply sqrt_le_1_alt; cbn; lra|rewrite sqrt_square; lra]. }
  pose proof (sqrt_pos (INR 2)). replace (INR 1) with 1 by reflexivity. replace (INR 4) with 4 by (cbn; lra).
  apply Rle_trans with (bpow radix2 (-48) * 4 * 9).
  - rewrite Rmult_1_l, Rmult_1_r. apply Rmult_le_compat_l; [pose proof (bpow_ge_0 radix2 (-48)); lra|lra].
  - apply Rle_trans with (bpow radix2 (-48) * bpow radix2 6); [|rewrite <- bpow_plus; change 1 with (bpow radix2 0); apply bpow_le; lia].
    rewrite Rmult_assoc. apply Rmult_le_compat_l; [apply bpow_ge_0|]. change (bpow radix2 6) with 64. lra.
Qed.
