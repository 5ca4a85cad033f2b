(** A deeper tree that fits one target worse in binary64. *)
From Coq Require Import Reals Lra Lia ZArith.
From Flocq Require Import Core.
From Flocq Require Import IEEE754.BinarySingleNaN.
From Verif Require Import Base Num F64 ModelCommon ModelTree ModelBoost Lib Spec SpecTree SpecExact SpecScore SpecFit SpecPredict SpecFitFloat
  ProofReal ProofRound ProofInt ProofError ProofFitFloat Decide Check Demo DemoFitFloat.
Local Open Scope R_scope.

Local Notation O := (f64_ops taylor_platform).

Definition tenth (z : Z) : f64 := Bdiv mode_NE (n64 z) (n64 10).

(** The second target makes the tree separate the first three rows from the others; the first target has the same values in both parts. *)
Definition uneven : @dataset O :=
  @mkDS O [[n64 1]; [n64 1]; [n64 1]; [n64 2]; [n64 2]; [n64 2]]
    [[tenth 1; n64 0]; [tenth 2; n64 0]; [tenth 3; n64 0]; [tenth 1; n64 1]; [tenth 3; n64 1]; [tenth 2; n64 1]]
    [[n64 1; n64 1; n64 1; n64 2; n64 2; n64 2]].
Definition uneven_cfg : @tree_config O := @mkTC O (split_finder_new Variance) false 2 1.

Lemma uneven_within : within 1 (labels uneven).
Proof.
  assert (H : forall x : f64, is_finite x = true -> Bleb (Babs x) (n64 1) = true -> is_finite x = true /\ Rabs (B2R x) <= 1).
  { intros x Fx Hx. split; [exact Fx|]. rewrite <- B2R_Babs. destruct (of_Z_exact 1) as (V & F1 & _); [lia|].
    change 1 with (IZR 1). rewrite <- V. apply finite_leb; auto. now rewrite is_finite_Babs. }
  unfold within, uneven. cbn [labels].
  repeat (apply Forall_cons; [repeat (apply Forall_cons; [apply H; vm_compute; reflexivity|]); apply Forall_nil|]). apply Forall_nil.
Qed.

Definition uneven_preds (levels : N) : res (list (list f64)) :=
  t <- regression_tree_new uneven (with_levels levels uneven_cfg);; mapM (fun row => tree_prediction row t) (feature_rows uneven).

Lemma uneven_worse : exists t t' (ps ps' : list (list f64)),
  regression_tree_new uneven (with_levels 0 uneven_cfg) = Ok t /\ regression_tree_new uneven (with_levels 1 uneven_cfg) = Ok t' /\
  mapM (fun row => tree_prediction row t) (feature_rows uneven) = Ok ps /\ mapM (fun row => tree_prediction row t') (feature_rows uneven) = Ok ps' /\
  rms (errors 0 (labels uneven) ps) < rms (errors 0 (labels uneven) ps').
Proof.
  set (fine := fun ps : list (list f64) =>
    forallb (fun q : list f64 * list f64 => scalable (nth 0 (fst q) (B754_zero false)) && scalable (nth 0 (snd q) (B754_zero false))) (combine (labels uneven) ps)).
  assert (H : match uneven_preds 0, uneven_preds 1 with
    | Ok ps, Ok ps' => fine ps && fine ps' &&
        Nat.eqb (length (scaled_errors 0 (labels uneven) ps)) (length (scaled_errors 0 (labels uneven) ps')) &&
        (Zsumsq (scaled_errors 0 (labels uneven) ps) <? Zsumsq (scaled_errors 0 (labels uneven) ps'))%Z
    | _, _ => false end = true) by (vm_compute; reflexivity).
  unfold uneven_preds in H.
  destruct (regression_tree_new uneven (with_levels 0 uneven_cfg)) as [t| |] eqn:E; [|discriminate H|discriminate H].
  destruct (regression_tree_new uneven (with_levels 1 uneven_cfg)) as [t'| |] eqn:E';
    [|cbn [bind] in H; destruct (mapM _ _); discriminate H|cbn [bind] in H; destruct (mapM _ _); discriminate H].
  cbn [bind] in H.
  destruct (mapM (fun row => tree_prediction row t) (feature_rows uneven)) as [ps| |] eqn:E0; [|discriminate H|discriminate H].
  destruct (mapM (fun row => tree_prediction row t') (feature_rows uneven)) as [ps'| |] eqn:E1; [|discriminate H|discriminate H].
  apply andb_true_iff in H as [H H4]. apply andb_true_iff in H as [H H3]. apply andb_true_iff in H as [H1 H2].
  exists t, t', ps, ps'. split; [reflexivity|]. split; [reflexivity|]. split; [exact E0|]. split; [exact E1|].
  rewrite (scaled_errors_ok _ _ _ H1), (scaled_errors_ok _ _ _ H2). apply scaled_rms_lt; [now apply Nat.eqb_eq|now apply Z.ltb_lt].
Qed.
