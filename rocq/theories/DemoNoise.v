(** A noisy copy of the five-row example. *)
From Coq Require Import Reals Lra Lia ZArith.
From Flocq Require Import Core.
From Flocq Require Import IEEE754.BinarySingleNaN.
From Verif Require Import Base Num ModelCommon ModelTree ModelBoost Lib Spec SpecTree F64 XR SpecExact SpecInt SpecNear SpecNode SpecScore SpecClear SpecNoise ProofReal ProofData ProofTree
  ProofTree3 ProofTreeExact ProofError ProofInt ProofClear Decide Check Demo DemoNear DemoClear.
Local Open Scope R_scope.

Local Notation O := (f64_ops taylor_platform).

Definition q256 (z : Z) : f64 := Bdiv mode_NE (n64 z) (n64 256).

(** [blocks] with 9 moved up and a 4 moved down by 1/256. *)
Definition blocks_noisy : @dataset O :=
  @mkDS O [[n64 0]; [n64 0]; [n64 0]; [n64 1]; [n64 1]]
    [[n64 1; n64 4]; [n64 2; q256 1023]; [n64 2; n64 4]; [q256 2305; n64 1]; [n64 12; n64 0]]
    [[n64 0; n64 0; n64 0; n64 1; n64 1]].

Lemma dyadic (x : f64) m e : B2SF x = SpecFloat.S754_finite false m e -> B2R x = IZR (Zpos m) * bpow radix2 e.
Proof. intros E. rewrite <- SF2R_B2SF, E. reflexivity. Qed.

Lemma q1023 : B2R (q256 1023) = 4 - / 256.
Proof.
  rewrite (dyadic (q256 1023) 8998403161718784 (-51)) by (vm_compute; reflexivity).
  change 8998403161718784%positive with (1023 * 8796093022208)%positive. rewrite Pos2Z.inj_mul, mult_IZR. change (IZR 8796093022208) with (IZR (Zpower radix2 43)).
  rewrite IZR_Zpower, Rmult_assoc, <- bpow_plus by lia. change (43 + -51)%Z with (-8)%Z. change (bpow radix2 (-8)) with (/ 256). lra.
Qed.

Lemma q2305 : B2R (q256 2305) = 9 + / 256.
Proof.
  rewrite (dyadic (q256 2305) 5068748604047360 (-49)) by (vm_compute; reflexivity).
  change 5068748604047360%positive with (2305 * 2199023255552)%positive. rewrite Pos2Z.inj_mul, mult_IZR. change (IZR 2199023255552) with (IZR (Zpower radix2 41)).
  rewrite IZR_Zpower, Rmult_assoc, <- bpow_plus by lia. change (41 + -49)%Z with (-8)%Z. change (bpow radix2 (-8)) with (/ 256). lra.
Qed.

Lemma blocks_copy : noisy_copy (/ 256) blocks blocks_noisy.
Proof.
  split; [reflexivity|]. split; [reflexivity|].
  assert (V : forall z, (Z.abs z <= 2 ^ 53)%Z -> B2R (n64 z) = IZR z) by (intros z Hz; apply (of_Z_exact z Hz)).
  unfold blocks, blocks_noisy. cbn [labels].
  repeat (constructor; [repeat (constructor; [rewrite ?q1023, ?q2305, ?V by lia; apply Rabs_le; lra|]); constructor|]). constructor.
Qed.

Lemma blocks_noisy_wf : @wf_dataset O 1 2 blocks_noisy.
Proof. check_wf. Qed.

Lemma blocks_noisy_bounded : bounded_labels 16 blocks_noisy.
Proof.
  intros l x Hl Hx.
  assert (H : is_finite (x : f64) = true /\ Bleb (Babs (x : f64)) (n64 16) = true).
  { cbn [blocks_noisy labels In] in Hl. destruct Hl as [<-|[<-|[<-|[<-|[<-|[]]]]]]; cbn [In] in Hx; destruct Hx as [<-|[<-|[]]]; vm_compute; auto. }
  destruct H as [Fx H]. split; [exact Fx|]. apply (value_within x 16); auto. lia.
Qed.

Lemma blocks_noisy_clear : exists t t' te,
  @regression_tree_new O blocks blocks_cfg = Ok t /\ @regression_tree_new O blocks_noisy blocks_cfg = Ok t' /\
  @regression_tree_new xr_ops (exact_data blocks) blocks_cfg_exact = Ok te /\
  clear_path (2 * real_gain_error 2 (length (labels blocks)) 16 + 32 * INR 2 * 16 * / 256) 1 2 (tc_max_levels blocks_cfg) (exact_data blocks) te (map exact_value [n64 1]).
Proof.
  destruct (regression_total (f64_laws taylor_platform) 1 2 blocks blocks_cfg blocks_wf eq_refl eq_refl) as (t & Et).
  destruct (regression_total (f64_laws taylor_platform) 1 2 blocks_noisy blocks_cfg blocks_noisy_wf eq_refl eq_refl) as (t' & Et').
  destruct (regression_total xr_laws 1 2 (exact_data blocks) blocks_cfg_exact blocks_wfx eq_refl eq_refl) as (te & Ete).
  exists t, t', te. split; [exact Et|]. split; [exact Et'|]. split; [exact Ete|].
  assert (Bt : built mk_reg blocks_cfg_exact 0 (exact_data blocks) te) by (rewrite regression_tree_new_eq in Ete; now apply build_with_built in Ete).
  rewrite (proj2 value_0).
  refine (blocks_clear 2 _ _ blocks_wfx (proj1 blocks_exact) blocks_real mk_reg blocks_cfg_exact te _ 1 eq_refl eq_refl ltac:(cbn; lia) Bt (or_intror eq_refl) _ _).
  unfold block_values. rewrite blocks_gain. unfold real_gain_error. cbn [length labels blocks INR]. lra.
Qed.
