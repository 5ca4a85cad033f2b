(** A copy of the five-row example with very little noise, for two trees. *)
From Coq Require Import Reals Lra Lia ZArith.
From Flocq Require Import Core.
From Flocq Require Import IEEE754.BinarySingleNaN.
From Verif Require Import Base Num ModelCommon ModelTree ModelBoost Lib Spec SpecTree F64 XR SpecExact SpecInt SpecNear SpecNode SpecScore SpecClear SpecNoise ProofReal ProofData ProofTree
  ProofTree3 ProofBoost ProofTreeExact ProofError ProofInt ProofInt2 ProofClear SpecFitFloat Decide Check Demo DemoNear DemoClear DemoNoise.
Local Open Scope R_scope.

Local Notation O := (f64_ops taylor_platform).

Definition q20 (z : Z) : f64 := Bdiv mode_NE (n64 z) (n64 1048576).

(** [blocks] with 9 moved up and a 4 moved down by 2^-20. *)
Definition blocks_hazy : @dataset O :=
  @mkDS O [[n64 0]; [n64 0]; [n64 0]; [n64 1]; [n64 1]]
    [[n64 1; n64 4]; [n64 2; q20 4194303]; [n64 2; n64 4]; [q20 9437185; n64 1]; [n64 12; n64 0]]
    [[n64 0; n64 0; n64 0; n64 1; n64 1]].

Lemma haze_value : bpow radix2 (-20) = / 1048576.
Proof. reflexivity. Qed.

Lemma q20_4 : B2R (q20 4194303) = 4 - bpow radix2 (-20).
Proof.
  rewrite (dyadic (q20 4194303) 9007197107257344 (-51)) by (vm_compute; reflexivity).
  change 9007197107257344%positive with (4194303 * 2147483648)%positive. rewrite Pos2Z.inj_mul, mult_IZR. change (IZR 2147483648) with (IZR (Zpower radix2 31)).
  rewrite IZR_Zpower, Rmult_assoc, <- bpow_plus by lia. change (31 + -51)%Z with (-20)%Z. rewrite haze_value. lra.
Qed.

Lemma q20_9 : B2R (q20 9437185) = 9 + bpow radix2 (-20).
Proof.
  rewrite (dyadic (q20 9437185) 5066550117662720 (-49)) by (vm_compute; reflexivity).
  change 5066550117662720%positive with (9437185 * 536870912)%positive. rewrite Pos2Z.inj_mul, mult_IZR. change (IZR 536870912) with (IZR (Zpower radix2 29)).
  rewrite IZR_Zpower, Rmult_assoc, <- bpow_plus by lia. change (29 + -49)%Z with (-20)%Z. rewrite haze_value. lra.
Qed.

Lemma hazy_copy : noisy_copy (bpow radix2 (-20)) blocks blocks_hazy.
Proof.
  split; [reflexivity|]. split; [reflexivity|].
  assert (V : forall z, (Z.abs z <= 2 ^ 53)%Z -> B2R (n64 z) = IZR z) by (intros z Hz; apply (of_Z_exact z Hz)).
  unfold blocks, blocks_hazy. cbn [labels].
  repeat (constructor; [repeat (constructor; [rewrite ?q20_4, ?q20_9, ?V, haze_value by lia; apply Rabs_le; lra|]); constructor|]). constructor.
Qed.

Lemma hazy_wf : @wf_dataset O 1 2 blocks_hazy.
Proof. check_wf. Qed.

Lemma hazy_within : within 16 (labels blocks_hazy).
Proof.
  apply Forall_forall. intros l Hl. apply Forall_forall. intros x Hx.
  assert (H : is_finite (x : f64) = true /\ Bleb (Babs (x : f64)) (n64 16) = true).
  { cbn [blocks_hazy labels In] in Hl. destruct Hl as [<-|[<-|[<-|[<-|[<-|[]]]]]]; cbn [In] in Hx; destruct Hx as [<-|[<-|[]]]; vm_compute; auto. }
  destruct H as [Fx H]. split; [exact Fx|]. apply (value_within x 16); auto. lia.
Qed.

Lemma hazy_ensembles_clear : let N := length (labels blocks) in
  let B' := (1 + 4 * sqrt (INR N)) * 16 in
  let e := bpow radix2 (-48) * INR (N + 2) * B' in
  let margin := 2 * real_gain_error 2 N (4 * B') + 128 * INR 2 * B' * (sqrt (INR N) * (2 * bpow radix2 (-20) + INR (2 + 2) * e)) in
  exists m m' me, @regression_boost_train O blocks blocks_cfg 2 half = Ok m /\ @regression_boost_train O blocks_hazy blocks_cfg 2 half = Ok m' /\
  @regression_boost_train xr_ops (exact_data blocks) blocks_cfg_exact 2 (Fin (B2R half)) = Ok me /\
  INR 2 * e <= 16 /\
  forall x k, In x ([n64 1] :: feature_rows blocks) -> (k < 2)%nat -> clear_stage margin 1 2 (tc_max_levels blocks_cfg) (exact_data blocks) me k (map exact_value x).
Proof.
  intros N B' e margin.
  destruct (regression_train_total (f64_laws taylor_platform) 1 2 blocks blocks_cfg 2 half blocks_wf eq_refl eq_refl ltac:(lia)) as (m & Em & _).
  destruct (regression_train_total (f64_laws taylor_platform) 1 2 blocks_hazy blocks_cfg 2 half hazy_wf eq_refl eq_refl ltac:(lia)) as (m' & Em' & _).
  destruct (regression_train_total xr_laws 1 2 (exact_data blocks) blocks_cfg_exact 2 (Fin (B2R half)) blocks_wfx eq_refl eq_refl ltac:(lia)) as (me & Eme & _).
  exists m, m', me. split; [exact Em|]. split; [exact Em'|]. split; [exact Eme|]. split; [exact blocks_iterations|].
  rewrite (proj2 half_value) in Eme.
  assert (Hm : 0 <= margin < 1).
  { unfold margin. change N with 5%nat. pose proof blocks_scale as HB. pose proof blocks_unit as He. pose proof root5 as Hr. unfold real_gain_error.
    change ((1 + 4 * sqrt (INR (length (labels blocks)))) * 16) with B' in HB, He. change (bpow radix2 (-48) * INR (length (labels blocks) + 2) * B') with e in He.
    change (INR 2) with (1 + 1). change (INR 5) with (1 + 1 + 1 + 1 + 1) at 1. change (INR (2 + 2)) with (1 + 1 + 1 + 1). rewrite haze_value.
    assert (H37 : bpow radix2 (-37) <= / 2 ^ 30) by (replace (/ 2 ^ 30) with (bpow radix2 (-30)) by (cbn [bpow]; f_equal; cbn; lra); apply bpow_le; lia).
    set (z := 2 * / 1048576 + (1 + 1 + 1 + 1) * e). assert (Hz : 0 <= z <= / 400000) by (unfold z; lra).
    assert (H1 : 0 <= B' * B' <= 208 * 208) by (split; [apply Rmult_le_pos; lra|apply Rmult_le_compat; lra]).
    assert (H2 : 0 <= sqrt (INR 5) * z <= 3 * / 400000) by (split; [apply Rmult_le_pos; lra|apply Rmult_le_compat; lra]).
    assert (H3 : 0 <= B' * (sqrt (INR 5) * z) <= 208 * (3 * / 400000)) by (split; [apply Rmult_le_pos; lra|apply Rmult_le_compat; lra]).
    replace (128 * (1 + 1) * B' * (sqrt (INR 5) * z)) with (256 * (B' * (sqrt (INR 5) * z))) by ring.
    replace (4 * B' * (4 * B')) with (16 * (B' * B')) by ring.
    set (b := B' * B') in *. set (c := B' * (sqrt (INR 5) * z)) in *. clearbody b c. cbn [INR].
    assert (0 <= 320 * (1 + 1 + 1) * (1 + 1 + (1 + 1 + 1 + 1 + 1)) * (16 * b) / 2 ^ 53 <= / 16) by lra. lra. }
  assert (G : forall a k, (k < 2)%nat -> a = 0 \/ a = 1 -> clear_stage margin 1 2 (tc_max_levels blocks_cfg) (exact_data blocks) me k [Fin a]).
  { intros a k Hk Ha. exact (blocks_stages_clear blocks_cfg_exact 2 me margin eq_refl eq_refl ltac:(cbn; lia) (Nat.le_refl 2) Eme Hm a k Hk Ha). }
  intros x k Hx Hk. assert (Hv : x = [n64 0] \/ x = [n64 1]) by (cbn [feature_rows blocks In] in Hx; destruct Hx as [<-|[<-|[<-|[<-|[<-|[<-|[]]]]]]]; auto).
  destruct Hv as [->| ->]; [rewrite (proj1 value_0)|rewrite (proj2 value_0)]; apply G; auto.
Qed.
