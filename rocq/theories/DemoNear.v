(** A four-row example with labels that are not integers. *)
From Coq Require Import Reals Lra Lia ZArith.
From Flocq Require Import Core.
From Flocq Require Import IEEE754.BinarySingleNaN.
From Verif Require Import Base Num ModelCommon ModelTree Spec F64 XR SpecExact SpecInt SpecNear ProofError ProofInt Decide Demo.
Local Open Scope R_scope.

Local Notation O := (f64_ops taylor_platform).

Definition tenths_of (z : Z) : f64 := Bdiv mode_NE (n64 z) (n64 10).
Definition fractions : @dataset O :=
  @mkDS O [[n64 1]; [n64 2]; [n64 3]; [n64 4]]
    [[tenths_of 1; tenths_of 7]; [tenths_of 2; tenths_of 7]; [tenths_of 31; tenths_of (-22)]; [tenths_of 33; tenths_of (-22)]]
    [[n64 1; n64 2; n64 3; n64 4]].

Lemma value_within (x : f64) (M : Z) : (Z.abs M <= 2 ^ 53)%Z -> is_finite x = true -> Bleb (Babs x) (n64 M) = true -> Rabs (B2R x) <= IZR M.
Proof.
  intros HM Fx H. rewrite <- B2R_Babs. destruct (of_Z_exact M HM) as (V & F1 & _).
  rewrite <- V. apply finite_leb; auto. now rewrite is_finite_Babs.
Qed.

Lemma fractions_bounded : bounded_labels 4 fractions.
Proof.
  intros l x Hl Hx.
  assert (H : is_finite (x : f64) = true /\ Bleb (Babs (x : f64)) (n64 4) = true).
  { cbn [fractions labels In] in Hl. destruct Hl as [<-|[<-|[<-|[<-|[]]]]]; cbn [In] in Hx; destruct Hx as [<-|[<-|[]]]; vm_compute; auto. }
  destruct H as [Fx H]. split; [exact Fx|]. apply (value_within x 4); auto. lia.
Qed.

Lemma fractions_ordinary : ordinary_table 4 fractions.
Proof.
  split; [|cbn; lia]. assert (H : 1 <= 2 ^ 398) by (apply pow_R1_Rle; lra).
  assert (E : 2 ^ 400 = 4 * 2 ^ 398) by (change 400%nat with (2 + 398)%nat; rewrite pow_add; lra). split; [|lra].
  rewrite <- (Rinv_inv 4). apply Rinv_le; lra.
Qed.

Lemma fractions_once : occurs_once (exact_data fractions) (exact_question (@Question O 0 (n64 3))).
Proof.
  assert (V : forall z, (Z.abs z <= 2 ^ 53)%Z -> exact_value (n64 z) = Fin (IZR z)).
  { intros z Hz. destruct (of_Z_exact z Hz) as (V & F & _). unfold n64. rewrite <- V.
    destruct (f64_of_Z z) as [s|s| |s m e H]; try discriminate; reflexivity. }
  assert (ER : feature_rows (exact_data fractions) = [[Fin 1]; [Fin 2]; [Fin 3]; [Fin 4]]).
  { unfold exact_data, fractions. cbn [feature_rows map]. now rewrite !V by lia. }
  intros i i' ri ri' H H' Hv Hv'. rewrite ER in H, H'. unfold exact_question in Hv, Hv'. cbn [q_column q_value] in Hv, Hv'.
  rewrite V in Hv, Hv' by lia.
  assert (G : forall k (rk : list xr), nth_error [[Fin 1]; [Fin 2]; [Fin 3]; [Fin 4]] k = Some rk -> nth_error rk 0 = Some (Fin 3) -> k = 2%nat).
  { intros k rk Hk Hr. destruct k as [|[|[|[|k]]]]; cbn in Hk; try (injection Hk as <-; cbn in Hr; injection Hr as Hr; lra); auto.
    destruct k; discriminate. }
  rewrite (G _ _ H Hv), (G _ _ H' Hv'). reflexivity.
Qed.

Lemma fractions_error : real_gain_error 2 4 4 = 92160 / 2 ^ 53.
Proof. unfold real_gain_error. cbn [INR]. unfold Rdiv. f_equal. lra. Qed.
