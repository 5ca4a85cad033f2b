(** The four-row example meets the hypotheses of the theorems on integer labels. *)
From Coq Require Import Reals Lra Lia ZArith.
From Flocq Require Import Core.
From Flocq Require Import IEEE754.BinarySingleNaN.
From Verif Require Import Base Num ModelCommon ModelTree Spec F64 XR SpecExact SpecInt ProofError Decide Demo.
Local Open Scope R_scope.

Local Notation O := (f64_ops taylor_platform).

Lemma four_integer : integer_labels 1 four.
Proof.
  intros l x Hl Hx.
  assert (H : x = f64_of_Z 0 \/ x = f64_of_Z 1).
  { cbn [four labels In] in Hl. destruct Hl as [<-|[<-|[<-|[<-|[]]]]]; cbn [In] in Hx; destruct Hx as [<-|[<-|[]]]; auto. }
  destruct H as [->| ->]; [exists 0%Z|exists 1%Z]; (split; [reflexivity|lia]).
Qed.

Lemma four_fits : sums_fit 1 four.
Proof. split; [lia|]. cbn. lia. Qed.

Lemma four_small : small_table 1 2 four.
Proof. split; [lia|]. cbn. lia. Qed.

Lemma four_gain_error : gain_error 2 1 = 144 / 2 ^ 53.
Proof. unfold gain_error. change (IZR (1 * 1)) with 1. cbn [INR]. unfold Rdiv. f_equal. lra. Qed.

Lemma four_consistent : consistent_rows four.
Proof.
  intros row row' l l' H H' HE.
  cbn in H, H'.
  repeat (destruct H as [H|H]; [injection H as <- <-|]); [..|destruct H];
    (repeat (destruct H' as [H'|H']; [injection H' as <- <-|]); [..|destruct H']);
    try reflexivity; exfalso; inversion HE as [|? ? ? ? Hx _]; revert Hx; vm_compute; discriminate.
Qed.

Lemma four_once : occurs_once (exact_data four) (exact_question (@Question O 0 (n64 3))).
Proof.
  assert (V : forall z, (Z.abs z <= 2 ^ 53)%Z -> exact_value (n64 z) = Fin (IZR z)).
  { intros z Hz. destruct (of_Z_exact z Hz) as (V & F & _). unfold n64. rewrite <- V.
    destruct (f64_of_Z z) as [s|s| |s m e H]; try discriminate; reflexivity. }
  assert (ER : feature_rows (exact_data four) = [[Fin 1]; [Fin 2]; [Fin 3]; [Fin 4]]).
  { unfold exact_data, four. cbn [feature_rows map]. now rewrite !V by lia. }
  intros i i' ri ri' H H' Hv Hv'. rewrite ER in H, H'. unfold exact_question in Hv, Hv'. cbn [q_column q_value] in Hv, Hv'.
  rewrite V in Hv, Hv' by lia.
  assert (G : forall k (rk : list xr), nth_error [[Fin 1]; [Fin 2]; [Fin 3]; [Fin 4]] k = Some rk -> nth_error rk 0 = Some (Fin 3) -> k = 2%nat).
  { intros k rk Hk Hr. destruct k as [|[|[|[|k]]]]; cbn in Hk; try (injection Hk as <-; cbn in Hr; injection Hr as Hr; lra); auto.
    destruct k; discriminate. }
  rewrite (G _ _ H Hv), (G _ _ H' Hv'). reflexivity.
Qed.
