(** Examples for nearly fitting trees: four separable rows, and two labels too close together to be told apart. *)
From Coq Require Import Reals Lra Lia ZArith.
From Flocq Require Import Core.
From Flocq Require Import IEEE754.BinarySingleNaN.
From Verif Require Import Base Num ModelCommon ModelTree Spec SpecTree SpecScore SpecFit F64 XR SpecExact SpecInt SpecNear ProofError ProofInt Decide Check Demo DemoNear.
Local Open Scope R_scope.

Local Notation O := (f64_ops taylor_platform).

Lemma fractions_consistent : consistent_rows fractions.
Proof.
  intros row row' l l' H H' HE.
  cbn [samples fractions feature_rows labels combine In] in H, H'.
  repeat (destruct H as [H|H]; [injection H as <- <-|]); [..|destruct H];
    (repeat (destruct H' as [H'|H']; [injection H' as <- <-|]); [..|destruct H']);
    try reflexivity; exfalso; inversion HE as [|? ? ? ? Hx _]; revert Hx; vm_compute; discriminate.
Qed.

(** 1 + 2^-30 *)
Definition just_above_one : f64 := Bdiv mode_NE (n64 (2 ^ 30 + 1)) (n64 (2 ^ 30)).
Definition close_pair : @dataset O := @mkDS O [[n64 1]; [n64 2]] [[n64 1]; [just_above_one]] [[n64 1; n64 2]].

Lemma close_pair_bounded : bounded_labels 4 close_pair.
Proof.
  intros l x Hl Hx.
  assert (H : is_finite (x : f64) = true /\ Bleb (Babs (x : f64)) (n64 4) = true).
  { cbn [close_pair labels In] in Hl. destruct Hl as [<-|[<-|[]]]; cbn [In] in Hx; destruct Hx as [<-|[]]; vm_compute; auto. }
  destruct H as [Fx H]. split; [exact Fx|]. apply (value_within x 4); auto. lia.
Qed.

Lemma close_pair_ordinary : ordinary_table 4 close_pair.
Proof. destruct fractions_ordinary as [H _]. split; [exact H|cbn; lia]. Qed.

Lemma close_pair_consistent : consistent_rows close_pair.
Proof.
  intros row row' l l' H H' HE.
  cbn [samples close_pair feature_rows labels combine In] in H, H'.
  repeat (destruct H as [H|H]; [injection H as <- <-|]); [..|destruct H];
    (repeat (destruct H' as [H'|H']; [injection H' as <- <-|]); [..|destruct H']);
    try reflexivity; exfalso; inversion HE as [|? ? ? ? Hx _]; revert Hx; vm_compute; discriminate.
Qed.

Lemma close_pair_not_fitted :
  exists (d : @dataset O) (row label : list (@F O)),
    wf_dataset 1 1 d /\ bounded_labels 4 d /\ ordinary_table 4 d /\ consistent_rows d /\ In (row, label) (samples d) /\
    forall (threads : bool) (levels : N),
      (t <- regression_tree_new d (mkTC (split_finder_new Variance) threads 1 levels);; p <- tree_prediction row t;;
       Ok (equal_vectors p label)) = Ok false.
Proof.
  exists close_pair, [n64 1], [n64 1]. split; [check_wf|]. split; [exact close_pair_bounded|]. split; [exact close_pair_ordinary|].
  split; [exact close_pair_consistent|]. split; [now left|]. intros [|] levels; vm_compute; reflexivity.
Qed.
