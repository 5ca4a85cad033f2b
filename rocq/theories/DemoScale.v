(** Concrete labels that differ by a power of two, checked by computation. *)
From Coq Require Import Reals Lra Lia ZArith Bool List.
From Flocq Require Import Core.
From Flocq Require Import IEEE754.BinarySingleNaN.
From Verif Require Import Base Num F64 ModelCommon ModelTree ModelBoost Lib Spec SpecTree SpecScore SpecFit SpecMirror SpecScale ProofRound Decide Check Demo DemoDeepFloat.
Import ListNotations.
Local Open Scope R_scope.

Definition moderateb (m : Z) (x : f64) : bool :=
  match x with
  | B754_zero _ => true
  | B754_finite _ _ e _ => ((- m <=? e) && (e + 53 <=? m))%Z
  | _ => false
  end.

Lemma moderateb_ok m x : moderateb m x = true -> moderate m x.
Proof.
  destruct x as [s|s| |s p e He]; try discriminate; intros H; [split; [reflexivity|now left]|]. split; [reflexivity|right].
  cbn in H. apply andb_prop in H as [H1 H2]. apply Z.leb_le in H1, H2. cbn [B2R]. unfold F2R. cbn [Fnum Fexp].
  rewrite Rabs_mult, (Rabs_pos_eq (bpow radix2 e)), <- abs_IZR, abs_cond_Zopp by apply bpow_ge_0. cbn [Z.abs].
  assert (D : (Zpos p < 2 ^ 53)%Z).
  { unfold SpecFloat.bounded in He. apply andb_prop in He as [Hc _]. unfold SpecFloat.canonical_mantissa in Hc. apply Zeq_bool_eq in Hc.
    unfold SpecFloat.fexp, SpecFloat.emin in Hc. rewrite Digits.Zpos_digits2_pos in Hc.
    apply (Digits.Zpower_gt_Zdigits radix2 53 (Zpos p)). lia. }
  split.
  - eapply Rle_trans; [apply bpow_le; exact H1|]. rewrite <- (Rmult_1_l (bpow radix2 e)) at 1. apply Rmult_le_compat_r; [apply bpow_ge_0|]. apply IZR_le. lia.
  - apply Rle_trans with (bpow radix2 (53 + e)); [|apply bpow_le; lia]. rewrite bpow_plus. apply Rmult_le_compat_r; [apply bpow_ge_0|].
    change (bpow radix2 53) with (IZR (2 ^ 53)). apply IZR_le. lia.
Qed.

Definition scaledb (k : Z) (x y : f64) : bool :=
  match x, y with
  | B754_zero _, B754_zero _ => true
  | B754_finite s p e _, B754_finite s' p' e' _ => Bool.eqb s s' && Pos.eqb p p' && Z.eqb (e + k) e'
  | _, _ => false
  end.
Lemma scaledb_ok k x y : scaledb k x y = true -> scaled_by k x y.
Proof.
  destruct x as [s|s| |s p e He], y as [s'|s'| |s' p' e' He']; try discriminate; intros H; (split; [reflexivity|]); (split; [reflexivity|]); [cbn; ring|].
  cbn in H. apply andb_prop in H as [H H3]. apply andb_prop in H as [H1 H2]. apply eqb_prop in H1. apply Pos.eqb_eq in H2. apply Z.eqb_eq in H3. subst.
  cbn [B2R]. unfold F2R. cbn [Fnum Fexp]. rewrite bpow_plus. ring.
Qed.

Fixpoint all2b {A B} (f : A -> B -> bool) (l : list A) (l' : list B) : bool :=
  match l, l' with [], [] => true | x :: l, y :: l' => f x y && all2b f l l' | _, _ => false end.
Lemma all2b_ok {A B} (f : A -> B -> bool) (R : A -> B -> Prop) l l' : (forall x y, f x y = true -> R x y) -> all2b f l l' = true -> Forall2 R l l'.
Proof.
  intros Hf. revert l'. induction l as [|x l IH]; intros [|y l'] H; try discriminate; constructor; cbn in H; apply andb_prop in H as [H1 H2]; auto.
Qed.
Lemma allb_ok {A} (f : A -> bool) (R : A -> Prop) l : (forall x, f x = true -> R x) -> forallb f l = true -> Forall R l.
Proof. intros Hf H. apply Forall_forall. intros x Hx. apply Hf. rewrite forallb_forall in H. auto. Qed.

Local Notation O := (f64_ops taylor_platform).

Definition eight_times (ls : list (list f64)) : list (list f64) := map (map (Bmult mode_NE (n64 8))) ls.

Lemma uneven_moderate : Forall (Forall (moderate 150)) (labels uneven).
Proof.
  apply (allb_ok (forallb (moderateb 150))); [|vm_compute; reflexivity]. intros l. apply allb_ok. apply moderateb_ok.
Qed.
Lemma uneven_scaled : Forall2 (Forall2 (scaled_by 3)) (labels uneven) (eight_times (labels uneven)).
Proof.
  apply (all2b_ok (all2b (scaledb 3))); [|vm_compute; reflexivity]. intros l l'. apply all2b_ok. apply scaledb_ok.
Qed.

Definition residuals_moderate (n : nat) (m : @regression_boost_model O) : bool :=
  forallb (fun j => match regression_boost_all_predictions (first_trees j m) uneven with
                    | Ok preds => forallb (forallb (moderateb 150)) (differences (O:=O) (labels uneven) preds)
                    | _ => true end) (seq 0 n).

Lemma uneven_trained : exists m m',
  regression_boost_train uneven uneven_cfg 3 (tenth 3 : @F O) = Ok m /\
  regression_boost_train (with_other_labels uneven (eight_times (labels uneven))) uneven_cfg 3 (tenth 3 : @F O) = Ok m' /\
  (forall j preds, (j < 3)%nat -> regression_boost_all_predictions (first_trees j m) uneven = Ok preds ->
     Forall (Forall (moderate 150)) (differences (O:=O) (labels uneven) preds)) /\
  match regression_boost_predict m [n64 2 : @F O], regression_boost_predict m' [n64 2 : @F O] with
  | Ok [a; b], Ok [c; d] => (Beqb c (Bmult mode_NE (n64 8) a) && Beqb d (Bmult mode_NE (n64 8) b) && negb (Beqb a (n64 0)) && negb (Beqb b (n64 0)))%bool
  | _, _ => false end = true.
Proof.
  assert (H : match regression_boost_train uneven uneven_cfg 3 (tenth 3 : @F O), regression_boost_train (with_other_labels uneven (eight_times (labels uneven))) uneven_cfg 3 (tenth 3 : @F O) with
    | Ok m, Ok m' => residuals_moderate 3 m &&
       match regression_boost_predict m [n64 2 : @F O], regression_boost_predict m' [n64 2 : @F O] with
       | Ok [a; b], Ok [c; d] => (Beqb c (Bmult mode_NE (n64 8) a) && Beqb d (Bmult mode_NE (n64 8) b) && negb (Beqb a (n64 0)) && negb (Beqb b (n64 0)))%bool
       | _, _ => false end
    | _, _ => false end = true) by (vm_compute; reflexivity).
  destruct (regression_boost_train uneven uneven_cfg 3 (tenth 3 : @F O)) as [m| |]; [|discriminate H|discriminate H].
  destruct (regression_boost_train (with_other_labels uneven (eight_times (labels uneven))) uneven_cfg 3 (tenth 3 : @F O)) as [m'| |]; [|discriminate H|discriminate H].
  apply andb_prop in H as [H1 H2]. exists m, m'. split; [reflexivity|]. split; [reflexivity|]. split; [|exact H2].
  intros j preds Hj E. unfold residuals_moderate in H1. rewrite forallb_forall in H1. specialize (H1 j). rewrite E in H1.
  apply (allb_ok (forallb (moderateb 150))); [intros l; apply allb_ok; apply moderateb_ok|]. apply H1. apply in_seq. lia.
Qed.

(** 2^e. *)
Definition two_to (e : Z) : f64 := Bldexp mode_NE (n64 1) e.
Definition tiny : @dataset O := @mkDS O [[n64 1]; [n64 2]] [[n64 0]; [two_to (-540)]] [[n64 1; n64 2]].
Definition less_tiny : list (list f64) := [[n64 0]; [two_to (-440)]].
Definition tiny_cfg : @tree_config O := @mkTC O (split_finder_new Variance) false 1 1.

Lemma tiny_scaled : Forall2 (Forall2 (scaled_by 100)) (labels tiny) less_tiny.
Proof.
  apply (all2b_ok (all2b (scaledb 100))); [|vm_compute; reflexivity]. intros l l'. apply all2b_ok. apply scaledb_ok.
Qed.
