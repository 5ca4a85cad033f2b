(** The order of the test rows changes a reported mean squared error by rounding only (C99). *)
From Coq Require Import Reals Lra Lia ZArith Permutation.
From Flocq Require Import Core.
From Flocq Require Import IEEE754.BinarySingleNaN.
From Verif Require Import Base Num F64 ModelCommon ModelTree ModelBoost Lib Spec SpecTree SpecExact SpecScore SpecFit SpecPredict SpecError
  ProofReal ProofData ProofMse.
Local Open Scope R_scope.

Section Order.
Context (P : platform).
Local Existing Instance f64_ops.
Notation FO := (f64_ops P).
Notation real := (map (map B2R)).

Lemma Rsum_perm' (a b : list R) : Permutation a b -> Rsum a = Rsum b.
Proof. induction 1; rewrite ?Rsum_cons; lra. Qed.

(** Predictions for the same samples in another order. *)
Lemma predictions_perm (f : list f64 -> res (list f64)) (nt : nat) (test test' : @dataset FO) (ps : list (list f64)) :
  length (feature_rows test) = length (labels test) -> length (feature_rows test') = length (labels test') ->
  Permutation (samples test) (samples test') ->
  Forall2 (fun row p => f row = Ok p /\ length p = nt) (feature_rows test) ps ->
  exists ps', Forall2 (fun row p => f row = Ok p /\ length p = nt) (feature_rows test') ps' /\
    Permutation ps ps' /\ Permutation (labels test) (labels test') /\ Permutation (combine ps (labels test)) (combine ps' (labels test')).
Proof.
  intros L1 L2 HP HF. set (pr := fun row => match f row with Ok p => p | _ => [] end).
  assert (Eps : ps = map pr (feature_rows test)).
  { clear -HF. induction HF as [|row p rows ps [H _] HF IH]; [reflexivity|]. cbn [map]. f_equal; [|exact IH]. unfold pr. now rewrite H. }
  assert (Ec : forall (rows : list (list f64)) (l : list (list f64)), combine (map pr rows) l = map (fun s => (pr (fst s), snd s)) (combine rows l)).
  { induction rows as [|r rows IH]; intros [|x l]; try reflexivity. cbn. f_equal. apply IH. }
  assert (Er : forall (rows l : list (list f64)), length rows = length l -> map fst (combine rows l) = rows /\ map snd (combine rows l) = l).
  { induction rows as [|r rows IH]; intros [|x l] H; try discriminate; [auto|]. cbn. destruct (IH l) as [-> ->]; [now injection H|auto]. }
  unfold samples in HP. change (@F FO) with f64 in *.
  destruct (Er _ _ L1) as [A1 A2]. destruct (Er _ _ L2) as [B1 B2].
  assert (PR : Permutation (feature_rows test) (feature_rows test')) by (rewrite <- A1, <- B1; now apply Permutation_map).
  exists (map pr (feature_rows test')). split; [|split; [|split]].
  - assert (H : forall row, In row (feature_rows test) -> f row = Ok (pr row) /\ length (pr row) = nt).
    { clear - HF. intros row Hr. induction HF as [|row' p rows ps [H H'] HF IH]; [easy|]. destruct Hr as [<-|Hr]; [|now apply IH]. unfold pr. rewrite H. auto. }
    assert (H' : forall row, In row (feature_rows test') -> f row = Ok (pr row) /\ length (pr row) = nt) by (intros row Hr; apply H; apply (Permutation_in row (Permutation_sym PR) Hr)).
    clear - H'. induction (feature_rows test') as [|r rows IH]; cbn [map]; constructor; [apply H'; now left|apply IH; intros; apply H'; now right].
  - rewrite Eps. now apply Permutation_map.
  - rewrite <- A2, <- B2. now apply Permutation_map.
  - rewrite Eps, !Ec. now apply Permutation_map.
Qed.

Lemma mse_perm nt (a b a' b' : list (list f64)) : Permutation (combine a b) (combine a' b') ->
  mean_squared_error nt (real a) (real b) = mean_squared_error nt (real a') (real b').
Proof.
  intros HP. unfold mean_squared_error.
  assert (E : forall u v : list (list f64), combine (real u) (real v) = map (fun s => (map B2R (fst s), map B2R (snd s))) (combine u v)).
  { induction u as [|x u IH]; intros [|y v]; try reflexivity. cbn. f_equal. apply IH. }
  rewrite !E.
  assert (M : forall u v : list R, Permutation u v -> mean u = mean v).
  { intros u v H. unfold mean. now rewrite (Permutation_length H), (Rsum_perm' _ _ H). }
  apply M. do 2 apply Permutation_map. exact HP.
Qed.

Lemma close_both e e' x t : Rabs (e - x) <= t -> Rabs (e' - x) <= t -> Rabs (e - e') <= 2 * t.
Proof. intros A A'. apply Rabs_le. apply Rabs_le_inv in A, A'. lra. Qed.

Lemma perm_shape nt (test test' : @dataset FO) (ps ps' : list (list f64)) : Permutation ps ps' -> Permutation (labels test) (labels test') ->
  labels test <> [] -> rectangular nt (labels test) -> moderate ps -> moderate (labels test) ->
  labels test' <> [] /\ rectangular nt (labels test') /\ moderate ps' /\ moderate (labels test').
Proof.
  intros P1 P2 H1 H2 H3 H4. split; [intros E; rewrite E in P2; apply Permutation_sym, Permutation_nil in P2; contradiction|].
  unfold rectangular, moderate in *. split; [exact (Permutation_Forall P2 H2)|]. split; [exact (Permutation_Forall P1 H3)|exact (Permutation_Forall P2 H4)].
Qed.

Theorem tree_order_float (H : accurate_square P) nt (t : tree_node regression_leaf) (test test' : @dataset FO) (ps : list (list f64)) :
  (0 < nt)%nat -> (Z.of_nat nt <= 2 ^ 40)%Z -> labels test <> [] -> (Z.of_nat (length (labels test)) <= 2 ^ 40)%Z ->
  rectangular nt (labels test) -> length (feature_rows test) = length (labels test) -> length (feature_rows test') = length (labels test') ->
  Forall2 (fun row p => tree_prediction row t = Ok p /\ length p = nt) (feature_rows test) ps ->
  moderate ps -> moderate (labels test) -> Permutation (samples test) (samples test') ->
  let exact := mean_squared_error nt (real ps) (real (labels test)) in
  exists e e', calculate_overall_mean_squared_error test t = Ok e /\ calculate_overall_mean_squared_error test' t = Ok e' /\
    is_finite e = true /\ is_finite e' = true /\
    Rabs (B2R e - B2R e') <= 2 * (bpow radix2 (-51) * INR (length (labels test) + nt + 3) * exact + bpow radix2 (-600)).
Proof.
  intros Hk Hk' Hne Hn HR L1 L2 HF M1 M2 HP exact.
  destruct (predictions_perm (fun row : list (@F FO) => tree_prediction row t) nt test test' ps L1 L2 HP HF) as (ps' & HF' & P1 & P2 & P3).
  destruct (perm_shape nt test test' ps ps' P1 P2 Hne HR M1 M2) as (Hne' & HR' & M1' & M2').
  pose proof (Permutation_length P2) as HL.
  destruct (tree_score_float H nt t test ps Hk Hk' Hne Hn HR L1 HF M1 M2) as (e & E & Fe & He).
  destruct (tree_score_float H nt t test' ps' Hk Hk' Hne' ltac:(rewrite <- HL; exact Hn) HR' L2 HF' M1' M2') as (e' & E' & Fe' & He').
  exists e, e'. split; [exact E|]. split; [exact E'|]. split; [exact Fe|]. split; [exact Fe'|].
  rewrite <- (mse_perm nt _ _ _ _ P3), <- HL in He'. exact (close_both _ _ _ _ He He').
Qed.

Theorem ensemble_order_float (H : accurate_square P) nt (m : regression_boost_model) (test test' : @dataset FO) (ps : list (list f64)) :
  (0 < nt)%nat -> (Z.of_nat nt <= 2 ^ 40)%Z -> labels test <> [] -> (Z.of_nat (length (labels test)) <= 2 ^ 40)%Z ->
  rectangular nt (labels test) -> length (feature_rows test) = length (labels test) -> length (feature_rows test') = length (labels test') ->
  Forall2 (fun row p => regression_boost_predict m row = Ok p /\ length p = nt) (feature_rows test) ps ->
  moderate ps -> moderate (labels test) -> Permutation (samples test) (samples test') ->
  let exact := mean_squared_error nt (real ps) (real (labels test)) in
  exists e e', regression_boost_score m test = Ok e /\ regression_boost_score m test' = Ok e' /\
    is_finite e = true /\ is_finite e' = true /\
    Rabs (B2R e - B2R e') <= 2 * (bpow radix2 (-51) * INR (length (labels test) + nt + 3) * exact + bpow radix2 (-600)).
Proof.
  intros Hk Hk' Hne Hn HR L1 L2 HF M1 M2 HP exact.
  destruct (predictions_perm (regression_boost_predict m) nt test test' ps L1 L2 HP HF) as (ps' & HF' & P1 & P2 & P3).
  destruct (perm_shape nt test test' ps ps' P1 P2 Hne HR M1 M2) as (Hne' & HR' & M1' & M2').
  pose proof (Permutation_length P2) as HL.
  destruct (ensemble_score_float H nt m test ps Hk Hk' Hne Hn HR L1 HF M1 M2) as (e & E & Fe & He).
  destruct (ensemble_score_float H nt m test' ps' Hk Hk' Hne' ltac:(rewrite <- HL; exact Hn) HR' L2 HF' M1' M2') as (e' & E' & Fe' & He').
  exists e, e'. split; [exact E|]. split; [exact E'|]. split; [exact Fe|]. split; [exact Fe'|].
  rewrite <- (mse_perm nt _ _ _ _ P3), <- HL in He'. exact (close_both _ _ _ _ He He').
Qed.
End Order.
