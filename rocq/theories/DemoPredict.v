(** Concrete cases for the rounding-error bounds. *)
From Coq Require Import Reals Lra Lia.
From Flocq Require Import Core.
From Flocq Require Import IEEE754.BinarySingleNaN.
From Verif Require Import Base Num F64 ModelCommon ModelTree ModelBoost Spec SpecTree SpecExact SpecPredict ProofReal ProofRound ProofInt ProofError ProofTreeF64 Decide Check Demo.
Local Open Scope R_scope.

Lemma small_value (x : f64) : is_finite x = true -> Bleb (Babs x) (n64 1000) = true -> Rabs (B2R x) <= 1000.
Proof.
  intros Fx H. rewrite <- B2R_Babs. destruct (of_Z_exact 1000) as (V & F1 & _); [lia|].
  change 1000 with (IZR 1000). rewrite <- V. apply finite_leb; auto. now rewrite is_finite_Babs.
Qed.

Lemma thousand_small e : (10 <= e)%Z -> 1000 <= bpow radix2 e.
Proof.
  intros H. apply Rle_trans with (bpow radix2 10); [|now apply bpow_le].
  change (bpow radix2 10) with (IZR 1024). apply IZR_le. lia.
Qed.

Lemma tenths_tame : tame (labels tenths).
Proof.
  assert (H : forall x : f64, is_finite x = true -> Bleb (Babs x) (n64 1000) = true -> is_finite x = true /\ Rabs (B2R x) <= bpow radix2 900).
  { intros x Fx Hx. split; [exact Fx|]. eapply Rle_trans; [apply small_value; assumption|]. apply thousand_small. lia. }
  unfold tame, tenths. cbn [labels].
  repeat (apply Forall_cons; [apply Forall_cons; [apply H; vm_compute; reflexivity|apply Forall_nil]|]). apply Forall_nil.
Qed.

(** Rate 0.1, two trees that are single leaves. *)
Definition stub (o : list f64) : tree_node grad_boost_leaf :=
  leaf_node (@Question (f64_ops taylor_platform) 0 (n64 0)) (mkGL (O := f64_ops taylor_platform) (Some o)).
Definition amg_stub (c : nat) (x : f64) : tree_node amg_leaf :=
  leaf_node (@Question (f64_ops taylor_platform) 0 (n64 0)) (mkAL (O := f64_ops taylor_platform) (Some x) (Some c)).
Definition point_one : f64 := Bdiv mode_NE (n64 1) (n64 10).
Definition small_model : @regression_boost_model (f64_ops taylor_platform) :=
  mkModel [stub [n64 1; n64 2]; stub [n64 3; n64 4]] [n64 10; n64 20] point_one.
Definition small_amg : @amg_boost_model (f64_ops taylor_platform) :=
  mkModel [amg_stub 0 (n64 4); amg_stub 2 (n64 7)] [n64 0; n64 0; n64 0] point_one.

Lemma small_size (start : f64) (xs : list R) : (length xs <= 2)%nat -> is_finite start = true -> Bleb (Babs start) (n64 1000) = true ->
  (forall x, In x xs -> Rabs x <= 1000) ->
  weighted_size (B2R start) (B2R point_one) xs <= bpow radix2 1000.
Proof.
  intros Hl Fs Hs Hx. unfold weighted_size. pose proof (small_value start Fs Hs) as H1.
  assert (Hr : Rabs (B2R point_one) <= 1000) by (apply small_value; vm_compute; reflexivity).
  assert (H2 : Rsum (map (fun x => Rabs (B2R point_one * x)) xs) <= INR (length xs) * 1000000).
  { rewrite <- Rsum_map_const. apply Rsum_map_le. intros x Hi. rewrite Rabs_mult. specialize (Hx x Hi).
    pose proof (Rabs_pos x). pose proof (Rabs_pos (B2R point_one)).
    apply Rle_trans with (1000 * 1000); [apply Rmult_le_compat; assumption|lra]. }
  apply le_INR in Hl. cbn [INR] in Hl. 
  apply Rle_trans with (bpow radix2 30); [|apply bpow_le; lia].
  change (bpow radix2 30) with (IZR 1073741824). lra.
Qed.

Lemma small_model_sizes :
  forall j start, nth_error (m_initial_guess small_model) j = Some start ->
    weighted_size (B2R start) (B2R (m_learning_rate small_model)) (map (fun o => B2R (nth j o (n64 0))) [[n64 1; n64 2]; [n64 3; n64 4]])
      <= bpow radix2 1000.
Proof.
  intros j start Hj. change (m_learning_rate small_model) with point_one.
  assert (Hs : is_finite (start : f64) = true /\ Bleb (Babs (start : f64)) (n64 1000) = true).
  { destruct j as [|[|j]]; cbn in Hj; [injection Hj as <-|injection Hj as <-|destruct j; discriminate]; split; vm_compute; reflexivity. }
  apply small_size; try tauto; [cbn [map length]; lia|].
  assert (Hn : forall o : list f64, Forall (fun x => is_finite x = true /\ Bleb (Babs x) (n64 1000) = true) o -> Rabs (B2R (nth j o (n64 0))) <= 1000).
  { intros o Ho. destruct (Nat.lt_ge_cases j (length o)) as [H|H].
    - rewrite Forall_forall in Ho. destruct (Ho _ (nth_In o (n64 0) H)). now apply small_value.
    - rewrite nth_overflow by exact H. apply small_value; vm_compute; reflexivity. }
  intros x Hx. cbn [map] in Hx. destruct Hx as [<-|[<-|[]]]; apply Hn; repeat (apply Forall_cons; [split; vm_compute; reflexivity|]); apply Forall_nil.
Qed.

Lemma small_amg_sizes : forall j,
  weighted_size (B2R (n64 0)) (B2R (m_learning_rate small_amg))
    (map (fun o => if Nat.eqb j (fst o) then B2R (snd o) else - B2R (snd o) / (INR 3 - 1)) [(0%nat, n64 4); (2%nat, n64 7)]) <= bpow radix2 1000.
Proof.
  intros j. change (m_learning_rate small_amg) with point_one.
  apply small_size; [cbn [map length]; lia|vm_compute; reflexivity|vm_compute; reflexivity|].
  assert (Hn : forall (b : bool) (v : f64), is_finite v = true -> Bleb (Babs v) (n64 1000) = true ->
    Rabs (if b then B2R v else - B2R v / (INR 3 - 1)) <= 1000).
  { intros b v Fv Hv. pose proof (small_value v Fv Hv) as H. destruct b; [exact H|].
    cbn [INR]. unfold Rdiv. rewrite Rabs_mult, Rabs_Ropp, (Rabs_pos_eq (/ _)) by lra. pose proof (Rabs_pos (B2R v)). lra. }
  intros x Hx. cbn [map fst snd] in Hx. destruct Hx as [<-|[<-|[]]]; apply Hn; vm_compute; reflexivity.
Qed.
