(** The leaves of binary64 and exact trees that follow the same decisions (C91). *)
From Coq Require Import Reals Lra Lia ZArith.
From Flocq Require Import Core.
From Flocq Require Import IEEE754.BinarySingleNaN.
From Verif Require Import Base Num ModelCommon ModelTree ModelBoost Lib Spec SpecTree F64 XR SpecExact SpecInt SpecNear SpecNode SpecScore SpecPredict SpecClear ProofReal ProofData ProofTree
  ProofScore ProofTreeExact ProofInt ProofInt2 ProofNode SpecFitFloat ProofSort ProofFitFloat ProofPredict ProofClear.
Local Open Scope R_scope.

Lemma filter_snd {A B} (keep : B -> bool) (b : list B) : forall (a : list A), length a = length b ->
  map snd (filter (fun p => keep (snd p)) (combine a b)) = filter keep b.
Proof.
  induction b as [|y b IH]; intros [|x a] H; cbn [length] in H; try discriminate; [reflexivity|].
  cbn [combine filter snd]. destruct (keep y) eqn:E; cbn [map snd]; rewrite IH by lia; reflexivity.
Qed.

Lemma mean_same l c : l <> [] -> (forall x, In x l -> x = c) -> mean l = c.
Proof.
  intros Hne H. assert (S : Rsum l = INR (length l) * c).
  { clear Hne. induction l as [|x l IH]; [cbn; lra|]. cbn [length]. rewrite S_INR, Rsum_cons, IH by (intros; apply H; now right). rewrite (H x (or_introl eq_refl)). ring. }
  unfold mean. rewrite S. field. apply Rgt_not_eq. now apply INR_pos.
Qed.

Lemma Forall2_combine_In {A B} (R : A -> B -> Prop) a b p : Forall2 R a b -> In p (combine a b) -> R (fst p) (snd p).
Proof. induction 1 as [|x y a b H _ IH]; [easy|]. intros [<-|Hp]; auto. Qed.

Lemma near_pairs {A} (f g : A -> R) (e : R) (l : list A) : 0 <= e -> (forall a, In a l -> Rabs (f a - g a) <= e) -> Rabs (mean (map f l) - mean (map g l)) <= e.
Proof. intros He H. apply near_mean; auto. now apply near_map2. Qed.

Section Group.
Context (P : platform).
Local Notation FO := (f64_ops P).

(** Target [j] of a sample, as a real number. *)
Definition gf (j : nat) (s : list f64 * list f64) : R := B2R (nth j (snd s) (B754_zero false)).
Definition gx (j : nat) (s : list xr * list xr) : R := xval (nth j (snd s) (Fin 0)).

Lemma tracks_targets e j (d : @dataset FO) (x : @dataset xr_ops) : 0 <= e -> tracks P e d x ->
  Forall2 (fun (s : list f64 * list f64) (s' : list xr * list xr) => fst s' = map exact_value (fst s) /\ Rabs (gf j s - gx j s') <= e) (@samples FO d) (@samples xr_ops x).
Proof.
  intros He H. unfold tracks in H. eapply Forall2_impl; [|exact H]. intros [r l] [r' l'] [H1 H2]. split; [exact H1|]. cbn [snd] in H2. unfold gf, gx. cbn [snd].
  clear -H2 He. revert j. induction H2 as [|a y l l' (z & -> & Hz) H IH]; intros [|j]; cbn [nth xval B2R]; auto; rewrite Rminus_0_r, Rabs_R0; exact He.
Qed.

Context {L L' : Type} (e : R) (He : 0 <= e) (d : @dataset FO) (x : @dataset xr_ops) (T : tracks P e d x) (row : list f64)
  (t : @tree_node FO L) (te : @tree_node xr_ops L') (rest : list (@question xr_ops)).
Hypothesis Hpath : map exact_question (@path FO L row t) = @path xr_ops L' (map exact_value row) te ++ rest.
Hypothesis Hrest : rest = [] \/
  forall s s', In s (@samples_like xr_ops L' (map exact_value row) te x) -> In s' (@samples_like xr_ops L' (map exact_value row) te x) -> snd s = snd s'.

(** The training rows in the binary64 leaf, with both labels. *)
Definition in_leaf (p : list f64 * list f64) : bool :=
  forallb (fun q => Bool.eqb (@answers FO q (fst p)) (@answers FO q row)) (@path FO L row t).
Definition leaf_pairs : list ((list f64 * list f64) * (list xr * list xr)) :=
  filter (fun p => in_leaf (fst p)) (combine (@samples FO d) (@samples xr_ops x)).

Lemma leaf_pairs_fst : map fst leaf_pairs = @samples_like FO L row t d.
Proof.
  unfold leaf_pairs. etransitivity; [apply (ProofBelow.filter_fst in_leaf)|reflexivity]. symmetry. exact (Forall2_length _ _ _ T).
Qed.

Let px (s : list xr * list xr) : bool :=
  forallb (fun q => Bool.eqb (@answers xr_ops q (fst s)) (@answers xr_ops q (map exact_value row))) (map exact_question (@path FO L row t)).

Lemma leaf_pairs_snd : map snd leaf_pairs = filter px (@samples xr_ops x).
Proof.
  unfold leaf_pairs. rewrite <- (filter_snd px (@samples xr_ops x) (@samples FO d)) by exact (Forall2_length _ _ _ T). f_equal. apply filter_ext_In. intros [s s'] Hin.
  destruct (Forall2_combine_In _ _ _ _ T Hin) as [H1 _]. cbn [fst snd] in *. unfold in_leaf, px.
  rewrite H1. clear. generalize (@path FO L row t). intros qs. induction qs as [|q qs IH]; [reflexivity|]. cbn [map forallb]. rewrite IH. f_equal.
  rewrite !exact_answers. reflexivity.
Qed.

Lemma leaf_pairs_in s : In s (map snd leaf_pairs) -> In s (@samples_like xr_ops L' (map exact_value row) te x).
Proof.
  rewrite leaf_pairs_snd. intros H. apply filter_In in H as [H1 H2]. unfold samples_like. apply filter_In. split; auto.
  unfold px in H2. rewrite Hpath, forallb_app in H2. now apply andb_true_iff in H2 as [H2 _].
Qed.

(** The exact leaf output is the mean of the exact labels over the binary64 leaf. *)
Lemma leaf_mean j : leaf_pairs <> [] ->
  mean (map (fun p => gx j (snd p)) leaf_pairs) = mean (map (gx j) (@samples_like xr_ops L' (map exact_value row) te x)).
Proof.
  intros Hne. rewrite <- (map_map snd (gx j)). destruct Hrest as [E|Hp].
  - f_equal. f_equal. rewrite leaf_pairs_snd. unfold samples_like, px. rewrite Hpath, E, app_nil_r. reflexivity.
  - destruct leaf_pairs as [|p0 lp] eqn:E; [contradiction|].
    assert (H0 : In (snd p0) (map snd leaf_pairs)) by (rewrite E; now left).
    pose proof (leaf_pairs_in _ H0) as H0'.
    rewrite (mean_same (map (gx j) (map snd (p0 :: lp))) (gx j (snd p0))).
    + symmetry. apply mean_same.
      * intros E'. apply map_eq_nil in E'. rewrite E' in H0'. destruct H0'.
      * intros z Hz. apply in_map_iff in Hz as (s & <- & Hs). exact (f_equal (fun l : list xr => xval (nth j l (Fin 0))) (Hp s (snd p0) Hs H0')).
    + discriminate.
    + intros z Hz. apply in_map_iff in Hz as (s & <- & Hs). refine (f_equal (fun l : list xr => xval (nth j l (Fin 0))) (Hp s (snd p0) _ H0')). apply leaf_pairs_in. rewrite E. exact Hs.
Qed.

Lemma group_close j : @samples_like FO L row t d <> [] ->
  Rabs (mean (map (gf j) (@samples_like FO L row t d)) - mean (map (gx j) (@samples_like xr_ops L' (map exact_value row) te x))) <= e.
Proof.
  intros Hne. assert (Hq : leaf_pairs <> []) by (intros E; apply Hne; rewrite <- leaf_pairs_fst, E; reflexivity).
  rewrite <- (leaf_mean j Hq), <- leaf_pairs_fst, map_map. apply near_pairs; auto. intros p Hp. unfold leaf_pairs in Hp. apply filter_In in Hp as [Hp _].
  exact (proj2 (Forall2_combine_In _ _ _ _ (tracks_targets e j d x He T) Hp)).
Qed.

End Group.
