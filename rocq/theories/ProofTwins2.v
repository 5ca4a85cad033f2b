(** Test rows with the same features: the number of correct answers (C110). *)
From Coq Require Import Lia Permutation.
From Verif Require Import Base Num ModelCommon ModelTree ModelBoost Lib Spec SpecTree SpecScore SpecTwins ProofData ProofTree ProofSort ProofScore ProofScore2.

Section Twins2.
Context {O : NumOps} (L : NumLaws O).

Lemma feqb_comm x y : feqb x y = feqb y x.
Proof. rewrite !(@feqb_fleb O L). apply Bool.andb_comm. Qed.

(** A correct one-class answer is a vote for that class. *)
Lemma correct_votes k c v l : one_hot k (N.of_nat c) v -> equal_vectors v l = true ->
  match nth_error l c with Some x => feqb x f1 | None => false end = true.
Proof.
  intros (Hc & Hv & H) E. unfold equal_vectors in E. apply Bool.andb_true_iff in E as [E1 E2]. apply Nat.eqb_eq in E1.
  assert (Hck : c < k) by lia. specialize (H c Hck). rewrite N.eqb_refl in H.
  destruct (nth_error l c) as [x|] eqn:El; [|apply nth_error_None in El; lia].
  rewrite forallb_forall in E2. specialize (E2 (f1, x)). cbn [fst snd] in E2. rewrite feqb_comm. apply E2.
  apply (nth_error_In _ c). rewrite nth_error_combine, H, El. reflexivity.
Qed.

Lemma list_max_ge (l : list nat) x : In x l -> x <= list_max l.
Proof. intros H. pose proof (proj1 (list_max_le l (list_max l)) (le_n _)) as HF. rewrite Forall_forall in HF. auto. Qed.

Lemma filter_map_length {A B} (f : A -> B) (p : B -> bool) l : length (filter p (map f l)) = length (filter (fun x => p (f x)) l).
Proof. induction l as [|a l IH]; auto. cbn [map filter]. destruct (p (f a)); cbn [length]; auto. Qed.

Lemma filter_le {A} (p q : A -> bool) l : (forall x, In x l -> p x = true -> q x = true) -> length (filter p l) <= length (filter q l).
Proof.
  induction l as [|a l IH]; intros H; auto. cbn [filter]. assert (IH' : length (filter p l) <= length (filter q l)) by (apply IH; intros; apply H; auto; now right).
  destruct (p a) eqn:Ep; [rewrite (H a (or_introl eq_refl) Ep); cbn [length]; lia|]. destruct (q a); cbn [length]; lia.
Qed.

Lemma filter_perm {A} (p : A -> bool) a b : Permutation a b -> length (filter p a) = length (filter p b).
Proof. intros H. induction H; cbn [filter]; auto; [destruct (p x); cbn [length]; lia|destruct (p x), (p y); auto|lia]. Qed.

Lemma list_eq_nil {A} (l : list A) : l = [] \/ l <> [].
Proof. destruct l; [now left|now right]. Qed.

(** For any way of answering with classes. *)
Theorem twins_correct (predict : list F -> res (list F)) k (test : dataset) groups :
  rectangular k (labels test) -> Permutation (samples test) (listed groups) ->
  (forall row v, predict row = Ok v -> In row (feature_rows test) -> exists c, one_hot (length v) (N.of_nat c) v) ->
  length (correct_samples predict test) <= list_sum (map (fun g => largest_class k (snd g)) groups).
Proof.
  intros HR HP H1. unfold correct_samples. rewrite (filter_perm _ _ _ HP).
  assert (HI : forall g y, In g groups -> In y (snd g) -> In (fst g) (feature_rows test) /\ length y = k).
  { intros [x ys] y Hg Hy. assert (HI : In (x, y) (samples test)).
    { eapply Permutation_in; [symmetry; exact HP|]. apply in_flat_map. exists (x, ys). split; auto. cbn [fst snd]. now apply in_map. }
    split; [exact (in_combine_l _ _ _ _ HI)|]. apply (proj1 (Forall_forall _ _) HR). exact (in_combine_r _ _ _ _ HI). }
  clear HP. induction groups as [|[x ys] groups IH]; auto. cbn [listed flat_map map list_sum fst snd fold_right]. rewrite filter_app, app_length.
  apply Nat.add_le_mono; [|apply IH; intros; apply HI; auto; now right].
  rewrite filter_map_length. cbn [fst snd].
  destruct (filter _ ys) as [|y zs] eqn:EF; [apply Nat.le_0_l|]. rewrite <- EF.
  assert (Hy : In y (y :: zs)) by now left. rewrite <- EF in Hy. apply filter_In in Hy as [Hy1 Hy2].
  destruct (predict x) as [v| |] eqn:E; try discriminate.
  destruct (HI (x, ys) y (or_introl eq_refl) Hy1) as [Hx Hk]. destruct (H1 x v E Hx) as (c & Hc).
  pose proof Hy2 as Hl. unfold equal_vectors in Hl. apply Bool.andb_true_iff in Hl as [Hl _]. apply Nat.eqb_eq in Hl. rewrite Hl, Hk in Hc.
  transitivity (votes ys c).
  - apply filter_le. intros l _ El. now apply (correct_votes k c v).
  - apply list_max_ge. apply in_map. apply in_seq. destruct Hc as [Hc _]. lia.
Qed.

Lemma multi_class_hot (m : multi_class_boost_model) row v : multi_class_boost_predict m row = Ok v -> exists c, one_hot (length v) (N.of_nat c) v.
Proof.
  intros E. destruct (multi_class_boost_raw m row) as [s| |] eqn:Es; [|unfold multi_class_boost_predict in E; rewrite Es in E; discriminate..].
  destruct (list_eq_nil s) as [->|Hs]; [pose proof (proj1 (empty_scores m (mkModel [] [] f0) row) Es); congruence|].
  destruct (multi_class_one_class L m row s Es Hs) as (c & w & Ew & Hw & _). rewrite E in Ew. injection Ew as ->.
  exists c. pose proof Hw as (_ & -> & _). exact Hw.
Qed.

Lemma amg_hot (m : amg_boost_model) row v : amg_boost_predict m row = Ok v -> exists c, one_hot (length v) (N.of_nat c) v.
Proof.
  intros E. destruct (amg_boost_raw m row) as [s| |] eqn:Es; [|unfold amg_boost_predict in E; rewrite Es in E; discriminate..].
  destruct (list_eq_nil s) as [->|Hs]; [pose proof (proj2 (empty_scores (mkModel [] [] f0) m row) Es); congruence|].
  destruct (amg_one_class L m row s Es Hs) as (c & w & Ew & Hw & _). rewrite E in Ew. injection Ew as ->.
  exists c. pose proof Hw as (_ & -> & _). exact Hw.
Qed.

End Twins2.
