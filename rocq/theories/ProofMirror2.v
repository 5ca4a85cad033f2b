(** Negated labels, and labels with other signs of zero. *)
From Coq Require Import Reals Lra Lia ZArith Bool.
From Flocq Require Import Core.
From Flocq Require Import IEEE754.BinarySingleNaN.
From Verif Require Import Base Num F64 ModelCommon ModelTree ModelBoost Lib Spec SpecTree SpecFit SpecMirror ProofData ProofTree ProofBoost ProofRound ProofRel ProofMirror.
Local Open Scope R_scope.

Lemma eqb_mirror (x y : f64) : (is_nan x = true /\ is_nan y = true) \/ Beqb y x = true <-> mirror false x y.
Proof.
  destruct (is_finite x) eqn:Fx; [destruct (is_finite y) eqn:Fy|].
  - rewrite (mirror_finite _ _ _ Fx Fy), Beqb_correct by auto. cbn [flip]. destruct (Req_bool_spec (B2R y) (B2R x)) as [E|E].
    + tauto.
    + split; [|tauto]. intros [[A _]|A]; [destruct x; discriminate|discriminate].
  - split.
    + intros [[A B]|A]; [destruct x; discriminate|]. destruct x as [a|a| |a ? ? ?], y as [b|b| |b ? ? ?]; try discriminate; try (destruct b; discriminate); destruct a, b; discriminate.
    + intros M. destruct x as [a|a| |a ? ? ?], y as [b|b| |b ? ? ?]; try discriminate; cbn in M; contradiction.
  - split.
    + intros [[A B]|A].
      * destruct x, y; try discriminate; exact I.
      * destruct x as [a|a| |a ? ? ?], y as [b|b| |b ? ? ?]; try discriminate; cbn; destruct a, b; try discriminate; reflexivity.
    + intros M. destruct x as [a|a| |a ? ? ?], y as [b|b| |b ? ? ?]; try discriminate; cbn in M; try contradiction; [right; subst; destruct a; reflexivity|left; auto].
Qed.

Lemma mirror_opp (x y : f64) : mirror false (Bopp x) y <-> mirror true x y.
Proof.
  destruct (is_finite x) eqn:Fx; [destruct (is_finite y) eqn:Fy|].
  - rewrite !mirror_finite by (rewrite ?is_finite_Bopp; auto). rewrite B2R_Bopp. reflexivity.
  - destruct x, y; try discriminate; cbn; tauto.
  - destruct x as [|[|]| |], y as [| | |]; try discriminate; cbn; tauto.
Qed.

Lemma opposite_mirror (x y : f64) : opposite x y <-> mirror true x y.
Proof. unfold opposite. rewrite <- mirror_opp, <- eqb_mirror. rewrite is_nan_Bopp. tauto. Qed.

Lemma same_mirror (x y : f64) : same_number x y <-> mirror false x y.
Proof. apply eqb_mirror. Qed.

Lemma mirror_opp_self (x : f64) : mirror true x (Bopp x).
Proof. apply mirror_opp, mirror_refl. Qed.

Definition relates (e : bool) : f64 -> f64 -> Prop := if e then opposite else same_number.
Lemma relates_mirror e x y : relates e x y <-> mirror e x y.
Proof. destruct e; [apply opposite_mirror|apply same_mirror]. Qed.

Lemma answers_mirror e r r' : result_rel (Forall2 (mirror e)) r r' -> answers_related (relates e) r r'.
Proof.
  intros [H|(p & p' & E & E' & H)]; [now left|right]. exists p, p'. split; auto. split; auto.
  eapply Forall2_impl; [|exact H]. intros x y. apply relates_mirror.
Qed.

Section Mirror.
Variables (P : platform) (e : bool).
Local Notation O := (f64_ops P).

Lemma data_mirror nc nt (d : @dataset O) (ls : list (list f64)) :
  wf_dataset nc nt d -> Forall2 (Forall2 (relates e)) (labels d) ls -> @data_rel O (mirror e) nc nt d (with_other_labels d ls).
Proof.
  intros W H. split; auto.
  assert (Hl : Forall2 (fun a b => length a = length b) (labels d) ls).
  { eapply Forall2_impl; [|exact H]. intros a b. apply Forall2_length. }
  split; [|split; [reflexivity|split; [reflexivity|]]].
  - apply (with_labels_wf nc nt d ls W).
    + rewrite <- (wf_lengths _ _ _ W). symmetry. exact (Forall2_length _ _ _ Hl).
    + pose proof (wf_labels _ _ _ W) as R. clear -Hl R. unfold rectangular in *. induction Hl; constructor; inversion R; subst; auto; congruence.
  - cbn [with_other_labels labels]. eapply Forall2_impl; [|exact H]. intros a b Hab. eapply Forall2_impl; [|exact Hab]. intros x y. apply relates_mirror.
Qed.

Theorem tree_mirror nc nt (d : @dataset O) (ls : list (list f64)) (cfg : @tree_config O) t t' :
  wf_dataset nc nt d -> Forall2 (Forall2 (relates e)) (labels d) ls -> standard cfg -> tc_number_of_classes cfg = N.of_nat nt ->
  regression_tree_new d cfg = Ok t -> regression_tree_new (with_other_labels d ls) cfg = Ok t' ->
  tree_map (fun _ => tt) t' = tree_map (fun _ => tt) t /\
  forall row, answers_related (relates e) (tree_prediction row t) (tree_prediction row t').
Proof.
  intros W H St Hc E E'.
  destruct (tree_rel (f64_laws P) _ _ (negation_preserved P e) nc nt d _ cfg t t' St Hc (data_mirror nc nt d ls W H) E E') as [A B].
  split; auto. intros row. apply answers_mirror, B.
Qed.

Theorem boost_mirror nc nt (d : @dataset O) (ls : list (list f64)) (cfg : @tree_config O) n (lr : f64) (m m' : @regression_boost_model O) :
  wf_dataset nc nt d -> Forall2 (Forall2 (relates e)) (labels d) ls -> standard cfg -> tc_number_of_classes cfg = N.of_nat nt ->
  regression_boost_train d cfg n lr = Ok m -> regression_boost_train (with_other_labels d ls) cfg n lr = Ok m' ->
  Forall2 (fun t t' => tree_map (fun _ => tt) t' = tree_map (fun _ => tt) t) (m_trees m) (m_trees m') /\
  forall row, answers_related (relates e) (regression_boost_predict m row) (regression_boost_predict m' row).
Proof.
  intros W H St Hc E E'.
  destruct (boost_rel (f64_laws P) _ _ (negation_preserved P e) nc nt d _ cfg n lr m m' St Hc (data_mirror nc nt d ls W H) E E') as (A & _ & B).
  split; auto. intros row. apply answers_mirror, B.
Qed.
End Mirror.

Lemma negated_relates (ls : list (list f64)) : Forall2 (Forall2 (relates true)) ls (map (map (fun x : f64 => Bopp x)) ls).
Proof.
  induction ls as [|l ls IH]; cbn [map]; constructor; auto. clear IH. induction l as [|x l IH]; cbn [map]; constructor; auto.
  apply relates_mirror, mirror_opp_self.
Qed.

Theorem negated_tree (P : platform) nc nt (d : @dataset (f64_ops P)) (cfg : @tree_config (f64_ops P)) t t' :
  wf_dataset nc nt d -> standard cfg -> tc_number_of_classes cfg = N.of_nat nt ->
  @regression_tree_new (f64_ops P) d cfg = Ok t -> @regression_tree_new (f64_ops P) (negated d) cfg = Ok t' ->
  tree_map (fun _ => tt) t' = tree_map (fun _ => tt) t /\
  forall row, answers_related opposite (tree_prediction row t) (tree_prediction row t').
Proof. intros W. exact (tree_mirror P true nc nt d _ cfg t t' W (negated_relates (labels d))). Qed.

Theorem negated_ensemble (P : platform) nc nt (d : @dataset (f64_ops P)) (cfg : @tree_config (f64_ops P)) n (lr : f64) (m m' : @regression_boost_model (f64_ops P)) :
  wf_dataset nc nt d -> standard cfg -> tc_number_of_classes cfg = N.of_nat nt ->
  @regression_boost_train (f64_ops P) d cfg n lr = Ok m -> @regression_boost_train (f64_ops P) (negated d) cfg n lr = Ok m' ->
  Forall2 (fun t t' => tree_map (fun _ => tt) t' = tree_map (fun _ => tt) t) (m_trees m) (m_trees m') /\
  forall row, answers_related opposite (regression_boost_predict m row) (regression_boost_predict m' row).
Proof. intros W. exact (boost_mirror P true nc nt d _ cfg n lr m m' W (negated_relates (labels d))). Qed.
