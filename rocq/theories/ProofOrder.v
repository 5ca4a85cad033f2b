(** Growing a tree from the same rows in another order (C61, C62). *)
From Coq Require Import Permutation.
From Verif Require Import Base Num ModelCommon ModelTree ModelBoost Lib Spec SpecTree SpecScore SpecOrder ProofData ProofSort ProofSplit
  ProofSplit2 ProofTree ProofTree2 ProofTree3 ProofScore.

Section Order.
Context {O : NumOps} (LW : NumLaws O) (Q : dataset -> Prop).
Hypotheses
  (Qsub : forall nc nt d x, wf_dataset nc nt d -> wf_dataset nc nt x -> incl (samples x) (samples d) ->
     length (samples x) <= length (samples d) -> Q d -> Q x)
  (Qsplit : forall nc nt d d', wf_dataset nc nt d -> wf_dataset nc nt d' -> Q d -> Permutation (samples d) (samples d') ->
     find_best_split d' (N.of_nat nt) = find_best_split d (N.of_nat nt)).

Lemma filter_perm {A} (p : A -> bool) l l' : Permutation l l' -> Permutation (filter p l) (filter p l').
Proof.
  induction 1 as [|x l l' H IH|x y l|l l' l'' H1 IH1 H2 IH2]; cbn.
  - constructor.
  - destruct (p x); [now constructor|auto].
  - destruct (p x), (p y); try constructor; reflexivity.
  - now transitivity (filter p l').
Qed.

Lemma filter_length_le' {A} (p : A -> bool) l : length (filter p l) <= length l.
Proof. induction l as [|x l IH]; cbn; auto. destruct (p x); cbn; lia. Qed.

Lemma built_order {L} (mk : dataset -> res L) (R : L -> L -> Prop) cfg nc nt :
  standard cfg -> tc_number_of_classes cfg = N.of_nat nt ->
  (forall x x' l l', wf_dataset nc nt x -> wf_dataset nc nt x' -> Q x -> Permutation (samples x) (samples x') ->
     mk x = Ok l -> mk x' = Ok l' -> R l l') ->
  forall level d t, built mk cfg level d t -> forall d' t', built mk cfg level d' t' ->
  wf_dataset nc nt d -> wf_dataset nc nt d' -> Q d -> Permutation (samples d) (samples d') ->
  same_questions R t t'.
Proof.
  intros Hs Hk HR level d t B.
  induction B as [level d s l Es Est El|level d s fd td t f Es Est Ep Bt IHt Bf IHf]; intros d' t' B' W W' HQ HP;
    pose proof (Qsplit nc nt d d' W W' HQ HP) as Hq; rewrite Hs, Hk in Es;
    change (find_best_split d (N.of_nat nt) = Ok s) in Es;
    inversion B' as [lv dd s' l' Es' Est' El'|lv dd s' fd' td' u g Es' Est' Ep' Bt' Bf']; subst;
    rewrite Hs, Hk in Es'; change (find_best_split d' (N.of_nat nt) = Ok s') in Es'; rewrite Hq, Es in Es'; injection Es' as <-;
    try congruence.
  - constructor. exact (HR d d' l l' W W' HQ HP El El').
  - destruct (partition_wf nc nt d _ fd td W Ep) as (_ & Wf & Wt & St & Sf).
    destruct (partition_wf nc nt d' _ fd' td' W' Ep') as (_ & Wf' & Wt' & St' & Sf').
    constructor.
    + apply (IHt td'); auto.
      * apply (Qsub nc nt d); auto; rewrite St; [apply incl_filter|apply filter_length_le'].
      * rewrite St, St'. now apply filter_perm.
    + apply (IHf fd'); auto.
      * apply (Qsub nc nt d); auto; rewrite Sf; [apply incl_filter|apply filter_length_le'].
      * rewrite Sf, Sf'. now apply filter_perm.
Qed.

Lemma same_questions_eq {L} (t t' : tree_node L) : same_questions eq t t' -> t = t'.
Proof. induction 1; subst; reflexivity. Qed.

(** Leaf lookup in two such trees. *)
Lemma same_questions_lookup {L} (R : L -> L -> Prop) t t' row l :
  same_questions R t t' -> find_leaf_node_for_data row t = Ok l -> exists l', find_leaf_node_for_data row t' = Ok l' /\ R l l'.
Proof.
  induction 1 as [q x x' Hx|q t f t' f' Ht IHt Hf IHf]; cbn.
  - intros E. injection E as <-. eauto.
  - destruct (solve q row) as [[|]| |]; cbn; auto; discriminate.
Qed.

Section Trees.
Context (nc nt : nat) (d d' : dataset) (cfg : tree_config).
Hypotheses (W : wf_dataset nc nt d) (W' : wf_dataset nc nt d') (HQ : Q d) (HP : Permutation (samples d) (samples d'))
  (Hs : standard cfg) (Hk : tc_number_of_classes cfg = N.of_nat nt).

Theorem regression_order t t' : regression_tree_new d cfg = Ok t -> regression_tree_new d' cfg = Ok t' ->
  same_questions same_samples t t'.
Proof.
  rewrite !regression_tree_new_eq. intros E E'. apply build_with_built in E, E'.
  eapply (built_order _ same_samples); eauto. intros x x' l l' Wx Wx' Qx Px El El'.
  injection El as <-. injection El' as <-. exists x, x'. auto.
Qed.

Theorem grad_boost_order kind :
  (forall x x' o, wf_dataset nc nt x -> wf_dataset nc nt x' -> Q x -> Permutation (samples x) (samples x') ->
     leaf_output_calculator_new kind x = Ok o -> leaf_output_calculator_new kind x' = Ok o) ->
  grad_boost_tree_new d' cfg (leaf_output_calculator_new kind) = grad_boost_tree_new d cfg (leaf_output_calculator_new kind).
Proof.
  intros Hc. destruct (grad_boost_total LW nc nt d cfg kind W Hs Hk) as (t & E).
  destruct (grad_boost_total LW nc nt d' cfg kind W' Hs Hk) as (t' & E'). rewrite E, E'. revert E E'.
  rewrite !grad_boost_tree_new_eq. intros E E'. apply build_with_built in E, E'. f_equal. symmetry. apply same_questions_eq.
  eapply (built_order _ eq); eauto. intros x x' l l' Wx Wx' Qx Px El El'. unfold mk_gb in *.
  apply bind_Ok in El as (o & Eo & El). apply bind_Ok in El' as (o' & Eo' & El').
  pose proof (Hc x x' o Wx Wx' Qx Px Eo). congruence.
Qed.

Theorem amg_order kind :
  (forall x x' o, wf_dataset nc nt x -> wf_dataset nc nt x' -> Q x -> Permutation (samples x) (samples x') ->
     leaf_output_calculator_new kind x = Ok o -> leaf_output_calculator_new kind x' = Ok o) ->
  amg_boost_tree_new d' cfg (leaf_output_calculator_new kind) = amg_boost_tree_new d cfg (leaf_output_calculator_new kind).
Proof.
  intros Hc. destruct (amg_total LW nc nt d cfg kind W Hs Hk) as (t & E).
  destruct (amg_total LW nc nt d' cfg kind W' Hs Hk) as (t' & E'). rewrite E, E'. revert E E'.
  rewrite !amg_boost_tree_new_eq. intros E E'. apply build_with_built in E, E'. f_equal. symmetry. apply same_questions_eq.
  eapply (built_order _ eq); eauto. intros x x' l l' Wx Wx' Qx Px El El'. unfold mk_amg in *.
  apply bind_Ok in El as (o & Eo & El). apply bind_Ok in El' as (o' & Eo' & El').
  pose proof (Hc x x' o Wx Wx' Qx Px Eo). congruence.
Qed.

(** Leaves of two such trees: permuted well-formed data. *)
Definition related (l l' : regression_leaf) : Prop :=
  exists x x', rl_data l = Some x /\ rl_data l' = Some x' /\ wf_dataset nc nt x /\ wf_dataset nc nt x' /\ Q x /\ Permutation (samples x) (samples x').

Lemma regression_related t t' : regression_tree_new d cfg = Ok t -> regression_tree_new d' cfg = Ok t' ->
  same_questions related t t'.
Proof.
  rewrite !regression_tree_new_eq. intros E E'. apply build_with_built in E, E'.
  eapply (built_order _ related); eauto. intros x x' l l' Wx Wx' Qx Px El El'.
  injection El as <-. injection El' as <-. exists x, x'. cbn [rl_data]. auto 10.
Qed.

Lemma labels_of_samples x : wf_dataset nc nt x -> map snd (samples x) = labels x.
Proof. intros Wx. apply map_snd_combine. now rewrite (wf_lengths _ _ _ Wx). Qed.

Lemma wf_labels_nonempty x : wf_dataset nc nt x -> labels x <> [].
Proof.
  intros Wx H. pose proof (wf_nonempty _ _ _ Wx). pose proof (wf_lengths _ _ _ Wx) as L. rewrite H in L.
  destruct (feature_rows x); [congruence|discriminate].
Qed.

Lemma filter_length_perm {A} (p : A -> bool) l l' : Permutation l l' -> length (filter p l) = length (filter p l').
Proof. intros H. apply Permutation_length. now apply filter_perm. Qed.

(** The vote depends only on which labels a leaf holds. *)
Lemma votes_perm k ls ls' : rectangular k ls -> Permutation ls ls' ->
  get_class_counts_multi_target ls' k = get_class_counts_multi_target ls k.
Proof.
  intros R H. assert (R' : rectangular k ls') by (unfold rectangular in *; now rewrite <- H).
  destruct (counts_eq k ls R) as (cs & -> & L & Hc). destruct (counts_eq k ls' R') as (cs' & -> & L' & Hc').
  f_equal. apply nth_error_ext. intros i. destruct (Nat.lt_ge_cases i k).
  - rewrite Hc, Hc' by auto. do 2 f_equal. unfold votes. symmetry. now apply filter_length_perm.
  - rewrite !(proj2 (nth_error_None _ _)) by lia. reflexivity.
Qed.

Context (Qavg : forall x x', wf_dataset nc nt x -> wf_dataset nc nt x' -> Q x -> Permutation (samples x) (samples x') ->
     colmean nt (labels x') = colmean nt (labels x)).

Lemma related_lookup {A} (f : regression_leaf -> res A) t t' row :
  (forall l l', related l l' -> f l' = f l) -> same_questions related t t' ->
  bind (find_leaf_node_for_data row t') f = bind (find_leaf_node_for_data row t) f.
Proof.
  intros Hf. induction 1 as [q x x' Hx|q t f0 t' f0' Ht IHt Hff IHf]; cbn.
  - now apply Hf.
  - destruct (solve q row) as [[|]| |]; cbn; auto.
Qed.

Theorem regression_answers t t' : regression_tree_new d cfg = Ok t -> regression_tree_new d' cfg = Ok t' ->
  (forall row, predict_class row t' = predict_class row t) /\
  (forall test, calculate_accuracy test t' = calculate_accuracy test t) /\
  (forall test, calculate_overall_mean_squared_error test t' = calculate_overall_mean_squared_error test t).
Proof.
  intros E E'. pose proof (regression_related t t' E E') as HR.
  assert (Hp : forall row, predict_class row t' = predict_class row t).
  { intros row. unfold predict_class. apply related_lookup; auto.
    intros l l' (x & x' & -> & -> & Wx & Wx' & Qx & Px). cbn [unwrap bind].
    assert (HL : Permutation (labels x) (labels x')) by (rewrite <- !labels_of_samples by auto; now apply Permutation_map).
    assert (H0 : forall y, wf_dataset nc nt y -> exists l0, idx (labels y) 0 = Ok l0 /\ length l0 = nt).
    { intros y Wy. pose proof (wf_labels_nonempty y Wy) as Hne. pose proof (wf_labels _ _ _ Wy) as R. destruct (labels y) as [|l0 ls]; [congruence|].
      exists l0. split; [reflexivity|]. now inversion R. }
    destruct (H0 x Wx) as (l0 & -> & L0). destruct (H0 x' Wx') as (l0' & -> & L0'). cbn [bind]. rewrite L0, L0'.
    rewrite (votes_perm nt (labels x) (labels x') (wf_labels _ _ _ Wx) HL). reflexivity. }
  split; [exact Hp|]. split.
  - intros test. unfold calculate_accuracy. f_equal. apply for_range_ext. intros acc i _. destruct (idx (feature_rows test) i); cbn [bind]; auto. now rewrite Hp.
  - intros test. unfold calculate_overall_mean_squared_error. f_equal. apply for_range_ext. intros acc i _.
    destruct (idx (feature_rows test) i) as [row| |]; cbn [bind]; auto.
    apply (related_lookup (fun leaf => d0 <- unwrap (rl_data leaf);; prediction <- calculate_average_label_vector (labels d0);;
      actual <- idx (labels test) i;; e <- mean_sum_of_squared_differences_between_vectors prediction actual;; Ok (fadd acc e))); auto.
    intros l l' (x & x' & -> & -> & Wx & Wx' & Qx & Px). cbn [unwrap bind].
    rewrite (avg_label_eq nt (labels x)) by (try apply wf_labels_nonempty; auto; exact (wf_labels _ _ _ Wx)).
    rewrite (avg_label_eq nt (labels x')) by (try apply wf_labels_nonempty; auto; exact (wf_labels _ _ _ Wx')).
    now rewrite (Qavg x x' Wx Wx' Qx Px).
Qed.
End Trees.
End Order.
