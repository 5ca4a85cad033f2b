(** Renaming the targets (C66). *)
From Coq Require Import Reals Lra Lia Permutation Sorted.
From Verif Require Import Base Num ModelCommon ModelTree ModelBoost Spec SpecTree SpecScore SpecFit SpecOrder Lib ProofData ProofSort ProofSplit ProofSplit2
  ProofTree ProofTree3 ProofScore ProofScore2 ProofBoost ProofBoost2 XR SpecExact SpecError SpecClass SpecAffine SpecRename ProofReal ProofSplitExact
  ProofSplitExact2 ProofTreeExact ProofScoreExact ProofLeaf ProofBoostExact ProofClassExact ProofClassRun ProofShift ProofOrder ProofBalance.
Local Open Scope R_scope.

(* ------------------------------------------------------------------ *)
(** ** Vectors *)

Section Order.
Variables (k : nat) (sg : list nat).
Hypothesis Hsg : target_order k sg.

Lemma order_length : length sg = k.
Proof. rewrite (Permutation_length Hsg). apply seq_length. Qed.

Lemma order_bound i : In i sg -> (i < k)%nat.
Proof. intros H. apply (Permutation_in _ Hsg) in H. apply in_seq in H. lia. Qed.

Lemma order_nth j : (j < k)%nat -> (nth j sg 0 < k)%nat.
Proof. intros H. apply order_bound. apply nth_In. now rewrite order_length. Qed.

Lemma rename_length l : length (rename sg l) = k.
Proof. unfold rename. rewrite map_length. apply order_length. Qed.

Lemma rename_nth l j : (j < k)%nat -> nth j (rename sg l) 0 = nth (nth j sg 0%nat) l 0.
Proof.
  intros H. unfold rename. rewrite (nth_indep _ 0 (nth 0%nat l 0)) by (rewrite map_length, order_length; lia).
  exact (map_nth (fun i => nth i l 0) sg 0%nat j).
Qed.

Lemma rename_rect ls : rectangular k (map (rename sg) ls).
Proof. unfold rectangular. rewrite Forall_map. apply Forall_forall. intros. apply rename_length. Qed.

Lemma rename_target ls j : (j < k)%nat -> target j (map (rename sg) ls) = target (nth j sg 0%nat) ls.
Proof. intros H. unfold target. rewrite map_map. apply map_ext. intros l. now apply rename_nth. Qed.

Lemma map_order {A} (f : nat -> A) : map (fun j => f (nth j sg 0%nat)) (seq 0 k) = map f sg.
Proof.
  rewrite <- (map_map (fun j => nth j sg 0%nat) f). f_equal. rewrite <- order_length. apply map_nth_seq_all.
Qed.

Lemma sum_order (f : nat -> R) : Rsum (map (fun j => f (nth j sg 0%nat)) (seq 0 k)) = Rsum (map f (seq 0 k)).
Proof. rewrite map_order. apply Rsum_perm. now apply Permutation_map. Qed.

Lemma rename_map (f : nat -> R) : rename sg (map f (seq 0 k)) = map (fun j => f (nth j sg 0%nat)) (seq 0 k).
Proof.
  rewrite map_order. unfold rename. apply map_ext_in. intros i Hi. apply order_bound in Hi.
  rewrite (nth_indep _ 0 (f 0%nat)) by (rewrite map_length, seq_length; lia). rewrite map_nth, seq_nth by lia. reflexivity.
Qed.

Lemma rename_perm l : length l = k -> Permutation (rename sg l) l.
Proof.
  intros H. apply (Permutation_trans (Permutation_map (fun i => nth i l 0) Hsg)). rewrite <- H.
  rewrite (map_nth_seq_all l 0). apply Permutation_refl.
Qed.

Lemma total_rename ls : total_variance k (map (rename sg) ls) = total_variance k ls.
Proof.
  unfold total_variance. rewrite <- (sum_order (fun t => variance (target t ls))). apply Rsum_map_ext.
  intros j Hj. apply in_seq in Hj. rewrite rename_target by lia. reflexivity.
Qed.

Lemma remaining_rename a b : remaining_variance k (map (rename sg) a) (map (rename sg) b) = remaining_variance k a b.
Proof. unfold remaining_variance. now rewrite !map_length, !total_rename. Qed.

Lemma means_rename ls : means k (map (rename sg) ls) = rename sg (means k ls).
Proof.
  unfold means. rewrite rename_map. apply map_ext_in. intros j Hj. apply in_seq in Hj. rewrite rename_target by lia. reflexivity.
Qed.

Lemma class_output_rename ls : class_output k (map (rename sg) ls) = rename sg (class_output k ls).
Proof.
  unfold class_output. rewrite rename_map. apply map_ext_in. intros j Hj. apply in_seq in Hj. rewrite rename_target by lia. reflexivity.
Qed.

Lemma map2_rename (f : R -> R -> R) a b : length a = k -> length b = k ->
  map2 f (rename sg a) (rename sg b) = rename sg (map2 f a b).
Proof.
  intros Ha Hb. apply (nth_ext _ _ 0 0); [rewrite map2_length, !rename_length; lia|].
  intros j Hj. rewrite map2_length, !rename_length in Hj. rewrite nth_map2 by (rewrite rename_length; lia).
  rewrite !rename_nth by lia. pose proof (order_nth j ltac:(lia)). now rewrite nth_map2 by lia.
Qed.

Lemma vsub_rename a b : length a = k -> length b = k -> vsub (rename sg a) (rename sg b) = rename sg (vsub a b).
Proof. apply map2_rename. Qed.

Lemma vstep_rename lr a b : length a = k -> length b = k -> vstep lr (rename sg a) (rename sg b) = rename sg (vstep lr a b).
Proof. apply map2_rename. Qed.

Lemma rename_map_entries (f : R -> R) l : length l = k -> rename sg (map f l) = map f (rename sg l).
Proof.
  intros H. unfold rename. rewrite map_map. apply map_ext_in. intros i Hi. apply order_bound in Hi.
  rewrite (nth_indep _ 0 (f 0)) by (rewrite map_length; lia). apply map_nth.
Qed.

Lemma rsoft_rename s : length s = k -> rsoft (rename sg s) = rename sg (rsoft s).
Proof.
  intros H. unfold rsoft. rewrite (Rsum_perm (map exp (rename sg s)) (map exp s)) by (apply Permutation_map; now apply rename_perm).
  now rewrite (rename_map_entries (fun x => exp x / Rsum (map exp s))).
Qed.

Lemma rename_repeat x : rename sg (repeat x k) = repeat x k.
Proof.
  apply (nth_ext _ _ 0 0); [now rewrite rename_length, repeat_length|]. intros j Hj. rewrite rename_length in Hj.
  rewrite rename_nth by lia. pose proof (order_nth j Hj) as H.
  assert (G : forall i, (i < k)%nat -> nth i (repeat x k) 0 = x).
  { intros i Hi. rewrite (nth_indep _ 0 x) by (rewrite repeat_length; lia). apply nth_repeat. }
  now rewrite !G.
Qed.

Lemma map2_vsub_rename ls ps : rectangular k ls -> rectangular k ps -> length ps = length ls ->
  map2 vsub (map (rename sg) ls) (map (rename sg) ps) = map (rename sg) (map2 vsub ls ps).
Proof.
  intros H. revert ps. induction H as [|l ls Hl H IH]; intros [|p ps] Hp HL; try discriminate; cbn [map map2]; auto.
  pose proof (Forall_inv Hp) as H1. pose proof (Forall_inv_tail Hp) as H2. f_equal; [now apply vsub_rename|]. apply IH; auto.
Qed.

(* ------------------------------------------------------------------ *)
(** ** The split finder *)

Lemma best_upto_rename (a : list (xr * list R)) prev n b :
  best_upto k a prev n b -> best_upto k (map (fun p => (fst p, rename sg (snd p))) a) prev n b.
Proof.
  set (a' := map (fun p => (fst p, rename sg (snd p))) a).
  assert (Hcut : forall i w, cut a prev i w <-> cut a' prev i w).
  { intros i w. unfold cut, a'. rewrite nth_error_map. split.
    - intros (l & E & H). rewrite E. exists (rename sg l). auto.
    - intros (l & E & H). destruct (nth_error a i) as [[w' l']|]; [|discriminate]. cbn in E. injection E as -> _. exists l'. auto. }
  assert (Hcost : forall i, cost k a' i = cost k a i).
  { intros i. unfold cost, a'. rewrite map_map. cbn [snd]. rewrite <- (map_map snd (rename sg)). rewrite firstn_map, skipn_map.
    apply remaining_rename. }
  intros [[-> N]|(i & w & Hi & Hc & -> & H1 & H2)].
  - left. split; [reflexivity|]. intros i w Hi Hc. apply (N i w); auto. now apply Hcut.
  - right. exists i, w. split; auto. split; [now apply Hcut|]. split; [now rewrite Hcost|]. split.
    + intros j u Hj Hu. apply Hcut in Hu. rewrite !Hcost. eauto.
    + intros j u Hj Hu. apply Hcut in Hu. rewrite !Hcost. eauto.
Qed.

End Order.

Lemma ordered_rename nt sg ls (r : list (xr * nat)) : (forall p, In p r -> (snd p < length ls)%nat) -> target_order nt sg ->
  ordered (map (rename sg) ls) r = map (fun p => (fst p, rename sg (snd p))) (ordered ls r).
Proof.
  intros H _. unfold ordered. rewrite map_map. apply map_ext_in. intros p Hp. cbn [fst snd]. f_equal.
  rewrite (nth_indep _ [] (rename sg [])) by (rewrite map_length; auto). apply map_nth.
Qed.

Theorem split_rename nc nt (d d' : @dataset xr_ops) ls sg :
  target_order nt sg ->
  wf_dataset nc nt d -> wf_dataset nc nt d' -> feature_columns d' = feature_columns d ->
  real_labels ls d -> real_labels (map (rename sg) ls) d' ->
  find_best_split d' (N.of_nat nt) = find_best_split d (N.of_nat nt).
Proof.
  intros Hsg W W' Ecols Hl Hl'. rewrite (find_best_split_eq xr_laws nc nt d W), (find_best_split_eq xr_laws nc nt d' W'). f_equal.
  destruct (real_rect _ _ _ _ W Hl) as [Hr Hne]. destruct (real_rect _ _ _ _ W' Hl') as [Hr' Hne'].
  assert (HT : map (@pcolumn xr_ops nt (labels d')) (dvls d') = map (@pcolumn xr_ops nt (labels d)) (dvls d)).
  { unfold dvls. rewrite Ecols. rewrite !map_map. apply map_ext_in.
    intros col Hin. apply In_nth_error in Hin as (j & Ec). pose proof Ec as Ec'. rewrite <- Ecols in Ec'.
    assert (HS : sorted_version col (the_sort col)).
    { apply (the_sort_spec xr_laws). exact (wf_column_num nc nt d col W (nth_error_In _ _ Ec)). }
    assert (L : length col = length ls) by exact (wf_col_length nc nt d ls col W Hl (nth_error_In _ _ Ec)).
    assert (L' : length col = length (map (rename sg) ls)) by now rewrite map_length.
    destruct (considered_cut nc nt d ls j col _ W Hl Ec HS) as (m & Hm & Hnum & Hhd & _).
    destruct (considered_cut nc nt d' _ j col _ W' Hl' Ec' HS) as (m' & Hm' & Hnum' & Hhd' & _).
    assert (m' = m) by congruence. subst m'.
    assert (HB := pcolumn_exact nt ls (ordered ls (the_sort col)) (fst m, nth (snd m) ls []) Hr Hne).
    rewrite ordered_labels in HB. specialize (HB (labels_in_order_perm ls col _ HS L) Hhd).
    assert (HB' := pcolumn_exact nt (map (rename sg) ls) (ordered (map (rename sg) ls) (the_sort col)) (fst m, nth (snd m) (map (rename sg) ls) []) Hr' Hne').
    rewrite ordered_labels in HB'. specialize (HB' (labels_in_order_perm _ col _ HS L') Hhd').
    cbn [fst] in HB, HB'.
    assert (Hn : xeqb (fst m) (fst m) = true).
    { unfold xeqb. unfold is_num in Hnum. change (@fleb xr_ops) with xleb in Hnum. now rewrite Hnum. }
    specialize (HB Hn). specialize (HB' Hn).
    assert (E1 : pcolumn nt (labels d) (vls_of (labels d) (the_sort col)) = pcolumn nt (map (map Fin) ls) (map fin_row (ordered ls (the_sort col)))).
    { rewrite Hl. f_equal. apply vls_ordered. }
    assert (E2 : pcolumn nt (labels d') (vls_of (labels d') (the_sort col)) =
                 pcolumn nt (map (map Fin) (map (rename sg) ls)) (map fin_row (ordered (map (rename sg) ls) (the_sort col)))).
    { rewrite Hl'. f_equal. apply vls_ordered. }
    rewrite E1, E2. eapply best_upto_unique; [exact HB'|].
    rewrite (ordered_rename nt); auto.
    - rewrite map_length. now apply best_upto_rename.
    - intros p Hp. destruct HS as [HP _]. apply (Permutation_in _ HP) in Hp.
      assert (Hs : In (snd p) (map snd (value_positions col))) by now apply in_map.
      rewrite value_positions_snd in Hs. apply in_seq in Hs. destruct Hs as [_ Hs]. xr. rewrite L in Hs. exact Hs. }
  unfold pfind. rewrite HT. f_equal.
  assert (Etv : ptotal_variance nt (labels d) = Fin (total_variance nt ls)).
  { unfold real_labels in Hl. rewrite Hl. now apply ptotal_variance_exact. }
  assert (Etv' : ptotal_variance nt (labels d') = Fin (total_variance nt ls)).
  { unfold real_labels in Hl'. rewrite Hl'. rewrite <- (total_rename nt sg Hsg) by auto. now apply ptotal_variance_exact. }
  exact (eq_trans Etv' (eq_sym Etv)).
Qed.

(* ------------------------------------------------------------------ *)
(** ** Trees *)

Definition renamed (nc nt : nat) (sg : list nat) (d d' : @dataset xr_ops) : Prop :=
  wf_dataset nc nt d /\ wf_dataset nc nt d' /\ real_labels (rl d) d /\ real_labels (rl d') d' /\
  rs d' = map (fun p => (fst p, rename sg (snd p))) (rs d).

Lemma renamed_rows nc nt sg d d' : renamed nc nt sg d d' -> feature_rows d' = feature_rows d.
Proof.
  intros (W & W' & _ & _ & E). rewrite <- (rs_fst _ _ _ W), <- (rs_fst _ _ _ W'), E, map_map. reflexivity.
Qed.

Lemma renamed_labels nc nt sg d d' : renamed nc nt sg d d' -> rl d' = map (rename sg) (rl d).
Proof.
  intros (W & W' & _ & _ & E). rewrite <- (rs_snd _ _ _ W), <- (rs_snd _ _ _ W'), E, !map_map. reflexivity.
Qed.

Lemma renamed_columns nc nt sg d d' : renamed nc nt sg d d' -> feature_columns d' = feature_columns d.
Proof.
  intros M. pose proof (renamed_rows _ _ _ _ _ M) as Er. destruct M as (W & W' & _).
  apply nth_error_ext. intros j. pose proof (proj1 (wf_columns _ _ _ W)) as L. pose proof (proj1 (wf_columns _ _ _ W')) as L'.
  destruct (nth_error (feature_columns d) j) as [col|] eqn:Ec.
  - destruct (nth_error (feature_columns d') j) as [col'|] eqn:Ec'.
    + pose proof (column_is_map nc _ _ j col (wf_rows _ _ _ W) (wf_columns _ _ _ W) Ec) as E1.
      pose proof (column_is_map nc _ _ j col' (wf_rows _ _ _ W') (wf_columns _ _ _ W') Ec') as E2.
      xr. rewrite Er in E2. congruence.
    + apply nth_error_None in Ec'. assert (j < length (feature_columns d))%nat by (apply nth_error_Some; congruence). lia.
  - apply nth_error_None in Ec. apply nth_error_None. lia.
Qed.

Lemma filter_renamed (p : list xr -> bool) sg (l : list (list xr * list R)) :
  filter (fun x => p (fst x)) (map (fun p => (fst p, rename sg (snd p))) l) =
  map (fun p => (fst p, rename sg (snd p))) (filter (fun x => p (fst x)) l).
Proof. induction l as [|x l IH]; auto. cbn [map filter fst]. destruct (p (fst x)); cbn [map]; now rewrite IH. Qed.

Lemma renamed_partition nc nt sg d d' q fd td fd' td' : renamed nc nt sg d d' ->
  partition d q = Ok (fd, td) -> partition d' q = Ok (fd', td') ->
  renamed nc nt sg fd fd' /\ renamed nc nt sg td td'.
Proof.
  intros (W & W' & L & L' & E) P P'.
  destruct (sub_true _ _ _ _ _ _ W P L) as (Wf & Wt & Lf & Lt & Et & Ef & _).
  destruct (sub_true _ _ _ _ _ _ W' P' L') as (Wf' & Wt' & Lf' & Lt' & Et' & Ef' & _).
  split; (split; [auto|]; split; [auto|]; split; [auto|]; split; [auto|]).
  - rewrite Ef', Ef, E. apply (filter_renamed (fun x => negb (answers q x))).
  - rewrite Et', Et, E. apply (filter_renamed (fun x => answers q x)).
Qed.

Lemma built_renamed {L} (mk : dataset -> res L) (Rel : L -> L -> Prop) (Q : @dataset xr_ops -> Prop) cfg nc nt sg :
  target_order nt sg -> standard cfg -> tc_number_of_classes cfg = N.of_nat nt ->
  (forall d x, wf_dataset nc nt d -> wf_dataset nc nt x -> incl (samples x) (samples d) -> Q d -> Q x) ->
  (forall x x' l l', renamed nc nt sg x x' -> Q x -> Q x' -> mk x = Ok l -> mk x' = Ok l' -> Rel l l') ->
  forall level d t, built mk cfg level d t -> forall d' t', built mk cfg level d' t' -> renamed nc nt sg d d' -> Q d -> Q d' ->
  same_questions Rel t t'.
Proof.
  intros Hsg Hs Hk HQ HR level d t B.
  induction B as [level d s l Es Est El|level d s fd td t f Es Est Ep Bt IHt Bf IHf]; intros d' t' B' M Qd Qd';
    pose proof (renamed_columns _ _ _ _ _ M) as Ec; pose proof (renamed_labels _ _ _ _ _ M) as Er; pose proof M as (W & W' & L1 & L2 & _);
    rewrite Er in L2; pose proof (split_rename nc nt d d' (rl d) sg Hsg W W' Ec L1 L2) as Hq; rewrite Hs, Hk in Es;
    change (find_best_split d (N.of_nat nt) = Ok s) in Es;
    inversion B' as [lv dd s' l' Es' Est' El'|lv dd s' fd' td' u g Es' Est' Ep' Bt' Bf']; subst;
    rewrite Hs, Hk in Es'; change (find_best_split d' (N.of_nat nt) = Ok s') in Es'; rewrite Hq, Es in Es'; injection Es' as <-;
    try congruence.
  - constructor. exact (HR d d' l l' M Qd Qd' El El').
  - destruct (renamed_partition _ _ _ _ _ _ _ _ _ _ M Ep Ep') as [Mf Mt].
    destruct (partition_wf nc nt d _ fd td W Ep) as (_ & Wf & Wt & St & Sf).
    destruct (partition_wf nc nt d' _ fd' td' W' Ep') as (_ & Wf' & Wt' & St' & Sf').
    constructor.
    + apply (IHt td'); auto; [apply (HQ d)|apply (HQ d')]; auto; rewrite ?St, ?St'; apply filter_incl.
    + apply (IHf fd'); auto; [apply (HQ d)|apply (HQ d')]; auto; rewrite ?Sf, ?Sf'; apply filter_incl.
Qed.

Lemma relabel_renamed nc nt d ls sg : target_order nt sg -> wf_dataset nc nt d -> real_labels ls d ->
  renamed nc nt sg d (relabel d (map (rename sg) ls)).
Proof.
  intros Hsg W Hl. destruct (real_rect _ _ _ _ W Hl) as [Hr _]. pose proof (xr_len nc nt d ls W Hl) as HL.
  assert (W' : wf_dataset nc nt (relabel d (map (rename sg) ls))).
  { apply (with_labels_wf nc nt d _ W).
    - rewrite !map_length. symmetry. exact HL.
    - pose proof (rename_rect nt sg Hsg ls) as Ha. unfold rectangular in *. rewrite Forall_map. eapply Forall_impl; [|exact Ha]. intros a E. rewrite map_length. exact E. }
  assert (L' : real_labels (map (rename sg) ls) (relabel d (map (rename sg) ls))) by reflexivity.
  split; auto. split; auto. split; [rewrite (real_rl _ _ Hl); exact Hl|]. split; [rewrite (real_rl _ _ L'); exact L'|].
  unfold rs, samples, relabel. cbn [feature_rows labels]. xr. rewrite Hl. generalize (feature_rows d). intros rows. clear. revert rows.
  induction ls as [|l ls IH]; intros [|r rows]; cbn [map combine]; auto. f_equal; [|apply IH]. unfold rp. cbn [fst snd]. now rewrite !map_xval_Fin.
Qed.

(** The leaves of two regression trees. *)
Definition renamed_data (nc nt : nat) (sg : list nat) (l l' : @regression_leaf xr_ops) : Prop :=
  exists x x', rl_data l = Some x /\ rl_data l' = Some x' /\ renamed nc nt sg x x'.

Lemma questions_unit {L} (Rel : L -> L -> Prop) t t' : same_questions Rel t t' -> tree_map (fun _ => tt) t' = tree_map (fun _ => tt) t.
Proof. induction 1 as [|q t f t' f' Ht IHt Hf IHf]; [reflexivity|]. cbn. now rewrite IHt, IHf. Qed.

Theorem tree_rename nc nt (d : @dataset xr_ops) ls cfg sg t t' :
  target_order nt sg -> wf_dataset nc nt d -> real_labels ls d -> standard cfg -> tc_number_of_classes cfg = N.of_nat nt ->
  regression_tree_new d cfg = Ok t -> regression_tree_new (relabel d (map (rename sg) ls)) cfg = Ok t' ->
  tree_map (fun _ => tt) t' = tree_map (fun _ => tt) t /\
  forall row, (nc <= length row)%nat ->
    exists p, tree_prediction row t = Ok (map Fin p) /\ length p = nt /\ tree_prediction row t' = Ok (map Fin (rename sg p)).
Proof.
  intros Hsg W Hl Hst Hc E E'. pose proof (relabel_renamed nc nt d ls sg Hsg W Hl) as M.
  rewrite regression_tree_new_eq in E, E'. apply build_with_built in E. apply build_with_built in E'.
  assert (SQ : same_questions (renamed_data nc nt sg) t t').
  { refine (built_renamed mk_reg _ (fun _ => True) cfg nc nt sg Hsg Hst Hc _ _ _ d t E _ t' E' M I I); auto.
    intros x x' l l' Mx _ _ E1 E2. injection E1 as <-. injection E2 as <-. exists x, x'. auto. }
  split; [exact (questions_unit _ _ _ SQ)|]. intros row Hr.
  destruct (built_lookup_mk _ _ _ _ _ _ _ row E W Hr) as (ld & l & Ef & Em & Es & Wl).
  destruct (same_questions_lookup _ _ _ _ _ SQ Ef) as (l' & Ef' & x & x' & D & D' & Mx).
  unfold tree_prediction. xr. rewrite Ef, Ef'. cbn [bind]. rewrite D, D'. cbn [unwrap bind].
  pose proof (renamed_labels _ _ _ _ _ Mx) as Er. destruct Mx as (Wx & Wx' & Lx & Lx' & _).
  exists (means nt (rl x)). split; [exact (leaf_prediction nc nt x Wx Lx)|]. split; [apply means_length|].
  rewrite <- (means_rename nt sg Hsg). rewrite <- Er. exact (leaf_prediction nc nt x' Wx' Lx').
Qed.

(* ------------------------------------------------------------------ *)
(** ** Ensembles *)

Lemma renamed_out nt sg row t t' o : target_order nt sg -> same_questions (renamed_leaf sg) t t' ->
  @gb_out xr_ops row t = Ok (map Fin o) -> length o = nt /\ @gb_out xr_ops row t' = Ok (map Fin (rename sg o)).
Proof.
  intros Hsg SQ E. unfold gb_out in *. apply bind_Ok in E as (l & Ef & El).
  destruct (same_questions_lookup _ _ _ _ _ SQ Ef) as (l' & Ef' & o' & Lo & G & G'). rewrite G in El. cbn [unwrap] in El. injection El as El.
  apply (f_equal (map xval)) in El. rewrite !map_xval_Fin in El. subst o'. rewrite Ef'. cbn [bind]. rewrite G'. cbn [unwrap].
  split; auto. rewrite Lo. now apply order_length.
Qed.

Lemma raw_renamed nt sg lr g row ts ts' : target_order nt sg ->
  length g = nt -> Forall2 (same_questions (renamed_leaf sg)) ts ts' -> Forall (finite_for (@gb_out xr_ops) nt row) ts ->
  exists s, @raw xr_ops _ gb_out (Fin lr) (map Fin g) row ts = Ok (map Fin s) /\ length s = nt /\
    @raw xr_ops _ gb_out (Fin lr) (map Fin (rename sg g)) row ts' = Ok (map Fin (rename sg s)).
Proof.
  intros Hsg Hg H HF.
  assert (D : exists os, Forall2 (fun t o => @gb_out xr_ops row t = Ok (map Fin o)) ts os /\ Forall (fun o => length o = nt) os /\
                 Forall2 (fun t o => @gb_out xr_ops row t = Ok (map Fin o)) ts' (map (rename sg) os)).
  { induction H as [|t t' ts ts' Ht H IH]; [exists []; cbn; repeat split; constructor|].
    pose proof (Forall_inv HF) as (o & Eo & Lo). destruct (IH (Forall_inv_tail HF)) as (os & A & B & C).
    destruct (renamed_out nt sg row t t' o Hsg Ht Eo) as [_ Eo']. exists (o :: os). cbn [map]. auto. }
  destruct D as (os & A & B & C). exists (fold_left (vstep lr) os g).
  split; [now apply (raw_real nt)|]. split; [apply (fold_step_Fin nt lr os g Hg B)|].
  assert (F : fold_left (vstep lr) (map (rename sg) os) (rename sg g) = rename sg (fold_left (vstep lr) os g)).
  { clear A C H HF. revert g Hg. induction B as [|o os Lo B IH]; intros g Hg; [reflexivity|]. cbn [map fold_left].
    rewrite (vstep_rename nt sg Hsg) by auto. apply IH. rewrite vstep_length; congruence. }
  rewrite <- F. apply (raw_real nt); auto.
  - now apply rename_length.
  - rewrite Forall_map. apply Forall_forall. intros o _. now apply rename_length.
Qed.

Lemma firstn_snoc2 {A B} (Rel : A -> B -> Prop) k (l : list A) (l' : list B) x x' :
  nth_error l k = Some x -> nth_error l' k = Some x' -> Forall2 Rel (firstn k l) (firstn k l') -> Rel x x' ->
  Forall2 Rel (firstn (S k) l) (firstn (S k) l').
Proof. intros H H' HF HR. rewrite (firstn_snoc _ _ _ H), (firstn_snoc _ _ _ H'). apply Forall2_app; auto. Qed.

Section Boost.
Variables (nc nt : nat) (d : @dataset xr_ops) (ls : list (list R)) (cfg : @tree_config xr_ops) (n : nat) (lr : R) (sg : list nat).
Hypotheses (Hsg : target_order nt sg) (W : wf_dataset nc nt d) (Hl : real_labels ls d) (Hst : standard cfg)
  (Hc : tc_number_of_classes cfg = N.of_nat nt).

Let d' := relabel d (map (rename sg) ls).
Let M : renamed nc nt sg d d' := relabel_renamed nc nt d ls sg Hsg W Hl.

Lemma mk_gb_renamed x x' l l' : renamed nc nt sg x x' -> mk_gb (leaf_output_calculator_new Regression) x = Ok l ->
  mk_gb (leaf_output_calculator_new Regression) x' = Ok l' -> renamed_leaf sg l l'.
Proof.
  intros Mx E1 E2. pose proof (renamed_labels _ _ _ _ _ Mx) as Er. destruct Mx as (Wx & Wx' & Lx & Lx' & _).
  apply (mk_gb_regression nc nt) in E1; auto. apply (mk_gb_regression nc nt) in E2; auto. subst.
  exists (means nt (rl x)). split; [rewrite means_length; symmetry; now apply order_length|]. split; [reflexivity|].
  cbn [gl_output]. do 2 f_equal. rewrite Er. now apply means_rename.
Qed.

Theorem regression_rename m m' :
  regression_boost_train d cfg n (Fin lr) = Ok m -> regression_boost_train d' cfg n (Fin lr) = Ok m' ->
  Forall2 (same_questions (renamed_leaf sg)) (m_trees m) (m_trees m') /\
  forall row, (nc <= length row)%nat ->
    exists p, regression_boost_predict m row = Ok (map Fin p) /\ length p = nt /\ regression_boost_predict m' row = Ok (map Fin (rename sg p)).
Proof.
  intros E E'. pose proof M as (_ & W' & _). assert (Hl' : real_labels (map (rename sg) ls) d') by reflexivity.
  destruct (real_rect _ _ _ _ W Hl) as [Rl Nl]. pose proof (xr_len nc nt d ls W Hl) as HLr.
  destruct (guess_real _ _ _ _ _ _ _ _ W Hl E) as (Hg & Hlr & HT).
  destruct (guess_real _ _ _ _ _ _ _ _ W' Hl' E') as (Hg' & Hlr' & HT'). rewrite (means_rename nt sg Hsg) in Hg'.
  assert (Hraw : forall k, (k <= n)%nat -> Forall2 (same_questions (renamed_leaf sg)) (firstn k (m_trees m)) (firstn k (m_trees m')) ->
    forall row, (nc <= length row)%nat -> exists p, regression_boost_predict (first_trees k m) row = Ok (map Fin p) /\ length p = nt /\
      regression_boost_predict (first_trees k m') row = Ok (map Fin (rename sg p))).
  { intros k Hk HF row Hr. destruct (raw_renamed nt sg lr (means nt ls) row _ _ Hsg (means_length nt ls) HF (trained_finite nc nt d ls cfg n lr m W Hl E k Hk row Hr)) as (s & A & B & C).
    exists s. unfold regression_boost_predict. rewrite !predict_instance_raw. cbn [first_trees m_trees m_initial_guess m_learning_rate].
    rewrite Hg, Hlr, Hg', Hlr'. auto. }
  assert (G : forall k, (k <= n)%nat -> Forall2 (same_questions (renamed_leaf sg)) (firstn k (m_trees m)) (firstn k (m_trees m'))).
  { induction k as [|k IH]; intros Hk; [constructor|]. specialize (IH ltac:(lia)).
    destruct (regression_stage _ cfg n (Fin lr) m k (wf_lengths _ _ _ W) E Hk) as (preds & t & Ep & _ & Ht & Eb).
    destruct (regression_stage _ cfg n (Fin lr) m' k (wf_lengths _ _ _ W') E' Hk) as (preds' & t' & Ep' & _ & Ht' & Eb').
    apply (firstn_snoc2 _ k _ _ t t'); auto.
    unfold regression_boost_all_predictions in Ep, Ep'. rewrite all_predictions_eq in Ep, Ep'. unfold d' in Ep'. cbn [relabel feature_rows] in Ep'.
    assert (HP : exists ps, Forall2 (fun row p => regression_boost_predict (first_trees k m) row = Ok (map Fin p) /\ length p = nt) (feature_rows d) ps /\
       Forall2 (fun row p => regression_boost_predict (first_trees k m') row = Ok (map Fin p) /\ length p = nt) (feature_rows d) (map (rename sg) ps)).
    { assert (Hrows : forall row, In row (feature_rows d) -> (nc <= length row)%nat) by (intros; eapply row_long; eauto).
      specialize (Hraw k ltac:(lia) IH). clear -Hraw Hrows Hsg. revert Hrows. generalize (feature_rows d). induction l as [|row rows IHr]; intros Hrows.
      - exists []. split; constructor.
      - destruct IHr as (ps & A & B); [intros; apply Hrows; now right|]. destruct (Hraw row) as (p & A1 & A2 & A3); [apply Hrows; now left|].
        exists (p :: ps). cbn [map]. split; constructor; auto. split; auto. now apply rename_length. }
    destruct HP as (ps & HP & HP'). apply (Forall2_real nt _ _ ps) in Ep; auto. apply (Forall2_real nt _ _ (map (rename sg) ps)) in Ep'; auto. subst preds preds'.
    assert (HL : length ps = length ls) by (rewrite <- (Forall2_length _ _ _ HP); exact HLr).
    pose proof (Forall2_rect _ _ _ _ HP) as Rp.
    destruct (residual_data nc nt d ls ps W Hl HL Rp) as [Wr Lr].
    assert (Ed : mkDS (feature_rows d') (differences (labels d') (map (map Fin) (map (rename sg) ps))) (feature_columns d') =
       relabel (mkDS (feature_rows d) (differences (labels d) (map (map Fin) ps)) (feature_columns d)) (map (rename sg) (map2 vsub ls ps))).
    { unfold d', relabel. cbn [feature_rows feature_columns labels]. f_equal. rewrite <- (map2_vsub_rename nt sg Hsg) by auto. apply differences_Fin. }
    xr. rewrite Ed in Eb'. pose proof (relabel_renamed nc nt _ _ sg Hsg Wr Lr) as Mr.
    rewrite grad_boost_tree_new_eq in Eb, Eb'. apply build_with_built in Eb. apply build_with_built in Eb'.
    refine (built_renamed _ _ (fun _ => True) cfg nc nt sg Hsg Hst Hc _ _ _ _ t Eb _ t' Eb' Mr I I); auto.
    intros x x' l l' Mx _ _. now apply mk_gb_renamed. }
  specialize (G n (le_n n)). pose proof (Hraw n (le_n n) G) as Hp.
  assert (Em : first_trees n m = m) by (unfold first_trees; rewrite <- HT, firstn_all; now destruct m).
  assert (Em' : first_trees n m' = m') by (unfold first_trees; rewrite <- HT', firstn_all; now destruct m').
  rewrite Em, Em' in Hp. split; auto.
  rewrite <- HT in G at 1. rewrite <- HT' in G. now rewrite !firstn_all in G.
Qed.

(** Classification. *)
Lemma one_hot_renamed : one_hot_labels nt d -> one_hot_labels nt d'.
Proof.
  intros H. unfold one_hot_labels in *. unfold d', relabel. cbn [labels]. unfold real_labels in Hl. rewrite Hl in H.
  rewrite !Forall_map in *. eapply Forall_impl; [|exact H]. intros l (c & Hcb & Lc & Hn). xr.
  assert (Lsg : length sg = nt) by now apply order_length.
  assert (Hin : In (N.to_nat c) sg).
  { apply (Permutation_in _ (Permutation_sym Hsg)). apply in_seq. lia. }
  apply (In_nth _ _ 0%nat) in Hin as (c' & Hc' & Ec').
  exists (N.of_nat c'). split; [lia|]. split; [rewrite map_length; now apply rename_length|].
  intros i Hi. pose proof (order_nth nt sg Hsg i Hi) as Hi'.
  rewrite nth_error_map. rewrite (nth_error_nth' _ 0) by (rewrite (rename_length nt sg Hsg); lia). cbn [option_map].
  rewrite (rename_nth nt sg Hsg) by auto. specialize (Hn _ Hi'). rewrite nth_error_map in Hn.
  rewrite map_length in Lc.
  rewrite (nth_error_nth' _ 0) in Hn by lia. cbn [option_map] in Hn. rewrite Hn. f_equal.
  destruct (Nat.eq_dec i c') as [->|Hne].
  - rewrite Ec'. rewrite N2Nat.id, !N.eqb_refl. reflexivity.
  - assert (nth i sg 0%nat <> N.to_nat c).
    { rewrite <- Ec'. intros H0. apply Hne. apply (proj1 (NoDup_nth sg 0%nat)); auto; try lia.
      apply (Permutation_NoDup (Permutation_sym Hsg)). apply seq_NoDup. }
    rewrite (proj2 (N.eqb_neq _ _)) by lia. rewrite (proj2 (N.eqb_neq _ _)) by lia. reflexivity.
Qed.

Lemma mk_gb_class_renamed x x' l l' : (2 <= nt)%nat -> renamed nc nt sg x x' -> residual_labels nt x -> residual_labels nt x' ->
  mk_gb (leaf_output_calculator_new MultiClassClassification) x = Ok l ->
  mk_gb (leaf_output_calculator_new MultiClassClassification) x' = Ok l' -> renamed_leaf sg l l'.
Proof.
  intros H2 Mx Rx Rx' E1 E2. pose proof (renamed_labels _ _ _ _ _ Mx) as Er. destruct Mx as (Wx & Wx' & Lx & Lx' & _).
  apply (mk_gb_class nc nt) in E1; auto. apply (mk_gb_class nc nt) in E2; auto. subst.
  exists (class_output nt (rl x)). split; [rewrite class_output_length; symmetry; now apply order_length|]. split; [reflexivity|].
  cbn [gl_output]. do 2 f_equal. rewrite Er. now apply class_output_rename.
Qed.

Lemma fitted_renamed ss : (0 < nt)%nat -> rectangular nt ss -> length ss = length ls ->
  fitted d' (map (map Fin) (map (rename sg) ss)) = relabel (fitted d (map (map Fin) ss)) (map (rename sg) (map2 vsub ls (map rsoft ss))) /\
  real_labels (map2 vsub ls (map rsoft ss)) (fitted d (map (map Fin) ss)).
Proof.
  intros H0 Rs HL. destruct (real_rect _ _ _ _ W Hl) as [Rl Nl].
  assert (Rr : rectangular nt (map rsoft ss)).
  { unfold rectangular in *. rewrite Forall_map. eapply Forall_impl; [|exact Rs]. intros a Ha. now rewrite rsoft_length. }
  assert (S1 : map (@softmax xr_ops) (map (map Fin) ss) = map (map Fin) (map rsoft ss)) by (apply (softmax_rows nt); auto).
  assert (S2 : map (@softmax xr_ops) (map (map Fin) (map (rename sg) ss)) = map (map Fin) (map (rename sg) (map rsoft ss))).
  { rewrite (softmax_rows nt); auto; [|now apply rename_rect]. f_equal. rewrite !map_map. apply map_ext_in. intros s Hs.
    apply (rsoft_rename nt sg Hsg). exact (proj1 (Forall_forall _ _) Rs s Hs). }
  split.
  - unfold fitted, relabel, d'. cbn [feature_rows feature_columns labels relabel]. f_equal.
    etransitivity; [apply (f_equal (@differences xr_ops _)); exact S2|].
    etransitivity; [apply differences_Fin|]. f_equal. apply (map2_vsub_rename nt sg Hsg); auto. now rewrite map_length.
  - unfold real_labels, fitted. cbn [labels]. etransitivity; [apply (f_equal2 (@differences xr_ops)); [exact Hl|exact S1]|]. apply differences_Fin.
Qed.

Theorem multi_class_rename m m' : (2 <= nt)%nat -> (Z.of_nat nt <= 2 ^ 53)%Z -> one_hot_labels nt d ->
  multi_class_boost_train d cfg n (Fin lr) = Ok m -> multi_class_boost_train d' cfg n (Fin lr) = Ok m' ->
  Forall2 (same_questions (renamed_leaf sg)) (m_trees m) (m_trees m') /\
  forall row, (nc <= length row)%nat ->
    exists s, multi_class_boost_raw m row = Ok (map Fin s) /\ length s = nt /\ multi_class_boost_raw m' row = Ok (map Fin (rename sg s)).
Proof.
  intros H2 Hz HO E E'. pose proof M as (_ & W' & _). assert (Hl' : real_labels (map (rename sg) ls) d') by reflexivity.
  pose proof (one_hot_renamed HO) as HO'. pose proof (xr_len nc nt d ls W Hl) as HLr.
  destruct (multi_guess nc nt d cfg n (Fin lr) m) as (Hg & Hlr & HT); auto; [lia|].
  destruct (multi_guess nc nt d' cfg n (Fin lr) m') as (Hg' & Hlr' & HT'); auto; [lia|].
  assert (Hev : even nt = rename sg (even nt)) by (symmetry; now apply rename_repeat). rewrite Hev in Hg'.
  assert (Hraw : forall k, (k <= n)%nat -> Forall2 (same_questions (renamed_leaf sg)) (firstn k (m_trees m)) (firstn k (m_trees m')) ->
    forall row, (nc <= length row)%nat -> exists p, multi_class_boost_raw (first_trees k m) row = Ok (map Fin p) /\ length p = nt /\
      multi_class_boost_raw (first_trees k m') row = Ok (map Fin (rename sg p))).
  { intros k Hk HF row Hr.
    destruct (raw_renamed nt sg lr (even nt) row _ _ Hsg (even_length nt) HF (multi_run nc nt d cfg n lr m H2 Hz W HO E k Hk row Hr)) as (s & A & B & C).
    exists s. rewrite !multi_raw. rewrite Hg, Hlr, Hg', Hlr'. auto. }
  assert (G : forall k, (k <= n)%nat -> Forall2 (same_questions (renamed_leaf sg)) (firstn k (m_trees m)) (firstn k (m_trees m'))).
  { induction k as [|k IH]; intros Hk; [constructor|]. specialize (IH ltac:(lia)).
    destruct (multi_stage_exact nc nt d cfg n lr m k) as (ss & t & Es & Ht & Rs & Ls & B); auto.
    destruct (multi_stage_exact nc nt d' cfg n lr m' k) as (ss' & t' & Es' & Ht' & Rs' & Ls' & B'); auto.
    apply (firstn_snoc2 _ k _ _ t t'); auto.
    assert (Ess : ss' = map (rename sg) ss).
    { assert (Hrows : forall row, In row (feature_rows d) -> (nc <= length row)%nat) by (intros; eapply row_long; eauto).
      specialize (Hraw k ltac:(lia) IH). unfold d' in Es'. cbn [relabel feature_rows] in Es'. clear -Hraw Hrows Es Es'.
      revert ss ss' Es Es' Hrows. xr. generalize (feature_rows d). induction l as [|row rows IHr]; intros ss ss' Es Es' Hrows.
      - injection Es as Es. injection Es' as Es'. symmetry in Es, Es'. apply map_eq_nil in Es. apply map_eq_nil in Es'. now subst.
      - cbn [mapM] in Es, Es'. destruct (Hraw row (Hrows row (or_introl eq_refl))) as (p & A1 & A2 & A3). rewrite A1 in Es. rewrite A3 in Es'. cbn [bind] in Es, Es'.
        apply bind_Ok in Es as (r & Er & Es). apply bind_Ok in Es' as (r' & Er' & Es'). injection Es as Es. injection Es' as Es'.
        destruct ss as [|s ss]; [discriminate|]. destruct ss' as [|s' ss']; [discriminate|]. injection Es as E1 E2. injection Es' as E1' E2'.
        apply (f_equal (map xval)) in E1, E1'. rewrite !map_xval_Fin in E1, E1'. subst. cbn [map]. f_equal.
        apply (IHr ss ss'); auto. intros; apply Hrows; now right. }
    subst ss'. xr. rewrite HLr in Ls.
    destruct (fitted_renamed ss ltac:(lia) Rs Ls) as [Ed Lr].
    destruct (fitted_ok nc nt d ss H2 W HO Rs (eq_trans Ls (eq_sym HLr))) as (r & _ & Wr & _ & Resr & _).
    destruct (fitted_ok nc nt d' (map (rename sg) ss) H2 W' HO' Rs' Ls') as (r' & _ & Wr' & _ & Resr' & _).
    pose proof (relabel_renamed nc nt _ _ sg Hsg Wr Lr) as Mr. rewrite <- Ed in Mr.
    refine (built_renamed _ _ (fun x => real_labels (rl x) x /\ residual_labels nt x) cfg nc nt sg Hsg Hst Hc _ _ _ _ t B _ t' B' Mr _ _).
    - intros a b Wa Wb Hi [A1 A2]. exact (sub_class nc nt a b Wa Wb Hi A1 A2).
    - intros x x' l l' Mx [_ A] [_ A']. now apply mk_gb_class_renamed.
    - split; auto. apply Mr.
    - split; auto. apply Mr. }
  specialize (G n (le_n n)). pose proof (Hraw n (le_n n) G) as Hp.
  assert (Em : first_trees n m = m) by (unfold first_trees; rewrite <- HT, firstn_all; now destruct m).
  assert (Em' : first_trees n m' = m') by (unfold first_trees; rewrite <- HT', firstn_all; now destruct m').
  rewrite Em, Em' in Hp. split; auto.
  rewrite <- HT in G at 1. rewrite <- HT' in G. now rewrite !firstn_all in G.
Qed.
End Boost.

(* ------------------------------------------------------------------ *)
(** ** The predicted class *)

Lemma strict_largest (s : list R) c : (c < length s)%nat -> (forall j, (j < length s)%nat -> j <> c -> nth j s 0 < nth c s 0) ->
  @first_largest xr_ops (map Fin s) c.
Proof.
  intros Hc H. left. exists (Fin (nth c s 0)). split; [rewrite nth_error_map, (nth_error_nth' _ 0) by auto; reflexivity|]. split; [reflexivity|].
  intros i x Hx. rewrite nth_error_map in Hx. destruct (nth_error s i) as [y|] eqn:Ey; [|discriminate]. injection Hx as <-.
  assert (Hi : (i < length s)%nat) by (apply nth_error_Some; congruence). apply (nth_error_nth _ _ 0) in Ey. subst y.
  split.
  - apply not_true_iff_false. intros C. apply xltb_Fin in C. destruct (Nat.eq_dec i c) as [->|Hne]; [lra|]. specialize (H i Hi Hne). lra.
  - intros Hlt. left. apply xltb_Fin. apply H; auto. lia.
Qed.

Lemma binary_real (s : list R) c : (c < length s)%nat -> (forall j, (j < length s)%nat -> j <> c -> nth j s 0 < nth c s 0) ->
  @get_binary_prediction xr_ops (map Fin s) = Ok (map Fin (hot (length s) c)).
Proof.
  intros Hc H. assert (NE : map Fin s <> []) by (destruct s; [cbn in Hc; lia|discriminate]).
  destruct (binary_prediction xr_laws (map Fin s) NE) as (c' & v & E & Ho & Hf). rewrite E. f_equal.
  rewrite (first_largest_unique xr_laws _ _ _ Hf (strict_largest s c Hc H)) in Ho. apply one_hot_Fin in Ho as [_ ->].
  now rewrite map_length, Nat2N.id.
Qed.

Lemma hot_one_hot k c : (c < k)%nat -> @one_hot xr_ops k (N.of_nat c) (map Fin (hot k c)).
Proof.
  intros H. split; [lia|]. split; [rewrite map_length; apply hot_length|]. intros i Hi.
  rewrite nth_error_map, (nth_error_nth' _ 0) by now rewrite hot_length. cbn [option_map]. rewrite hot_nth by auto. f_equal.
  destruct (Nat.eqb_spec i c) as [->|Hne]; [now rewrite N.eqb_refl|]. now rewrite (proj2 (N.eqb_neq _ _)) by lia.
Qed.

Theorem class_renamed (nt : nat) sg (m m' : @multi_class_boost_model xr_ops) row s c :
  target_order nt sg -> length s = nt ->
  multi_class_boost_raw m row = Ok (map Fin s) -> multi_class_boost_raw m' row = Ok (map Fin (rename sg s)) ->
  (c < nt)%nat -> (forall j, (j < nt)%nat -> j <> c -> nth j s 0 < nth c s 0) ->
  exists v, multi_class_boost_predict m row = Ok (map Fin v) /\ @one_hot xr_ops nt (N.of_nat c) (map Fin v) /\
    multi_class_boost_predict m' row = Ok (map Fin (rename sg v)).
Proof.
  intros Hsg Ls E E' Hc H. exists (hot nt c). unfold multi_class_boost_predict. rewrite E, E'. cbn [bind].
  split; [rewrite <- Ls at 1; apply binary_real; rewrite Ls; auto|]. split; [now apply hot_one_hot|].
  assert (Lsg : length sg = nt) by now apply order_length.
  assert (Hin : In c sg) by (apply (Permutation_in _ (Permutation_sym Hsg)); apply in_seq; lia).
  apply (In_nth _ _ 0%nat) in Hin as (c' & Hc' & Ec'). rewrite Lsg in Hc'.
  assert (Hd : forall i, (i < nt)%nat -> i <> c' -> nth i sg 0%nat <> c).
  { intros i Hi Hne H0. apply Hne. apply (proj1 (NoDup_nth sg 0%nat)); auto; try lia.
    apply (Permutation_NoDup (Permutation_sym Hsg)). apply seq_NoDup. }
  rewrite (binary_real _ c').
  - do 2 f_equal. rewrite (rename_length nt sg Hsg). apply (nth_ext _ _ 0 0); [rewrite hot_length, (rename_length nt sg Hsg); reflexivity|].
    intros i Hi. rewrite hot_length in Hi. rewrite (rename_nth nt sg Hsg) by auto. rewrite !hot_nth by (auto; now apply (order_nth nt)).
    destruct (Nat.eqb_spec i c') as [->|Hne]; [now rewrite Ec', Nat.eqb_refl|]. apply Hd in Hne; auto.
    now rewrite (proj2 (Nat.eqb_neq _ _) Hne).
  - now rewrite (rename_length nt sg Hsg).
  - intros j Hj Hne. rewrite (rename_length nt sg Hsg) in Hj. rewrite !(rename_nth nt sg Hsg) by auto. rewrite Ec'.
    apply H; [now apply (order_nth nt)|now apply Hd].
Qed.

Theorem multi_class_rename' nc nt (d : @dataset xr_ops) ls cfg n lr sg m m' :
  target_order nt sg -> wf_dataset nc nt d -> real_labels ls d -> one_hot_labels nt d -> standard cfg -> tc_number_of_classes cfg = N.of_nat nt ->
  (2 <= nt)%nat -> (Z.of_nat nt <= 2 ^ 53)%Z ->
  multi_class_boost_train d cfg n (Fin lr) = Ok m -> multi_class_boost_train (relabel d (map (rename sg) ls)) cfg n (Fin lr) = Ok m' ->
  Forall2 (same_questions (renamed_leaf sg)) (m_trees m) (m_trees m') /\
  forall row, (nc <= length row)%nat ->
    exists s, multi_class_boost_raw m row = Ok (map Fin s) /\ length s = nt /\ multi_class_boost_raw m' row = Ok (map Fin (rename sg s)) /\
      forall c, (c < nt)%nat -> (forall j, (j < nt)%nat -> j <> c -> nth j s 0 < nth c s 0) ->
        exists v, multi_class_boost_predict m row = Ok (map Fin v) /\ one_hot nt (N.of_nat c) (map Fin v) /\
          multi_class_boost_predict m' row = Ok (map Fin (rename sg v)).
Proof.
  intros Hsg W Hl HO Hst Hc H2 Hz E E'.
  destruct (multi_class_rename nc nt d ls cfg n lr sg Hsg W Hl Hst Hc m m' H2 Hz HO E E') as [A B]. split; auto.
  intros row Hr. destruct (B row Hr) as (s & B1 & B2 & B3). exists s. repeat split; auto.
  intros c Hcl Hmax. exact (class_renamed nt sg m m' row s c Hsg B2 B1 B3 Hcl Hmax).
Qed.

(** Example: two classes exchanged. *)
Lemma exchange : target_order 2 [1%nat; 0%nat].
Proof. apply perm_swap. Qed.

Lemma rename_example a b c : target_order 3 [2%nat; 0%nat; 1%nat] /\ rename [2%nat; 0%nat; 1%nat] [a; b; c] = [c; a; b].
Proof. split; [|reflexivity]. unfold target_order. cbn. symmetry. etransitivity; [apply perm_skip, perm_swap|]. apply perm_swap. Qed.
