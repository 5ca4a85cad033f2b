(** Renaming the classes of an AMG ensemble (C66). *)
From Coq Require Import Reals Lra Lia Permutation Sorted.
From Verif Require Import Base Num ModelCommon ModelTree ModelBoost Spec SpecTree SpecScore SpecFit SpecOrder Lib ProofData ProofSort ProofSplit ProofSplit2
  ProofTree ProofTree3 ProofScore ProofScore2 ProofBoost ProofBoost2 XR SpecExact SpecError SpecClass SpecAffine SpecRename SpecRenameAmg ProofReal ProofSplitExact
  ProofSplitExact2 ProofTreeExact ProofScoreExact ProofLeaf ProofBoostExact ProofClassExact ProofClassRun ProofShift ProofOrder ProofBalance ProofRename
  ProofGradient.
Local Open Scope R_scope.

Lemma path_questions {L} row : forall (t t' : @tree_node xr_ops L), tree_map (fun _ => tt) t' = tree_map (fun _ => tt) t -> path row t' = path row t.
Proof.
  fix IH 1. intros [q a b l] [q' a' b' l'] H. cbn in H. injection H as -> Ha Hb Hl.
  destruct a as [a|], a' as [a'|]; try discriminate Ha; [|reflexivity].
  destruct b as [b|], b' as [b'|]; try discriminate Hb; [|reflexivity].
  injection Ha as Ha. injection Hb as Hb. cbn [path]. now rewrite (IH a a' Ha), (IH b b' Hb).
Qed.

Lemma approx_rename nt sg c c' v : target_order nt sg -> (c' < nt)%nat -> nth c' sg 0%nat = c ->
  rename sg (approx nt c v) = approx nt c' v.
Proof.
  intros Hsg Hc' Ec. unfold approx. rewrite (rename_map nt sg Hsg). apply map_ext_in. intros j Hj. apply in_seq in Hj.
  destruct (Nat.eqb_spec j c') as [->|Hne]; [now rewrite Ec, Nat.eqb_refl|].
  assert (nth j sg 0%nat <> c).
  { rewrite <- Ec. intros H0. apply Hne. apply (proj1 (NoDup_nth sg 0%nat)); auto; try (rewrite (order_length nt sg Hsg); lia).
    apply (Permutation_NoDup (Permutation_sym Hsg)). apply seq_NoDup. }
  now rewrite (proj2 (Nat.eqb_neq _ _)).
Qed.

Lemma approx_zero nt c c' : approx nt c 0 = approx nt c' 0.
Proof.
  unfold approx. apply map_ext. intros j. assert (H : - 0 / (INR nt - 1) = 0) by (unfold Rdiv; ring). rewrite H.
  destruct (j =? c)%nat, (j =? c')%nat; reflexivity.
Qed.

(** The vector added by a leaf is renamed with the leaf outputs. *)
Lemma vote_renamed nt sg o c c' : target_order nt sg -> length o = nt -> undisputed nt o -> (c < nt)%nat -> (c' < nt)%nat ->
  @find_max_value_and_index_from_vector xr_ops (map Fin o) = (Fin (nth c o 0), c) ->
  @find_max_value_and_index_from_vector xr_ops (map Fin (rename sg o)) = (Fin (nth c' (rename sg o) 0), c') ->
  approx nt c' (nth c' (rename sg o) 0) = rename sg (approx nt c (nth c o 0)).
Proof.
  intros Hsg Lo Hu Hc Hc' E E'.
  pose proof (max_is_largest _ _ E) as M. pose proof (max_is_largest _ _ E') as M'. rewrite Lo in M. rewrite (rename_length nt sg Hsg) in M'.
  assert (Hi : (nth c' sg 0 < nt)%nat) by now apply (order_nth nt).
  assert (HM : forall l, (l < nt)%nat -> nth l o 0 <= nth c o 0) by (intros l Hl; apply M; auto).
  assert (HM' : forall l, (l < nt)%nat -> nth l o 0 <= nth (nth c' sg 0%nat) o 0).
  { intros l Hl. assert (Hin : In l sg) by (apply (Permutation_in _ (Permutation_sym Hsg)); apply in_seq; lia).
    apply (In_nth _ _ 0%nat) in Hin as (l' & Hl' & <-). rewrite (order_length nt sg Hsg) in Hl'.
    rewrite <- (rename_nth nt sg Hsg o l') by auto. rewrite <- (rename_nth nt sg Hsg o c') by auto. apply M'; auto. }
  assert (Ev : nth c' (rename sg o) 0 = nth c o 0).
  { rewrite (rename_nth nt sg Hsg) by auto. apply Rle_antisym; auto. }
  rewrite Ev. destruct (Hu c (nth c' sg 0%nat) Hc Hi HM HM') as [Ec|Ez].
  - symmetry. now apply approx_rename.
  - rewrite Ez. rewrite (approx_zero nt c (nth c' sg 0%nat)). symmetry. now apply approx_rename.
Qed.

(** Running sums of related trees. *)
Definition renamed_votes (nc nt : nat) (sg : list nat) (t t' : tree_node (@amg_leaf xr_ops)) : Prop :=
  tree_map (fun _ => tt) t' = tree_map (fun _ => tt) t /\
  forall row, (nc <= length row)%nat -> exists o, @amg_out xr_ops nt row t = Ok (map Fin o) /\ length o = nt /\
    @amg_out xr_ops nt row t' = Ok (map Fin (rename sg o)).

Lemma raw_real_out {L} (out : list xr -> tree_node L -> res (list xr)) k lr g row ts os : length g = k -> Forall (fun o => length o = k) os ->
  Forall2 (fun t o => out row t = Ok (map Fin o)) ts os ->
  @raw xr_ops _ out (Fin lr) (map Fin g) row ts = Ok (map Fin (fold_left (vstep lr) os g)).
Proof.
  intros Hg Ho H. rewrite (@raw_outs xr_ops _ out (Fin lr) (map Fin g) row ts (map (map Fin) os)).
  - rewrite add_leaf_outputs_eq.
    + f_equal. apply (fold_step_Fin k lr os g Hg Ho).
    + rewrite Forall_map, Forall_map. eapply Forall_impl; [|exact Ho]. intros o E. unfold weighted. rewrite !map_length. rewrite E, Hg. reflexivity.
  - clear Ho. induction H; cbn [map]; constructor; auto.
Qed.

Lemma raw_votes nc nt sg lr g row ts ts' : target_order nt sg -> (nc <= length row)%nat ->
  length g = nt -> Forall2 (renamed_votes nc nt sg) ts ts' ->
  exists s, @raw xr_ops _ (amg_out nt) (Fin lr) (map Fin g) row ts = Ok (map Fin s) /\ length s = nt /\
    @raw xr_ops _ (amg_out nt) (Fin lr) (map Fin (rename sg g)) row ts' = Ok (map Fin (rename sg s)).
Proof.
  intros Hsg Hr Hg H.
  assert (D : exists os, Forall2 (fun t o => @amg_out xr_ops nt row t = Ok (map Fin o)) ts os /\ Forall (fun o => length o = nt) os /\
                 Forall2 (fun t o => @amg_out xr_ops nt row t = Ok (map Fin o)) ts' (map (rename sg) os)).
  { induction H as [|t t' ts ts' Ht H IH]; [exists []; cbn; repeat split; constructor|].
    destruct Ht as [_ Ht]. destruct (Ht row Hr) as (o & Eo & Lo & Eo'). destruct IH as (os & A & B & C).
    exists (o :: os). cbn [map]. auto. }
  destruct D as (os & A & B & C). exists (fold_left (vstep lr) os g).
  split; [now apply (raw_real_out (@amg_out xr_ops nt) nt)|]. split; [apply (fold_step_Fin nt lr os g Hg B)|].
  assert (F : fold_left (vstep lr) (map (rename sg) os) (rename sg g) = rename sg (fold_left (vstep lr) os g)).
  { clear A C H. revert g Hg. induction B as [|o os Lo B IH]; intros g Hg; [reflexivity|]. cbn [map fold_left].
    rewrite (vstep_rename nt sg Hsg) by auto. apply IH. rewrite vstep_length; congruence. }
  rewrite <- F. apply (raw_real_out (@amg_out xr_ops nt) nt); auto.
  - now apply rename_length.
  - rewrite Forall_map. apply Forall_forall. intros o _. now apply rename_length.
Qed.

Lemma rp_filter (p : list xr -> bool) (l : list (list xr * list xr)) :
  map rp (filter (fun y => p (fst y)) l) = filter (fun y => p (fst y)) (map rp l).
Proof. induction l as [|y l IH]; auto. cbn [map filter rp fst]. destruct (p (fst y)); cbn [map]; now rewrite IH. Qed.

(** Leaf data of one row in two trees with the same questions. *)
Lemma like_renamed nc nt sg (a a' x x' : @dataset xr_ops) (t t' : tree_node (@amg_leaf xr_ops)) row :
  renamed nc nt sg a a' -> tree_map (fun _ => tt) t' = tree_map (fun _ => tt) t ->
  wf_dataset nc nt x -> wf_dataset nc nt x' -> samples x = samples_like row t a -> samples x' = samples_like row t' a' ->
  rl x' = map (rename sg) (rl x).
Proof.
  intros (W & W' & L & L' & E) Hq Wx Wx' Sx Sx'.
  rewrite <- (rs_snd _ _ _ Wx), <- (rs_snd _ _ _ Wx'). unfold rs. rewrite Sx, Sx'. unfold samples_like. rewrite (path_questions row t t' Hq).
  set (p := fun r : list (@F xr_ops) => forallb (fun q => Bool.eqb (@answers xr_ops q r) (@answers xr_ops q row)) (path row t)).
  pose proof (rp_filter p) as G.
  etransitivity; [apply (f_equal (map snd)); exact (G (samples a'))|].
  change (map rp (samples a')) with (rs a'). rewrite E, (filter_renamed p sg). rewrite map_map. cbn [snd].
  etransitivity; [symmetry; exact (map_map snd (rename sg) _)|]. f_equal. f_equal. symmetry. exact (G (samples a)).
Qed.

Section Amg.
Variables (nc nt : nat) (d : @dataset xr_ops) (ls : list (list R)) (cfg : @tree_config xr_ops) (n : nat) (lr : R) (sg : list nat).
Hypotheses (Hsg : target_order nt sg) (W : wf_dataset nc nt d) (Hl : real_labels ls d) (Hst : standard cfg)
  (Hc : tc_number_of_classes cfg = N.of_nat nt) (H2 : (2 <= nt)%nat) (Hz : (Z.of_nat nt <= 2 ^ 53)%Z) (HO : one_hot_labels nt d).

Let d' := relabel d (map (rename sg) ls).
Let M : renamed nc nt sg d d' := relabel_renamed nc nt d ls sg Hsg W Hl.

Theorem amg_rename m m' : undisputed_leaves nc nt d m ->
  amg_boost_train d cfg n (Fin lr) = Ok m -> amg_boost_train d' cfg n (Fin lr) = Ok m' ->
  Forall2 (fun t t' => tree_map (fun _ => tt) t' = tree_map (fun _ => tt) t) (m_trees m) (m_trees m') /\
  forall row, (nc <= length row)%nat ->
    exists s, amg_boost_raw m row = Ok (map Fin s) /\ length s = nt /\ amg_boost_raw m' row = Ok (map Fin (rename sg s)).
Proof.
  intros HU E E'. pose proof M as (_ & W' & _). assert (Hl' : real_labels (map (rename sg) ls) d') by reflexivity.
  pose proof (one_hot_renamed nt d ls cfg sg Hsg Hl Hc HO) as HO'. pose proof (xr_len nc nt d ls W Hl) as HLr.
  destruct (amg_guess nc nt d cfg n (Fin lr) m) as (Hg & Hlr & HT); auto; [lia|].
  destruct (amg_guess nc nt d' cfg n (Fin lr) m') as (Hg' & Hlr' & HT'); auto; [lia|].
  assert (Hev : even nt = rename sg (even nt)) by (symmetry; now apply rename_repeat). rewrite Hev in Hg'.
  assert (Hraw : forall k, (k <= n)%nat -> Forall2 (renamed_votes nc nt sg) (firstn k (m_trees m)) (firstn k (m_trees m')) ->
    forall row, (nc <= length row)%nat -> exists p, amg_boost_raw (first_trees k m) row = Ok (map Fin p) /\ length p = nt /\
      amg_boost_raw (first_trees k m') row = Ok (map Fin (rename sg p))).
  { intros k Hk HF row Hr.
    destruct (raw_votes nc nt sg lr (even nt) row _ _ Hsg Hr (even_length nt) HF) as (s & A & B & C).
    exists s. rewrite !amg_raw. rewrite Hg, Hlr, Hg', Hlr', !map_length, even_length, (rename_length nt sg Hsg). auto. }
  assert (G : forall k, (k <= n)%nat -> Forall2 (renamed_votes nc nt sg) (firstn k (m_trees m)) (firstn k (m_trees m'))).
  { induction k as [|k IH]; intros Hk; [constructor|]. specialize (IH ltac:(lia)).
    destruct (amg_stage_exact nc nt d cfg n lr m k) as (ss & t & Es & Ht & Rs & Ls & B); auto.
    destruct (amg_stage_exact nc nt d' cfg n lr m' k) as (ss' & t' & Es' & Ht' & Rs' & Ls' & B'); auto.
    apply (firstn_snoc2 _ k _ _ t t'); auto.
    assert (Ess : ss' = map (rename sg) ss).
    { assert (Hrows : forall row, In row (feature_rows d) -> (nc <= length row)%nat) by (intros; eapply row_long; eauto).
      specialize (Hraw k ltac:(lia) IH). unfold d' in Es'. cbn [relabel feature_rows] in Es'. clear -Hraw Hrows Es Es'.
      revert ss ss' Es Es' Hrows. xr. generalize (feature_rows d). induction l as [|row rows IHr]; intros ss ss' Es Es' Hrows.
      - injection Es as Es. injection Es' as Es'. symmetry in Es, Es'. apply map_eq_nil in Es. apply map_eq_nil in Es'. now subst.
      - cbn [mapM] in Es, Es'. destruct (Hraw row (Hrows row (or_introl eq_refl))) as (p & A1 & A2 & A3). rewrite A1 in Es. rewrite A3 in Es'. cbn [bind] in Es, Es'.
        apply bind_Ok in Es as (r & Er & Es). apply bind_Ok in Es' as (r' & Er' & Es'). injection Es as Es. injection Es' as Es'.
        destruct ss as [|s ss]; [discriminate|]. destruct ss' as [|s' ss']; [discriminate|]. injection Es as E1 E2. injection Es' as E1' E2'.
        apply (f_equal (map xval)) in E1, E1'. rewrite !map_xval_Fin in E1, E1'. subst. cbn [map]. f_equal.
        apply (IHr ss ss'); auto. intros; apply Hrows; now right. }
    subst ss'. xr. rewrite HLr in Ls.
    destruct (fitted_renamed nc nt d ls sg Hsg W Hl ss ltac:(lia) Rs Ls) as [Ed Lr].
    destruct (fitted_ok nc nt d ss H2 W HO Rs (eq_trans Ls (eq_sym HLr))) as (r & _ & Wr & Lrr & Resr & _).
    destruct (fitted_ok nc nt d' (map (rename sg) ss) H2 W' HO' Rs' Ls') as (r' & _ & Wr' & Lrr' & Resr' & _).
    pose proof (relabel_renamed nc nt _ _ sg Hsg Wr Lr) as Mr. fold d' in Ed. rewrite <- Ed in Mr.
    assert (SQ : same_questions (fun _ _ => True) t t').
    { refine (built_renamed _ _ (fun _ => True) cfg nc nt sg Hsg Hst Hc _ _ _ _ t B _ t' B' Mr I I); auto. }
    pose proof (questions_unit _ _ _ SQ) as Hq. split; [exact Hq|]. intros row Hr.
    destruct (amg_class_out nc nt _ _ _ _ row H2 Wr Lrr Resr B Hr) as (x & c & Hcc & Ef & Em & _ & Sx & Wx & Lx).
    destruct (amg_class_out nc nt _ _ _ _ row H2 Wr' Lrr' Resr' B' Hr) as (x' & c' & Hcc' & Ef' & Em' & _ & Sx' & Wx' & Lx').
    pose proof (like_renamed nc nt sg _ _ x x' t t' row Mr Hq Wx Wx' Sx Sx') as Er.
    assert (Eo : class_output nt (rl x') = rename sg (class_output nt (rl x))).
    { rewrite Er. now apply class_output_rename. }
    rewrite Eo in Em', Ef'.
    assert (Hu : undisputed nt (class_output nt (rl x))).
    { apply (HU k t (map (map Fin) ss) (rl x) row); auto.
      assert (Es0 : map snd (samples_like row t (fitted d (map (map Fin) ss))) = labels x).
      { rewrite <- Sx. exact (samples_snd _ _ _ Wx). }
      exact (eq_trans Es0 Lx). }
    exists (approx nt c (nth c (class_output nt (rl x)) 0)). split; [|split; [apply approx_length|]].
    - unfold amg_out. xr. rewrite Ef. cbn [bind]. now apply construct_Fin.
    - rewrite <- (vote_renamed nt sg (class_output nt (rl x)) c c' Hsg (class_output_length _ _) Hu Hcc Hcc' Em Em').
      unfold amg_out. xr. rewrite Ef'. cbn [bind]. now apply construct_Fin. }
  specialize (G n (le_n n)). pose proof (Hraw n (le_n n) G) as Hp.
  assert (Em : first_trees n m = m) by (unfold first_trees; rewrite <- HT, firstn_all; now destruct m).
  assert (Em' : first_trees n m' = m') by (unfold first_trees; rewrite <- HT', firstn_all; now destruct m').
  rewrite Em, Em' in Hp. split; auto.
  rewrite <- HT in G at 1. rewrite <- HT' in G. rewrite !firstn_all in G. eapply Forall2_impl; [|exact G]. intros a b [A _]. exact A.
Qed.

(** With two classes no leaf is disputed. *)
Lemma two_classes_undisputed m : nt = 2%nat -> amg_boost_train d cfg n (Fin lr) = Ok m -> undisputed_leaves nc nt d m.
Proof.
  intros E2 E k t scores gs row Ht Es Hr Eg. destruct (amg_guess nc nt d cfg n (Fin lr) m) as (Hg & Hlr & HT); auto; [lia|].
  assert (Hk : (k < n)%nat) by (rewrite <- HT; apply nth_error_Some; congruence).
  destruct (amg_stage_exact nc nt d cfg n lr m k) as (ss & t0 & Es0 & Ht0 & Rs & Ls & B); auto.
  rewrite Es0 in Es. injection Es as <-. rewrite Ht0 in Ht. injection Ht as <-.
  destruct (fitted_ok nc nt d ss H2 W HO Rs Ls) as (r & _ & Wr & Lrr & Resr & _).
  destruct (built_lookup_mk _ _ _ _ _ _ _ row B Wr Hr) as (x & l & Ef & Em & Sx & Wx).
  assert (Hi : incl (samples x) (samples (fitted d (map (map Fin) ss)))) by (rewrite Sx; apply filter_incl).
  destruct (sub_class nc nt _ x Wr Wx Hi Lrr Resr) as [Lx Rx].
  assert (El : labels x = map (map Fin) gs).
  { rewrite <- (samples_snd _ _ _ Wx), Sx. exact Eg. }
  assert (Er : rl x = gs) by now apply real_rl.
  unfold residual_labels in Rx. rewrite Er, E2 in Rx. rewrite E2. destruct (two_output gs Rx) as (a & ->).
  intros i j Hi0 Hj0 A1 A2. pose proof (A1 0%nat ltac:(lia)). pose proof (A1 1%nat ltac:(lia)). pose proof (A2 0%nat ltac:(lia)). pose proof (A2 1%nat ltac:(lia)).
  destruct i as [|[|i]], j as [|[|j]]; try lia; cbn in *; auto; right; lra.
Qed.

End Amg.

Theorem amg_class_renamed (nt : nat) sg (m m' : @amg_boost_model xr_ops) row s c :
  target_order nt sg -> length s = nt ->
  amg_boost_raw m row = Ok (map Fin s) -> amg_boost_raw m' row = Ok (map Fin (rename sg s)) ->
  (c < nt)%nat -> (forall j, (j < nt)%nat -> j <> c -> nth j s 0 < nth c s 0) ->
  exists v, amg_boost_predict m row = Ok (map Fin v) /\ @one_hot xr_ops nt (N.of_nat c) (map Fin v) /\
    amg_boost_predict m' row = Ok (map Fin (rename sg v)).
Proof.
  intros Hsg Ls E E' Hc H. exists (hot nt c). unfold amg_boost_predict. rewrite E, E'. cbn [bind].
  split; [rewrite <- Ls at 1; apply binary_real; rewrite Ls; auto|]. split; [now apply hot_one_hot|].
  assert (Lsg : length sg = nt) by now apply order_length.
  assert (Hin : In c sg) by (apply (Permutation_in _ (Permutation_sym Hsg)); apply in_seq; lia).
  apply (In_nth _ _ 0%nat) in Hin as (c' & Hc' & Ec'). rewrite Lsg in Hc'.
  assert (Hd : forall i, (i < nt)%nat -> i <> c' -> nth i sg 0%nat <> c).
  { intros i Hi Hne H0. apply Hne. apply (proj1 (NoDup_nth sg 0%nat)); auto; try lia.
    apply (Permutation_NoDup (Permutation_sym Hsg)). apply seq_NoDup. }
  rewrite (binary_real _ c').
  - do 2 f_equal. rewrite (rename_length nt sg Hsg). apply (nth_ext _ _ 0 0); [rewrite hot_length, (rename_length nt sg Hsg); reflexivity|].
    intros i Hi. rewrite hot_length in Hi. rewrite (rename_nth nt sg Hsg) by auto. rewrite !hot_nth by (auto; now apply (order_nth nt)).
    destruct (Nat.eqb_spec i c') as [->|Hne]; [now rewrite Ec', Nat.eqb_refl|]. apply Hd in Hne; auto.
    now rewrite (proj2 (Nat.eqb_neq _ _) Hne).
  - now rewrite (rename_length nt sg Hsg).
  - intros j Hj Hne. rewrite (rename_length nt sg Hsg) in Hj. rewrite !(rename_nth nt sg Hsg) by auto. rewrite Ec'.
    apply H; [now apply (order_nth nt)|now apply Hd].
Qed.

Theorem amg_rename' nc nt (d : @dataset xr_ops) ls cfg n lr sg m m' :
  target_order nt sg -> wf_dataset nc nt d -> real_labels ls d -> one_hot_labels nt d -> standard cfg -> tc_number_of_classes cfg = N.of_nat nt ->
  (2 <= nt)%nat -> (Z.of_nat nt <= 2 ^ 53)%Z ->
  amg_boost_train d cfg n (Fin lr) = Ok m -> amg_boost_train (relabel d (map (rename sg) ls)) cfg n (Fin lr) = Ok m' ->
  nt = 2%nat \/ undisputed_leaves nc nt d m ->
  Forall2 (fun t t' => tree_map (fun _ => tt) t' = tree_map (fun _ => tt) t) (m_trees m) (m_trees m') /\
  forall row, (nc <= length row)%nat ->
    exists s, amg_boost_raw m row = Ok (map Fin s) /\ length s = nt /\ amg_boost_raw m' row = Ok (map Fin (rename sg s)) /\
      forall c, (c < nt)%nat -> (forall j, (j < nt)%nat -> j <> c -> nth j s 0 < nth c s 0) ->
        exists v, amg_boost_predict m row = Ok (map Fin v) /\ one_hot nt (N.of_nat c) (map Fin v) /\
          amg_boost_predict m' row = Ok (map Fin (rename sg v)).
Proof.
  intros Hsg W Hl HO Hst Hc H2 Hz E E' HU.
  assert (U : undisputed_leaves nc nt d m).
  { destruct HU as [E2|U]; auto. exact (two_classes_undisputed nc nt d cfg n lr W Hc H2 Hz HO m E2 E). }
  destruct (amg_rename nc nt d ls cfg n lr sg Hsg W Hl Hst Hc H2 Hz HO m m' U E E') as [A B]. split; auto.
  intros row Hr. destruct (B row Hr) as (s & B1 & B2 & B3). exists s. repeat split; auto.
  intros c Hcl Hmax. exact (amg_class_renamed nt sg m m' row s c Hsg B2 B1 B3 Hcl Hmax).
Qed.
