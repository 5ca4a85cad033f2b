(** Two data sets with the same features and related labels: the split finder, the trees and the regression
    ensembles computed from them are related. Proved for any arithmetic with relations that its operations
    preserve: [RL] relates labels and everything linear in them, [RS] relates squares of labels. *)
From Verif Require Import Base Num ModelCommon ModelTree ModelBoost Lib Spec SpecTree SpecScore SpecFit ProofData ProofSort ProofSplit ProofSplit2
  ProofTree ProofTree3 ProofScore ProofBoost ProofBoost2.

(** What the operations of an arithmetic preserve. *)
Record preserved {O : NumOps} (RL RS : F -> F -> Prop) : Prop := mkPreserved {
  pr_zero : RL f0 f0;
  pr_add x x' y y' : RL x x' -> RL y y' -> RL (fadd x y) (fadd x' y');
  pr_sub x x' y y' : RL x x' -> RL y y' -> RL (fsub x y) (fsub x' y');
  pr_div x x' c : RL x x' -> RL (fdiv x c) (fdiv x' c);
  pr_scale x x' c : RL x x' -> RL (fmul c x) (fmul c x');
  pr_square x x' : RL x x' -> RS (fmul x x) (fmul x' x');
  pr_szero : RS f0 f0;
  pr_ssum0 : RS fsum0 fsum0;
  pr_sinf : RS finf finf;
  pr_sadd x x' y y' : RS x x' -> RS y y' -> RS (fadd x y) (fadd x' y');
  pr_ssub x x' y y' : RS x x' -> RS y y' -> RS (fsub x y) (fsub x' y');
  pr_sdiv x x' c : RS x x' -> RS (fdiv x c) (fdiv x' c);
  pr_sscale x x' c : RS x x' -> RS (fmul c x) (fmul c x');
  pr_less x x' y y' : RS x x' -> RS y y' -> fltb x y = fltb x' y';
  pr_nogain x x' : RS x x' -> feqb x f0 = feqb x' f0 }.

Section Lists.
Context {A B C A' B' C' : Type} (RA : A -> A' -> Prop) (RB : B -> B' -> Prop) (RC : C -> C' -> Prop).

Lemma map2_rel (f : A -> B -> C) (f' : A' -> B' -> C') a a' b b' :
  (forall x x' y y', RA x x' -> RB y y' -> RC (f x y) (f' x' y')) ->
  Forall2 RA a a' -> Forall2 RB b b' -> Forall2 RC (map2 f a b) (map2 f' a' b').
Proof.
  intros Hf Ha. revert b b'. induction Ha as [|x x' a a' Hx Ha IH]; intros b b' Hb; [destruct Hb; constructor|].
  destruct Hb as [|y y' b b' Hy Hb]; cbn [map2]; constructor; auto.
Qed.

Lemma map_rel (f : A -> B) (f' : A' -> B') a a' :
  (forall x x', RA x x' -> RB (f x) (f' x')) -> Forall2 RA a a' -> Forall2 RB (map f a) (map f' a').
Proof. intros Hf Ha. induction Ha; cbn [map]; constructor; auto. Qed.

Lemma fold_rel (f : A -> B -> A) (f' : A' -> B' -> A') l l' :
  (forall s s' x x', RA s s' -> RB x x' -> RA (f s x) (f' s' x')) ->
  Forall2 RB l l' -> forall s s', RA s s' -> RA (fold_left f l s) (fold_left f' l' s').
Proof. intros Hf Hl. induction Hl; intros s s' Hs; cbn [fold_left]; auto. Qed.

End Lists.

Lemma repeat_rel {A A'} (RA : A -> A' -> Prop) x x' n : RA x x' -> Forall2 RA (repeat x n) (repeat x' n).
Proof. intros H. induction n; cbn [repeat]; constructor; auto. Qed.

Lemma combine_rel {A B A' B'} (RA : A -> A' -> Prop) (RB : B -> B' -> Prop) a a' b b' :
  Forall2 RA a a' -> Forall2 RB b b' -> Forall2 (fun p p' => RA (fst p) (fst p') /\ RB (snd p) (snd p')) (combine a b) (combine a' b').
Proof.
  intros Ha. revert b b'. induction Ha as [|x x' a a' Hx Ha IH]; intros b b' Hb; [constructor|].
  destruct Hb as [|y y' b b' Hy Hb]; cbn [combine]; constructor; auto.
Qed.

Lemma nth_rel {A A'} (RA : A -> A' -> Prop) a a' d d' i : Forall2 RA a a' -> RA d d' -> RA (nth i a d) (nth i a' d').
Proof. intros H Hd. revert i. induction H; intros [|i]; cbn [nth]; auto. Qed.

Lemma enumerate_rel {A A'} (RA : A -> A' -> Prop) l l' : Forall2 RA l l' ->
  Forall2 (fun p p' => fst p = fst p' /\ RA (snd p) (snd p')) (enumerate l) (enumerate l').
Proof.
  intros H. unfold enumerate. rewrite <- (Forall2_length _ _ _ H). apply combine_rel; auto.
  induction (seq 0 (length l)); constructor; auto.
Qed.

Lemma eq_rel {A} (RA : A -> A -> Prop) l : (forall x, RA x x) -> Forall2 RA l l.
Proof. intros H. induction l; constructor; auto. Qed.

Lemma firstn_next {A} (l : list A) k x : nth_error l k = Some x -> firstn (S k) l = firstn k l ++ [x].
Proof. revert k; induction l as [|y l IH]; intros [|k] H; try discriminate; cbn in *; [now injection H as ->|]. f_equal. auto. Qed.

Section Rel.
Context {O : NumOps} (LW : NumLaws O) (RL RS : F -> F -> Prop) (HP : preserved RL RS).

Local Notation RLs := (Forall2 RL).
Local Notation RSs := (Forall2 RS).

(* ------------------------------------------------------------------ *)
(** ** The split finder *)

Definition metrics_rel (m m' : label_metrics) : Prop :=
  RLs (lm_sum m) (lm_sum m') /\ RSs (lm_sumsq m) (lm_sumsq m') /\ RLs (lm_mean m) (lm_mean m').

Definition tracker_rel (t t' : tracker) : Prop := tr_n t = tr_n t' /\ metrics_rel (tr_m t) (tr_m t').

Lemma pleft_rel t t' l l' : tracker_rel t t' -> RLs l l' -> tracker_rel (pleft t l) (pleft t' l').
Proof.
  intros (En & Hs & Hq & Hm) Hl. unfold pleft, tracker_rel. cbn [tr_n tr_m]. rewrite <- En. split; auto.
  assert (H : RLs (map2 fadd (lm_sum (tr_m t)) l) (map2 fadd (lm_sum (tr_m t')) l')).
  { eapply map2_rel; eauto. apply (pr_add _ _ HP). }
  unfold metrics_rel. cbn [lm_sum lm_sumsq lm_mean]. split; auto. split.
  - eapply map2_rel; eauto. intros x x' y y' Hx Hy. apply (pr_sadd _ _ HP); auto. now apply (pr_square _ _ HP).
  - eapply map_rel; eauto. intros. now apply (pr_div _ _ HP).
Qed.

Lemma pright_rel t t' l l' : tracker_rel t t' -> RLs l l' -> tracker_rel (pright t l) (pright t' l').
Proof.
  intros (En & Hs & Hq & Hm) Hl. unfold pright, tracker_rel. cbn [tr_n tr_m]. rewrite <- En. split; auto.
  assert (H : RLs (map2 fsub (lm_sum (tr_m t)) l) (map2 fsub (lm_sum (tr_m t')) l')).
  { eapply map2_rel; eauto. apply (pr_sub _ _ HP). }
  unfold metrics_rel. cbn [lm_sum lm_sumsq lm_mean]. split; auto. split.
  - eapply map2_rel; eauto. intros x x' y y' Hx Hy. apply (pr_ssub _ _ HP); auto. now apply (pr_square _ _ HP).
  - eapply map_rel; eauto. intros. now apply (pr_div _ _ HP).
Qed.

Lemma pvar_rel m m' n : metrics_rel m m' -> RSs (pvar m n) (pvar m' n).
Proof.
  intros (Hs & Hq & Hm). unfold pvar. eapply map2_rel; eauto. intros x x' y y' Hx Hy. unfold calculate_variance.
  apply (pr_sdiv _ _ HP). apply (pr_ssub _ _ HP); auto. apply (pr_sscale _ _ HP). now apply (pr_square _ _ HP).
Qed.

Lemma fsum_rel l l' : RSs l l' -> RS (fsum l) (fsum l').
Proof. intros H. unfold fsum. eapply fold_rel; eauto; [apply (pr_sadd _ _ HP)|apply (pr_ssum0 _ _ HP)]. Qed.

Lemma ploss_rel l l' r r' : tracker_rel l l' -> tracker_rel r r' -> RS (ploss l r) (ploss l' r').
Proof.
  intros (E1 & M1) (E2 & M2). unfold ploss. rewrite <- E1, <- E2. apply fsum_rel.
  eapply map2_rel; [|now apply pvar_rel|now apply pvar_rel]. intros x x' y y' Hx Hy. cbn beta.
  apply (pr_sadd _ _ HP); now apply (pr_sscale _ _ HP).
Qed.

Definition threshold_rel (b b' : best_threshold) : Prop := RS (bt_loss b) (bt_loss b') /\ bt_threshold b = bt_threshold b'.
Definition scan_rel (s s' : scan_state) : Prop :=
  threshold_rel (sc_best s) (sc_best s') /\ tracker_rel (sc_left s) (sc_left s') /\ tracker_rel (sc_right s) (sc_right s').
Definition value_rel (p p' : F * list F) : Prop := fst p = fst p' /\ RLs (snd p) (snd p').

Lemma pstep_rel prev s s' v v' : scan_rel s s' -> value_rel v v' -> scan_rel (pstep prev s v) (pstep prev s' v').
Proof.
  intros ((Hl & Ht) & HL & HR) (Ev & Hv). unfold pstep, scan_rel. cbn [sc_best sc_left sc_right].
  split; [|split; [now apply pleft_rel|now apply pright_rel]].
  rewrite <- Ev. pose proof (ploss_rel _ _ _ _ HL HR) as H. rewrite <- (pr_less _ _ HP _ _ _ _ H Hl).
  destruct (negb _); [|split; auto]. destruct (fltb _ _); split; auto.
Qed.

Lemma zero_tracker_rel k : tracker_rel (zero_tracker k) (zero_tracker k).
Proof.
  split; auto. unfold metrics_rel, zero_tracker. cbn [tr_m lm_sum lm_sumsq lm_mean].
  split; [|split]; apply repeat_rel; [apply (pr_zero _ _ HP)|apply (pr_szero _ _ HP)|apply (pr_zero _ _ HP)].
Qed.

Lemma pscan_rel k t t' v v' : tracker_rel t t' -> Forall2 value_rel v v' -> scan_rel (pscan k t v) (pscan k t' v').
Proof.
  intros Ht Hv. assert (H0 : scan_rel (mkScan (mkBT finf f0) (zero_tracker k) t) (mkScan (mkBT finf f0) (zero_tracker k) t')).
  { split; [split; [apply (pr_sinf _ _ HP)|reflexivity]|]. split; auto. apply zero_tracker_rel. }
  unfold pscan. destruct Hv as [|[p l] [p' l'] v v' [Ep Hl] Hv]; auto. cbn [fst] in Ep. subst p'.
  eapply fold_rel; [apply pstep_rel| |exact H0]. constructor; auto. now split.
Qed.

Lemma pmetrics_rel k ls ls' : Forall2 RLs ls ls' -> metrics_rel (pmetrics k ls) (pmetrics k ls').
Proof.
  intros H. unfold pmetrics, metrics_rel. cbn [lm_sum lm_sumsq lm_mean]. rewrite <- (Forall2_length _ _ _ H).
  assert (Hs : RLs (colsum k ls) (colsum k ls')).
  { unfold colsum. eapply fold_rel; [|exact H|apply repeat_rel; apply (pr_zero _ _ HP)].
    intros. eapply map2_rel; eauto. apply (pr_add _ _ HP). }
  split; auto. split.
  - unfold colsumsq. eapply fold_rel; [|exact H|apply repeat_rel; apply (pr_szero _ _ HP)].
    intros. eapply map2_rel; eauto. intros. apply (pr_sadd _ _ HP); auto. now apply (pr_square _ _ HP).
  - eapply map_rel; eauto. intros. now apply (pr_div _ _ HP).
Qed.

Lemma colmean_rel k ls ls' : Forall2 RLs ls ls' -> RLs (colmean k ls) (colmean k ls').
Proof. intros H. exact (proj2 (proj2 (pmetrics_rel k ls ls' H))). Qed.

Definition split_rel (b b' : best_split) : Prop := RS (bs_gain b) (bs_gain b') /\ bs_question b = bs_question b'.

Lemma pfind_rel k ls ls' cs cs' :
  Forall2 RLs ls ls' -> Forall2 (Forall2 value_rel) cs cs' -> split_rel (pfind k ls cs) (pfind k ls' cs').
Proof.
  intros Hl Hc. unfold pfind, pselect.
  assert (Hv : RS (ptotal_variance k ls) (ptotal_variance k ls')).
  { unfold ptotal_variance. rewrite <- (Forall2_length _ _ _ Hl). apply fsum_rel. apply pvar_rel. now apply pmetrics_rel. }
  eapply (fold_rel split_rel (fun p p' : nat * best_threshold => fst p = fst p' /\ threshold_rel (snd p) (snd p'))).
  - intros b b' [i r] [i' r'] (Hg & Eq) (Ei & Hr & Er). cbn [fst snd] in *. subst i'. unfold pselect_step. cbn [fst snd].
    assert (H : RS (fsub (ptotal_variance k ls) (bt_loss r)) (fsub (ptotal_variance k ls') (bt_loss r'))) by now apply (pr_ssub _ _ HP).
    rewrite <- (pr_less _ _ HP _ _ _ _ Hg H). destruct (fltb _ _); split; auto. cbn [bs_question]. now rewrite Er.
  - apply enumerate_rel. eapply map_rel; [|exact Hc]. intros v v' H. unfold pcolumn.
    apply pscan_rel; auto. split; [|now apply pmetrics_rel]. unfold ptotal. cbn [tr_n]. now rewrite <- (Forall2_length _ _ _ Hl).
  - split; [apply (pr_szero _ _ HP)|reflexivity].
Qed.

(* ------------------------------------------------------------------ *)
(** ** Data sets *)

Definition data_rel (nc nt : nat) (d d' : dataset) : Prop :=
  wf_dataset nc nt d /\ wf_dataset nc nt d' /\ feature_rows d' = feature_rows d /\ feature_columns d' = feature_columns d /\
  Forall2 RLs (labels d) (labels d').

Lemma vls_rel ls ls' c : Forall2 RLs ls ls' -> Forall2 value_rel (vls_of ls c) (vls_of ls' c).
Proof.
  intros H. unfold vls_of. apply (map_rel eq); [|now apply eq_rel]. intros p p' <-. split; [reflexivity|].
  cbn [snd]. apply (nth_rel RLs); auto.
Qed.

Lemma find_rel nc nt d d' b : data_rel nc nt d d' -> find_best_split d (N.of_nat nt) = Ok b ->
  exists b', find_best_split d' (N.of_nat nt) = Ok b' /\ split_rel b b'.
Proof.
  intros (W & W' & Er & Ec & Hl) E. rewrite (find_best_split_eq LW nc nt d W) in E. injection E as <-.
  exists (pfind nt (labels d') (dvls d')). split; [exact (find_best_split_eq LW nc nt d' W')|].
  apply pfind_rel; auto. unfold dvls. rewrite Ec. apply (map_rel eq); [|now apply eq_rel]. intros c c' <-. now apply vls_rel.
Qed.

Lemma stop_rel b b' level top : split_rel b b' -> stop_here b' level top = stop_here b level top.
Proof. intros (Hg & _). unfold stop_here. now rewrite (pr_nogain _ _ HP _ _ Hg). Qed.

Lemma partition_rows_rel q rows ls ls' x : Forall2 RLs ls ls' -> partition_rows q rows ls = Ok x ->
  exists x', partition_rows q rows ls' = Ok x' /\ fst (fst x') = fst (fst x) /\ fst (snd x') = fst (snd x) /\
    Forall2 RLs (snd (fst x)) (snd (fst x')) /\ Forall2 RLs (snd (snd x)) (snd (snd x')).
Proof.
  intros H. unfold partition_rows.
  set (z := (([], []), ([], [])) : (list (list F) * list (list F)) * (list (list F) * list (list F))).
  assert (Hz : fst (fst z) = fst (fst z) /\ fst (snd z) = fst (snd z) /\ Forall2 RLs (snd (fst z)) (snd (fst z)) /\ Forall2 RLs (snd (snd z)) (snd (snd z)))
    by (repeat split; constructor).
  revert Hz. generalize z at 2 4 6 8 10 as y'. generalize z as y. clear z. revert rows.
  induction H as [|l l' ls ls' Hl H IH]; intros [|r rows] [[tr tl] [fr fl]] [[tr' tl'] [fr' fl']] (E1 & E2 & H1 & H2); cbn [fst snd] in *; subst tr' fr';
    try (intros E; cbn in E; injection E as <-; eexists; split; [reflexivity|]; cbn [fst snd]; auto; fail).
  cbn [combine foldM fst snd]. destruct (solve q r) as [b| |]; cbn [bind]; try discriminate.
  destruct b; intros E; (eapply IH; [|exact E]); cbn [fst snd]; repeat split; auto; apply Forall2_app; auto.
Qed.

Lemma partition_rel nc nt d d' q fd td fd' td' : data_rel nc nt d d' ->
  partition d q = Ok (fd, td) -> partition d' q = Ok (fd', td') -> data_rel nc nt fd fd' /\ data_rel nc nt td td'.
Proof.
  intros (W & W' & Er & Ec & Hl) P P'.
  destruct (partition_wf nc nt _ _ _ _ W P) as (_ & Wf & Wt & _). destruct (partition_wf nc nt _ _ _ _ W' P') as (_ & Wf' & Wt' & _).
  unfold partition in P, P'. rewrite Er in P'.
  destruct (partition_rows q (feature_rows d) (labels d)) as [[[tr tl] [fr fl]]| |] eqn:E; [|discriminate P|discriminate P].
  destruct (partition_rows_rel q _ _ _ _ Hl E) as ([[tr' tl'] [fr' fl']] & E' & E1 & E2 & H1 & H2). cbn [fst snd] in *. subst tr' fr'.
  rewrite E' in P'. cbn [bind] in P, P'.
  destruct (create_feature_columns fr) as [fc| |]; [|discriminate P|discriminate P].
  destruct (create_feature_columns tr) as [tc| |]; [|discriminate P|discriminate P]. cbn [bind] in P, P'.
  injection P as <- <-. injection P' as <- <-. split; (split; [auto|]; split; [auto|]; cbn [feature_rows feature_columns labels]; auto).
Qed.

(* ------------------------------------------------------------------ *)
(** ** Trees *)

Lemma built_inv {L} (mk : dataset -> res L) cfg level d t s :
  built mk cfg level d t -> tc_split_finder cfg d (tc_number_of_classes cfg) = Ok s ->
  (stop_here s level (tc_max_levels cfg) = true /\ exists l, mk d = Ok l /\ t = leaf_node (bs_question s) l) \/
  (stop_here s level (tc_max_levels cfg) = false /\ exists fd td a b, partition d (bs_question s) = Ok (fd, td) /\
     built mk cfg (level + 1) td a /\ built mk cfg (level + 1) fd b /\ t = node_new (bs_question s) a b).
Proof.
  intros B E. inversion B; subst; rewrite E in *; match goal with H : Ok _ = Ok _ |- _ => injection H as -> end; [left|right]; split; eauto 9.
Qed.

Lemma built_rel {L L'} (mk : dataset -> res L) (mk' : dataset -> res L') nc nt cfg level d d' t t' :
  standard cfg -> tc_number_of_classes cfg = N.of_nat nt ->
  built mk cfg level d t -> built mk' cfg level d' t' -> data_rel nc nt d d' ->
  tree_map (fun _ => tt) t' = tree_map (fun _ => tt) t /\
  forall row,
    (find_leaf_node_for_data row t = Panic /\ find_leaf_node_for_data row t' = Panic) \/
    exists x x' l l', find_leaf_node_for_data row t = Ok l /\ mk x = Ok l /\
      find_leaf_node_for_data row t' = Ok l' /\ mk' x' = Ok l' /\ data_rel nc nt x x'.
Proof.
  intros St Hc B. revert d' t'.
  assert (Hf : forall d d' b, data_rel nc nt d d' -> tc_split_finder cfg d (tc_number_of_classes cfg) = Ok b ->
    exists b', tc_split_finder cfg d' (tc_number_of_classes cfg) = Ok b' /\ split_rel b b').
  { intros x x' b M E. rewrite St, Hc in *. cbn [split_finder_new] in *. eapply find_rel; eauto. }
  induction B as [level d b l Es Est El|level d b fd td t f Es Est Ep Bt IHt Bf IHf]; intros d' t' B' M.
  - destruct (Hf _ _ _ M Es) as (b' & Es' & Hb). pose proof (stop_rel b b' level (tc_max_levels cfg) Hb) as Est'.
    destruct (built_inv _ _ _ _ _ _ B' Es') as [(_ & l' & El' & ->)|(X & _)]; [|congruence].
    rewrite <- (proj2 Hb). split; [reflexivity|]. intros row. right. exists d, d', l, l'. auto.
  - destruct (Hf _ _ _ M Es) as (b' & Es' & Hb). pose proof (stop_rel b b' level (tc_max_levels cfg) Hb) as Est'.
    destruct (built_inv _ _ _ _ _ _ B' Es') as [(X & _)|(_ & fd' & td' & a & c & Ep' & Ba & Bc & ->)]; [congruence|].
    rewrite <- (proj2 Hb) in *. destruct (partition_rel _ _ _ _ _ _ _ _ _ M Ep Ep') as [Mf Mt].
    destruct (IHt _ _ Ba Mt) as [T1 T2]. destruct (IHf _ _ Bc Mf) as [F1 F2].
    split; [cbn; now rewrite T1, F1|]. intros row. cbn [node_new find_leaf_node_for_data].
    assert (HS : solve (bs_question b) row = Panic \/ exists v, solve (bs_question b) row = Ok v).
    { unfold solve, idxN, idx; destruct (_ <? _)%N; [|left; reflexivity]; match goal with |- context [nth_error row ?i] => destruct (nth_error row i) end; cbn [bind]; [right; eexists; reflexivity|left; reflexivity]. }
    destruct HS as [->|([|] & ->)]; cbn [bind]; [left; auto|apply T2|apply F2].
Qed.

Lemma wf_some_labels nc nt d : wf_dataset nc nt d -> labels d <> [].
Proof.
  intros W E. apply (wf_nonempty _ _ _ W). pose proof (wf_lengths _ _ _ W) as L. rewrite E in L. now apply length_zero_iff_nil.
Qed.

Definition result_rel {A} (R : A -> A -> Prop) (r r' : res A) : Prop :=
  (r = Panic /\ r' = Panic) \/ exists p p', r = Ok p /\ r' = Ok p' /\ R p p'.

Theorem tree_rel nc nt d d' cfg t t' :
  standard cfg -> tc_number_of_classes cfg = N.of_nat nt -> data_rel nc nt d d' ->
  regression_tree_new d cfg = Ok t -> regression_tree_new d' cfg = Ok t' ->
  tree_map (fun _ => tt) t' = tree_map (fun _ => tt) t /\
  forall row, result_rel RLs (tree_prediction row t) (tree_prediction row t').
Proof.
  intros Hst Hc M E E'. rewrite regression_tree_new_eq in E, E'. apply build_with_built in E. apply build_with_built in E'.
  destruct (built_rel _ _ _ _ _ _ _ _ _ _ Hst Hc E E' M) as [A B]. split; auto. intros row. unfold result_rel.
  unfold tree_prediction. destruct (B row) as [[-> ->]|(x & x' & l & l' & -> & E1 & -> & E2 & Wx & Wx' & _ & _ & Hl)]; [left; auto|right].
  unfold mk_reg in E1, E2. cbn [bind] in *. injection E1 as <-. injection E2 as <-. cbn [rl_data unwrap bind].
  exists (colmean nt (labels x)), (colmean nt (labels x')).
  rewrite !(avg_label_eq nt) by (eauto using wf_some_labels, wf_labels). split; auto. split; auto. now apply colmean_rel.
Qed.

Lemma gb_tree_rel nc nt d d' cfg t t' :
  standard cfg -> tc_number_of_classes cfg = N.of_nat nt -> data_rel nc nt d d' ->
  grad_boost_tree_new d cfg (leaf_output_calculator_new Regression) = Ok t ->
  grad_boost_tree_new d' cfg (leaf_output_calculator_new Regression) = Ok t' ->
  tree_map (fun _ => tt) t' = tree_map (fun _ => tt) t /\
  forall row, result_rel (fun o o' => length o = nt /\ length o' = nt /\ RLs o o') (gb_out row t) (gb_out row t').
Proof.
  intros Hst Hc M E E'. rewrite grad_boost_tree_new_eq in E, E'. apply build_with_built in E. apply build_with_built in E'.
  destruct (built_rel _ _ _ _ _ _ _ _ _ _ Hst Hc E E' M) as [A B]. split; auto. intros row. unfold result_rel.
  unfold gb_out. destruct (B row) as [[-> ->]|(x & x' & l & l' & -> & E1 & -> & E2 & Wx & Wx' & _ & _ & Hl)]; [left; auto|right].
  unfold mk_gb in E1, E2. cbn [leaf_output_calculator_new] in E1, E2. unfold calculate_leaf_output_squared_loss in E1, E2.
  rewrite (calculate_average_f64_vector_eq nt) in E1, E2 by (eauto using wf_some_labels, wf_labels).
  cbn [bind] in *. injection E1 as <-. injection E2 as <-. cbn [gl_output unwrap bind].
  exists (colmean nt (labels x)), (colmean nt (labels x')).
  pose proof (wf_labels _ _ _ Wx) as R1. pose proof (wf_labels _ _ _ Wx') as R2.
  split; auto. split; auto. unfold colmean at 1 2. rewrite !map_length, !colsum_length by now apply rect_ge. split; auto. split; auto.
  now apply colmean_rel.
Qed.

(* ------------------------------------------------------------------ *)
(** ** Regression ensembles *)

Definition out_rel (nt : nat) (t t' : tree_node grad_boost_leaf) : Prop :=
  tree_map (fun _ => tt) t' = tree_map (fun _ => tt) t /\
  forall row, result_rel (fun o o' => length o = nt /\ length o' = nt /\ RLs o o') (gb_out row t) (gb_out row t').

Lemma raw_rel nt lr g g' row ts ts' : length g = nt -> RLs g g' -> Forall2 (out_rel nt) ts ts' ->
  result_rel RLs (raw gb_out lr g row ts) (raw gb_out lr g' row ts').
Proof.
  intros Hn Hg H.
  assert (D : result_rel (fun os os' => Forall2 (fun t o => gb_out row t = Ok o) ts os /\ Forall2 (fun t o => gb_out row t = Ok o) ts' os' /\
       Forall (fun o => length o = nt) os /\ Forall (fun o => length o = nt) os' /\ Forall2 RLs os os')
       (mapM (fun t => gb_out row t) ts) (mapM (fun t => gb_out row t) ts')).
  { induction H as [|t t' ts ts' [_ Ht] H IH]; [right; exists [], []; cbn; repeat split; constructor|].
    cbn [mapM]. destruct (Ht row) as [[-> ->]|(o & o' & Eo & Eo' & L1 & L2 & Ho)]; [left; auto|].
    rewrite Eo, Eo'. cbn [bind]. destruct IH as [[-> ->]|(os & os' & -> & -> & A & B & C & D & E)]; [left; auto|right].
    exists (o :: os), (o' :: os'). cbn [bind]. repeat split; auto. }
  assert (Hw : forall ts, mapM (fun t => o <- gb_out row t;; Ok (weighted lr o)) ts = (os <- mapM (fun t => gb_out row t) ts;; Ok (map (weighted lr) os))).
  { clear. induction ts as [|t ts IH]; [reflexivity|]. cbn [mapM]. destruct (gb_out row t); cbn [bind]; auto. rewrite IH.
    destruct (mapM (fun t : tree_node grad_boost_leaf => gb_out row t) ts); reflexivity. }
  unfold raw, result_rel. rewrite !Hw. destruct D as [[-> ->]|(os & os' & -> & -> & A & B & C & D & E)]; [left; auto|right]. cbn [bind].
  rewrite !add_leaf_outputs_eq.
  - eexists _, _. split; [reflexivity|]. split; [reflexivity|].
    eapply (fold_rel RLs RLs); [| |exact Hg].
    + intros. eapply map2_rel; eauto. apply (pr_add _ _ HP).
    + eapply map_rel; [|exact E]. intros o o' Ho. unfold weighted. eapply map_rel; eauto. intros. now apply (pr_scale _ _ HP).
  - rewrite Forall_map. eapply Forall_impl; [|exact D]. intros o Ho. unfold weighted. rewrite map_length, Ho, <- (Forall2_length _ _ _ Hg), Hn. auto.
  - rewrite Forall_map. eapply Forall_impl; [|exact C]. intros o Ho. unfold weighted. rewrite map_length, Ho, Hn. auto.
Qed.

Lemma mapM_rel {A B} (R : B -> B -> Prop) (f f' : A -> res B) l r r' :
  (forall x, In x l -> result_rel R (f x) (f' x)) -> mapM f l = Ok r -> mapM f' l = Ok r' -> Forall2 R r r'.
Proof.
  revert r r'. induction l as [|x l IH]; intros r r' H E E'; cbn [mapM] in E, E'.
  - injection E as <-. injection E' as <-. constructor.
  - destruct (H x (or_introl eq_refl)) as [[E1 E2]|(p & p' & E1 & E2 & Hp)]; rewrite E1 in E; rewrite E2 in E'; cbn [bind] in *; [discriminate|].
    destruct (mapM f l) as [a| |] eqn:Ea; [|discriminate E|discriminate E]. destruct (mapM f' l) as [a'| |] eqn:Ea'; [|discriminate E'|discriminate E'].
    cbn [bind] in *. injection E as <-. injection E' as <-. constructor; auto. apply IH; auto. intros y Hy. apply H. now right.
Qed.

Lemma differences_rel ls ls' ps ps' : Forall2 RLs ls ls' -> Forall2 RLs ps ps' -> Forall2 RLs (differences ls ps) (differences ls' ps').
Proof.
  intros Hl Hp. unfold differences. eapply map_rel; [|eapply combine_rel; [exact Hl|exact Hp]].
  intros [a b] [a' b'] [Ha Hb]. cbn [fst snd] in *. eapply map_rel; [|eapply combine_rel; [exact Ha|exact Hb]].
  intros [x y] [x' y'] [Hx Hy]. now apply (pr_sub _ _ HP).
Qed.

Section Boost.
Variables (nc nt : nat) (d d' : dataset) (cfg : tree_config) (n : nat) (lr : F) (m m' : regression_boost_model).
Hypotheses (Hst : standard cfg) (Hc : tc_number_of_classes cfg = N.of_nat nt) (M : data_rel nc nt d d')
  (E : regression_boost_train d cfg n lr = Ok m) (E' : regression_boost_train d' cfg n lr = Ok m').

Lemma guess_rel : m_learning_rate m = lr /\ m_learning_rate m' = lr /\ length (m_initial_guess m) = nt /\
  RLs (m_initial_guess m) (m_initial_guess m') /\ length (m_trees m) = n /\ length (m_trees m') = n.
Proof.
  pose proof M as (W & W' & _ & _ & Hl).
  destruct (regression_shape nt d cfg n lr m (wf_labels _ _ _ W) E) as (L1 & H1 & G1 & V1).
  destruct (regression_shape nt d' cfg n lr m' (wf_labels _ _ _ W') E') as (L2 & H2 & G2 & V2).
  repeat split; auto.
  apply boosting_loop_Ok in E as (E1 & _). apply boosting_loop_Ok in E' as (E2 & _).
  unfold determine_initial_guess in E1, E2. cbn [td_labels td_data] in E1, E2.
  rewrite (calculate_average_f64_vector_eq nt) in E1, E2 by (eauto using wf_some_labels, wf_labels).
  destruct (idx (labels d) 0) as [a| |]; [|discriminate E1|discriminate E1]. destruct (idx (labels d') 0) as [a'| |]; [|discriminate E2|discriminate E2].
  cbn [bind] in *. injection E1 as <-. injection E2 as <-. now apply colmean_rel.
Qed.

Lemma trees_rel : forall k, k <= n -> Forall2 (out_rel nt) (firstn k (m_trees m)) (firstn k (m_trees m')).
Proof.
  pose proof M as (W & W' & Er & Ec & Hl). destruct guess_rel as (R1 & R2 & Ln & Hg & L1 & L2).
  induction k as [|k IH]; intros Hk; [constructor|]. specialize (IH ltac:(lia)).
  destruct (regression_stage _ cfg n lr m k (wf_lengths _ _ _ W) E Hk) as (preds & t & Ep & Hs & Ht & Eb).
  destruct (regression_stage _ cfg n lr m' k (wf_lengths _ _ _ W') E' Hk) as (preds' & t' & Ep' & Hs' & Ht' & Eb').
  rewrite (firstn_next _ _ _ Ht), (firstn_next _ _ _ Ht'). apply Forall2_app; auto. constructor; [|constructor].
  unfold regression_boost_all_predictions in Ep, Ep'. rewrite all_predictions_eq in Ep, Ep'. rewrite Er in Ep'.
  assert (HPs : Forall2 RLs preds preds').
  { eapply mapM_rel; [|exact Ep|exact Ep']. intros row _. unfold regression_boost_predict. rewrite !predict_instance_raw.
    cbn [first_trees m_trees m_initial_guess m_learning_rate]. rewrite R1, R2. now apply (raw_rel nt). }
  rewrite Er, Ec in Eb'.
  assert (Wd : forall x ps, wf_dataset nc nt x -> feature_rows x = feature_rows d -> feature_columns x = feature_columns d ->
     Forall2 (fun y s => length y = length s) (labels x) ps ->
     wf_dataset nc nt (mkDS (feature_rows d) (differences (labels x) ps) (feature_columns d))).
  { intros x ps Wx Erx Ecx Hx. assert (Rp : rectangular nt ps).
    { pose proof (wf_labels _ _ _ Wx) as R. clear -Hx R. unfold rectangular in *. induction Hx; constructor; inversion R; subst; auto; congruence. }
    destruct (differences_rect nt (labels x) ps (Forall2_length _ _ _ Hx) (wf_labels _ _ _ Wx) Rp) as [Q1 Q2].
    apply (with_labels_wf nc nt d _ W); auto. rewrite Q1. rewrite <- Erx. apply (wf_lengths _ _ _ Wx). }
  refine (gb_tree_rel nc nt _ _ cfg t t' Hst Hc _ Eb Eb').
  split; [now apply Wd|]. split; [now apply Wd|]. cbn [feature_rows feature_columns labels]. split; auto. split; auto.
  now apply differences_rel.
Qed.

Theorem boost_rel :
  Forall2 (fun t t' => tree_map (fun _ => tt) t' = tree_map (fun _ => tt) t) (m_trees m) (m_trees m') /\
  RLs (m_initial_guess m) (m_initial_guess m') /\
  forall row, result_rel RLs (regression_boost_predict m row) (regression_boost_predict m' row).
Proof.
  destruct guess_rel as (R1 & R2 & Ln & Hg & L1 & L2). pose proof (trees_rel n (Nat.le_refl n)) as HF.
  rewrite <- L1 in HF at 1. rewrite <- L2 in HF. rewrite !firstn_all in HF.
  split; [eapply Forall2_impl; [|exact HF]; now intros t t' [A _]|]. split; auto.
  intros row. unfold regression_boost_predict. rewrite !predict_instance_raw, R1, R2. now apply (raw_rel nt).
Qed.
End Boost.
End Rel.
