(** The split finder in binary64 on labels of bounded size: the whole finder. *)
From Coq Require Import Reals Lra Lia ZArith Permutation Sorted.
From Flocq Require Import Core.
From Flocq Require Import IEEE754.BinarySingleNaN.
From Verif Require Import Base Num ModelCommon ModelTree Lib Spec F64 XR SpecExact SpecInt SpecNear ProofReal ProofData ProofSort
  ProofSplit ProofSplit2 ProofSplitExact ProofSplitExact2 ProofTreeExact ProofScoreF64 ProofRound ProofError ProofScan ProofInt ProofInt2 ProofInt4 ProofNear ProofNear2.
Local Open Scope R_scope.

Section Near3.
Context (P : platform) (B : R).
Local Existing Instance f64_ops.
Local Remove Hints xr_ops : typeclass_instances.

Lemma real_gain_error_alt k n : real_gain_error k n B = 320 * (INR k + 1) * (INR k + INR n) * (B * B) * ulp1.
Proof.
  unfold real_gain_error, ulp1, Rdiv. f_equal. change (-53)%Z with (Z.opp 53). rewrite bpow_opp. f_equal.
  rewrite (bpow_powerRZ radix2 53). change (IZR radix2) with 2. reflexivity.
Qed.

Lemma bounded_real_labels (d : @dataset (f64_ops P)) : bounded_labels B d -> real_labels (real_values d) (exact_data d).
Proof.
  intros H. unfold real_labels, exact_data, real_values. cbn [labels]. rewrite map_map. apply map_ext_in. intros l Hl. rewrite map_map.
  apply map_ext_in. intros x Hx. apply exact_finite. exact (proj1 (H l x Hl Hx)).
Qed.

Lemma rl_order (ls : list (list f64)) (r : list (f64 * nat)) :
  rl (map snd (@vls_of (f64_ops P) ls r)) = labels_in_order (rl ls) (ex r).
Proof.
  unfold rl, vls_of, labels_in_order, ex. rewrite !map_map. apply map_ext. intros [v i]. cbn [fst snd].
  change (@nil R) with (map (@B2R 53 1024) []). symmetry. apply (map_nth (map (@B2R 53 1024)) ls []).
Qed.

Lemma vls_perm (ls : list (list f64)) (col : list f64) (r : list (f64 * nat)) : @sorted_version (f64_ops P) col r -> length col = length ls ->
  Permutation ls (map snd (@vls_of (f64_ops P) ls r)).
Proof.
  intros [Hp _] L. unfold vls_of. rewrite map_map. cbn [snd].
  change (Permutation ls (map (fun x : f64 * nat => nth (snd x) ls []) r)).
  rewrite <- (map_map (@snd f64 nat) (fun i => nth i ls [])).
  pose proof (Permutation_map snd Hp) as H. rewrite ProofSort.value_positions_snd in H.
  assert (H' : Permutation (map (@snd f64 nat) r) (seq 0 (length ls))) by (rewrite <- L; exact H). clear H.
  rewrite H', map_nth_seq_all. reflexivity.
Qed.

Lemma vls_nth (ls : list (list f64)) (r : list (f64 * nat)) i :
  nth_error (@vls_of (f64_ops P) ls r) i = option_map (fun p => (fst p, nth (snd p) ls [])) (nth_error r i).
Proof. unfold vls_of. now rewrite nth_error_map. Qed.

Lemma rl_firstn i ls : rl (firstn i ls) = firstn i (rl ls).
Proof. unfold rl. now rewrite firstn_map. Qed.
Lemma rl_skipn i ls : rl (skipn i ls) = skipn i (rl ls).
Proof. unfold rl. now rewrite skipn_map. Qed.

Context (nc nt : nat) (d : @dataset (f64_ops P)).
Hypothesis (W : wf_dataset nc nt d).
Hypothesis (Hb : bounded_labels B d).
Hypothesis (Ho : ordinary_table B d).
Hypothesis (Hk : (Z.of_nat nt <= 2 ^ 40)%Z).

Let ls : list (list f64) := labels d.
Let N := length ls.
Let err := real_gain_error nt N B.

Lemma HN1 : (1 <= N)%nat.
Proof.
  pose proof (wf_nonempty _ _ _ W) as H. pose proof (wf_lengths _ _ _ W) as L. unfold N, ls.
  destruct (feature_rows d); [congruence|]. cbn [length] in L. change (@F (f64_ops P)) with f64 in *. lia.
Qed.

Lemma HN2 : (Z.of_nat N <= 2 ^ 20)%Z.
Proof. exact (proj2 Ho). Qed.

Lemma HB1 : bpow radix2 (-400) <= B <= bpow radix2 400.
Proof.
  destruct Ho as [H _]. change (-400)%Z with (Z.opp 400). rewrite bpow_opp.
  replace (bpow radix2 400) with (2 ^ 400); [exact H|]. rewrite (bpow_powerRZ radix2 400). change (IZR radix2) with 2. reflexivity.
Qed.

Lemma good_labels : good B nt ls.
Proof.
  apply Forall_forall. intros l Hl. split.
  - exact (proj1 (Forall_forall _ _) (wf_labels _ _ _ W) l Hl).
  - apply Forall_forall. intros x Hx. exact (Hb l x Hl Hx).
Qed.

Lemma err_nonneg : 0 <= err.
Proof.
  unfold err. rewrite real_gain_error_alt. pose proof (pos_INR nt). pose proof (pos_INR N). pose proof ulp1_pos. pose proof (B_pos B HB1).
  repeat apply Rmult_le_pos; lra.
Qed.

Theorem split_near b : find_best_split d (N.of_nat nt) = Ok b ->
  is_finite (bs_gain b) = true /\
  (forall j r i v, considered (exact_data d) j r i v ->
     cut_gain nt i (labels_in_order (real_values d) r) <= B2R (bs_gain b) + err) /\
  (b = no_split \/
   (0 < B2R (bs_gain b) /\ exists j r i v, considered (exact_data d) j r i v /\
      exact_question (bs_question b) = @Question xr_ops (N.of_nat j) v /\
      Rabs (B2R (bs_gain b) - cut_gain nt i (labels_in_order (real_values d) r)) <= err)).
Proof.
  intros E. rewrite (find_best_split_eq (f64_laws P) nc nt d W) in E. injection E as <-.
  pose proof HN1 as HN. pose proof HN2 as HN'. pose proof HB1 as HB. pose proof good_labels as Hg.
  change (real_values d) with (rl ls).
  unfold pfind. change (@labels (f64_ops P) d) with ls.
  set (tv := @ptotal_variance (f64_ops P) nt ls).
  destruct (total_near P N B nt HN HN' HB ls eq_refl Hg Hk) as (Ft & Et & Bt). fold tv in Ft, Et.
  assert (Hcols : forall j t, nth_error (map (@pcolumn (f64_ops P) nt ls) (dvls d)) j = Some t ->
    exists col, @nth_error (list f64) (feature_columns d) j = Some col /\
      ((t = mkBT finf f0 /\ forall r i v, ~ considered (exact_data d) j r i v) \/
       (exists i v, considered (exact_data d) j (ex (@the_sort (f64_ops P) col)) i (exact_value v) /\ bt_threshold t = v /\
          is_finite (Bminus mode_NE tv (bt_loss t)) = true /\
          Rabs (B2R (Bminus mode_NE tv (bt_loss t)) - cut_gain nt i (labels_in_order (rl ls) (ex (@the_sort (f64_ops P) col)))) <= err /\
          (forall r i' v', considered (exact_data d) j r i' v' ->
             cut_gain nt i' (labels_in_order (rl ls) r) <= B2R (Bminus mode_NE tv (bt_loss t)) + err)))).
  { intros j t Hj. unfold dvls in Hj. rewrite map_map, nth_error_map in Hj.
    destruct (nth_error (feature_columns d) j) as [col|] eqn:Ec; [|discriminate]. injection Hj as <-.
    exists col. split; [exact Ec|].
    assert (Hn : Forall is_num col) by (eapply wf_column_num; eauto; eapply nth_error_In; eauto).
    assert (L : length col = length ls).
    { destruct (wf_columns _ _ _ W) as [_ Ht]. destruct (Ht _ _ Ec) as [-> _]. symmetry. exact (wf_lengths _ _ _ W). }
    destruct (the_sort_spec (f64_laws P) col Hn) as [_ HS].
    pose proof (vls_perm ls col _ HS L) as Hperm.
    set (r := @the_sort (f64_ops P) col) in *. set (all := @vls_of (f64_ops P) ls r) in *.
    assert (Hga : good B nt (map snd all)) by (unfold good in *; now rewrite <- Hperm).
    assert (Hta : near P N B nt N (@ptotal (f64_ops P) nt ls) (map snd all)).
    { eapply near_perm; [exact Hperm|]. now apply (near_total P N B nt HN HN' HB). }
    assert (Hlen : length all = length r) by (unfold all, vls_of; apply map_length).
    assert (HlN : length all = N) by (apply Permutation_length in Hperm; rewrite map_length in Hperm; symmetry; exact Hperm).
    assert (Hr0 : exists m, hd_error r = Some m).
    { destruct r as [|m r0]; [|exists m; reflexivity]. exfalso. cbn [length] in Hlen. change (@F (f64_ops P)) with f64 in *. lia. }
    destruct Hr0 as (m & Hm).
    set (t := @pcolumn (f64_ops P) nt ls (vls_of (labels d) r)) in *.
    assert (HBo : best_of (fst m) nt (@ptotal (f64_ops P) nt ls) all (length all) t).
    { unfold t, pcolumn. change (vls_of (labels d) r) with all. eapply (pscan_best_of (f64_laws P)).
      - reflexivity.
      - unfold all, vls_of. destruct r as [|m0 r0]; [discriminate|]. injection Hm as ->. cbn [map hd_error]. reflexivity. }
    assert (Hgain : forall i v id, nth_error r i = Some (v, id) -> (0 < i)%nat ->
       let l := loss_at nt (@ptotal (f64_ops P) nt ls) all i in
       is_finite l = true /\ is_finite (Bminus mode_NE tv l) = true /\ B2R (Bminus mode_NE tv l) = rnd (B2R tv - B2R l) /\
       Rabs (B2R (Bminus mode_NE tv l) - cut_gain nt i (labels_in_order (rl ls) (ex r))) <= err).
    { intros i v id Hi Hi0 l.
      assert (Hi2 : (0 < i < length all)%nat) by (split; auto; rewrite Hlen; apply nth_error_Some; congruence).
      destruct (loss_at_near P N B nt HN HN' HB (@ptotal (f64_ops P) nt ls) all i HlN Hga Hta Hi2 Hk) as (Fl & El & Bl).
      fold l in Fl, El.
      destruct (gain_near N B HN HN' HB nt tv l _ _ Hk Ft Fl Bt Bl Et El) as (Fg & Vg & Eg).
      split; auto. split; auto. split; auto.
      unfold cut_gain. rewrite <- rl_order. fold all.
      rewrite (total_variance_perm nt (rl (map snd all)) (rl ls)).
      2:{ apply Permutation_sym. now apply Permutation_map. }
      rewrite rl_firstn, rl_skipn in Eg. unfold err. rewrite real_gain_error_alt. exact Eg. }
    destruct HBo as [Hnum Hle His].
    assert (Hcut : forall i v id, nth_error r i = Some (v, id) -> feqb v (fst m) = false ->
              (i < length all)%nat /\ is_cut (fst m) all i v).
    { intros i v id Hi Hq. split; [rewrite Hlen; apply nth_error_Some; congruence|].
      exists (nth id ls []). split; auto. unfold all. rewrite vls_nth. 
      change (@nth_error (f64 * nat) r i) with (@nth_error (@F (f64_ops P) * nat) r i). rewrite Hi. reflexivity. }
    assert (Hcons : forall r' i' v', considered (exact_data d) j r' i' v' ->
       r' = ex r /\ (0 < i')%nat /\ (exists v id, nth_error r i' = Some (v, id)) /\
       fleb (bt_loss t) (loss_at nt (@ptotal (f64_ops P) nt ls) all i') = true).
    { intros r' i' v' Hc. destruct (considered_ex P nc nt d j col r' i' v' W Ec Hc) as (Er & m' & v & Hm' & Ev & Hi0 & (id & Hi) & Hq).
      fold r in Er, Hm', Hi. assert (m' = m) by congruence. subst m'. split; auto. split; auto. split; [eauto|].
      destruct (Hcut i' v id Hi Hq) as [Hil Hic]. apply (Hle i' v); auto.
      destruct (Hgain i' v id Hi Hi0) as (Fl & _). unfold is_num. cbn [fleb f64_ops]. now apply finite_num. }
    destruct His as [Hinf|(i & v & Hil & (lv & Hic & Hq) & Ht)].
    - left. split; auto. intros r' i' v' Hc. destruct (Hcons r' i' v' Hc) as (_ & Hi0 & (v & id & Hi) & Hl).
      destruct (Hgain i' v id Hi Hi0) as (Fl & _). rewrite Hinf in Hl. cbn [bt_loss] in Hl.
      revert Hl Fl. generalize (loss_at nt (@ptotal (f64_ops P) nt ls) all i'). intros x Hl Fx.
      destruct x as [sx|[|]| |sx mx ex0 Hx]; cbn in Hl, Fx; discriminate.
    - right. unfold all in Hic. rewrite vls_nth in Hic.
      destruct (@nth_error (f64 * nat) r i) as [[v0 id]|] eqn:Hi; [|discriminate]. cbn [option_map fst snd] in Hic. assert (Ev0 : v0 = v) by congruence. subst v0.
      destruct (considered_back P nc nt d j col i m v id W Ec Hm Hi Hq) as [Hi0 Hc].
      exists i, v. split; [exact Hc|]. rewrite Ht. cbn [bt_loss bt_threshold]. split; [reflexivity|].
      destruct (Hgain i v id Hi Hi0) as (Fl & Fg & Vg & Eg). split; [exact Fg|]. split; [exact Eg|].
      intros r' i' v' Hc'. destruct (Hcons r' i' v' Hc') as (-> & Hi0' & (v1 & id1 & Hi') & Hl).
      destruct (Hgain i' v1 id1 Hi' Hi0') as (Fl' & Fg' & Vg' & Eg'). rewrite Ht in Hl. cbn [bt_loss] in Hl.
      cbn [fleb f64_ops] in Hl. apply finite_leb in Hl; auto.
      apply Rabs_le_inv in Eg'. rewrite Vg.
      assert (B2R (Bminus mode_NE tv (loss_at nt (@ptotal (f64_ops P) nt ls) all i')) <=
              rnd (B2R tv - B2R (loss_at nt (@ptotal (f64_ops P) nt ls) all i))).
      { rewrite Vg'. apply rnd_le. lra. }
      lra. }
  set (rs := map (@pcolumn (f64_ops P) nt ls) (dvls d)) in *.
  assert (Hlen : length rs = length (feature_columns d)) by (unfold rs, dvls; now rewrite !map_length).
  assert (Hex : forall j r i v, considered (exact_data d) j r i v -> exists t, nth_error rs j = Some t /\
      is_finite (Bminus mode_NE tv (bt_loss t)) = true /\
      cut_gain nt i (labels_in_order (rl ls) r) <= B2R (Bminus mode_NE tv (bt_loss t)) + err).
  { intros j r i v Hc. pose proof Hc as [(col' & Hj & _) _].
    destruct (nth_error rs j) as [t|] eqn:Ert.
    2:{ apply nth_error_None in Ert. rewrite Hlen in Ert. exfalso.
        assert (j < length (feature_columns (exact_data d)))%nat by (apply nth_error_Some; congruence).
        unfold exact_data in H. cbn [feature_columns] in H. rewrite map_length in H.
        change (@F (f64_ops P)) with f64 in *. lia. }
    exists t. split; auto. destruct (Hcols j t Ert) as (col & Ec & [[_ HNc]|(i0 & v0 & _ & _ & Fg & _ & H)]); [exfalso; eapply HNc; eauto|].
    split; auto. eapply H; eauto. }
  pose proof err_nonneg as Hpos.
  destruct (pselect_spec (f64_laws P) tv rs) as [[Hbs HNs]|(j & t & Ht & Hbs & Hgt & _ & Hmax)].
  - rewrite Hbs. split; [reflexivity|]. split; [|now left].
    intros j r i v Hc. destruct (Hex j r i v Hc) as (t & Ert & Fg & Hle). rewrite Forall_forall in HNs.
    specialize (HNs t (nth_error_In _ _ Ert)). change (Bltb (B754_zero false) (Bminus mode_NE tv (bt_loss t)) = false) in HNs.
    change (B2R (@bs_gain (f64_ops P) no_split)) with 0.
    assert (B2R (Bminus mode_NE tv (bt_loss t)) <= 0).
    { apply Rnot_lt_le. intros Hlt. assert (Bltb (B754_zero false) (Bminus mode_NE tv (bt_loss t)) = true) by (apply finite_ltb; auto). congruence. }
    lra.
  - destruct (Hcols j t Ht) as (col & Ec & [[Htt _]|(i & v & Hc & Hv & Fg & Eg & Hothers)]).
    { exfalso. rewrite Hbs in Hgt. cbn [bs_gain] in Hgt. rewrite Htt in Hgt. cbn [bt_loss] in Hgt.
      pose proof (fsub_inf _ (f64_laws P) tv) as Hi. rewrite Hi in Hgt. discriminate. }
    rewrite Hbs in *. cbn [bs_gain bs_question] in *. change (@fsub (f64_ops P) tv (bt_loss t)) with (Bminus mode_NE tv (bt_loss t)) in *.
    split; [exact Fg|].
    assert (Hg0 : 0 < B2R (Bminus mode_NE tv (bt_loss t))).
    { change (B754_zero false) with (@f0 (f64_ops P)) in Hgt. 
      change (Bltb (B754_zero false) (Bminus mode_NE tv (bt_loss t)) = true) in Hgt. now apply finite_ltb in Hgt. }
    split; [|right; split; [exact Hg0|]].
    + intros j' r' i' v' Hc'. destruct (Hex j' r' i' v' Hc') as (t' & Ert & Fg' & Hle). specialize (Hmax j' t' Ert).
      unfold col_gain in Hmax. change (@fsub (f64_ops P) tv (bt_loss t')) with (Bminus mode_NE tv (bt_loss t')) in Hmax.
      destruct (@fltb (f64_ops P) f0 (Bminus mode_NE tv (bt_loss t'))) eqn:E0.
      * change (Bleb (Bminus mode_NE tv (bt_loss t')) (Bminus mode_NE tv (bt_loss t)) = true) in Hmax. apply finite_leb in Hmax; auto. lra.
      * assert (B2R (Bminus mode_NE tv (bt_loss t')) <= 0).
        { apply Rnot_lt_le. intros Hlt. assert (Bltb (B754_zero false) (Bminus mode_NE tv (bt_loss t')) = true) by (apply finite_ltb; auto).
          change (@fltb (f64_ops P) f0 (Bminus mode_NE tv (bt_loss t'))) with (Bltb (B754_zero false) (Bminus mode_NE tv (bt_loss t'))) in E0. congruence. }
        lra.
    + exists j, (ex (@the_sort (f64_ops P) col)), i, (exact_value v). split; [exact Hc|]. split; [|exact Eg].
      unfold exact_question. cbn [q_column q_value]. rewrite Hv. f_equal. apply (as_u32_small j nc); [|exact (wf_u32 _ _ _ W)].
      destruct (wf_columns _ _ _ W) as [<- _]. apply nth_error_Some. intros En.
      assert (@nth_error (list f64) (feature_columns d) j = None) by exact En. congruence.
Qed.

Theorem near_exact b : find_best_split d (N.of_nat nt) = Ok b ->
  exists bx gx, find_best_split (exact_data d) (N.of_nat nt) = Ok bx /\ bs_gain bx = Fin gx /\ Rabs (B2R (bs_gain b) - gx) <= err.
Proof.
  intros E. destruct (split_near b E) as (Fg & Hmax & Hcase).
  pose proof (exact_wf P nc nt d W) as WX. pose proof (bounded_real_labels d Hb) as HX.
  destruct (split_usable xr_laws nc nt (exact_data d) WX) as (bx & Ex & _).
  destruct (split_exact nc nt (exact_data d) (real_values d) bx WX HX Ex) as (gx & Egx & Hmaxx & Hcasex).
  exists bx, gx. split; [exact Ex|]. split; [exact Egx|]. pose proof err_nonneg as Hpos.
  assert (Hg0 : 0 <= B2R (bs_gain b)) by (destruct Hcase as [->|[? _]]; [apply Rle_refl|lra]).
  apply Rabs_le. split.
  - assert (gx <= B2R (bs_gain b) + err); [|lra].
    destruct Hcasex as [[-> _]|(_ & j & r & i & v & Hc & <- & _)]; [lra|]. eapply Hmax; eauto.
  - destruct Hcase as [->|(_ & j & r & i & v & Hc & _ & He)].
    + assert (0 <= gx) by (destruct Hcasex as [[-> _]|[? _]]; lra). change (B2R (@bs_gain (f64_ops P) no_split)) with 0. lra.
    + specialize (Hmaxx _ _ _ _ Hc). apply Rabs_le_inv in He. lra.
Qed.

Theorem near_bounds_questions b q : find_best_split d (N.of_nat nt) = Ok b ->
  question_gain nt (exact_question q) (feature_rows (exact_data d)) (real_values d) <= B2R (bs_gain b) + err.
Proof.
  intros E. destruct (near_exact b E) as (bx & gx & Ex & Egx & He).
  pose proof (exact_wf P nc nt d W) as WX. pose proof (bounded_real_labels d Hb) as HX.
  destruct (gain_bounds_every_question nc nt (exact_data d) (real_values d) bx (exact_question q) WX HX Ex) as (g & Eg & Hle).
  rewrite Egx in Eg. injection Eg as <-. apply Rabs_le_inv in He. lra.
Qed.

Theorem near_optimal b q : find_best_split d (N.of_nat nt) = Ok b ->
  occurs_once (exact_data d) (exact_question (bs_question b)) ->
  question_gain nt (exact_question q) (feature_rows (exact_data d)) (real_values d) <=
  question_gain nt (exact_question (bs_question b)) (feature_rows (exact_data d)) (real_values d) + 2 * err.
Proof.
  intros E Hocc. pose proof (near_bounds_questions b q E) as Hq.
  destruct (split_near b E) as (Fg & Hmax & Hcase).
  pose proof (exact_wf P nc nt d W) as WX. pose proof (bounded_real_labels d Hb) as HX. pose proof err_nonneg as Hpos.
  destruct Hcase as [->|(_ & j & r & i & v & Hc & Eq & He)].
  - pose proof (question_gain_nonneg nc nt (exact_data d) (real_values d) (exact_question (@bs_question (f64_ops P) no_split)) WX HX).
    change (B2R (@bs_gain (f64_ops P) no_split)) with 0 in Hq. lra.
  - rewrite Eq in *. rewrite (considered_once_gain nc nt (exact_data d) (real_values d) j r i v WX HX Hc Hocc).
    apply Rabs_le_inv in He. lra.
Qed.

End Near3.
