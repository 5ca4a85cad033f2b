(** The split finder in binary64 on integer labels: the whole finder. *)
From Coq Require Import Reals Lra Lia ZArith Permutation Sorted.
From Flocq Require Import Core.
From Flocq Require Import IEEE754.BinarySingleNaN.
From Verif Require Import Base Num ModelCommon ModelTree Lib Spec F64 XR SpecExact SpecInt ProofReal ProofData ProofSort
  ProofSplit ProofSplit2 ProofSplitExact ProofScoreF64 ProofRound ProofError ProofScan ProofInt ProofInt2.
Local Open Scope R_scope.

Section Int3.
Context (P : platform) (M : Z).
Local Existing Instance f64_ops.
Local Remove Hints xr_ops : typeclass_instances.

Lemma integer_vector (l : list f64) :
  (forall x, In x l -> exists z, x = f64_of_Z z /\ (Z.abs z <= M)%Z) ->
  exists zl, l = map f64_of_Z zl /\ Forall (fun z => (Z.abs z <= M)%Z) zl.
Proof.
  induction l as [|x l IH]; intros H; [exists []; split; [reflexivity|constructor]|].
  destruct IH as (zl & -> & Hz); [intros y Hy; apply H; now right|].
  destruct (H x (or_introl eq_refl)) as (z & -> & Hz0). exists (z :: zl). split; [reflexivity|]. now constructor.
Qed.

Lemma integer_zs (d : @dataset (f64_ops P)) : integer_labels M d -> exists zs, labels d = fz zs /\ bounded M zs.
Proof.
  unfold integer_labels. generalize (labels d). intros ls. induction ls as [|l ls IH]; intros H.
  - exists []. split; [reflexivity|constructor].
  - destruct IH as (zs & -> & Hz); [intros l' x Hl; apply H; now right|].
    destruct (integer_vector l) as (zl & -> & Hzl); [intros x; apply H; now left|].
    exists (zl :: zs). split; [reflexivity|]. now constructor.
Qed.

Context (HM : (1 <= M)%Z).

Lemma bounded_real zs : fits M zs -> map (map B2R) (fz zs) = rz zs.
Proof.
  intros Hf. unfold fz, rz. rewrite map_map. apply map_ext_in. intros l Hl. rewrite map_map. apply map_ext_in. intros z Hz.
  apply of_Z_exact. destruct Hf as [Hb HL]. unfold bounded in Hb. rewrite Forall_forall in Hb. specialize (Hb l Hl). rewrite Forall_forall in Hb.
  specialize (Hb z Hz). cbv beta in Hb. destruct zs as [|x zs]; [destruct Hl|]. cbn [length] in HL. nia.
Qed.

Lemma exact_real_labels (d : @dataset (f64_ops P)) zs : labels d = fz zs -> fits M zs -> real_labels (rz zs) (exact_data d).
Proof.
  intros E Hf. unfold real_labels, exact_data. cbn [labels]. rewrite E. rewrite <- (bounded_real zs Hf).
  unfold fz. rewrite !map_map. apply map_ext_in. intros l Hl. rewrite !map_map. apply map_ext_in. intros z Hz.
  apply exact_finite. apply of_Z_exact. destruct Hf as [Hb HL]. unfold bounded in Hb. rewrite Forall_forall in Hb. specialize (Hb l Hl).
  rewrite Forall_forall in Hb. specialize (Hb z Hz). cbv beta in Hb. destruct zs as [|x zs]; [destruct Hl|]. cbn [length] in HL. nia.
Qed.

Lemma frow_nth zs (r : list (@F (f64_ops P) * nat)) i :
  nth_error (map (frow P) (zrow zs r)) i =
  option_map (fun p => (fst p, map f64_of_Z (nth (snd p) zs []))) (nth_error r i).
Proof. unfold zrow. rewrite map_map, nth_error_map. reflexivity. Qed.

Theorem split_int nc nt (d : @dataset (f64_ops P)) zs b :
  wf_dataset nc nt d -> labels d = fz zs -> fits M zs -> (Z.of_nat nt <= 2 ^ 40)%Z ->
  find_best_split d (N.of_nat nt) = Ok b ->
  is_finite (bs_gain b) = true /\
  (forall j r i v, considered (exact_data d) j r i v ->
     cut_gain nt i (labels_in_order (rz zs) r) <= B2R (bs_gain b) + gain_error nt M) /\
  (b = no_split \/
   (0 < B2R (bs_gain b) /\ exists j r i v, considered (exact_data d) j r i v /\
      exact_question (bs_question b) = @Question xr_ops (N.of_nat j) v /\
      Rabs (B2R (bs_gain b) - cut_gain nt i (labels_in_order (rz zs) r)) <= gain_error nt M)).
Proof.
  intros W El Hf Hk E. rewrite (find_best_split_eq (f64_laws P) nc nt d W) in E. injection E as <-.
  assert (Hr : rectangular nt zs).
  { pose proof (wf_labels _ _ _ W) as H. rewrite El in H. unfold rectangular, fz in *. rewrite Forall_map in H.
    eapply Forall_impl; [|exact H]. intros a Ha. cbv beta in Ha. now rewrite map_length in Ha. }
  assert (Hne : zs <> []).
  { intros ->. pose proof (wf_nonempty _ _ _ W) as H. pose proof (wf_lengths _ _ _ W) as L. rewrite El in L.
    destruct (feature_rows d); [congruence|discriminate]. }
  assert (HMM : IZR (M * M) <= bpow radix2 53).
  { rewrite <- (IZR_Zpower radix2 53) by lia. apply IZR_le. exact (MM_fits M HM zs Hf Hne). }
  unfold pfind. rewrite El.
  set (tv := @ptotal_variance (f64_ops P) nt (fz zs)).
  assert (Etv : tv = @fsum (f64_ops P) (vecvar nt zs)).
  { unfold tv, ptotal_variance. f_equal. exact (tracks64_pvar P nt _ zs (tracks64_total P M HM nt zs Hf Hr) Hne). }
  destruct (total_ok P M HM nt zs Hf Hne Hk) as (Ft & Bt & Et). rewrite <- Etv in Ft, Bt, Et.
  assert (Hcols : forall j t, nth_error (map (@pcolumn (f64_ops P) nt (fz zs)) (dvls d)) j = Some t ->
    exists col, @nth_error (list f64) (feature_columns d) j = Some col /\
      ((t = mkBT finf f0 /\ forall r i v, ~ considered (exact_data d) j r i v) \/
       (exists i v, considered (exact_data d) j (ex (@the_sort (f64_ops P) col)) i (exact_value v) /\ bt_threshold t = v /\
          is_finite (Bminus mode_NE tv (bt_loss t)) = true /\
          Rabs (B2R (Bminus mode_NE tv (bt_loss t)) - cut_gain nt i (labels_in_order (rz zs) (ex (@the_sort (f64_ops P) col)))) <= gain_error nt M /\
          (forall r i' v', considered (exact_data d) j r i' v' ->
             cut_gain nt i' (labels_in_order (rz zs) r) <= B2R (Bminus mode_NE tv (bt_loss t)) + gain_error nt M)))).
  { intros j t Hj. unfold dvls in Hj. rewrite map_map, nth_error_map in Hj.
    destruct (nth_error (feature_columns d) j) as [col|] eqn:Ec; [|discriminate]. injection Hj as <-.
    exists col. split; [exact Ec|].
    assert (Hn : Forall is_num col) by (eapply wf_column_num; eauto; eapply nth_error_In; eauto).
    assert (L : length col = length zs).
    { destruct (wf_columns _ _ _ W) as [_ Ht]. destruct (Ht _ _ Ec) as [-> _]. rewrite <- (wf_lengths _ _ _ W), El.
      unfold fz. apply map_length. }
    destruct (the_sort_spec (f64_laws P) col Hn) as [_ HS].
    pose proof (zrow_perm P zs col _ HS L) as Hperm.
    set (r := @the_sort (f64_ops P) col) in *. set (all := zrow zs r) in *.
    assert (Hfa : fits M (map snd all)) by (eapply fits_perm; eauto).
    assert (Hra : rectangular nt (map snd all)) by (unfold rectangular in *; now rewrite <- Hperm).
    assert (Hta : tracks64 P nt (@ptotal (f64_ops P) nt (fz zs)) (map snd all)).
    { eapply tracks64_perm; [exact Hperm|]. now apply (tracks64_total P M HM). }
    assert (Hlen : length all = length r) by (unfold all, zrow; apply map_length).
    assert (Hr0 : exists m, hd_error r = Some m).
    { destruct r as [|m r0]; [|exists m; reflexivity]. apply Permutation_length in Hperm. cbn in Hperm.
      destruct zs; [congruence|discriminate]. }
    destruct Hr0 as (m & Hm).
    assert (EV : vls_of (labels d) r = map (frow P) all).
    { etransitivity; [|apply vls_zrow]. f_equal. exact El. }
    set (t := @pcolumn (f64_ops P) nt (fz zs) (vls_of (labels d) r)) in *.
    assert (HB : best_of (fst m) nt (@ptotal (f64_ops P) nt (fz zs)) (map (frow P) all) (length (map (frow P) all)) t).
    { unfold t, pcolumn. rewrite EV. eapply (pscan_best_of (f64_laws P)).
      - reflexivity.
      - unfold all, zrow. destruct r as [|m0 r0]; [discriminate|]. injection Hm as ->. cbn [map hd_error]. reflexivity. }
    rewrite map_length in HB.
    assert (Hgain : forall i v id, nth_error r i = Some (v, id) -> (0 < i)%nat ->
       let l := loss_at nt (@ptotal (f64_ops P) nt (fz zs)) (map (frow P) all) i in
       is_finite l = true /\ is_finite (Bminus mode_NE tv l) = true /\ B2R (Bminus mode_NE tv l) = rnd (B2R tv - B2R l) /\
       Rabs (B2R (Bminus mode_NE tv l) - cut_gain nt i (labels_in_order (rz zs) (ex r))) <= gain_error nt M).
    { intros i v id Hi Hi0 l.
      assert (Hi2 : (0 < i < length all)%nat) by (split; auto; rewrite Hlen; apply nth_error_Some; congruence).
      destruct (loss_at_ok P M HM nt (@ptotal (f64_ops P) nt (fz zs)) all i Hfa Hra Hta Hi2 Hk) as (Fl & Bl & El').
      fold l in Fl, Bl, El'.
      destruct (gain_ok M HM nt tv l _ _ Hk HMM Ft Fl Bt Bl Et El') as (Fg & Vg & Eg).
      split; auto. split; auto. split; auto.
      unfold cut_gain. rewrite <- zrow_ex. fold all.
      rewrite (total_variance_perm nt (rz (map snd all)) (rz zs)).
      2:{ apply Permutation_sym. now apply Permutation_map. }
      rewrite <- rz_firstn, <- rz_skipn. exact Eg. }
    destruct HB as [Hnum Hle His].
    assert (Hcut : forall i v id, nth_error r i = Some (v, id) -> feqb v (fst m) = false ->
              (i < length all)%nat /\ is_cut (fst m) (map (frow P) all) i v).
    { intros i v id Hi Hq. split; [rewrite Hlen; apply nth_error_Some; congruence|].
      exists (map f64_of_Z (nth id zs [])). split; auto. unfold all. rewrite frow_nth, Hi. reflexivity. }
    assert (Hcons : forall r' i' v', considered (exact_data d) j r' i' v' ->
       r' = ex r /\ (0 < i')%nat /\ (exists v id, nth_error r i' = Some (v, id)) /\
       fleb (bt_loss t) (loss_at nt (@ptotal (f64_ops P) nt (fz zs)) (map (frow P) all) i') = true).
    { intros r' i' v' Hc. destruct (considered_ex P nc nt d j col r' i' v' W Ec Hc) as (Er & m' & v & Hm' & Ev & Hi0 & (id & Hi) & Hq).
      fold r in Er, Hm', Hi. assert (m' = m) by congruence. subst m'. split; auto. split; auto. split; [eauto|].
      destruct (Hcut i' v id Hi Hq) as [Hil Hic]. apply (Hle i' v); auto.
      destruct (Hgain i' v id Hi Hi0) as (Fl & _). unfold is_num. cbn [fleb f64_ops]. now apply finite_num. }
    destruct His as [Hinf|(i & v & Hil & (lv & Hic & Hq) & Ht)].
    - left. split; auto. intros r' i' v' Hc. destruct (Hcons r' i' v' Hc) as (_ & Hi0 & (v & id & Hi) & Hl).
      destruct (Hgain i' v id Hi Hi0) as (Fl & _). rewrite Hinf in Hl. cbn [bt_loss] in Hl.
      revert Hl Fl. generalize (loss_at nt (@ptotal (f64_ops P) nt (fz zs)) (map (frow P) all) i'). intros x Hl Fx.
      destruct x as [sx|[|]| |sx mx ex0 Hx]; cbn in Hl, Fx; discriminate.
    - right. unfold all in Hic. rewrite frow_nth in Hic.
      destruct (nth_error r i) as [[v0 id]|] eqn:Hi; [|discriminate]. injection Hic as -> _.
      destruct (considered_back P nc nt d j col i m v id W Ec Hm Hi Hq) as [Hi0 Hc].
      exists i, v. split; [exact Hc|]. rewrite Ht. cbn [bt_loss bt_threshold]. split; [reflexivity|].
      destruct (Hgain i v id Hi Hi0) as (Fl & Fg & Vg & Eg). split; [exact Fg|]. split; [exact Eg|].
      intros r' i' v' Hc'. destruct (Hcons r' i' v' Hc') as (-> & Hi0' & (v1 & id1 & Hi') & Hl).
      destruct (Hgain i' v1 id1 Hi' Hi0') as (Fl' & Fg' & Vg' & Eg'). rewrite Ht in Hl. cbn [bt_loss] in Hl.
      cbn [fleb f64_ops] in Hl. apply finite_leb in Hl; auto.
      apply Rabs_le_inv in Eg'. rewrite Vg.
      assert (B2R (Bminus mode_NE tv (loss_at nt (@ptotal (f64_ops P) nt (fz zs)) (map (frow P) all) i')) <=
              rnd (B2R tv - B2R (loss_at nt (@ptotal (f64_ops P) nt (fz zs)) (map (frow P) all) i))).
      { rewrite Vg'. apply rnd_le. lra. }
      lra. }
  set (rs := map (@pcolumn (f64_ops P) nt (fz zs)) (dvls d)) in *.
  assert (Hlen : length rs = length (feature_columns d)) by (unfold rs, dvls; now rewrite !map_length).
  assert (Hex : forall j r i v, considered (exact_data d) j r i v -> exists t, nth_error rs j = Some t /\
      is_finite (Bminus mode_NE tv (bt_loss t)) = true /\
      cut_gain nt i (labels_in_order (rz zs) r) <= B2R (Bminus mode_NE tv (bt_loss t)) + gain_error nt M).
  { intros j r i v Hc. pose proof Hc as [(col' & Hj & _) _].
    destruct (nth_error rs j) as [t|] eqn:Ert.
    2:{ apply nth_error_None in Ert. rewrite Hlen in Ert. exfalso.
        assert (j < length (feature_columns (exact_data d)))%nat by (apply nth_error_Some; congruence).
        unfold exact_data in H. cbn [feature_columns] in H. rewrite map_length in H.
        change (@F (f64_ops P)) with f64 in *. lia. }
    exists t. split; auto. destruct (Hcols j t Ert) as (col & Ec & [[_ HN]|(i0 & v0 & _ & _ & Fg & _ & H)]); [exfalso; eapply HN; eauto|].
    split; auto. eapply H; eauto. }
  assert (Hpos : 0 <= gain_error nt M).
  { rewrite (gain_error_alt M). pose proof ulp1_pos. pose proof (MM_pos M HM). pose proof (pos_INR nt). apply Rmult_le_pos; nra. }
  destruct (pselect_spec (f64_laws P) tv rs) as [[Hb HN]|(j & t & Ht & Hb & Hgt & _ & Hmax)].
  - rewrite Hb. split; [reflexivity|]. split; [|now left].
    intros j r i v Hc. destruct (Hex j r i v Hc) as (t & Ert & Fg & Hle). rewrite Forall_forall in HN.
    specialize (HN t (nth_error_In _ _ Ert)). change (Bltb (B754_zero false) (Bminus mode_NE tv (bt_loss t)) = false) in HN.
    change (B2R (@bs_gain (f64_ops P) no_split)) with 0.
    assert (B2R (Bminus mode_NE tv (bt_loss t)) <= 0).
    { apply Rnot_lt_le. intros Hlt. assert (Bltb (B754_zero false) (Bminus mode_NE tv (bt_loss t)) = true) by (apply finite_ltb; auto). congruence. }
    lra.
  - destruct (Hcols j t Ht) as (col & Ec & [[Htt _]|(i & v & Hc & Hv & Fg & Eg & Hothers)]).
    { exfalso. rewrite Hb in Hgt. cbn [bs_gain] in Hgt. rewrite Htt in Hgt. cbn [bt_loss] in Hgt.
      pose proof (fsub_inf _ (f64_laws P) tv) as Hi. rewrite Hi in Hgt. discriminate. }
    rewrite Hb in *. cbn [bs_gain bs_question] in *. change (@fsub (f64_ops P) tv (bt_loss t)) with (Bminus mode_NE tv (bt_loss t)) in *.
    split; [exact Fg|].
    assert (Hg0 : 0 < B2R (Bminus mode_NE tv (bt_loss t))).
    { change (B754_zero false) with (@f0 (f64_ops P)) in Hgt. 
      change (Bltb (B754_zero false) (Bminus mode_NE tv (bt_loss t)) = true) in Hgt. now apply finite_ltb in Hgt. }
    split; [|right; split; [exact Hg0|]].
    + intros j' r' i' v' Hc'. destruct (Hex j' r' i' v' Hc') as (t' & Ert & Fg' & Hle). specialize (Hmax j' t' Ert).
      unfold col_gain in Hmax. change (@fsub (f64_ops P) tv (bt_loss t')) with (Bminus mode_NE tv (bt_loss t')) in Hmax.
      destruct (@fltb (f64_ops P) f0 (Bminus mode_NE tv (bt_loss t'))) eqn:E0.
      * change (Bleb (Bminus mode_NE tv (bt_loss t')) (Bminus mode_NE tv (bt_loss t)) = true) in Hmax. apply finite_leb in Hmax; auto. lra.
      * assert (B2R (Bminus mode_NE tv (bt_loss t')) <= 0).
        { apply Rnot_lt_le. intros Hlt. assert (Bltb (B754_zero false) (Bminus mode_NE tv (bt_loss t')) = true) by (apply finite_ltb; auto).
          change (@fltb (f64_ops P) f0 (Bminus mode_NE tv (bt_loss t'))) with (Bltb (B754_zero false) (Bminus mode_NE tv (bt_loss t'))) in E0. congruence. }
        lra.
    + exists j, (ex (@the_sort (f64_ops P) col)), i, (exact_value v). split; [exact Hc|]. split; [|exact Eg].
      unfold exact_question. cbn [q_column q_value]. rewrite Hv. f_equal. apply (as_u32_small j nc); [|exact (wf_u32 _ _ _ W)].
      destruct (wf_columns _ _ _ W) as [<- _]. apply nth_error_Some. intros En.
      assert (@nth_error (list f64) (feature_columns d) j = None) by exact En. congruence.
Qed.

End Int3.
