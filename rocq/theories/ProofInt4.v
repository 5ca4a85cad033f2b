(** Consequences of the error bound: near-optimal questions, pure nodes, and when a zero gain is a true zero. *)
From Coq Require Import Reals Lra Lia ZArith Permutation Sorted.
From Flocq Require Import Core.
From Flocq Require Import IEEE754.BinarySingleNaN.
From Verif Require Import Base Num ModelCommon ModelTree Lib Spec F64 XR SpecExact SpecInt SpecFit ProofReal ProofData ProofSort
  ProofSplit ProofSplit2 ProofSplitExact ProofSplitExact2 ProofTreeExact ProofScoreF64 ProofRound ProofError ProofScan ProofInt ProofInt2 ProofInt3.
Local Open Scope R_scope.

(** A considered cut at a value that occurs once is the question's own cut. *)
Lemma considered_once_gain nc nt (d : @dataset xr_ops) ls j (r : list (xr * nat)) i v :
  wf_dataset nc nt d -> real_labels ls d -> considered d j r i v -> occurs_once d (Question (N.of_nat j) v) ->
  question_gain nt (Question (N.of_nat j) v) (feature_rows d) ls = cut_gain nt i (labels_in_order ls r).
Proof.
  intros W Hl [(col & Hcol & HS) (id & m & Hi & Hm & Hlt)] Hocc'.
  destruct (nth_error_split _ _ Hi) as (a & post & -> & <-).
  destruct (question_is_cut nc nt d ls j col a ((v, id) :: post) v W Hl Hcol HS) as (_ & _ & Eq); auto.
  - apply Forall_forall. intros p Hp. destruct (xleb v (fst p)) eqn:Ev; auto. exfalso.
    pose proof (StronglySorted_app_rel _ _ _ (proj2 HS) p (v, id) Hp (or_introl eq_refl)) as Hrel.
    assert (Eqv : fst p = v).
    { apply xeqb_eq. unfold xeqb. rewrite Ev. pose proof (pair_lt_le p (v, id) Hrel) as Hle'. cbn [fst] in Hle'. now rewrite Hle'. }
    destruct (sorted_entry_row nc nt d j col _ p W Hcol HS) as (row & Hr1 & Hr2); [apply in_or_app; now left|].
    destruct (sorted_entry_row nc nt d j col _ (v, id) W Hcol HS) as (row' & Hr1' & Hr2'); [apply in_or_app; right; now left|].
    cbn [fst snd] in *. rewrite Eqv in Hr2.
    assert (Eid : snd p = id).
    { eapply (Hocc' (snd p) id row row'); eauto; cbn [q_column q_value]; rewrite Nat2N.id; auto. }
    pose proof (nodup_sorted _ _ HS) as Hnd. rewrite map_app in Hnd. cbn [map snd] in Hnd.
    apply NoDup_remove_2 in Hnd. apply Hnd. apply in_or_app. left. apply in_map_iff. exists p. auto.
  - constructor.
    + cbn [fst]. unfold xltb in Hlt. apply andb_true_iff in Hlt as [Hlt _]. exact (fleb_nan_r _ xr_laws (fst m) v Hlt).
    + pose proof (StronglySorted_app_r _ _ _ (proj2 HS)) as HS'. inversion HS' as [|? ? _ HF]; subst.
      eapply Forall_impl; [|exact HF]. intros p Hp. exact (pair_lt_le (v, id) p Hp).
Qed.

(* ------------------------------------------------------------------ *)
(** ** The gain of a cut of integer labels is a fraction with a known denominator *)

Definition cross (a b : list (list Z)) (t : nat) : Z :=
  (Z.of_nat (length b) * sumZ (ztarget t a) - Z.of_nat (length a) * sumZ (ztarget t b))%Z.
Definition crosses (k : nat) (a b : list (list Z)) : Z := sumZ (map (fun t => cross a b t * cross a b t)%Z (seq 0 k)).

Lemma gain_fraction k a b : a <> [] -> b <> [] ->
  total_variance k (rz (a ++ b)) - remaining_variance k (rz a) (rz b) =
  IZR (crosses k a b) / (INR (length (a ++ b)) * INR (length (a ++ b)) * (INR (length a) * INR (length b))).
Proof.
  intros Ha Hb.
  assert (Hab : a ++ b <> []) by (destruct a; [congruence|discriminate]).
  pose proof (INR_pos a Ha) as Pa. pose proof (INR_pos b Hb) as Pb.
  assert (En : INR (length (a ++ b)) = INR (length a) + INR (length b)) by (rewrite app_length; apply plus_INR).
  unfold remaining_variance, total_variance, crosses. rewrite !rz_length, <- app_length.
  set (D := INR (length (a ++ b)) * INR (length (a ++ b)) * (INR (length a) * INR (length b))).
  replace (IZR (sumZ (map (fun t => cross a b t * cross a b t)%Z (seq 0 k))) / D)
    with (Rsum (map (fun t => / D * IZR (cross a b t * cross a b t)) (seq 0 k))).
  2:{ rewrite Rsum_map_mult, <- Rsum_IZR, map_map. unfold Rdiv. ring. }
  rewrite <- !Rsum_map_mult, <- Rsum_map_plus.
  apply Rplus_eq_reg_r with (Rsum (map (fun t => INR (length a) / INR (length (a ++ b)) * variance (target t (rz a)) +
     INR (length b) / INR (length (a ++ b)) * variance (target t (rz b))) (seq 0 k))).
  rewrite <- Rsum_map_plus. match goal with |- ?x - ?y + ?y = _ => replace (x - y + y) with x by ring end.
  apply Rsum_map_ext. intros t _. rewrite !target_rz, ztarget_app, !variance_Z.
  2:{ intros E. apply map_eq_nil in E. contradiction. }
  2:{ intros E. apply map_eq_nil in E. contradiction. }
  2:{ rewrite <- ztarget_app. intros E. apply map_eq_nil in E. contradiction. }
  rewrite sqZ_app, sumZ_app, !plus_IZR, <- ztarget_app, !ztarget_length, <- !INR_IZR_INZ, En.
  unfold cross. rewrite mult_IZR, minus_IZR, !mult_IZR, <- !INR_IZR_INZ. unfold D. rewrite En. field. lra.
Qed.

Lemma crosses_nonneg k a b : (0 <= crosses k a b)%Z.
Proof.
  unfold crosses. induction (seq 0 k) as [|t l IH]; cbn [map sumZ fold_right]; [lia|].
  fold (sumZ (map (fun t => (cross a b t * cross a b t)%Z) l)). nia.
Qed.

(** A gain below [4 / n^4] is zero. *)
Lemma gain_quantum k a b n : a <> [] -> b <> [] -> (length (a ++ b) <= n)%nat ->
  total_variance k (rz (a ++ b)) - remaining_variance k (rz a) (rz b) < 4 / (INR n * INR n * (INR n * INR n)) ->
  total_variance k (rz (a ++ b)) - remaining_variance k (rz a) (rz b) = 0.
Proof.
  intros Ha Hb Hn. rewrite gain_fraction by auto. pose proof (INR_pos a Ha) as Pa. pose proof (INR_pos b Hb) as Pb.
  assert (En : INR (length (a ++ b)) = INR (length a) + INR (length b)) by (rewrite app_length; apply plus_INR).
  apply le_INR in Hn. rewrite En in *. set (x := INR (length a)) in *. set (y := INR (length b)) in *. set (m := INR n) in *.
  intros H. pose proof (crosses_nonneg k a b) as Hc.
  destruct (Z.eq_dec (crosses k a b) 0) as [->|Hne]; [unfold Rdiv; lra|]. exfalso.
  assert (H1 : 1 <= IZR (crosses k a b)) by (apply IZR_le; lia).
  assert (Hd : 0 < (x + y) * (x + y) * (x * y)) by (repeat apply Rmult_lt_0_compat; lra).
  assert (Hm : 0 < m * m * (m * m)) by (repeat apply Rmult_lt_0_compat; lra).
  assert (H4 : 4 * (x * y) <= (x + y) * (x + y)) by (pose proof (Rle_0_sqr (x - y)) as Hs; unfold Rsqr in Hs; lra).
  assert (Hsq : (x + y) * (x + y) <= m * m) by (apply Rmult_le_compat; lra).
  assert (Hdm : 4 * ((x + y) * (x + y) * (x * y)) <= m * m * (m * m)).
  { replace (4 * ((x + y) * (x + y) * (x * y))) with ((x + y) * (x + y) * (4 * (x * y))) by ring.
    apply Rmult_le_compat; try lra; nra. }
  apply (Rmult_lt_compat_r _ _ _ Hm) in H.
  replace (4 / (m * m * (m * m)) * (m * m * (m * m))) with 4 in H by (field; lra).
  apply (Rmult_lt_compat_r _ _ _ Hd) in H.
  replace (IZR (crosses k a b) / ((x + y) * (x + y) * (x * y)) * (m * m * (m * m)) * ((x + y) * (x + y) * (x * y)))
    with (IZR (crosses k a b) * (m * m * (m * m))) in H by (field; lra).
  assert (1 * (m * m * (m * m)) <= IZR (crosses k a b) * (m * m * (m * m))) by (apply Rmult_le_compat_r; lra). lra.
Qed.

Section Int4.
Context (P : platform) (M : Z) (HM : (1 <= M)%Z).

(** The exact finder's gain is within the bound of the computed one. *)
Theorem gain_near_exact nc nt (d : @dataset (f64_ops P)) zs b :
  wf_dataset nc nt d -> labels d = fz zs -> fits M zs -> (Z.of_nat nt <= 2 ^ 40)%Z ->
  find_best_split d (N.of_nat nt) = Ok b ->
  exists bx gx, find_best_split (exact_data d) (N.of_nat nt) = Ok bx /\ bs_gain bx = Fin gx /\
    is_finite (bs_gain b) = true /\ Rabs (B2R (bs_gain b) - gx) <= gain_error nt M.
Proof.
  intros W El Hf Hk E. destruct (split_int P M HM nc nt d zs b W El Hf Hk E) as (Fg & Hmax & Hcase).
  pose proof (exact_wf P nc nt d W) as WX. pose proof (exact_real_labels P M HM d zs El Hf) as HX.
  destruct (split_usable xr_laws nc nt (exact_data d) WX) as (bx & Ex & _).
  destruct (split_exact nc nt (exact_data d) (rz zs) bx WX HX Ex) as (gx & Egx & Hmaxx & Hcasex).
  exists bx, gx. split; [exact Ex|]. split; [exact Egx|]. split; [exact Fg|].
  assert (Hpos : 0 <= gain_error nt M).
  { rewrite (gain_error_alt M). pose proof ulp1_pos. pose proof (MM_pos M HM). pose proof (pos_INR nt). apply Rmult_le_pos; nra. }
  assert (Hg0 : 0 <= B2R (bs_gain b)) by (destruct Hcase as [->|[? _]]; [apply Rle_refl|lra]).
  apply Rabs_le. split.
  - assert (gx <= B2R (bs_gain b) + gain_error nt M); [|lra].
    destruct Hcasex as [[-> _]|(_ & j & r & i & v & Hc & <- & _)]; [lra|]. eapply Hmax; eauto.
  - destruct Hcase as [->|(_ & j & r & i & v & Hc & _ & He)].
    + assert (0 <= gx) by (destruct Hcasex as [[-> _]|[? _]]; lra). change (B2R (@bs_gain (f64_ops P) no_split)) with 0. lra.
    + specialize (Hmaxx _ _ _ _ Hc). apply Rabs_le_inv in He. lra.
Qed.

Theorem gain_bounds_questions nc nt (d : @dataset (f64_ops P)) zs b q :
  wf_dataset nc nt d -> labels d = fz zs -> fits M zs -> (Z.of_nat nt <= 2 ^ 40)%Z ->
  find_best_split d (N.of_nat nt) = Ok b ->
  question_gain nt (exact_question q) (feature_rows (exact_data d)) (rz zs) <= B2R (bs_gain b) + gain_error nt M.
Proof.
  intros W El Hf Hk E. destruct (gain_near_exact nc nt d zs b W El Hf Hk E) as (bx & gx & Ex & Egx & _ & He).
  pose proof (exact_wf P nc nt d W) as WX. pose proof (exact_real_labels P M HM d zs El Hf) as HX.
  destruct (gain_bounds_every_question nc nt (exact_data d) (rz zs) bx (exact_question q) WX HX Ex) as (g & Eg & Hle).
  rewrite Egx in Eg. injection Eg as <-. apply Rabs_le_inv in He. lra.
Qed.

Theorem question_near_optimal nc nt (d : @dataset (f64_ops P)) zs b q :
  wf_dataset nc nt d -> labels d = fz zs -> fits M zs -> (Z.of_nat nt <= 2 ^ 40)%Z ->
  find_best_split d (N.of_nat nt) = Ok b ->
  occurs_once (exact_data d) (exact_question (bs_question b)) ->
  question_gain nt (exact_question q) (feature_rows (exact_data d)) (rz zs) <=
  question_gain nt (exact_question (bs_question b)) (feature_rows (exact_data d)) (rz zs) + 2 * gain_error nt M.
Proof.
  intros W El Hf Hk E Hocc. pose proof (gain_bounds_questions nc nt d zs b q W El Hf Hk E) as Hq.
  destruct (split_int P M HM nc nt d zs b W El Hf Hk E) as (Fg & Hmax & Hcase).
  pose proof (exact_wf P nc nt d W) as WX. pose proof (exact_real_labels P M HM d zs El Hf) as HX.
  assert (Hpos : 0 <= gain_error nt M).
  { rewrite (gain_error_alt M). pose proof ulp1_pos. pose proof (MM_pos M HM). pose proof (pos_INR nt). apply Rmult_le_pos; nra. }
  destruct Hcase as [->|(_ & j & r & i & v & Hc & Eq & He)].
  - pose proof (question_gain_nonneg nc nt (exact_data d) (rz zs) (exact_question (@bs_question (f64_ops P) no_split)) WX HX).
    change (B2R (@bs_gain (f64_ops P) no_split)) with 0 in Hq. lra.
  - rewrite Eq in *. rewrite (considered_once_gain nc nt (exact_data d) (rz zs) j r i v WX HX Hc Hocc).
    apply Rabs_le_inv in He. lra.
Qed.

(* ------------------------------------------------------------------ *)
(** ** Pure nodes *)

Lemma sum_zero (l : list f64) (a : f64) :
  is_finite a = true -> B2R a = 0 -> Forall (fun x => is_finite x = true /\ B2R x = 0) l ->
  is_finite (fold_left (Bplus mode_NE) l a) = true /\ B2R (fold_left (Bplus mode_NE) l a) = 0.
Proof.
  intros Fa Va H. revert a Fa Va. induction H as [|x l [Fx Vx] _ IH]; intros a Fa Va; cbn [fold_left]; [auto|].
  destruct (plus_value a x Fa Fx) as [F1 V1].
  { rewrite Va, Vx, Rplus_0_r, rnd_0, Rabs_R0. apply bpow_gt_0. }
  apply IH; auto. rewrite V1, Va, Vx, Rplus_0_r. apply rnd_0.
Qed.

Lemma pure_sums (z : list Z) t (a : list (list Z)) : (forall l, In l a -> l = z) ->
  sumZ (ztarget t a) = (Z.of_nat (length a) * nth t z 0)%Z /\ sqZ (ztarget t a) = (Z.of_nat (length a) * (nth t z 0 * nth t z 0))%Z.
Proof.
  induction a as [|l a IH]; intros H; [split; reflexivity|].
  destruct IH as [I1 I2]; [intros; apply H; now right|].
  rewrite (H l (or_introl eq_refl)) in *. cbn [ztarget map sumZ sqZ fold_right length].
  fold (ztarget t a) (sumZ (ztarget t a)) (sqZ (ztarget t a)). rewrite I1, I2. lia.
Qed.

Lemma pure_var z t a : (forall l, In l a -> l = z) -> fits M a -> a <> [] ->
  is_finite (var64 (sumZ (ztarget t a)) (sqZ (ztarget t a)) (Z.of_nat (length a))) = true /\
  B2R (var64 (sumZ (ztarget t a)) (sqZ (ztarget t a)) (Z.of_nat (length a))) = 0.
Proof.
  intros H Hf Hne. destruct (pure_sums z t a H) as [-> ->].
  assert (Hz : (Z.abs (nth t z 0) <= M)%Z).
  { apply (entry_bound M HM). destruct Hf as [Hb _]. unfold bounded in Hb. rewrite Forall_forall in Hb. apply Hb.
    destruct a as [|l a]; [congruence|]. rewrite <- (H l (or_introl eq_refl)). now left. }
  assert (nth t z 0 * nth t z 0 <= M * M)%Z by (rewrite <- (Z.abs_square (nth t z 0%Z)); nia).
  pose proof (fits_length M HM _ Hf). destruct Hf as [_ Hf].
  apply var64_pure; auto.
  - destruct a; [congruence|cbn [length]; lia].
  - nia.
Qed.

Lemma zero_weighted (w v : f64) : is_finite w = true -> is_finite v = true -> B2R v = 0 ->
  is_finite (Bmult mode_NE w v) = true /\ B2R (Bmult mode_NE w v) = 0.
Proof.
  intros Fw Fv Vv. destruct (mult_value w v Fw Fv) as [F V].
  { rewrite Vv, Rmult_0_r, rnd_0, Rabs_R0. apply bpow_gt_0. }
  split; auto. rewrite V, Vv, Rmult_0_r. apply rnd_0.
Qed.

Lemma pure_loss z t a b : (forall l, In l (a ++ b) -> l = z) -> fits M (a ++ b) -> a <> [] -> b <> [] ->
  let v := loss64 (Z.of_nat (length a)) (Z.of_nat (length b))
         (var64 (sumZ (ztarget t a)) (sqZ (ztarget t a)) (Z.of_nat (length a)))
         (var64 (sumZ (ztarget t b)) (sqZ (ztarget t b)) (Z.of_nat (length b))) in
  is_finite v = true /\ B2R v = 0.
Proof.
  intros H Hf Ha Hb v.
  destruct (pure_var z t a) as [A1 A2]; auto; [intros; apply H; apply in_or_app; auto|eapply fits_app_l; eauto|].
  destruct (pure_var z t b) as [B1 B2]; auto; [intros; apply H; apply in_or_app; auto|eapply fits_app_r; eauto|].
  pose proof (fits_length M HM _ Hf) as HL. rewrite app_length in HL.
  assert (0 < Z.of_nat (length a))%Z by (destruct a; [congruence|cbn [length]; lia]).
  assert (0 < Z.of_nat (length b))%Z by (destruct b; [congruence|cbn [length]; lia]).
  unfold v, loss64. rewrite plus_Z by lia.
  destruct (weight_error (Z.of_nat (length a)) (Z.of_nat (length a) + Z.of_nat (length b))) as (W1 & _); [lia|lia|].
  destruct (weight_error (Z.of_nat (length b)) (Z.of_nat (length a) + Z.of_nat (length b))) as (W2 & _); [lia|lia|].
  destruct (zero_weighted _ _ W1 A1 A2) as [X1 X2]. destruct (zero_weighted _ _ W2 B1 B2) as [Y1 Y2].
  match goal with |- is_finite (Bplus _ ?x ?y) = true /\ _ => destruct (plus_value x y X1 Y1) as [F V] end.
  { rewrite X2, Y2, Rplus_0_r, rnd_0, Rabs_R0. apply bpow_gt_0. }
  split; auto. rewrite V, X2, Y2, Rplus_0_r. apply rnd_0.
Qed.

Theorem pure_int_no_split nc nt (d : @dataset (f64_ops P)) zs z b :
  wf_dataset nc nt d -> labels d = fz zs -> fits M zs -> (forall l, In l zs -> l = z) ->
  find_best_split d (N.of_nat nt) = Ok b -> b = no_split.
Proof.
  intros W El Hf Hz E. rewrite (find_best_split_eq (f64_laws P) nc nt d W) in E. injection E as <-.
  assert (Hr : rectangular nt zs).
  { pose proof (wf_labels _ _ _ W) as H. rewrite El in H. unfold rectangular, fz in *. rewrite Forall_map in H.
    eapply Forall_impl; [|exact H]. intros a Ha. cbv beta in Ha. now rewrite map_length in Ha. }
  assert (Hne : zs <> []).
  { intros ->. pose proof (wf_nonempty _ _ _ W) as H. pose proof (wf_lengths _ _ _ W) as L. rewrite El in L.
    destruct (feature_rows d); [congruence|discriminate]. }
  unfold pfind. rewrite El.
  set (tv := @ptotal_variance (f64_ops P) nt (fz zs)).
  assert (Etv : tv = @fsum (f64_ops P) (vecvar nt zs)).
  { unfold tv, ptotal_variance. f_equal. exact (tracks64_pvar P nt _ zs (tracks64_total P M HM nt zs Hf Hr) Hne). }
  assert (Htv : is_finite tv = true /\ B2R tv = 0).
  { rewrite Etv. apply sum_zero; try reflexivity. apply Forall_map, Forall_forall. intros t _. now apply (pure_var z). }
  destruct (pselect_spec (f64_laws P) tv (map (@pcolumn (f64_ops P) nt (fz zs)) (@dvls (f64_ops P) d))) as [[Hb _]|(j & t & Ht & Hb & Hgt & _)]; [exact Hb|].
  exfalso. rewrite Hb in Hgt. cbn [bs_gain] in Hgt. unfold dvls in Ht. rewrite map_map, nth_error_map in Ht.
  destruct (nth_error (feature_columns d) j) as [col|] eqn:Ec; [|discriminate]. cbn [option_map] in Ht. injection Ht as Ht.
  assert (Hn : Forall (@is_num (f64_ops P)) col) by (eapply wf_column_num; eauto; eapply nth_error_In; eauto).
  assert (L : length col = length zs).
  { destruct (wf_columns _ _ _ W) as [_ Htr]. destruct (Htr _ _ Ec) as [-> _]. rewrite <- (wf_lengths _ _ _ W), El.
    unfold fz. apply map_length. }
  destruct (the_sort_spec (f64_laws P) col Hn) as [_ HS].
  pose proof (zrow_perm P zs col _ HS L) as Hperm.
  set (r := @the_sort (f64_ops P) col) in *. set (all := zrow zs r) in *.
  assert (Hfa : fits M (map snd all)) by (eapply fits_perm; eauto).
  assert (Hra : rectangular nt (map snd all)) by (unfold rectangular in *; now rewrite <- Hperm).
  assert (Hta : tracks64 P nt (@ptotal (f64_ops P) nt (fz zs)) (map snd all)).
  { eapply tracks64_perm; [exact Hperm|]. now apply (tracks64_total P M HM). }
  assert (Hlen : length all = length r) by (unfold all, zrow; apply map_length).
  assert (Hr0 : exists m, hd_error r = Some m).
  { destruct r as [|m r0]; [|exists m; reflexivity]. apply Permutation_length in Hperm. cbn in Hperm.
    destruct zs; [congruence|discriminate]. }
  destruct Hr0 as (m & Hm).
  assert (EV : vls_of (labels d) r = map (frow P) all).
  { etransitivity; [|apply vls_zrow]. f_equal. exact El. }
  assert (HB : best_of (fst m) nt (@ptotal (f64_ops P) nt (fz zs)) (map (frow P) all) (length (map (frow P) all)) t).
  { rewrite <- Ht. unfold pcolumn. rewrite EV. eapply (pscan_best_of (f64_laws P)).
    - reflexivity.
    - unfold all, zrow. destruct r as [|m0 r0]; [discriminate|]. injection Hm as ->. cbn [map hd_error]. reflexivity. }
  destruct HB as [_ _ [Hinf|(i & v & Hil & (lv & Hic & Hq) & Hloss)]].
  - rewrite Hinf in Hgt. cbn [bt_loss] in Hgt. pose proof (fsub_inf _ (f64_laws P) tv) as Hi. rewrite Hi in Hgt. discriminate.
  - unfold all in Hic. rewrite frow_nth in Hic.
    destruct (nth_error r i) as [[v0 id]|] eqn:Hi; [|discriminate]. injection Hic as -> _.
    destruct (considered_back P nc nt d j col i m v id W Ec Hm Hi Hq) as [Hi0 _].
    assert (Hi2 : (0 < i < length all)%nat) by (split; auto; rewrite Hlen; apply nth_error_Some; congruence).
    pose proof (loss_at_eq P M HM nt (@ptotal (f64_ops P) nt (fz zs)) all i Hfa Hra Hta Hi2) as EL.
    assert (Hl0 : is_finite (bt_loss t) = true /\ B2R (bt_loss t) = 0).
    { rewrite Hloss. cbn [bt_loss]. rewrite EL. apply sum_zero; try reflexivity. apply Forall_map, Forall_forall. intros q _.
      apply (pure_loss z).
      - rewrite firstn_skipn. intros l Hl. apply Hz. eapply Permutation_in; [symmetry; exact Hperm|exact Hl].
      - now rewrite firstn_skipn.
      - intros E0. apply (f_equal (@length _)) in E0. rewrite firstn_length, map_length in E0. cbn in E0. lia.
      - intros E0. apply (f_equal (@length _)) in E0. rewrite skipn_length, map_length in E0. cbn in E0. lia. }
    destruct Htv as [Ft Vt], Hl0 as [Fl Vl].
    destruct (minus_value tv (bt_loss t) Ft Fl) as [Fg Vg].
    { rewrite Vt, Vl, Rminus_0_r, rnd_0, Rabs_R0. apply bpow_gt_0. }
    change (Bltb (B754_zero false) (Bminus mode_NE tv (bt_loss t)) = true) in Hgt. apply finite_ltb in Hgt; auto.
    rewrite Vg, Vt, Vl, Rminus_0_r, rnd_0 in Hgt. cbn [B2R] in Hgt. lra.
Qed.

(* ------------------------------------------------------------------ *)
(** ** Small tables: a float gain of zero is a true zero *)

Lemma small_fits nt (d : @dataset (f64_ops P)) zs : labels d = fz zs -> bounded M zs -> zs <> [] -> small_table M nt d ->
  fits M zs /\ (Z.of_nat nt <= 2 ^ 40)%Z /\
  gain_error nt M < 4 / (INR (length zs) * INR (length zs) * (INR (length zs) * INR (length zs))).
Proof.
  intros El Hb Hne [_ H]. rewrite El in H. unfold fz in H. rewrite map_length in H. cbv zeta in H.
  set (n := Z.of_nat (length zs)) in *. set (K := (Z.of_nat nt + 4)%Z) in *.
  assert (Hn : (1 <= n)%Z) by (unfold n; destruct zs; [congruence|cbn [length]; lia]).
  assert (HK : (4 <= K)%Z) by (unfold K; lia).
  assert (HN : (n <= n * n * (n * n))%Z) by (assert (1 <= n * n)%Z by nia; assert (n <= n * n)%Z by nia; nia).
  assert (HKK : (16 <= K * K)%Z) by nia. assert (HMM : (1 <= M * M)%Z) by nia.
  assert (HKM : (1 <= K * K * (M * M))%Z) by nia.
  assert (HNN : (1 <= n * n * (n * n))%Z) by lia.
  assert (HKN : (K * K * (M * M) <= K * K * (M * M) * (n * n * (n * n)))%Z).
  { rewrite <- (Z.mul_1_r (K * K * (M * M))) at 1. apply Z.mul_le_mono_nonneg_l; lia. }
  split; [split; [exact Hb|]|split].
  - fold n. assert (n * (M * M) <= K * K * (M * M) * (n * n * (n * n)))%Z; [|lia].
    assert (1 * (M * M) <= K * K * (M * M))%Z by (apply Z.mul_le_mono_nonneg_r; lia).
    etransitivity; [|apply Z.mul_le_mono_nonneg; [|exact H0| |exact HN]; lia]. lia.
  - assert (K * K <= K * K * (M * M))%Z by nia. assert (K * K < 2 ^ 53)%Z by lia. unfold K in *. nia.
  - assert (En : INR (length zs) = IZR n) by apply INR_IZR_INZ. rewrite En.
    assert (EK : INR nt + 4 = IZR K) by (unfold K; rewrite plus_IZR, <- INR_IZR_INZ; reflexivity).
    unfold gain_error. replace (4 * (INR nt + 4) * (INR nt + 4)) with (4 * ((INR nt + 4) * (INR nt + 4))) by ring. rewrite EK.
    assert (Hnr : 0 < IZR n) by (apply IZR_lt; lia).
    assert (Hd : 0 < IZR n * IZR n * (IZR n * IZR n)) by (repeat apply Rmult_lt_0_compat; lra).
    assert (H2 : 0 < 2 ^ 53) by (apply pow_lt; lra).
    apply Rmult_lt_reg_r with (2 ^ 53); auto.
    replace (4 * (IZR K * IZR K) * IZR (M * M) / 2 ^ 53 * 2 ^ 53) with (4 * (IZR K * IZR K) * IZR (M * M)) by (field; lra).
    apply Rmult_lt_reg_r with (IZR n * IZR n * (IZR n * IZR n)); auto.
    replace (4 / (IZR n * IZR n * (IZR n * IZR n)) * 2 ^ 53 * (IZR n * IZR n * (IZR n * IZR n))) with (4 * 2 ^ 53) by (field; lra).
    apply IZR_lt in H. rewrite !mult_IZR in *. change (IZR (2 ^ 53)) with (IZR (Z.pow_pos 2 53)) in H.
    replace (2 ^ 53) with (IZR (Z.pow_pos 2 53)); [lra|]. cbn; lra.
Qed.

Theorem zero_gain_small nc nt (d : @dataset (f64_ops P)) zs b :
  wf_dataset nc nt d -> labels d = fz zs -> bounded M zs -> small_table M nt d ->
  find_best_split d (N.of_nat nt) = Ok b -> b = no_split ->
  exists bx, find_best_split (exact_data d) (N.of_nat nt) = Ok bx /\ bs_gain bx = Fin 0.
Proof.
  intros W El Hb Hs E ->.
  assert (Hne : zs <> []).
  { intros ->. pose proof (wf_nonempty _ _ _ W) as H. pose proof (wf_lengths _ _ _ W) as L. rewrite El in L.
    destruct (feature_rows d); [congruence|discriminate]. }
  destruct (small_fits nt d zs El Hb Hne Hs) as (Hf & Hk & Herr).
  destruct (split_int P M HM nc nt d zs no_split W El Hf Hk E) as (_ & Hmax & _).
  pose proof (exact_wf P nc nt d W) as WX. pose proof (exact_real_labels P M HM d zs El Hf) as HX.
  destruct (split_usable xr_laws nc nt (exact_data d) WX) as (bx & Ex & _).
  destruct (split_exact nc nt (exact_data d) (rz zs) bx WX HX Ex) as (gx & Egx & Hmaxx & Hcasex).
  exists bx. split; [exact Ex|]. destruct Hcasex as [[-> _]|(Hpos & j & r & i & v & Hc & Hcut & _)]; [exact Egx|]. exfalso.
  specialize (Hmax _ _ _ _ Hc). change (B2R (@bs_gain (f64_ops P) no_split)) with 0 in Hmax.
  pose proof Hc as [(colx & Hcolx & HSx) (id & mx & Hi & Hm & Hlt)].
  assert (Lx : length colx = length (rz zs)) by (eapply wf_col_length; eauto; eapply nth_error_In; eauto).
  rewrite rz_length in Lx.
  set (all := map (fun p : xr * nat => nth (snd p) zs []) r).
  assert (Er : labels_in_order (rz zs) r = rz all).
  { unfold labels_in_order, all, rz. rewrite map_map. apply map_ext. intros p. change (@nil R) with (map IZR []). apply map_nth. }
  assert (Lr : length r = length zs) by (rewrite <- Lx; exact (sorted_version_length _ _ HSx)).
  assert (La : length all = length zs) by (unfold all; now rewrite map_length).
  assert (Hi0 : (0 < i)%nat).
  { destruct i; [|lia]. exfalso. destruct r as [|p r]; [discriminate|]. injection Hm as ->. cbn in Hi. injection Hi as ->. cbn [fst] in Hlt.
    unfold xltb in Hlt. rewrite andb_negb_r in Hlt. discriminate. }
  assert (Hil : (i < length all)%nat) by (rewrite La, <- Lr; apply nth_error_Some; congruence).
  unfold cut_gain in Hcut, Hmax. rewrite Er in Hcut, Hmax. rewrite <- rz_firstn, <- rz_skipn in Hcut, Hmax.
  rewrite <- (firstn_skipn i all) in Hcut at 1. rewrite <- (firstn_skipn i all) in Hmax at 1.
  rewrite (gain_quantum nt (firstn i all) (skipn i all) (length zs)) in Hcut.
  - lra.
  - intros E0. apply (f_equal (@length _)) in E0. rewrite firstn_length in E0. cbn in E0. lia.
  - intros E0. apply (f_equal (@length _)) in E0. rewrite skipn_length in E0. cbn in E0. lia.
  - rewrite firstn_skipn. lia.
  - eapply Rle_lt_trans; [exact Hmax|]. lra.
Qed.

End Int4.
