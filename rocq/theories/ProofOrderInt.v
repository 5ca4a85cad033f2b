(** Row order in binary64 with integer labels (C62). *)
From Coq Require Import Reals Lra Lia ZArith Permutation Sorted.
From Flocq Require Import Core.
From Flocq Require Import IEEE754.BinarySingleNaN.
From Verif Require Import Base Num ModelCommon ModelTree ModelBoost Lib Spec SpecTree SpecScore SpecFit SpecOrder F64 XR SpecExact SpecInt ProofReal ProofData ProofSort
  ProofSplit ProofSplit2 ProofSplitExact ProofSplitExact2 ProofScoreF64 ProofRound ProofError ProofScan ProofInt ProofInt2 ProofInt3 ProofInt5
  ProofTree ProofTree3 ProofOrder.

Section Same.
Context {O : NumOps} (LW : NumLaws O).

(** Two scans that test the same positions and compute the same losses there choose the same threshold. *)
Lemma scan_same prev prev' k T T' (u u' : list (F * list F)) : is_num finf -> length u = length u' ->
  (forall i p p', nth_error u i = Some p -> nth_error u' i = Some p' ->
     feqb (fst p) prev = feqb (fst p') prev' /\
     (feqb (fst p) prev = false -> fst p = fst p' /\ loss_at k T u i = loss_at k T' u' i)) ->
  forall n, n <= length u ->
  sc_best (fold_left (pstep prev) (firstn n u) (mkScan (mkBT finf f0) (zero_tracker k) T)) =
  sc_best (fold_left (pstep prev') (firstn n u') (mkScan (mkBT finf f0) (zero_tracker k) T')).
Proof.
  intros Hinf HL H. induction n as [|n IH]; intros Hn; [reflexivity|]. specialize (IH ltac:(lia)).
  destruct (nth_error u n) as [p|] eqn:E; [|apply nth_error_None in E; lia].
  destruct (nth_error u' n) as [p'|] eqn:E'; [|apply nth_error_None in E'; lia].
  destruct (scan_best_of LW prev k T u Hinf n ltac:(lia)) as (_ & L1 & R1).
  destruct (scan_best_of LW prev' k T' u' Hinf n ltac:(lia)) as (_ & L2 & R2).
  rewrite (firstn_snoc _ _ _ E), (firstn_snoc _ _ _ E'), !fold_left_app. cbn [fold_left].
  destruct (H n p p' E E') as [Hf Hc]. unfold pstep at 1 3. cbn [sc_best].
  rewrite L1, R1, L2, R2, <- Hf. fold (loss_at k T u n) (loss_at k T' u' n).
  destruct (feqb (fst p) prev); cbn [negb]; [exact IH|]. destruct (Hc eq_refl) as [Ev El]. rewrite Ev, El, IH. reflexivity.
Qed.

Lemma pscan_same k T T' (u u' : list (F * list F)) : is_num finf -> length u = length u' ->
  (forall p0 p0', hd_error u = Some p0 -> hd_error u' = Some p0' ->
   forall i p p', nth_error u i = Some p -> nth_error u' i = Some p' ->
     feqb (fst p) (fst p0) = feqb (fst p') (fst p0') /\
     (feqb (fst p) (fst p0) = false -> fst p = fst p' /\ loss_at k T u i = loss_at k T' u' i)) ->
  sc_best (pscan k T u) = sc_best (pscan k T' u').
Proof.
  intros Hinf HL H. unfold pscan. destruct u as [|[v l] u], u' as [|[v' l'] u']; try discriminate; [reflexivity|].
  pose proof (scan_same v v' k T T' _ _ Hinf HL (H _ _ eq_refl eq_refl) _ (le_n _)) as E.
  rewrite firstn_all, HL, firstn_all in E. exact E.
Qed.
End Same.

(** ** Sorted columns of the same (value, label) pairs *)

Section Cuts.
Context (P : platform) {B : Type}.
Definition le_val (p q : f64 * B) : Prop := Bleb (fst p) (fst q) = true.
Definition tag (p : f64 * B) : xr * (f64 * B) := (exact_value (fst p), p).

Lemma tag_sorted a : StronglySorted le_val a -> StronglySorted le_fst (map tag a).
Proof.
  induction 1 as [|p a H IH HF]; cbn; constructor; auto. rewrite Forall_map. eapply Forall_impl; [|exact HF].
  intros q Hq. unfold le_fst. cbn. rewrite exact_leb. exact Hq.
Qed.

Lemma same_values a a' i p p' : StronglySorted le_val a -> StronglySorted le_val a' -> Permutation a a' ->
  nth_error a i = Some p -> nth_error a' i = Some p' -> exact_value (fst p) = exact_value (fst p').
Proof.
  intros S S' HP E E'. pose proof (sorted_perm_values _ _ (tag_sorted a S) (tag_sorted a' S') (Permutation_map tag HP)) as H.
  rewrite !map_map in H. apply (f_equal (fun l => nth_error l i)) in H. rewrite !nth_error_map, E, E' in H. cbn in H. congruence.
Qed.

Lemma sorted_nth a i j p q : StronglySorted le_val a -> nth_error a i = Some p -> nth_error a j = Some q -> i < j -> le_val p q.
Proof.
  intros HS. revert i j. induction HS as [|x a HS IH HF]; intros [|i] [|j] Hi Hj Hlt; try lia; try discriminate.
  - injection Hi as ->. simpl in Hj. rewrite Forall_forall in HF. apply HF. eapply nth_error_In; eauto.
  - simpl in Hi, Hj. apply (IH i j); auto. lia.
Qed.

Lemma same_tail (m : f64) a a' i p : StronglySorted le_val a -> StronglySorted le_val a' -> Permutation a a' ->
  Forall (fun p : f64 * B => Bleb (fst p) (fst p) = true) a ->
  (forall p q, In p a -> In q a -> Beqb (fst p) (fst q) = true -> Bltb m (fst p) = true -> p = q) ->
  nth_error a i = Some p -> Bltb m (fst p) = true -> skipn i a = skipn i a'.
Proof.
  intros S S' HP Hn Ht E Hm. apply skipn_ext. intros n Hin. pose proof (Permutation_length HP) as HL.
  destruct (nth_error a n) as [q|] eqn:Eq; destruct (nth_error a' n) as [q'|] eqn:Eq'; auto.
  2:{ apply nth_error_None in Eq'. assert (n < length a) by (apply nth_error_Some; congruence). lia. }
  2:{ apply nth_error_None in Eq. assert (n < length a') by (apply nth_error_Some; congruence). lia. }
  f_equal. pose proof (same_values a a' n q q' S S' HP Eq Eq') as Hv.
  rewrite Forall_forall in Hn. pose proof (Hn q (nth_error_In _ _ Eq)) as Hq.
  apply Ht.
  - eapply nth_error_In; eauto.
  - rewrite HP. eapply nth_error_In; eauto.
  - rewrite <- (exact_eq P). unfold xeqb. rewrite <- Hv, !exact_leb. rewrite Hq. reflexivity.
  - destruct (Nat.eq_dec i n) as [->|]; [congruence|].
    assert (Hle : le_val p q) by (eapply (sorted_nth a i n); eauto; lia).
    exact (fltb_le_trans (f64_laws P) m (fst p) (fst q) Hm Hle).
Qed.
End Cuts.

Section Int.
Context (P : platform) (M : Z) (HM : (1 <= M)%Z).
Local Existing Instance f64_ops.
Local Remove Hints xr_ops : typeclass_instances.

Lemma losses_perm k a a' b : Permutation a a' -> losses k a b = losses k a' b.
Proof.
  intros H. unfold losses. apply map_ext. intros t. rewrite (Permutation_length H).
  rewrite (sumZ_perm _ _ (Permutation_map _ H : Permutation (ztarget t a) (ztarget t a'))).
  rewrite (sqZ_perm _ _ (Permutation_map _ H : Permutation (ztarget t a) (ztarget t a'))). reflexivity.
Qed.

Lemma column_same k zs zs' (a a' : list (f64 * list Z)) p0 :
  fits M zs -> rectangular k zs -> Permutation zs zs' -> Permutation zs (map snd a) ->
  StronglySorted le_val a -> StronglySorted le_val a' -> Permutation a a' ->
  Forall (fun p : f64 * list Z => Bleb (fst p) (fst p) = true) a -> hd_error a = Some p0 ->
  (forall p q, In p a -> In q a -> Beqb (fst p) (fst q) = true -> Bltb (fst p0) (fst p) = true -> p = q) ->
  pcolumn k (fz zs') (map (frow P) a') = pcolumn k (fz zs) (map (frow P) a).
Proof.
  intros Hf Hr HZ Ha S S' HP Hn Hh Ht. symmetry. unfold pcolumn.
  assert (Hf' : fits M zs') by (eapply fits_perm; eauto).
  assert (Hr' : rectangular k zs') by (unfold rectangular in *; now rewrite <- HZ).
  assert (Ha' : Permutation zs' (map snd a')) by (rewrite <- HZ, Ha; now apply Permutation_map).
  assert (Fa : fits M (map snd a)) by (eapply fits_perm; eauto).
  assert (Fa' : fits M (map snd a')) by (eapply fits_perm; eauto).
  assert (Ra : rectangular k (map snd a)) by (unfold rectangular in *; now rewrite <- Ha).
  assert (Ra' : rectangular k (map snd a')) by (unfold rectangular in *; now rewrite <- Ha').
  assert (Ta : tracks64 P k (ptotal k (fz zs)) (map snd a)) by (eapply tracks64_perm; [exact Ha|]; now apply (tracks64_total P M HM)).
  assert (Ta' : tracks64 P k (ptotal k (fz zs')) (map snd a')) by (eapply tracks64_perm; [exact Ha'|]; now apply (tracks64_total P M HM)).
  pose proof (Permutation_length HP) as HL.
  apply (pscan_same (f64_laws P)); [reflexivity|now rewrite !map_length|].
  intros q0 q0' Hq Hq' i p p' Ep Ep'.
  rewrite nth_error_map in Ep, Ep'.
  destruct (nth_error a i) as [q|] eqn:E; [|discriminate]. destruct (nth_error a' i) as [q'|] eqn:E'; [|discriminate].
  cbn [option_map] in Ep, Ep'. injection Ep as <-. injection Ep' as <-.
  destruct a as [|r0 a0] eqn:Eqa; [discriminate|]. destruct a' as [|r0' a0'] eqn:Eqa'; [discriminate|]. rewrite <- Eqa, <- Eqa' in *.
  assert (E0 : nth_error a 0 = Some r0) by (rewrite Eqa; reflexivity).
  assert (E0' : nth_error a' 0 = Some r0') by (rewrite Eqa'; reflexivity).
  assert (r0 = p0) as -> by (rewrite Eqa in Hh; now injection Hh).
  assert (q0 = frow P p0) as -> by (rewrite Eqa in Hq; now injection Hq).
  assert (q0' = frow P r0') as -> by (rewrite Eqa' in Hq'; now injection Hq').
  pose proof (same_values a a' i q q' S S' HP E E') as V. pose proof (same_values a a' 0 p0 r0' S S' HP E0 E0') as V0.
  unfold frow at 1 2 3 4 5 6. cbn [fst].
  change (@feqb (f64_ops P)) with (@Beqb 53 1024). rewrite <- !(exact_eq P), V, V0. split; [reflexivity|].
  rewrite <- V, <- V0, (exact_eq P). intros Hne.
  assert (Hi : 0 < i).
  { destruct i; [|lia]. rewrite E0 in E. injection E as <-. rewrite Forall_forall in Hn.
    pose proof (Hn p0 (nth_error_In _ _ E0)) as Hp.
    pose proof (feqb_fleb _ (f64_laws P) (fst p0) (fst p0)) as Hee. change (@feqb (f64_ops P)) with (@Beqb 53 1024) in Hee.
    change (@fleb (f64_ops P)) with (@Bleb 53 1024) in Hee. rewrite Hp in Hee. rewrite Hee in Hne. discriminate. }
  assert (Hlt : Bltb (fst p0) (fst q) = true).
  { pose proof (sorted_nth a 0 i p0 q S E0 E Hi) as Hle. unfold le_val in Hle.
    rewrite (proj2 (Bleb_swap_cmp (fst p0) (fst q))), Hle. cbn [andb].
    pose proof (feqb_fleb _ (f64_laws P) (fst q) (fst p0)) as Hee. change (@feqb (f64_ops P)) with (@Beqb 53 1024) in Hee.
    change (@fleb (f64_ops P)) with (@Bleb 53 1024) in Hee. rewrite Hne, Hle, andb_true_r in Hee. now rewrite <- Hee. }
  pose proof (same_tail P (fst p0) a a' i q S S' HP Hn Ht E Hlt) as HT.
  assert (q' = q) as ->.
  { rewrite (skipn_nth _ _ _ E), (skipn_nth _ _ _ E') in HT. congruence. }
  split; [reflexivity|].
  assert (Hil : i < length a) by (apply nth_error_Some; congruence).
  rewrite (loss_at_eq P M HM k _ a i) by (auto; lia). rewrite (loss_at_eq P M HM k _ a' i) by (auto; lia).
  f_equal. rewrite !skipn_map, <- HT. apply losses_perm. rewrite !firstn_map. apply Permutation_map.
  rewrite <- (firstn_skipn i a), <- (firstn_skipn i a') in HP at 1. rewrite <- HT in HP. eapply Permutation_app_inv_r. exact HP.
Qed.

(** ** The labels of a data set as integers *)

Definition dec (x : f64) : Z := Btrunc x.
Definition zlabels (d : @dataset (f64_ops P)) : list (list Z) := map (map dec) (labels d).

Lemma dec_Z z : (Z.abs z <= 2 ^ 53)%Z -> dec (f64_of_Z z) = z.
Proof.
  intros Hz. assert (A : B2R (f64_of_Z z) = IZR z).
  { destruct (Z_le_gt_dec 0 z); [apply f64_of_Z_exact; lia|]. destruct (opp_of_Z (- z)) as (A & _); [lia|]. rewrite Z.opp_involutive in A. exact A. }
  unfold dec. apply eq_IZR. rewrite Btrunc_correct, A. apply round_generic; [typeclasses eauto|].
  apply generic_format_FIX. exists (Float radix2 z 0); [|reflexivity]. unfold F2R; simpl; lra.
  exact prec_lt_emax_53.
Qed.

Lemma zlabels_fz d : integer_labels M d -> (M <= 2 ^ 53)%Z -> labels d = fz (zlabels d) /\ bounded M (zlabels d).
Proof.
  intros H HMM. destruct (integer_zs P M d H) as (zs & E & Hb).
  assert (Ez : zlabels d = zs).
  { unfold zlabels. rewrite E. unfold fz. rewrite map_map. rewrite <- (map_id zs) at 2. apply map_ext_in. intros l Hl.
    rewrite map_map. rewrite <- (map_id l) at 2. apply map_ext_in. intros z Hz. apply dec_Z.
    unfold bounded in Hb. rewrite Forall_forall in Hb. specialize (Hb l Hl). rewrite Forall_forall in Hb. specialize (Hb z Hz). cbv beta in Hb. lia. }
  rewrite Ez. auto.
Qed.

Lemma column_map nc nt (d : @dataset (f64_ops P)) j col : wf_dataset nc nt d -> nth_error (feature_columns d) j = Some col ->
  col = map (fun row => nth j row (f0 : F)) (feature_rows d).
Proof.
  intros W Hc. destruct (wf_columns _ _ _ W) as [_ Ht]. destruct (Ht _ _ Hc) as [L H]. apply nth_error_ext. intros i.
  rewrite nth_error_map. destruct (nth_error (feature_rows d) i) as [row|] eqn:E; cbn [option_map].
  - destruct (H _ _ E) as [Hlt ->]. now apply nth_error_nth'.
  - apply nth_error_None. apply nth_error_None in E. lia.
Qed.

Definition cell (j : nat) (p : list f64 * list f64) : f64 * list Z := (nth j (fst p) (B754_zero false), map dec (snd p)).

Lemma column_cells nc nt (d : @dataset (f64_ops P)) j col : wf_dataset nc nt d -> nth_error (feature_columns d) j = Some col ->
  Permutation (zrow (zlabels d) (the_sort col)) (map (cell j) (samples d)).
Proof.
  intros W Hc. assert (HS : sorted_version col (the_sort col)).
  { apply (the_sort_spec (f64_laws P)). exact (wf_column_num nc nt d col W (nth_error_In _ _ Hc)). }
  assert (L : length col = length (zlabels d)).
  { unfold zlabels. rewrite map_length. destruct (wf_columns _ _ _ W) as [_ Ht]. destruct (Ht _ _ Hc) as [-> _].
    symmetry. apply (wf_lengths _ _ _ W). }
  destruct HS as [HPm _]. unfold zrow. rewrite (Permutation_map _ HPm). unfold value_positions.
  assert (E : map (fun p : f64 * nat => (fst p, nth (snd p) (zlabels d) [])) (combine col (seq 0 (length (zlabels d)))) = map (cell j) (samples d)).
  { etransitivity; [symmetry; apply (combine_map_r (fun i => nth i (zlabels d) []))|]. rewrite map_nth_seq_all.
    rewrite (column_map nc nt d j col W Hc). unfold zlabels, samples. rewrite combine_map_l, combine_map_r, !map_map. reflexivity. }
  rewrite <- E, <- L. reflexivity.
Qed.

Definition order_data (d : @dataset (f64_ops P)) : Prop := integer_labels M d /\ sums_fit M d /\ float_ties_agree d.

Theorem int_split_order nc nt d d' : wf_dataset nc nt d -> wf_dataset nc nt d' -> order_data d ->
  Permutation (samples d) (samples d') -> find_best_split d' (N.of_nat nt) = find_best_split d (N.of_nat nt).
Proof.
  intros W W' (HI & HF & HT) HP.
  assert (HPl : Permutation (labels d) (labels d')).
  { rewrite <- (samples_labels P nc nt d W), <- (samples_labels P nc nt d' W'). now apply Permutation_map. }
  assert (HI' : integer_labels M d').
  { intros l x Hl. apply HI. now rewrite HPl. }
  assert (Hpos : 1 <= length (labels d)).
  { rewrite (wf_lengths _ _ _ W). pose proof (wf_nonempty _ _ _ W). destruct (feature_rows d); [congruence|cbn; lia]. }
  destruct HF as [_ HF].
  assert (HMM : (M <= 2 ^ 53)%Z) by nia.
  destruct (zlabels_fz d HI HMM) as [El Hb]. destruct (zlabels_fz d' HI' HMM) as [El' Hb'].
  assert (HPz : Permutation (zlabels d) (zlabels d')) by (unfold zlabels; now apply Permutation_map).
  assert (Hf : fits M (zlabels d)) by (split; auto; unfold zlabels; rewrite map_length; exact HF).
  assert (Hr : rectangular nt (zlabels d)).
  { unfold zlabels, rectangular. rewrite Forall_map. eapply Forall_impl; [|exact (wf_labels _ _ _ W)]. intros l Hl. cbv beta in *. now rewrite map_length. }
  assert (Hf' : fits M (zlabels d')) by (eapply fits_perm; eauto).
  assert (Hr' : rectangular nt (zlabels d')) by (unfold rectangular in *; now rewrite <- HPz).
  assert (Hne : zlabels d <> []).
  { unfold zlabels. intros H. apply map_eq_nil in H. rewrite H in Hpos. cbn in Hpos. lia. }
  assert (Hne' : zlabels d' <> []).
  { intros H. rewrite H in HPz. apply Permutation_sym, Permutation_nil in HPz. contradiction. }
  rewrite (find_best_split_eq (f64_laws P) nc nt d W), (find_best_split_eq (f64_laws P) nc nt d' W'). f_equal. unfold pfind. f_equal.
  { assert (Ev : forall zs, fits M zs -> rectangular nt zs -> zs <> [] -> ptotal_variance nt (fz zs) = fsum (vecvar nt zs)).
    { intros zs Fz Rz Nz. unfold ptotal_variance.
      pose proof (tracks64_pvar P nt _ zs (tracks64_total P M HM nt zs Fz Rz) Nz) as H. unfold ptotal in H. cbn [tr_m tr_n] in H.
      now rewrite H. }
    rewrite El, El', !Ev by auto. f_equal. unfold vecvar. apply map_ext. intros t. rewrite <- (Permutation_length HPz).
    rewrite (sumZ_perm _ _ (Permutation_map _ HPz : Permutation (ztarget t (zlabels d)) (ztarget t (zlabels d')))).
    rewrite (sqZ_perm _ _ (Permutation_map _ HPz : Permutation (ztarget t (zlabels d)) (ztarget t (zlabels d')))). reflexivity. }
  unfold dvls. rewrite !map_map. apply nth_error_ext. intros j. rewrite !nth_error_map.
  pose proof (proj1 (wf_columns _ _ _ W)) as Lc. pose proof (proj1 (wf_columns _ _ _ W')) as Lc'.
  destruct (nth_error (feature_columns d) j) as [col|] eqn:Ec; destruct (nth_error (feature_columns d') j) as [col'|] eqn:Ec'; cbn [option_map]; auto.
  2:{ apply nth_error_None in Ec'. assert (j < length (feature_columns d))%nat by (apply nth_error_Some; congruence). lia. }
  2:{ apply nth_error_None in Ec. assert (j < length (feature_columns d'))%nat by (apply nth_error_Some; congruence). lia. }
  f_equal.
  assert (Hsort : forall dd cc, wf_dataset nc nt dd -> nth_error (feature_columns dd) j = Some cc ->
     StronglySorted le_val (zrow (zlabels dd) (the_sort cc)) /\ sorted_version cc (the_sort cc)).
  { intros dd cc Wd Hcc.
    assert (HS : sorted_version cc (the_sort cc)).
    { apply (the_sort_spec (f64_laws P)). exact (wf_column_num nc nt dd cc Wd (nth_error_In _ _ Hcc)). }
    split; auto. destruct HS as [_ HS]. unfold zrow. induction HS as [|p r Hs IH Hfa]; [constructor|]. cbn [map]. constructor; auto.
    rewrite Forall_map. eapply Forall_impl; [|exact Hfa]. intros q Hq.
    unfold le_val. cbn [fst]. destruct Hq as [Hq|[Hq _]].
    - exact (fltb_le (f64_laws P) _ _ Hq).
    - pose proof (feqb_fleb _ (f64_laws P) (fst p) (fst q)) as Hee. pose proof (eq_trans (eq_sym Hee) Hq) as Hq2. clear Hee. rename Hq2 into Hee. apply andb_true_iff in Hee as [Hee _]. exact Hee. }
  destruct (Hsort d col W Ec) as [S HS]. destruct (Hsort d' col' W' Ec') as [S' HS'].
  pose proof (column_cells nc nt d j col W Ec) as C. pose proof (column_cells nc nt d' j col' W' Ec') as C'.
  rewrite El, El'. rewrite (vls_zrow P (zlabels d)), (vls_zrow P (zlabels d')).
  assert (Hj : (j < nc)%nat) by (rewrite <- Lc; apply nth_error_Some; congruence).
  assert (HPa : Permutation (zrow (zlabels d) (the_sort col)) (zrow (zlabels d') (the_sort col'))).
  { rewrite C, C'. now apply Permutation_map. }
  set (a := zrow (zlabels d) (the_sort col)) in *. set (a' := zrow (zlabels d') (the_sort col')) in *.
  assert (Hcell : forall p, In p a -> exists row l, In (row, l) (samples d) /\ nth_error row j = Some (fst p) /\ snd p = map dec l /\ Bleb (fst p) (fst p) = true).
  { intros p Hp. rewrite C in Hp. apply in_map_iff in Hp as ((row & l) & <- & Hin). exists row, l. unfold cell. cbn [fst snd].
    pose proof (in_combine_l _ _ _ _ Hin) as Hrow. pose proof (wf_rows _ _ _ W) as Hrr. unfold rectangular in Hrr. rewrite Forall_forall in Hrr.
    specialize (Hrr _ Hrow). cbv beta in Hrr.
    assert (Hnth : nth_error row j = Some (nth j row (B754_zero false))) by (apply nth_error_nth'; rewrite <- Hrr in Hj; exact Hj).
    repeat split; auto. pose proof (wf_row_num P nc nt d row W Hrow) as Hnum. rewrite Forall_forall in Hnum. apply Hnum. eapply nth_error_In; eauto. }
  assert (Ha0 : exists p0, hd_error a = Some p0).
  { destruct a as [|p0 a0] eqn:Ea; [|exists p0; reflexivity]. apply Permutation_nil in C. apply map_eq_nil in C.
    pose proof (samples_labels P nc nt d W) as Hsl. rewrite C in Hsl. rewrite <- Hsl in Hpos. cbn in Hpos. lia. }
  destruct Ha0 as (p0 & Hp0).
  apply (column_same nt (zlabels d) (zlabels d') a a' p0); auto.
  - unfold a. apply (zrow_perm P _ col); auto.
    unfold zlabels. rewrite map_length. destruct (wf_columns _ _ _ W) as [_ Ht]. destruct (Ht _ _ Ec) as [EL _].
    etransitivity; [exact EL|]. symmetry. apply (wf_lengths _ _ _ W).
  - rewrite Forall_forall. intros p Hp. destruct (Hcell p Hp) as (row & l & _ & _ & _ & Hn). exact Hn.
  - intros p q Hp Hq He Hlt.
    destruct (Hcell p Hp) as (ri & li & I1 & N1 & D1 & _). destruct (Hcell q Hq) as (ri' & li' & I2 & N2 & D2 & _).
    assert (Hin0 : In p0 a) by (destruct a; [discriminate|]; injection Hp0 as ->; now left).
    destruct (Hcell p0 Hin0) as (rm & lm & I0 & N0 & _).
    destruct (HT j ri li ri' li' (fst p) (fst q) (fst p0) rm I1 I2 N1 N2 He (in_combine_l _ _ _ _ I0) N0 Hlt) as [Hv Hl].
    destruct p, q. cbn [fst snd] in *. congruence.
Qed.

Lemma order_data_sub nc nt d x : wf_dataset nc nt d -> wf_dataset nc nt x -> incl (samples x) (samples d) ->
  length (samples x) <= length (samples d) -> order_data d -> order_data x.
Proof.
  intros W Wx Hi HL (A & B & C). split; [|split].
  - eapply integer_sub; [|exact A]. eapply samples_labels_incl; eauto.
  - eapply sums_fit_sub; [|exact B]. rewrite <- (samples_labels P nc nt d W), <- (samples_labels P nc nt x Wx), !map_length. exact HL.
  - intros j ri li ri' li' v v' m rm H1 H2 H3 H4 H5 H6 H7 H8. apply (C j ri li ri' li' v v' m rm); auto.
    assert (E : forall y : @dataset (f64_ops P), wf_dataset nc nt y -> map fst (samples y) = feature_rows y).
    { intros y Wy. apply map_fst_combine. now rewrite (wf_lengths _ _ _ Wy). }
    rewrite <- (E x Wx) in H6. apply in_map_iff in H6 as (p & <- & Hp). rewrite <- (E d W). apply in_map. auto.
Qed.

(** ** Trees *)

Section Trees.
Context (nc nt : nat) (d d' : @dataset (f64_ops P)) (cfg : tree_config).
Hypotheses (W : wf_dataset nc nt d) (W' : wf_dataset nc nt d') (HQ : order_data d) (HP : Permutation (samples d) (samples d'))
  (Hs : standard cfg) (Hk : tc_number_of_classes cfg = N.of_nat nt).

Theorem int_regression_order t t' : regression_tree_new d cfg = Ok t -> regression_tree_new d' cfg = Ok t' ->
  same_questions same_samples t t'.
Proof. eapply (regression_order order_data order_data_sub int_split_order nc nt d d' cfg); eauto. Qed.

Lemma int_average_perm x x' : wf_dataset nc nt x -> wf_dataset nc nt x' -> order_data x -> Permutation (samples x) (samples x') ->
  colmean nt (labels x') = colmean nt (labels x).
Proof.
  intros Wx Wx' (HI & (_ & HF) & _) Px.
  assert (Hne : forall y : @dataset (f64_ops P), wf_dataset nc nt y -> labels y <> []).
  { intros y Wy H. pose proof (wf_nonempty _ _ _ Wy). pose proof (wf_lengths _ _ _ Wy) as L. rewrite H in L.
    destruct (feature_rows y); [congruence|discriminate]. }
  assert (HPl : Permutation (labels x) (labels x')).
  { rewrite <- (samples_labels P nc nt x Wx), <- (samples_labels P nc nt x' Wx'). now apply Permutation_map. }
  assert (Hpos : 1 <= length (labels x)) by (pose proof (Hne x Wx); destruct (labels x); [congruence|cbn; lia]).
  assert (HMM : (M <= 2 ^ 53)%Z) by nia.
  assert (HI' : integer_labels M x') by (intros l y Hl; apply HI; now rewrite HPl).
  destruct (zlabels_fz x HI HMM) as [El Hb]. destruct (zlabels_fz x' HI' HMM) as [El' Hb'].
  assert (HPz : Permutation (zlabels x) (zlabels x')) by (unfold zlabels; now apply Permutation_map).
  assert (Hf : fits M (zlabels x)) by (split; auto; unfold zlabels; rewrite map_length; exact HF).
  assert (Hr : rectangular nt (zlabels x)).
  { unfold zlabels, rectangular. rewrite Forall_map. eapply Forall_impl; [|exact (wf_labels _ _ _ Wx)]. intros l Hl. cbv beta in *. now rewrite map_length. }
  assert (Hf' : fits M (zlabels x')) by (eapply fits_perm; eauto).
  assert (Hr' : rectangular nt (zlabels x')) by (unfold rectangular in *; now rewrite <- HPz).
  unfold colmean. rewrite <- (Permutation_length HPl).
  replace (colsum nt (labels x')) with (colsum nt (labels x)); [reflexivity|].
  rewrite El, El'. rewrite (colsum_Z P M HM nt _ Hf Hr), (colsum_Z P M HM nt _ Hf' Hr'). apply sums_perm. exact HPz.
Qed.

Theorem int_regression_answers t t' : regression_tree_new d cfg = Ok t -> regression_tree_new d' cfg = Ok t' ->
  (forall row, predict_class row t' = predict_class row t) /\
  (forall test, calculate_accuracy test t' = calculate_accuracy test t) /\
  (forall test, calculate_overall_mean_squared_error test t' = calculate_overall_mean_squared_error test t).
Proof. eapply (regression_answers order_data order_data_sub int_split_order nc nt d d' cfg); eauto. exact int_average_perm. Qed.

Lemma int_calculator_perm x x' o : wf_dataset nc nt x -> wf_dataset nc nt x' -> order_data x -> Permutation (samples x) (samples x') ->
  leaf_output_calculator_new Regression x = Ok o -> leaf_output_calculator_new Regression x' = Ok o.
Proof.
  intros Wx Wx' Qx Px. cbn [leaf_output_calculator_new]. unfold calculate_leaf_output_squared_loss.
  assert (Hne : forall y : @dataset (f64_ops P), wf_dataset nc nt y -> labels y <> []).
  { intros y Wy H. pose proof (wf_nonempty _ _ _ Wy). pose proof (wf_lengths _ _ _ Wy) as L. rewrite H in L.
    destruct (feature_rows y); [congruence|discriminate]. }
  rewrite (calculate_average_f64_vector_eq nt (labels x)) by (auto; exact (wf_labels _ _ _ Wx)).
  rewrite (calculate_average_f64_vector_eq nt (labels x')) by (auto; exact (wf_labels _ _ _ Wx')).
  intros E. rewrite <- E. f_equal. now apply int_average_perm.
Qed.

Theorem int_grad_boost_order :
  grad_boost_tree_new d' cfg (leaf_output_calculator_new Regression) = grad_boost_tree_new d cfg (leaf_output_calculator_new Regression).
Proof. eapply (grad_boost_order (f64_laws P) order_data order_data_sub int_split_order nc nt d d' cfg); eauto. apply int_calculator_perm. Qed.

Theorem int_amg_order :
  amg_boost_tree_new d' cfg (leaf_output_calculator_new Regression) = amg_boost_tree_new d cfg (leaf_output_calculator_new Regression).
Proof. eapply (amg_order (f64_laws P) order_data order_data_sub int_split_order nc nt d d' cfg); eauto. apply int_calculator_perm. Qed.
End Trees.
End Int.
