(** Consequences of the exact description of the split finder. *)
From Coq Require Import Reals Lra Permutation Sorted.
From Verif Require Import Base Num ModelCommon ModelTree Lib XR Spec SpecTree SpecExact ProofReal ProofData ProofSort ProofSplit ProofSplit2 ProofTree ProofSplitExact.
Local Open Scope R_scope.

Ltac xr := change (@F xr_ops) with XR.xr in *.

Lemma filter_two {A} (p : A -> bool) a b :
  Forall (fun x => p x = false) a -> Forall (fun x => p x = true) b -> filter p (a ++ b) = b /\ filter (fun x => negb (p x)) (a ++ b) = a.
Proof.
  intros Ha Hb. rewrite !filter_app. split.
  - replace (filter p a) with (@nil A). { replace (filter p b) with b; auto. induction Hb as [|x l Hx _ IH]; auto. simpl. rewrite Hx. now f_equal. }
    induction Ha as [|x l Hx _ IH]; auto. simpl. now rewrite Hx.
  - replace (filter (fun x => negb (p x)) b) with (@nil A).
    + rewrite app_nil_r. induction Ha as [|x l Hx _ IH]; auto. simpl. rewrite Hx. simpl. now f_equal.
    + induction Hb as [|x l Hx _ IH]; auto. simpl. now rewrite Hx.
Qed.

Lemma combine_map_r {A B C} (f : B -> C) (a : list A) b : combine a (map f b) = map (fun p => (fst p, f (snd p))) (combine a b).
Proof. revert b; induction a as [|x a IH]; intros [|y b]; simpl; auto. now rewrite IH. Qed.
Lemma combine_map_l {A B C} (f : A -> C) a (b : list B) : combine (map f a) b = map (fun p => (f (fst p), snd p)) (combine a b).
Proof. revert b; induction a as [|x a IH]; intros [|y b]; simpl; auto. now rewrite IH. Qed.

Lemma perm_eq' {A} (a b : list A) : a = b -> Permutation a b.
Proof. intros ->. reflexivity. Qed.
Lemma nth_error_skipn_add {A} i (a : list A) n : nth_error (skipn i a) n = nth_error a (i + n).
Proof. revert a; induction i as [|i IH]; intros [|x a]; simpl; auto. now destruct n. Qed.

Lemma pair_lt_le (a b : xr * nat) : @pair_lt xr_ops a b -> xleb (fst a) (fst b) = true.
Proof.
  intros [H|[H _]].
  - change (@fltb xr_ops) with xltb in H. unfold xltb in H. now apply andb_true_iff in H.
  - change (@feqb xr_ops) with xeqb in H. unfold xeqb in H. now apply andb_true_iff in H.
Qed.

Lemma xleb_trans x y z : xleb x y = true -> xleb y z = true -> xleb x z = true.
Proof. exact (fleb_trans _ xr_laws x y z). Qed.

(** A threshold cuts a sorted column in two. *)
Lemma sorted_threshold v (r : list (xr * nat)) :
  StronglySorted (@pair_lt xr_ops) r ->
  exists a b, r = a ++ b /\ Forall (fun p => xleb v (fst p) = false) a /\ Forall (fun p => xleb v (fst p) = true) b.
Proof.
  induction 1 as [|x r HS IH HF].
  - exists [], []. auto.
  - destruct (xleb v (fst x)) eqn:E.
    + exists [], (x :: r). split; auto. split; auto. constructor; auto.
      eapply Forall_impl; [|exact HF]. intros y Hy. apply pair_lt_le in Hy. eapply xleb_trans; eauto.
    + destruct IH as (a & b & -> & Ha & Hb). exists (x :: a), b. auto.
Qed.

Lemma column_is_map nc (rows cols : list (list xr)) c col :
  rectangular nc rows -> is_transpose nc rows cols -> nth_error cols c = Some col ->
  col = map (fun row => nth c row (Fin 0)) rows.
Proof.
  intros Hr [_ Ht] Hc. destruct (Ht _ _ Hc) as [L H]. apply nth_error_ext. intros i.
  rewrite nth_error_map. destruct (nth_error rows i) as [row|] eqn:E; cbn [option_map].
  - destruct (H _ _ E) as [Hlt ->]. now apply nth_error_nth'.
  - apply nth_error_None. apply nth_error_None in E. lia.
Qed.

(** Labels of a filtered sorted column are the labels of the rows with that answer. *)
Lemma side_labels nc nt (d : @dataset xr_ops) ls c (col : list xr) (r : list (xr * nat)) v ans :
  wf_dataset nc nt d -> real_labels ls d -> nth_error (feature_columns d) c = Some col -> sorted_version col r ->
  Permutation (labels_in_order ls (filter (fun p => Bool.eqb (xleb v (fst p)) ans) r))
              (labels_answering ans (Question (N.of_nat c) v) (feature_rows d) ls).
Proof.
  intros W Hl Hc [HP _].
  assert (L : length col = length ls) by (eapply wf_col_length; eauto; eapply nth_error_In; eauto).
  assert (Hc' : (c < nc)%nat).
  { destruct (wf_columns _ _ _ W) as [<- _]. apply nth_error_Some. congruence. }
  pose proof (column_is_map nc _ _ c col (wf_rows _ _ _ W) (wf_columns _ _ _ W) Hc) as Ecol.
  set (P := fun x => Bool.eqb (xleb v x) ans).
  transitivity (labels_in_order ls (filter (fun p => P (fst p)) (value_positions col))).
  { apply Permutation_map. now apply Permutation_filter_p. }
  unfold labels_in_order, labels_answering, value_positions.
  assert (E1 : map (fun p : xr * nat => (fst p, nth (snd p) ls [])) (combine col (seq 0 (length col))) = combine col ls).
  { rewrite L. etransitivity; [symmetry; apply (combine_map_r (fun i => nth i ls []))|]. now rewrite map_nth_seq. }
  assert (E2 : map (fun p : list xr * list R => (nth c (fst p) (Fin 0), snd p)) (combine (feature_rows d) ls) = combine col ls).
  { rewrite Ecol. symmetry. apply (combine_map_l (fun row => nth c row (Fin 0))). }
  transitivity (map snd (filter (fun p : xr * list R => P (fst p)) (combine col ls))).
  - rewrite <- E1, filter_map_swap, map_map. reflexivity.
  - rewrite <- E2, filter_map_swap, map_map. cbn [snd fst].
    apply Permutation_map. erewrite filter_ext_in; [reflexivity|].
    intros [row l] Hin. cbn [fst]. unfold P, answers. cbn [q_column q_value]. rewrite Nat2N.id. xr.
    apply in_combine_l in Hin.
    pose proof (wf_rows _ _ _ W) as Hr. unfold rectangular in Hr. rewrite Forall_forall in Hr. specialize (Hr _ Hin).
    destruct (nth_error row c) as [x|] eqn:Ex.
    + rewrite (nth_error_nth _ _ _ Ex).  reflexivity.
    + apply nth_error_None in Ex. change (length row = nc) in Hr. lia.
Qed.

Lemma sides_partition q (rows : list (list xr)) (ls : list (list R)) :
  length rows = length ls ->
  Permutation (labels_answering false q rows ls ++ labels_answering true q rows ls) ls.
Proof.
  intros L. unfold labels_answering. rewrite <- map_app.
  transitivity (map snd (combine rows ls)); [|rewrite map_snd_combine by auto; reflexivity].
  apply Permutation_map. symmetry.
  rewrite (filter_ext (fun p => Bool.eqb (answers q (fst p)) false) (fun p => negb (answers q (fst p)))).
  2:{ intros p. now destruct (answers q (fst p)). }
  rewrite (filter_ext (fun p => Bool.eqb (answers q (fst p)) true) (fun p => answers q (fst p))).
  2:{ intros p. now destruct (answers q (fst p)). }
  rewrite Permutation_app_comm. apply Permutation_filter_split.
Qed.

Lemma remaining_perm k a b a' b' : Permutation a a' -> Permutation b b' -> remaining_variance k a b = remaining_variance k a' b'.
Proof.
  intros Ha Hb. unfold remaining_variance.
  now rewrite (total_variance_perm k _ _ Ha), (total_variance_perm k _ _ Hb), (Permutation_length Ha), (Permutation_length Hb).
Qed.

(** A question whose column exists cuts the sorted column at one position. *)
Lemma question_is_cut nc nt (d : @dataset xr_ops) ls c (col : list xr) (a b : list (xr * nat)) v :
  wf_dataset nc nt d -> real_labels ls d -> nth_error (feature_columns d) c = Some col -> sorted_version col (a ++ b) ->
  Forall (fun p => xleb v (fst p) = false) a -> Forall (fun p => xleb v (fst p) = true) b ->
  Permutation (labels_in_order ls a) (labels_answering false (Question (N.of_nat c) v) (feature_rows d) ls) /\
  Permutation (labels_in_order ls b) (labels_answering true (Question (N.of_nat c) v) (feature_rows d) ls) /\
  question_gain nt (Question (N.of_nat c) v) (feature_rows d) ls = cut_gain nt (length a) (labels_in_order ls (a ++ b)).
Proof.
  intros W Hl Hc HS Ha Hb.
  pose proof (side_labels nc nt d ls c col (a ++ b) v true W Hl Hc HS) as Ht.
  pose proof (side_labels nc nt d ls c col (a ++ b) v false W Hl Hc HS) as Hf.
  destruct (filter_two (fun p : xr * nat => xleb v (fst p)) a b Ha Hb) as [E1 E2].
  rewrite (filter_ext _ (fun p : xr * nat => xleb v (fst p))) in Ht by (intros p; now destruct (xleb v (fst p))).
  rewrite (filter_ext _ (fun p : xr * nat => negb (xleb v (fst p)))) in Hf by (intros p; now destruct (xleb v (fst p))).
  rewrite E1 in Ht. rewrite E2 in Hf. split; auto. split; auto.
  unfold question_gain, cut_gain.
  assert (L : length col = length ls) by (eapply wf_col_length; eauto; eapply nth_error_In; eauto).
  rewrite <- (total_variance_perm nt _ _ (labels_in_order_perm ls col (a ++ b) HS L)).
  f_equal. unfold labels_in_order. rewrite map_app.
  assert (La : length a = length (map (fun p : xr * nat => nth (snd p) ls []) a)) by now rewrite map_length.
  rewrite La, firstn_app, Nat.sub_diag, firstn_all, skipn_app, skipn_all, Nat.sub_diag. cbn [firstn skipn app].
  rewrite app_nil_r. apply remaining_perm; symmetry; auto.
Qed.

Lemma xr_lens nc nt (d : @dataset xr_ops) ls : wf_dataset nc nt d -> real_labels ls d -> length (feature_rows d) = length ls.
Proof. intros W Hl. rewrite <- (wf_lengths _ _ _ W), Hl. apply map_length. Qed.

(** C12 *)
Theorem gain_bounds_every_question nc nt (d : @dataset xr_ops) ls b q :
  wf_dataset nc nt d -> real_labels ls d -> find_best_split d (N.of_nat nt) = Ok b ->
  exists g, bs_gain b = Fin g /\ question_gain nt q (feature_rows d) ls <= g.
Proof.
  intros W Hl E. destruct (split_exact nc nt d ls b W Hl E) as (g & Eg & Hmax & Hcase). exists g. split; auto.
  assert (Hg : 0 <= g) by (destruct Hcase as [[-> _]|[? _]]; lra).
  assert (HP := sides_partition q (feature_rows d) ls (xr_lens _ _ _ _ W Hl)).
  destruct (labels_answering true q (feature_rows d) ls) as [|lt0 T] eqn:ET.
  { unfold question_gain. rewrite ET. rewrite (gain_empty nt ls _ []) by auto. auto. }
  destruct (labels_answering false q (feature_rows d) ls) as [|lf0 Fl] eqn:EF.
  { unfold question_gain. rewrite ET, EF. rewrite (gain_empty nt ls [] _) by auto. auto. }
  destruct q as [c' v]. set (c := N.to_nat c'). assert (Ec : c' = N.of_nat c) by (unfold c; now rewrite N2Nat.id).
  clearbody c. subst c'.
  (* some row answers yes, so the column exists *)
  assert (Hcol : exists col, nth_error (feature_columns d) c = Some col).
  { assert (Hin : In lt0 (labels_answering true (Question (N.of_nat c) v) (feature_rows d) ls)) by (rewrite ET; now left).
    unfold labels_answering in Hin. apply in_map_iff in Hin as ((row & l) & _ & Hf). apply filter_In in Hf as [Hin Ha].
    cbn [fst] in Ha. unfold answers in Ha. cbn [q_column q_value] in Ha. rewrite Nat2N.id in Ha. xr.
    destruct (nth_error row c) as [x|] eqn:Ex; [|discriminate]. apply in_combine_l in Hin.
    pose proof (wf_rows _ _ _ W) as Hr. unfold rectangular in Hr. rewrite Forall_forall in Hr. specialize (Hr _ Hin).
    assert (c < length row)%nat by (apply nth_error_Some; congruence).
    destruct (nth_error (feature_columns d) c) as [col|] eqn:En; [eauto|]. apply nth_error_None in En.
    destruct (wf_columns _ _ _ W) as [Hlc _]. exfalso. change (length row = nc) in Hr. lia. }
  destruct Hcol as (col & Hcol).
  assert (HS : sorted_version col (the_sort col)).
  { apply (the_sort_spec xr_laws). eapply wf_column_num; eauto. eapply nth_error_In; eauto. }
  destruct (sorted_threshold v (the_sort col) (proj2 HS)) as (a & bb & Er & Ha & Hb).
  rewrite Er in HS. destruct (question_is_cut nc nt d ls c col a bb v W Hl Hcol HS Ha Hb) as (Pa & Pb & Eq).
  rewrite Eq. destruct a as [|m a']; [rewrite EF in Pa; apply Permutation_nil in Pa; discriminate|].
  destruct bb as [|[w id] b']; [rewrite ET in Pb; apply Permutation_nil in Pb; discriminate|].
  apply (Hmax c _ _ w). split; [eauto|]. exists id, m. split; [|split; [reflexivity|]].
  { rewrite nth_error_app2, Nat.sub_diag; auto. }
  inversion Ha as [|? ? Hm _]; subst. inversion Hb as [|? ? Hw _]; subst. cbn [fst] in Hw.
  assert (Hle : xleb (fst m) w = true).
  { destruct HS as [_ HS]. inversion HS as [|? ? _ HF]; subst. rewrite Forall_forall in HF.
    specialize (HF (w, id)). apply (pair_lt_le m (w, id)). apply HF. apply in_or_app. right. now left. }
  unfold xltb. rewrite Hle. cbn [andb]. apply negb_true_iff. destruct (xleb w (fst m)) eqn:Ew; auto.
  rewrite (xleb_trans v w (fst m) Hw Ew) in Hm. discriminate.
Qed.

Lemma question_gain_nonneg nc nt (d : @dataset xr_ops) ls q :
  wf_dataset nc nt d -> real_labels ls d -> 0 <= question_gain nt q (feature_rows d) ls.
Proof. intros W Hl. apply gain_nonneg. apply sides_partition. eapply xr_lens; eauto. Qed.

Lemma xeqb_eq (x y : xr) : xeqb x y = true -> x = y.
Proof.
  unfold xeqb. destruct x as [a| | |], y as [b| | |]; simpl; try discriminate; auto.
  destruct (Rle_dec a b), (Rle_dec b a); simpl; try discriminate. intros _. f_equal. lra.
Qed.

Lemma StronglySorted_app_rel {A} (Rel : A -> A -> Prop) a b :
  StronglySorted Rel (a ++ b) -> forall x y, In x a -> In y b -> Rel x y.
Proof.
  induction a as [|z a IH]; intros H x y Hx Hy; [destruct Hx|].
  inversion H as [|? ? HS HF]; subst. destruct Hx as [->|Hx]; [|now apply IH].
  rewrite Forall_forall in HF. apply HF. apply in_or_app. now right.
Qed.

Lemma StronglySorted_app_r {A} (Rel : A -> A -> Prop) a b : StronglySorted Rel (a ++ b) -> StronglySorted Rel b.
Proof. induction a as [|z a IH]; intros H; auto. inversion H; subst. auto. Qed.

(** Each entry of a sorted column comes from a row. *)
Lemma sorted_entry_row nc nt (d : @dataset xr_ops) c (col : list xr) (r : list (xr * nat)) p :
  wf_dataset nc nt d -> nth_error (feature_columns d) c = Some col -> sorted_version col r -> In p r ->
  exists row, nth_error (feature_rows d) (snd p) = Some row /\ nth_error row c = Some (fst p).
Proof.
  intros W Hc [HP _] Hin. rewrite HP in Hin. unfold value_positions in Hin. destruct p as [x i]. cbn [fst snd]. xr.
  destruct (wf_columns _ _ _ W) as [_ Ht]. destruct (Ht _ _ Hc) as [L H].
  apply In_nth_error in Hin as (n & Hn).
  assert (Hx : nth_error col n = Some x /\ i = n).
  { pose proof Hn as Hn'. apply (f_equal (option_map fst)) in Hn. rewrite <- nth_error_map, map_fst_combine in Hn by now rewrite seq_length.
    apply (f_equal (option_map snd)) in Hn'. rewrite <- nth_error_map, map_snd_combine in Hn' by now rewrite seq_length.
    cbn in Hn, Hn'. split; auto. assert (n < length col)%nat by (apply nth_error_Some; intros HH; rewrite HH in Hn; discriminate). rewrite (nth_error_nth' _ 0%nat) in Hn' by now rewrite seq_length.
    rewrite seq_nth in Hn' by auto. injection Hn' as <-. reflexivity. }
  destruct Hx as [Hx ->]. assert (n < length (feature_rows d))%nat.
  { rewrite <- L. apply (proj1 (nth_error_Some _ _)). intros HH. pose proof (eq_trans (eq_sym HH) Hx) as C. discriminate C. }
  destruct (nth_error (feature_rows d) n) as [row|] eqn:E; [|apply nth_error_None in E; lia].
  exists row. split; auto. destruct (H _ _ E) as [_ H']. exact (eq_trans (eq_sym H') Hx).
Qed.

Lemma nodup_sorted (col : list xr) (r : list (xr * nat)) : sorted_version col r -> NoDup (map snd r).
Proof.
  intros [HP _]. eapply Permutation_NoDup; [symmetry; apply Permutation_map; exact HP|].
  rewrite value_positions_snd. apply seq_NoDup.
Qed.

(** C10 *)
Theorem gain_is_true_gain nc nt (d : @dataset xr_ops) ls b :
  wf_dataset nc nt d -> real_labels ls d -> find_best_split d (N.of_nat nt) = Ok b ->
  (bs_gain b <> Fin 0 -> occurs_once d (bs_question b)) ->
  bs_gain b = Fin (question_gain nt (bs_question b) (feature_rows d) ls).
Proof.
  intros W Hl E Hocc. destruct (split_exact nc nt d ls b W Hl E) as (g & Eg & Hmax & Hcase).
  destruct (gain_bounds_every_question nc nt d ls b (bs_question b) W Hl E) as (g' & Eg' & Hle).
  rewrite Eg in Eg'. injection Eg' as <-. rewrite Eg. f_equal.
  destruct Hcase as [[-> _]|(Hg & j & r & i & v & Hcons & Hcut & Hq & _)].
  - pose proof (question_gain_nonneg nc nt d ls (bs_question b) W Hl). lra.
  - rewrite Hq, <- Hcut. symmetry. destruct Hcons as [(col & Hcol & HS) (id & m & Hi & Hm & Hlt)].
    assert (Hocc' : occurs_once d (bs_question b)).
    { apply Hocc. rewrite Eg. intros E0. injection E0 as ->. lra. }
    rewrite Hq in Hocc'. clear Hocc.
    destruct (nth_error_split _ _ Hi) as (a & post & -> & <-).
    destruct (question_is_cut nc nt d ls j col a ((v, id) :: post) v W Hl Hcol HS) as (_ & _ & Eq); auto.
    + apply Forall_forall. intros p Hp. destruct (xleb v (fst p)) eqn:Ev; auto. exfalso.
      pose proof (StronglySorted_app_rel _ _ _ (proj2 HS) p (v, id) Hp (or_introl eq_refl)) as Hrel.
      assert (Eqv : fst p = v).
      { apply xeqb_eq. unfold xeqb. rewrite Ev. pose proof (pair_lt_le p (v, id) Hrel) as Hle'. cbn [fst] in Hle'. now rewrite Hle'. }
      destruct (sorted_entry_row nc nt d j col _ p W Hcol HS) as (row & Hr1 & Hr2); [apply in_or_app; now left|].
      destruct (sorted_entry_row nc nt d j col _ (v, id) W Hcol HS) as (row' & Hr1' & Hr2'); [apply in_or_app; right; now left|].
      cbn [fst snd] in *. rewrite Eqv in Hr2.
      assert (Eid : snd p = id).
      { eapply (Hocc' (snd p) id row row'); eauto; cbn [q_column q_value]; rewrite Nat2N.id; auto. }
      pose proof (nodup_sorted _ _ HS) as Hnd. rewrite map_app in Hnd. cbn [map snd] in Hnd.
      apply NoDup_remove_2 in Hnd. apply Hnd. apply in_or_app. left. apply in_map_iff. exists p. auto.
    + constructor.
      * cbn [fst]. unfold xltb in Hlt. apply andb_true_iff in Hlt as [Hlt _]. exact (fleb_nan_r _ xr_laws (fst m) v Hlt).
      * pose proof (StronglySorted_app_r _ _ _ (proj2 HS)) as HS'. inversion HS' as [|? ? _ HF]; subst.
        eapply Forall_impl; [|exact HF]. intros p Hp. exact (pair_lt_le (v, id) p Hp).
Qed.

Lemma distinct_occurs_once nc nt (d : @dataset xr_ops) ls b :
  wf_dataset nc nt d -> real_labels ls d -> find_best_split d (N.of_nat nt) = Ok b ->
  distinct_above_minimum d -> bs_gain b <> Fin 0 -> occurs_once d (bs_question b).
Proof.
  intros W Hl E Hd Hne. destruct (split_exact nc nt d ls b W Hl E) as (g & Eg & _ & Hcase).
  destruct Hcase as [[-> _]|(Hg & j & r & i & v & [(col & Hcol & HS) (id & m & Hi & Hm & Hlt)] & Hcut & Hq & _)]; [congruence|].
  rewrite Hq. intros i1 i2 r1 r2 H1 H2 V1 V2. cbn [q_column q_value] in V1, V2. rewrite Nat2N.id in V1, V2.
  destruct (Nat.eq_dec i1 i2) as [|Hneq]; auto. exfalso.
  destruct r as [|m' r']; [discriminate|]. injection Hm as ->.
  destruct (sorted_entry_row nc nt d j col _ m W Hcol HS (or_introl eq_refl)) as (rm & Hrm & Hvm).
  exact (Hd j i1 i2 r1 r2 v v (fst m) rm H1 H2 V1 V2 Hneq (nth_error_In _ _ Hrm) Hvm Hlt eq_refl).
Qed.

(** C11 *)
Theorem split_optimal nc nt (d : @dataset xr_ops) ls b q :
  wf_dataset nc nt d -> real_labels ls d -> find_best_split d (N.of_nat nt) = Ok b ->
  (bs_gain b <> Fin 0 -> occurs_once d (bs_question b)) ->
  question_gain nt q (feature_rows d) ls <= question_gain nt (bs_question b) (feature_rows d) ls.
Proof.
  intros W Hl E Hocc. pose proof (gain_is_true_gain nc nt d ls b W Hl E Hocc) as Eg.
  destruct (gain_bounds_every_question nc nt d ls b q W Hl E) as (g & Eg' & Hle). rewrite Eg in Eg'. injection Eg' as ->. exact Hle.
Qed.

(** C14 *)
Lemma tsse_const k ls l : (forall x, In x ls -> x = l) -> tsse k ls = 0.
Proof.
  intros H. unfold tsse. transitivity (Rsum (map (fun _ : nat => 0) (seq 0 k))); [|rewrite Rsum_map_const; lra].
  apply Rsum_map_ext. intros t _. pose proof (sse_le_dev (nth t l 0) (target t ls)) as H1.
  pose proof (dev_nonneg (mean (target t ls)) (target t ls)) as H2. fold (sse (target t ls)) in H2.
  assert (E : dev (nth t l 0) (target t ls) = 0); [|lra].
  unfold dev, target. rewrite map_map. transitivity (Rsum (map (fun _ : list R => 0) ls)); [|rewrite Rsum_map_const; lra].
  apply Rsum_map_ext. intros x Hx. rewrite (H x Hx). lra.
Qed.

Theorem pure_no_gain nc nt (d : @dataset xr_ops) ls l b :
  wf_dataset nc nt d -> real_labels ls d -> (forall x, In x ls -> x = l) -> find_best_split d (N.of_nat nt) = Ok b ->
  bs_gain b = Fin 0.
Proof.
  intros W Hl Hc E. destruct (split_exact nc nt d ls b W Hl E) as (g & Eg & Hmax & Hcase).
  destruct Hcase as [[-> _]|(Hg & j & r & i & v & [(col & Hcol & HS) _] & Hcut & _)]; auto. exfalso.
  destruct (real_rect _ _ _ _ W Hl) as [_ Hne].
  assert (L : length col = length ls) by (eapply wf_col_length; eauto; eapply nth_error_In; eauto).
  unfold cut_gain in Hcut. rewrite <- (total_variance_perm nt _ _ (labels_in_order_perm ls col r HS L)) in Hcut.
  rewrite (total_variance_tsse nt ls Hne), (tsse_const nt ls l Hc) in Hcut.
  pose proof (remaining_nonneg nt (firstn i (labels_in_order ls r)) (skipn i (labels_in_order ls r))).
  unfold Rdiv in Hcut. lra.
Qed.

Theorem pure_leaf nc nt (d : @dataset xr_ops) ls l cfg :
  wf_dataset nc nt d -> real_labels ls d -> (forall x, In x ls -> x = l) -> standard cfg -> tc_number_of_classes cfg = N.of_nat nt ->
  exists q, regression_tree_new d cfg = Ok (leaf_node q (mkRL (Some d))).
Proof.
  intros W Hl Hc Hs Hk. rewrite regression_tree_new_eq. unfold fuel_for. cbn [build_with].
  destruct (split_usable xr_laws nc nt d W) as (b & Eb & _).
  pose proof (pure_no_gain nc nt d ls l b W Hl Hc Eb) as Eg.
  rewrite Hs, Hk. change (split_finder_new Variance d (N.of_nat nt)) with (find_best_split d (N.of_nat nt)). rewrite Eb. cbn [bind].
  assert (E0 : feqb (bs_gain b) f0 = true) by (rewrite Eg; apply xeqb_Fin; reflexivity). unfold stop_here. rewrite E0. cbn [orb].
  eexists. reflexivity.
Qed.

(* ------------------------------------------------------------------ *)
(** ** Row order *)

Lemma best_upto_unique k all prev n b b' : best_upto k all prev n b -> best_upto k all prev n b' -> b = b'.
Proof.
  intros [[H N]|(i & v & Hi & Hc & H & H1 & H2)] [[H' N']|(i' & v' & Hi' & Hc' & H' & H1' & H2')].
  - congruence.
  - exfalso. now apply (N i' v').
  - exfalso. now apply (N' i v).
  - assert (E : i = i').
    { destruct (Nat.lt_trichotomy i i') as [Hlt|[|Hlt]]; auto; exfalso.
      - specialize (H2' i v Hlt Hc). specialize (H1 i' v' Hi' Hc'). lra.
      - specialize (H2 i' v' Hlt Hc'). specialize (H1' i v Hi Hc). lra. }
    subst i'. destruct Hc as (l & Hc & _), Hc' as (l' & Hc' & _). rewrite Hc in Hc'. injection Hc' as <- _. congruence.
Qed.

Definition le_fst {B} (a b : xr * B) : Prop := xleb (fst a) (fst b) = true.

Lemma xleb_antisym x y : xleb x y = true -> xleb y x = true -> x = y.
Proof. intros H1 H2. apply xeqb_eq. unfold xeqb. now rewrite H1, H2. Qed.

Lemma sorted_perm_values {B} (a b : list (xr * B)) :
  StronglySorted le_fst a -> StronglySorted le_fst b -> Permutation a b -> map fst a = map fst b.
Proof.
  revert b. induction a as [|x a IH]; intros b Sa Sb HP.
  - apply Permutation_nil in HP. now subst.
  - assert (Hx : In x b) by (rewrite <- HP; now left).
    destruct b as [|y b]; [destruct Hx|].
    inversion Sa as [|? ? Sa' Fa]; subst. inversion Sb as [|? ? Sb' Fb]; subst.
    rewrite Forall_forall in Fa, Fb.
    assert (Ev : fst x = fst y).
    { assert (Hy : In y (x :: a)) by (rewrite HP; now left).
      destruct Hx as [->|Hx]; auto. destruct Hy as [->|Hy]; auto.
      apply xleb_antisym; [exact (Fa y Hy)|exact (Fb x Hx)]. }
    (* move x to the front of y :: b *)
    cbn [map]. rewrite Ev. f_equal.
    assert (HPv : Permutation (map fst a) (map fst b)).
    { apply (Permutation_map fst) in HP. cbn [map] in HP. rewrite Ev in HP. now apply Permutation_cons_inv in HP. }
    clear -Sa' Sb' HPv.
    assert (G : forall c : list (xr * B), StronglySorted le_fst c -> StronglySorted (fun u v => xleb u v = true) (map fst c)).
    { induction 1 as [|z c Hc IHc Fc]; [constructor|]. cbn [map]. constructor; auto. rewrite Forall_map. exact Fc. }
    apply G in Sa', Sb'. revert Sa' Sb' HPv. generalize (map fst a) as u. generalize (map fst b) as w. clear.
    intros w u. revert w. induction u as [|p u IH]; intros w Su Sw HP.
    + apply Permutation_nil in HP. now subst.
    + destruct w as [|q w]; [apply Permutation_sym, Permutation_nil in HP; discriminate|].
      inversion Su as [|? ? Su' Fu]; subst. inversion Sw as [|? ? Sw' Fw]; subst. rewrite Forall_forall in Fu, Fw.
      assert (E : p = q).
      { assert (H1 : In p (q :: w)) by (rewrite <- HP; now left).
        assert (H2 : In q (p :: u)) by (rewrite HP; now left).
        destruct H1 as [->|H1]; auto. destruct H2 as [->|H2]; auto. apply xleb_antisym; auto. }
      subst. f_equal. apply IH; auto. now apply Permutation_cons_inv in HP.
Qed.

Lemma ordered_sorted (ls : list (list R)) (col : list xr) r : sorted_version col r -> StronglySorted le_fst (ordered ls r).
Proof.
  intros [_ H]. unfold ordered. induction H as [|p r Hr IH HF]; [constructor|]. cbn [map]. constructor; auto.
  rewrite Forall_map. eapply Forall_impl; [|exact HF]. intros q Hq. unfold le_fst. cbn [fst]. exact (pair_lt_le p q Hq).
Qed.

(** The (value, label) pairs of a column. *)
Lemma ordered_perm (ls : list (list R)) (col : list xr) (r : list (xr * nat)) :
  sorted_version col r -> length col = length ls -> Permutation (ordered ls r) (combine col ls).
Proof.
  intros [HP _] L. unfold ordered. rewrite (Permutation_map _ HP). unfold value_positions. xr. rewrite L.
  apply perm_eq'. etransitivity; [symmetry; apply (combine_map_r (fun i => nth i ls []))|]. now rewrite map_nth_seq.
Qed.

Lemma nth_error_le_fst (a : list (xr * list R)) i j p q :
  StronglySorted le_fst a -> nth_error a i = Some p -> nth_error a j = Some q -> (i < j)%nat -> le_fst p q.
Proof.
  intros HS. revert i j. induction HS as [|x a HS IH HF]; intros [|i] [|j] Hi Hj Hlt; try lia; try discriminate.
  - injection Hi as ->. simpl in Hj. rewrite Forall_forall in HF. apply HF. eapply nth_error_In; eauto.
  - simpl in Hi, Hj. apply (IH i j); auto. lia.
Qed.

Lemma skipn_ext {A} i (a b : list A) : (forall n, (i <= n)%nat -> nth_error a n = nth_error b n) -> skipn i a = skipn i b.
Proof.
  intros H. apply nth_error_ext. intros n. rewrite !nth_error_skipn_add. apply H. lia.
Qed.

Lemma best_upto_transfer k (a a' : list (xr * list R)) prev n b :
  StronglySorted le_fst a -> StronglySorted le_fst a' -> Permutation a a' ->
  (forall v l l', In (v, l) a -> In (v, l') a -> xltb prev v = true -> l = l') ->
  (forall p, In p a -> xleb prev (fst p) = true) ->
  best_upto k a prev n b -> best_upto k a' prev n b.
Proof.
  intros Sa Sa' HP Hag Hmin.
  pose proof (sorted_perm_values a a' Sa Sa' HP) as Ev.
  assert (Hv : forall i, option_map fst (nth_error a i) = option_map fst (nth_error a' i)).
  { intros i. rewrite <- !nth_error_map. now rewrite Ev. }
  assert (Hcut : forall i v, cut a prev i v <-> cut a' prev i v).
  { intros i v. specialize (Hv i). unfold cut. split; intros (l & E & Hne); rewrite E in Hv; cbn in Hv.
    - destruct (nth_error a' i) as [[v' l']|]; [|discriminate]. cbn in Hv. injection Hv as <-. eauto.
    - destruct (nth_error a i) as [[v' l']|]; [|discriminate]. cbn in Hv. injection Hv as ->. eauto. }
  assert (Hcost : forall i v, cut a prev i v -> cost k a i = cost k a' i).
  { intros i v (l & E & Hne).
    assert (Hlt : xltb prev v = true).
    { unfold xltb. unfold xeqb in Hne. pose proof (Hmin _ (nth_error_In _ _ E)) as Hm. cbn [fst] in Hm. rewrite Hm in *.
      rewrite andb_true_r in Hne. now rewrite Hne. }
    assert (Esk : skipn i a = skipn i a').
    { apply skipn_ext. intros m Hm. specialize (Hv m).
      destruct (nth_error a m) as [[w lw]|] eqn:Em; destruct (nth_error a' m) as [[w' lw']|] eqn:Em'; cbn in Hv; try discriminate; auto.
      injection Hv as <-. f_equal. f_equal. apply (Hag w).
      - eapply nth_error_In; eauto.
      - rewrite HP. eapply nth_error_In; eauto.
      - destruct (Nat.eq_dec m i) as [->|]; [rewrite E in Em; injection Em as <- _; auto|].
        pose proof (nth_error_le_fst a i m _ _ Sa E Em ltac:(lia)) as Hle. unfold le_fst in Hle. cbn [fst] in Hle.
        unfold xltb in *. apply andb_true_iff in Hlt as [H1 H2]. rewrite (xleb_trans _ _ _ H1 Hle). cbn [andb].
        apply negb_true_iff in H2. apply negb_true_iff. destruct (xleb w prev) eqn:Ew; auto.
        rewrite (xleb_trans _ _ _ Hle Ew) in H2. discriminate. }
    assert (Efn : Permutation (firstn i a) (firstn i a')).
    { apply (Permutation_app_inv_r (skipn i a')). rewrite <- Esk at 1. now rewrite !firstn_skipn. }
    unfold cost. rewrite !firstn_map, !skipn_map, Esk. apply remaining_perm; auto. now apply Permutation_map. }
  intros [[H N]|(i & v & Hi & Hc & H & H1 & H2)].
  - left. split; auto. intros i v Hi Hc. apply (N i v); auto. now apply Hcut.
  - right. exists i, v. split; auto. split; [now apply Hcut|]. split; [rewrite <- (Hcost i v Hc); auto|]. split.
    + intros j w Hj Hw. apply Hcut in Hw. rewrite <- (Hcost i v Hc), <- (Hcost j w Hw). eauto.
    + intros j w Hj Hw. apply Hcut in Hw. rewrite <- (Hcost i v Hc), <- (Hcost j w Hw). eauto.
Qed.

(** C16 *)
Theorem row_order_irrelevant nc nt (d d' : @dataset xr_ops) ls :
  wf_dataset nc nt d -> wf_dataset nc nt d' -> real_labels ls d -> ties_agree d ->
  Permutation (samples d) (samples d') ->
  find_best_split d' (N.of_nat nt) = find_best_split d (N.of_nat nt).
Proof.
  intros W W' Hl Hag HP.
  assert (HPl : Permutation (labels d) (labels d')).
  { apply (Permutation_map snd) in HP. unfold samples in HP.
    rewrite !map_snd_combine in HP by (symmetry; apply (wf_lengths nc nt); auto). exact HP. }
  assert (Hl' : exists ls', real_labels ls' d' /\ Permutation ls ls').
  { rewrite Hl in HPl. apply Permutation_sym, Permutation_map_inv in HPl as (ls' & E & HP'). exists ls'. split; auto. }
  destruct Hl' as (ls' & Hl' & HPls).
  rewrite (find_best_split_eq xr_laws nc nt d W), (find_best_split_eq xr_laws nc nt d' W'). f_equal.
  destruct (real_rect _ _ _ _ W Hl) as [Hr Hne]. destruct (real_rect _ _ _ _ W' Hl') as [Hr' Hne'].
  unfold pfind. f_equal.
  { rewrite Hl, Hl'. rewrite !ptotal_variance_exact by auto. f_equal. now apply total_variance_perm. }
  unfold dvls. rewrite !map_map. apply nth_error_ext. intros j. rewrite !nth_error_map.
  pose proof (proj1 (wf_columns _ _ _ W)) as Lc. pose proof (proj1 (wf_columns _ _ _ W')) as Lc'.
  destruct (nth_error (feature_columns d) j) as [col|] eqn:Ec; destruct (nth_error (feature_columns d') j) as [col'|] eqn:Ec'; cbn [option_map]; auto.
  2:{ apply nth_error_None in Ec'. assert (j < length (feature_columns d))%nat by (apply nth_error_Some; congruence). lia. }
  2:{ apply nth_error_None in Ec. assert (j < length (feature_columns d'))%nat by (apply nth_error_Some; congruence). lia. }
  f_equal.
  assert (HS : sorted_version col (the_sort col)).
  { apply (the_sort_spec xr_laws). exact (wf_column_num nc nt d col W (nth_error_In _ _ Ec)). }
  assert (HS' : sorted_version col' (the_sort col')).
  { apply (the_sort_spec xr_laws). exact (wf_column_num nc nt d' col' W' (nth_error_In _ _ Ec')). }
  assert (L : length col = length ls) by exact (wf_col_length nc nt d ls col W Hl (nth_error_In _ _ Ec)).
  assert (L' : length col' = length ls') by exact (wf_col_length nc nt d' ls' col' W' Hl' (nth_error_In _ _ Ec')).
  set (a := ordered ls (the_sort col)). set (a' := ordered ls' (the_sort col')).
  assert (Hcomb : forall dd ll cc, wf_dataset nc nt dd -> real_labels ll dd -> nth_error (feature_columns dd) j = Some cc ->
     map fin_row (combine cc ll) = map (fun p => (nth j (fst p) (Fin 0), snd p)) (samples dd)).
  { intros dd ll cc Wd Hd Hcc. unfold samples. rewrite Hd.
    rewrite (column_is_map nc _ _ j cc (wf_rows _ _ _ Wd) (wf_columns _ _ _ Wd) Hcc).
    rewrite combine_map_l, combine_map_r, !map_map. reflexivity. }
  assert (Hfin_inj : forall u w : list (xr * list R), Permutation (map fin_row u) (map fin_row w) -> Permutation u w).
  { intros u w H. apply Permutation_map_inv in H as (w' & E & Hw).
    transitivity w'; [|now symmetry]. apply perm_eq'.
    assert (Inj : forall p q, fin_row p = fin_row q -> p = q).
    { intros [x1 l1] [x2 l2]. unfold fin_row. cbn [fst snd]. intros EE. injection EE as -> El. f_equal.
      revert l2 El. induction l1 as [|y l1 IH]; intros [|y' l2] El; try discriminate; auto.
      injection El as -> El. f_equal. auto. }
    clear -E Inj. revert w' E. induction u as [|p u IH]; intros [|q w'] E; try discriminate; auto.
    injection E as E1 E2 E3. f_equal; auto. apply Inj. unfold fin_row. congruence. }
  assert (HPa : Permutation a a').
  { unfold a, a'. rewrite (ordered_perm ls col _ HS L), (ordered_perm ls' col' _ HS' L').
    apply Hfin_inj. etransitivity; [apply perm_eq'; exact (Hcomb d ls col W Hl Ec)|].
    etransitivity; [|apply perm_eq'; symmetry; exact (Hcomb d' ls' col' W' Hl' Ec')]. now apply Permutation_map. }
  destruct (considered_cut nc nt d ls j col _ W Hl Ec HS) as (m & Hm & Hnum & Hhd & _).
  destruct (considered_cut nc nt d' ls' j col' _ W' Hl' Ec' HS') as (m' & Hm' & Hnum' & Hhd' & _).
  assert (Sa : StronglySorted le_fst a) by (eapply ordered_sorted; eauto).
  assert (Sa' : StronglySorted le_fst a') by (eapply ordered_sorted; eauto).
  assert (Em : fst m' = fst m).
  { pose proof (sorted_perm_values a a' Sa Sa' HPa) as Ev. fold a in Hhd. fold a' in Hhd'.
    destruct a as [|p a0]; [discriminate|]. destruct a' as [|p' a0']; [discriminate|].
    injection Hhd as ->. injection Hhd' as ->. cbn [map fst] in Ev. now injection Ev as ->. }
  assert (HB := pcolumn_exact nt ls a (fst m, nth (snd m) ls []) Hr Hne).
  assert (HB' := pcolumn_exact nt ls' a' (fst m', nth (snd m') ls' []) Hr' Hne').
  unfold a in HB at 1. unfold a' in HB' at 1. rewrite ordered_labels in HB, HB'.
  specialize (HB (labels_in_order_perm ls col _ HS L) Hhd). specialize (HB' (labels_in_order_perm ls' col' _ HS' L') Hhd').
  cbn [fst] in HB, HB'.
  assert (Hn : forall x, is_num (x : xr) -> xeqb x x = true).
  { intros x Hx. unfold xeqb. unfold is_num in Hx. change (@fleb xr_ops) with xleb in Hx. now rewrite Hx. }
  specialize (HB (Hn _ Hnum)). specialize (HB' (Hn _ Hnum')). rewrite Em in HB'.
  rewrite <- (Permutation_length HPa) in HB'.
  transitivity (pcolumn nt (map (map Fin) ls') (map fin_row a')).
  { rewrite Hl'. unfold a'. f_equal. apply vls_ordered. }
  transitivity (pcolumn nt (map (map Fin) ls) (map fin_row a)).
  2:{ rewrite Hl. unfold a. f_equal. symmetry. apply vls_ordered. }
  symmetry. eapply best_upto_unique; [|exact HB'].
  eapply best_upto_transfer; [exact Sa|exact Sa'|exact HPa| | |exact HB].
  - intros v l l' H1 H2 Hlt.
    assert (Hj : (j < nc)%nat) by (rewrite <- Lc; apply nth_error_Some; congruence).
    assert (Hs : forall l, In (v, l) a -> exists row, In (row, map Fin l) (samples d) /\ nth_error row j = Some v).
    { intros l0 Hin. unfold a in Hin. rewrite (ordered_perm ls col _ HS L) in Hin.
      apply (in_map fin_row) in Hin. pose proof (Hcomb d ls col W Hl Ec) as Hcc. xr. rewrite Hcc in Hin.
      apply in_map_iff in Hin as ((row & lr) & E & Hin). unfold fin_row in E. cbn [fst snd] in E. injection E as E1 E2. subst lr.
      exists row. split; auto. rewrite <- E1. apply nth_error_nth'.
      unfold samples in Hin. apply in_combine_l in Hin.
      pose proof (wf_rows _ _ _ W) as Hrr. unfold rectangular in Hrr. rewrite Forall_forall in Hrr. specialize (Hrr _ Hin).
      clear -Hj Hrr. xr. cbv beta in Hrr. lia. }
    destruct (Hs l H1) as (row & I1 & V1). destruct (Hs l' H2) as (row' & I2 & V2).
    assert (Hmr : In m (the_sort col)) by (destruct (the_sort col); [discriminate|]; injection Hm as ->; now left).
    destruct (sorted_entry_row nc nt d j col _ m W Ec HS Hmr) as (rm & Hrm & Hvm).
    assert (E : map Fin l = map Fin l') by exact (Hag j row _ row' _ v (fst m) rm I1 I2 V1 V2 (nth_error_In _ _ Hrm) Hvm Hlt).
    clear -E. revert l' E. induction l as [|x l IH]; intros [|y l'] E; try discriminate; auto.
    injection E as -> E. f_equal; auto.
  - intros p Hp. fold a in Hhd. apply In_nth_error in Hp as (i & Hi).
    destruct i as [|i].
    + destruct a; [discriminate|]. injection Hi as <-. injection Hhd as ->. exact Hnum.
    + assert (H0 : nth_error a 0 = Some (fst m, nth (snd m) ls [])) by (destruct a; [discriminate|exact Hhd]).
      exact (nth_error_le_fst a 0 (S i) _ _ Sa H0 Hi ltac:(lia)).
Qed.

Theorem zero_gain_nothing nc nt (d : @dataset xr_ops) ls b :
  wf_dataset nc nt d -> real_labels ls d -> find_best_split d (N.of_nat nt) = Ok b -> feqb (bs_gain b) f0 = true ->
  forall q, question_gain nt q (feature_rows d) ls = 0.
Proof.
  intros W Hl E Hz q. destruct (gain_bounds_every_question nc nt d ls b q W Hl E) as (g & Eg & Hle).
  rewrite Eg in Hz. apply xeqb_Fin in Hz. pose proof (question_gain_nonneg nc nt d ls q W Hl). lra.
Qed.
