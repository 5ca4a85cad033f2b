(** A class that no training row has, in exact arithmetic (C107). *)
From Coq Require Import Reals Lra Lia.
From Verif Require Import Base Num ModelCommon ModelTree ModelBoost Lib XR Spec SpecTree SpecExact SpecScore SpecFit SpecError SpecClass SpecAffine SpecGradient SpecLoss ProofReal ProofSort ProofData
  ProofSplit ProofSplit2 ProofTree ProofTree3 ProofScore ProofScore2 ProofSplitExact ProofSplitExact2 ProofTreeExact ProofScoreExact ProofBoost ProofBoost2 ProofLeaf ProofBoostExact
  ProofBalance ProofClassExact ProofClassRun ProofGradient ProofDescent ProofLoss ProofShift ProofAmgSum.
Local Open Scope R_scope.

Definition absent (j : nat) (d : @dataset xr_ops) : Prop := Forall (fun y => nth_error y j = Some (Fin 0)) (labels d).

Section Leaf.
Variables (k j : nat) (gs : list (list R * nat)).
Hypotheses (Hk : (2 <= k)%nat) (Hj : (j < k)%nat) (Hgs : forall p, In p gs -> length (fst p) = k /\ (snd p < k)%nat /\ snd p <> j) (Hne : gs <> []).

Let group := map (residual k) gs.

Lemma absent_entries x : In x (target j group) -> -1 < x < 0.
Proof.
  unfold target, group. rewrite map_map. intros H. apply in_map_iff in H as (p & <- & Hp). destruct (Hgs p Hp) as (L & _ & N).
  rewrite residual_nth by auto. apply Nat.eqb_neq in N. rewrite N. pose proof (probability_bounds (fst p) j ltac:(lia) ltac:(lia)). lra.
Qed.

Lemma absent_sums : Rsum (target j group) <= - curvature (target j group) /\ 0 < curvature (target j group).
Proof.
  pose proof absent_entries as H. assert (Ht : target j group <> []) by (unfold target, group; destruct gs; [congruence|discriminate]). revert H Ht. unfold curvature.
  generalize (target j group). intros l H Ht. split.
  - clear Ht. induction l as [|x l IH]; [unfold Rsum; cbn; lra|]. cbn [map]. rewrite !Rsum_cons. pose proof (H x (or_introl eq_refl)). specialize (IH ltac:(intros; apply H; now right)).
    rewrite (Rabs_left x) by lra. nra.
  - apply (curvature_pos l Ht). intros x Hx. specialize (H x Hx). lra.
Qed.

Lemma absent_output : nth j (class_output k group) 0 <= - ((INR k - 1) / INR k).
Proof.
  destruct absent_sums as [A B]. rewrite class_output_nth by auto. pose proof (INR_ge2 k Hk) as K.
  assert (P : 0 < (INR k - 1) / INR k) by (apply Rdiv_lt_0_compat; lra).
  assert (Q : Rsum (target j group) / curvature (target j group) <= -1).
  { apply Rmult_le_reg_r with (curvature (target j group)); auto. unfold Rdiv. rewrite Rmult_assoc, Rinv_l by lra. lra. }
  nra.
Qed.

Lemma group_residual : Forall (residual_vector k) group.
Proof. unfold group. apply Forall_map, Forall_forall. intros p Hp. destruct (Hgs p Hp) as (L & C & _). now apply residual_is. Qed.

(** Some class gains. *)
Lemma some_gain : exists i, (i < k)%nat /\ 0 < nth i (class_output k group) 0.
Proof.
  assert (T : Rsum (map (fun i => Rsum (target i group)) (seq 0 k)) = 0).
  { pose proof group_residual as HR. unfold target. rewrite <- (Rsum_swap (fun r i => nth i r 0) group (seq 0 k)).
    rewrite (Rsum_map_ext _ (fun _ => 0)); [rewrite Rsum_map_const; ring|]. intros r Hr. destruct (proj1 (Forall_forall _ _) HR r Hr) as (L & _ & S).
    transitivity (Rsum r); [|exact S]. f_equal. rewrite <- L. apply (nth_ext _ _ 0 0); [now rewrite map_length, seq_length|].
    intros i Hi. rewrite map_length, seq_length in Hi. rewrite (nth_indep _ 0 (nth 0 r 0)) by (rewrite map_length, seq_length; lia).
    rewrite (map_nth (fun i => nth i r 0)), seq_nth by lia. reflexivity. }
  assert (G : exists i, (i < k)%nat /\ 0 < Rsum (target i group)).
  { destruct absent_sums as [A B]. assert (E : In j (seq 0 k)) by (apply in_seq; lia).
    assert (H : forall l, In j l -> (forall i, In i l -> Rsum (target i group) <= 0) -> Rsum (map (fun i => Rsum (target i group)) l) < 0).
    { induction l as [|a l IH]; intros Hin Hall; [destruct Hin|]. cbn [map]. rewrite Rsum_cons. pose proof (Hall a (or_introl eq_refl)) as Ha.
      assert (N : Rsum (map (fun i => Rsum (target i group)) l) <= 0).
      { clear -Hall. induction l as [|b l IH]; [unfold Rsum; cbn; lra|]. cbn [map]. rewrite Rsum_cons. pose proof (Hall b (or_intror (or_introl eq_refl))).
        assert (Rsum (map (fun i => Rsum (target i group)) l) <= 0); [|lra]. apply IH. intros i [->|Hi]; apply Hall; [now left|right; now right]. }
      destruct Hin as [->|Hin]; [lra|]. specialize (IH Hin ltac:(intros; apply Hall; now right)). lra. }
    destruct (Exists_dec (fun i => 0 < Rsum (target i group)) (seq 0 k)) as [X|X].
    { intros i. destruct (Rlt_dec 0 (Rsum (target i group))); [left|right]; auto. }
    - apply Exists_exists in X as (i & Hi & P). apply in_seq in Hi. exists i. split; [lia|exact P].
    - exfalso. specialize (H (seq 0 k) E). rewrite T in H. apply (Rlt_irrefl 0). apply H. intros i Hi. apply Rnot_lt_le. intros P. apply X, Exists_exists. eauto. }
  destruct G as (i & Hi & P). exists i. split; [exact Hi|]. rewrite class_output_nth by auto. pose proof (INR_ge2 k Hk) as K.
  assert (C : 0 < curvature (target i group)).
  { apply curvature_pos; [unfold target, group; destruct gs; [congruence|discriminate]|]. apply (target_residual k); auto using group_residual. }
  apply Rmult_lt_0_compat; apply Rdiv_lt_0_compat; lra.
Qed.
End Leaf.

(** What a tree of an AMG ensemble does to the absent class. *)
Definition last_place (k j : nat) (o : list R) : Prop := length o = k /\ Rsum o = 0 /\ nth j o 0 < 0 /\ forall i, (i < k)%nat -> nth j o 0 <= nth i o 0.

Lemma approx_last k j c m : (2 <= k)%nat -> (j < k)%nat -> (c < k)%nat -> c <> j -> 0 < m -> last_place k j (approx k c m).
Proof.
  intros Hk Hj Hc N Hm. pose proof (INR_ge2 k Hk) as K. assert (Q : 0 < m / (INR k - 1)) by (apply Rdiv_lt_0_compat; lra).
  assert (E : - m / (INR k - 1) = - (m / (INR k - 1))) by (field; lra).
  split; [apply approx_length|]. split; [now apply approx_sum|]. rewrite approx_nth by auto. destruct (Nat.eqb_spec j c) as [X|_]; [congruence|]. rewrite E.
  split; [lra|]. intros i Hi. rewrite approx_nth by auto. destruct (i =? c)%nat; rewrite ?E; lra.
Qed.

Section Run.
Variables (nc nt : nat) (d : @dataset xr_ops) (cfg : @tree_config xr_ops) (n : nat) (lr : R) (j : nat).
Hypotheses (Hk : (2 <= nt)%nat) (Hz : (Z.of_nat nt <= 2 ^ 53)%Z) (W : wf_dataset nc nt d) (HO : one_hot_labels nt d) (Hj : (j < nt)%nat) (Ha : absent j d).

Lemma absent_classes : exists cs, real_labels (map (hot nt) cs) d /\ Forall (fun c => (c < nt)%nat) cs /\ ~ In j cs.
Proof.
  destruct (one_hot_labels_real nt d HO) as (cs & El & Hcs). exists cs. split; [exact El|]. split; [exact Hcs|]. intros Hin.
  unfold absent in Ha. unfold real_labels in El. rewrite El in Ha.
  assert (X : nth_error (map Fin (hot nt j)) j = Some (Fin 0)) by (apply (proj1 (Forall_forall _ _) Ha); apply in_map, in_map; exact Hin).
  rewrite nth_error_map, (nth_error_nth' _ 0) in X by (now rewrite hot_length). rewrite hot_nth, Nat.eqb_refl in X by auto. injection X as X. lra.
Qed.

Lemma absent_group {L} cs ss row (t : tree_node L) x : real_labels (map (hot nt) cs) d -> Forall (fun c => (c < nt)%nat) cs -> ~ In j cs ->
  rectangular nt ss -> length ss = length (feature_rows d) -> wf_dataset nc nt x -> real_labels (rl x) x ->
  samples x = samples_like row t (fitted d (map (map Fin) ss)) ->
  exists gs, rl x = map (residual nt) gs /\ gs <> [] /\ forall p, In p gs -> length (fst p) = nt /\ (snd p < nt)%nat /\ snd p <> j.
Proof.
  intros El Hcs Hn Rs Ls Wx Lx Sx. destruct (leaf_group nc nt d cs ss Hk W El Rs Ls row t x Wx Lx Sx) as [Eg Hne].
  exists (map snd (reaching d cs ss row t)). split; [exact Eg|]. split; [exact Hne|]. intros p Hp. apply in_map_iff in Hp as (q & <- & Hq).
  destruct (reaching_In nc nt d cs ss W El Ls row t q Hq) as (A & B & _). split; [exact (proj1 (Forall_forall _ _) Rs _ A)|]. split; [exact (proj1 (Forall_forall _ _) Hcs _ B)|congruence].
Qed.

Lemma amg_absent_outputs m row : amg_boost_train d cfg n (Fin lr) = Ok m -> (nc <= length row)%nat -> forall k, (k <= n)%nat ->
  exists os, Forall2 (fun t o => @amg_out xr_ops nt row t = Ok (map Fin o)) (firstn k (m_trees m)) os /\ Forall (last_place nt j) os.
Proof.
  intros E Hrow. destruct absent_classes as (cs & El & Hcs & Hn). induction k as [|k IH]; intros Hkn; [exists []; split; constructor|].
  destruct (IH ltac:(lia)) as (os & A & B).
  destruct (amg_stage_exact nc nt d cfg n lr m k Hk Hz W HO E Hkn) as (ss & t & Es & Ht & Rs & Ls & Bt).
  destruct (fitted_ok nc nt d ss Hk W HO Rs Ls) as (r & _ & Wr & Lr & Rr & _).
  destruct (amg_class_out nc nt _ _ _ _ row Hk Wr Lr Rr Bt Hrow) as (x & c & Hc & Ef & Em & _ & Sx & Wx & Lx).
  destruct (absent_group cs ss row t x El Hcs Hn Rs Ls Wx Lx Sx) as (gs & Eg & Hne & Hgs). rewrite Eg in *.
  pose proof (absent_output nt j gs Hk Hj Hgs Hne) as AO. destruct (some_gain nt j gs Hk Hj Hgs Hne) as (i & Hi & GP).
  pose proof (INR_ge2 nt Hk) as K. assert (P : 0 < (INR nt - 1) / INR nt) by (apply Rdiv_lt_0_compat; lra).
  pose proof (max_is_largest _ _ Em) as ML. rewrite class_output_length in ML. destruct (ML i Hi) as [M1 _].
  rewrite (firstn_snoc _ _ _ Ht). exists (os ++ [approx nt c (nth c (class_output nt (map (residual nt) gs)) 0)]). split.
  - apply Forall2_app; auto. constructor; [|constructor]. unfold amg_out. rewrite Ef. cbn [bind]. now apply construct_Fin.
  - apply Forall_app. split; auto. constructor; [|constructor]. apply approx_last; auto; [|lra]. intros ->. lra.
Qed.

Lemma last_scores os : forall p, length p = nt -> Forall (last_place nt j) os -> 0 <= lr -> (forall i, (i < nt)%nat -> nth j p 0 <= nth i p 0) ->
  let s := fold_left (vstep lr) os p in length s = nt /\ Rsum s = Rsum p /\ (forall i, (i < nt)%nat -> nth j s 0 <= nth i s 0) /\
    nth j s 0 <= nth j p 0 /\ (0 < lr -> os <> [] -> nth j s 0 < nth j p 0).
Proof.
  cbv zeta. induction os as [|o os IH]; intros p Lp Ho Hl Hp; [cbn [fold_left]; split; [exact Lp|]; split; [reflexivity|]; split; [exact Hp|]; split; [apply Rle_refl|]; intros _ X; congruence|].
  inversion Ho as [|? ? (L1 & S1 & N1 & O1) Ho']; subst. cbn [fold_left].
  assert (V : forall i, (i < length p)%nat -> nth i (vstep lr p o) 0 = nth i p 0 + lr * nth i o 0) by (intros i Hi; unfold vstep; apply nth_map2; lia).
  destruct (IH (vstep lr p o)) as (I1 & I2 & I3 & I4 & I5); auto.
  - rewrite vstep_length; congruence.
  - intros i Hi. rewrite !V by lia. specialize (Hp i Hi). specialize (O1 i Hi). nra.
  - rewrite V in I4, I5 by lia. split; [exact I1|]. split; [rewrite I2, vstep_sum, S1 by congruence; ring|]. split; [exact I3|]. split; [nra|]. intros Hlr _. nra.
Qed.

Theorem amg_absent m row : amg_boost_train d cfg n (Fin lr) = Ok m -> 0 < lr -> (0 < n)%nat -> (nc <= length row)%nat ->
  exists s c, amg_boost_raw m row = Ok (map Fin s) /\ length s = nt /\ (forall i, (i < nt)%nat -> nth j s 0 <= nth i s 0) /\ nth j s 0 < 1 / INR nt /\
    (c < nt)%nat /\ c <> j /\ amg_boost_predict m row = Ok (map Fin (map (fun i => if (i =? c)%nat then 1 else 0) (seq 0 nt))).
Proof.
  intros E Hl Hn Hrow. destruct (amg_guess nc nt d cfg n (Fin lr) m ltac:(lia) Hz W E) as (Hg & Hlr & HT).
  destruct (amg_absent_outputs m row E Hrow n (le_n n)) as (os & A & B). rewrite <- HT, firstn_all in A.
  assert (Hos : os <> []) by (intros ->; inversion A as [X|]; rewrite <- X in HT; cbn in HT; lia).
  assert (HE : forall i, (i < nt)%nat -> nth i (even nt) 0 = 1 / INR nt) by (intros i Hi; unfold even; rewrite nth_repeat'; auto).
  destruct (last_scores os (even nt) (even_length nt) B (Rlt_le _ _ Hl)) as (L1 & L2 & L3 & _ & L5). { intros i Hi. rewrite !HE by auto. apply Rle_refl. }
  specialize (L5 Hl Hos). rewrite HE in L5 by auto. rewrite (even_total nt) in L2 by lia. set (s := fold_left (vstep lr) os (even nt)) in *.
  assert (R : amg_boost_raw m row = Ok (map Fin s)).
  { unfold amg_boost_raw. rewrite amg_predict_instance_raw, Hg, Hlr, map_length, even_length.
    apply (raw_any (@amg_out xr_ops nt) nt); auto using even_length. eapply Forall_impl; [|exact B]. now intros o [H _]. }
  destruct (binary_prediction xr_laws (map Fin s)) as (c & v & Eb & Hv & HF). { intros X. apply map_eq_nil in X. rewrite X in L1. cbn in L1. lia. }
  exists s, c. split; [exact R|]. split; [exact L1|]. split; [exact L3|]. split; [exact L5|].
  assert (HF' : exists x, nth_error s c = Some x /\ forall i, (i < nt)%nat -> nth i s 0 <= x).
  { destruct HF as [(x & H1 & _ & H2)|[_ H2]].
    - rewrite nth_error_map in H1. destruct (nth_error s c) as [y|] eqn:Ey; [|discriminate]. injection H1 as <-. exists y. split; auto. intros i Hi.
      destruct (H2 i (Fin (nth i s 0))) as [Q _]; [rewrite nth_error_map, (nth_error_nth' _ 0) by lia; reflexivity|].
      apply Rnot_lt_le. intros X. apply xltb_Fin in X. change (xltb (Fin y) (Fin (nth i s 0)) = false) in Q. congruence.
    - exfalso. assert (X : In (Fin (nth 0 s 0)) (map Fin s)) by (apply in_map, nth_In; lia). apply H2 in X. discriminate. }
  destruct HF' as (x & Ex & Hx). assert (Hc : (c < nt)%nat) by (rewrite <- L1; apply nth_error_Some; congruence).
  split; [exact Hc|]. split.
  - intros ->. apply (nth_error_nth _ _ 0) in Ex. subst x.
    assert (SU : Rsum s <= INR (length s) * nth j s 0).
    { assert (G : forall l, (forall y, In y l -> y <= nth j s 0) -> Rsum l <= INR (length l) * nth j s 0).
      { induction l as [|y l IH]; intros H; [unfold Rsum; cbn; lra|]. cbn [length]. rewrite Rsum_cons, S_INR. pose proof (H y (or_introl eq_refl)). specialize (IH ltac:(intros; apply H; now right)). lra. }
      apply G. intros y Hy. apply (In_nth _ _ 0) in Hy as (i & Hi & <-). apply Hx. lia. }
    rewrite L1, L2 in SU. pose proof (INR_ge2 nt Hk) as K.
    assert (INR nt * nth j s 0 < INR nt * (1 / INR nt)) by (apply Rmult_lt_compat_l; lra). replace (INR nt * (1 / INR nt)) with 1 in * by (field; lra). lra.
  - unfold amg_boost_predict. rewrite R. cbn [bind]. xr. rewrite Eb. f_equal. rewrite map_length, L1 in Hv.
    exact (one_hot_unique nt (N.of_nat c) v _ Hv (hot_one_hot nt c Hc)).
Qed.

(** In a multi-class ensemble its score falls. *)
Theorem multi_class_absent m row : multi_class_boost_train d cfg n (Fin lr) = Ok m -> 0 <= lr -> (nc <= length row)%nat ->
  exists s, multi_class_boost_raw m row = Ok (map Fin s) /\ length s = nt /\ nth j s 0 <= 1 / INR nt - INR n * (lr * ((INR nt - 1) / INR nt)).
Proof.
  intros E Hl Hrow. destruct (multi_guess nc nt d cfg n (Fin lr) m ltac:(lia) Hz W E) as (Hg & Hlr & HT). destruct absent_classes as (cs & El & Hcs & Hn).
  assert (G : forall k, (k <= n)%nat -> exists os, Forall2 (fun t o => @gb_out xr_ops row t = Ok (map Fin o)) (firstn k (m_trees m)) os /\
    Forall (fun o => length o = nt /\ nth j o 0 <= - ((INR nt - 1) / INR nt)) os).
  { induction k as [|k IH]; intros Hkn; [exists []; split; constructor|]. destruct (IH ltac:(lia)) as (os & A & B).
    destruct (multi_stage_exact nc nt d cfg n lr m k Hk Hz W HO E Hkn) as (ss & t & Es & Ht & Rs & Ls & Bt).
    destruct (fitted_ok nc nt d ss Hk W HO Rs Ls) as (r & _ & Wr & Lr & Rr & _).
    destruct (gb_class_out nc nt _ _ _ _ row Hk Wr Lr Rr Bt Hrow) as (x & Ef & _ & Sx & Wx & Lx).
    destruct (absent_group cs ss row t x El Hcs Hn Rs Ls Wx Lx Sx) as (gs & Eg & Hne & Hgs). rewrite Eg in *.
    rewrite (firstn_snoc _ _ _ Ht). exists (os ++ [class_output nt (map (residual nt) gs)]). split.
    - apply Forall2_app; auto. constructor; [|constructor]. unfold gb_out. rewrite Ef. reflexivity.
    - apply Forall_app. split; auto. constructor; [|constructor]. split; [apply class_output_length|now apply absent_output]. }
  destruct (G n (le_n n)) as (os & A & B). rewrite <- HT, firstn_all in A. exists (fold_left (vstep lr) os (even nt)).
  split; [|].
  - unfold multi_class_boost_raw. rewrite predict_instance_raw, Hg, Hlr. apply (raw_any (@gb_out xr_ops) nt); auto using even_length. eapply Forall_impl; [|exact B]. now intros o [H _].
  - assert (LN : length os = n) by (rewrite <- (Forall2_length _ _ _ A); exact HT). rewrite <- LN.
    assert (HE : nth j (even nt) 0 = 1 / INR nt) by (unfold even; rewrite nth_repeat'; auto). rewrite <- HE.
    assert (F : forall p, length p = nt -> length (fold_left (vstep lr) os p) = nt /\
      nth j (fold_left (vstep lr) os p) 0 <= nth j p 0 - INR (length os) * (lr * ((INR nt - 1) / INR nt))).
    { clear -B Hl Hj. induction B as [|o os [Lo Ho] B IH]; intros p Lp; [cbn [fold_left length INR]; split; [auto|lra]|]. cbn [fold_left length].
      destruct (IH (vstep lr p o)) as [I1 I2]; [rewrite vstep_length; congruence|]. split; [exact I1|]. rewrite S_INR. unfold vstep in I2 at 3. rewrite nth_map2 in I2 by lia. nra. }
    exact (F (even nt) (even_length nt)).
Qed.

End Run.

(** So every answer of an AMG ensemble is the label of a training row. *)
Theorem amg_answer_is_label (nc nt : nat) (d : @dataset xr_ops) (cfg : @tree_config xr_ops) (n : nat) (lr : R) m row :
  (2 <= nt)%nat -> (Z.of_nat nt <= 2 ^ 53)%Z -> wf_dataset nc nt d -> one_hot_labels nt d -> amg_boost_train d cfg n (Fin lr) = Ok m ->
  0 < lr -> (0 < n)%nat -> (nc <= length row)%nat -> exists y, In y (labels d) /\ amg_boost_predict m row = Ok y.
Proof.
  intros Hk Hz W HO E Hl Hn Hrow. destruct (one_hot_labels_real nt d HO) as (cs & El & Hcs).
  assert (AB : forall j, (j < nt)%nat -> ~ In j cs -> absent j d).
  { intros j Hj Hnj. unfold absent. unfold real_labels in El. rewrite El. apply Forall_forall. intros y Hy. apply in_map_iff in Hy as (h & <- & Hh). apply in_map_iff in Hh as (c & <- & Hc).
    rewrite nth_error_map, (nth_error_nth' _ 0) by (now rewrite hot_length). rewrite hot_nth by auto. destruct (Nat.eqb_spec j c); [congruence|reflexivity]. }
  assert (G : exists c, (c < nt)%nat /\ amg_boost_predict m row = Ok (map Fin (hot nt c))).
  { destruct (amg_scores_total nc nt d cfg n lr m row Hk Hz W HO E Hrow) as (s & R & Ls & _).
    destruct (binary_prediction xr_laws (map Fin s)) as (c & v & Eb & Hv & _). { intros X. apply map_eq_nil in X. rewrite X in Ls. cbn in Ls. lia. }
    rewrite map_length, Ls in Hv. assert (Hc : (c < nt)%nat) by (destruct Hv as [X _]; lia). exists c. split; [exact Hc|].
    unfold amg_boost_predict. rewrite R. cbn [bind]. xr. rewrite Eb. f_equal. exact (one_hot_unique nt (N.of_nat c) v _ Hv (hot_one_hot nt c Hc)). }
  destruct G as (c & Hc & Ep). exists (map Fin (hot nt c)). split; [|exact Ep]. unfold real_labels in El. rewrite El. apply in_map, in_map.
  destruct (in_dec Nat.eq_dec c cs) as [|Hnc]; auto. exfalso.
  destruct (amg_absent nc nt d cfg n lr c Hk Hz W HO Hc (AB c Hc Hnc) m row E Hl Hn Hrow) as (s & c' & _ & _ & _ & _ & Hc' & Hne & Ep').
  rewrite Ep in Ep'. injection Ep' as Ep'. apply Hne. apply (f_equal (fun l => nth c' l (Fin 0))) in Ep'.
  change (Fin 0) with (Fin 0) in Ep'. rewrite !(map_nth Fin) in Ep'. injection Ep' as Ep'. rewrite hot_nth in Ep' by auto.
  rewrite (nth_indep _ 0 ((fun i => if (i =? c')%nat then 1 else 0) 0%nat)) in Ep' by (rewrite map_length, seq_length; auto).
  rewrite (map_nth (fun i => if (i =? c')%nat then 1 else 0)), seq_nth, Nat.add_0_l, Nat.eqb_refl in Ep' by auto. destruct (Nat.eqb_spec c' c); auto. lra.
Qed.

(** The answers of a single tree, for any arithmetic that tells 0 from 1. *)
Section Tree.
Context {O : NumOps} (LW : NumLaws O).
Hypotheses (H11 : feqb f1 f1 = true) (H01 : feqb f0 f1 = false).

Lemma one_hot_vote k c y i : one_hot k c y -> (i < k)%nat -> (match nth_error y i with Some x => feqb x f1 | None => false end) = (N.of_nat i =? c)%N.
Proof. intros (_ & _ & H) Hi. rewrite H by auto. destruct (N.of_nat i =? c)%N; auto. Qed.

Lemma voted_label k ls c v : Forall (fun y => exists c, one_hot k c y) ls -> ls <> [] -> most_votes k ls c -> one_hot k (N.of_nat c) v -> In v ls.
Proof.
  intros H Hne [Hc Hm] Hv. assert (P : (0 < votes ls c)%nat).
  { destruct ls as [|y ls]; [congruence|]. inversion H as [|? ? (c0 & H0) H']; subst. assert (L0 : (N.to_nat c0 < k)%nat) by (destruct H0 as [X _]; lia).
    destruct (Hm _ L0) as [X _]. assert (0 < votes (y :: ls) (N.to_nat c0))%nat; [|lia]. unfold votes. cbn [filter].
    rewrite (one_hot_vote k c0 y _ H0 L0), N2Nat.id, N.eqb_refl. cbn. lia. }
  unfold votes in P. destruct (filter _ ls) as [|y f] eqn:Ef; [cbn in P; lia|]. assert (Hy : In y (y :: f)) by now left. rewrite <- Ef in Hy. apply filter_In in Hy as [Hy Hb].
  destruct (proj1 (Forall_forall _ _) H y Hy) as (c1 & H1). rewrite (one_hot_vote k c1 y c H1 Hc) in Hb. apply N.eqb_eq in Hb. subst c1.
  now rewrite (one_hot_unique k _ v y Hv H1).
Qed.

Theorem tree_answer_is_label nc nt d cfg t row : (0 < nt)%nat -> (Z.of_nat nt <= 2 ^ 53)%Z -> wf_dataset nc nt d -> Forall (fun y => exists c, one_hot nt c y) (labels d) ->
  regression_tree_new d cfg = Ok t -> (nc <= length row)%nat -> exists y, In y (labels d) /\ predict_class row t = Ok y.
Proof.
  intros H1 H2 W HO Et Hr. rewrite regression_tree_new_eq in Et. apply build_with_built in Et.
  destruct (built_lookup _ _ _ _ _ _ row Et W Hr) as (ld & Ef & Es & Wl).
  assert (SL : forall x : dataset, wf_dataset nc nt x -> map snd (samples x) = labels x).
  { intros x Wx. unfold samples. rewrite map_snd_combine; auto. pose proof (wf_lengths _ _ _ Wx). lia. }
  assert (Hsub : incl (labels ld) (labels d)).
  { rewrite <- (SL _ Wl), <- (SL _ W), Es. intros y Hy. apply in_map_iff in Hy as (p & <- & Hp). apply filter_In in Hp as [Hp _]. now apply in_map. }
  assert (NE : labels ld <> []).
  { intros E. apply (wf_nonempty _ _ _ Wl). pose proof (wf_lengths _ _ _ Wl) as L. rewrite E in L. now apply length_zero_iff_nil. }
  destruct (predict_class_leaf LW nt t row ld Ef) as (c & v & Ev & Hv & Hm); auto; [apply (wf_labels _ _ _ Wl)|].
  exists v. split; [|exact Ev]. apply Hsub. apply (voted_label nt (labels ld) c v); auto. rewrite Forall_forall in *. auto.
Qed.
End Tree.

Theorem amg_absent_scores (nc nt : nat) (d : @dataset xr_ops) (cfg : @tree_config xr_ops) (n : nat) (lr : R) (j : nat) m row :
  (2 <= nt)%nat -> (Z.of_nat nt <= 2 ^ 53)%Z -> wf_dataset nc nt d -> one_hot_labels nt d -> (j < nt)%nat -> absent j d ->
  amg_boost_train d cfg n (Fin lr) = Ok m -> 0 < lr -> (0 < n)%nat -> (nc <= length row)%nat ->
  exists s, amg_boost_raw m row = Ok (map Fin s) /\ length s = nt /\ (forall i, (i < nt)%nat -> nth j s 0 <= nth i s 0) /\ nth j s 0 < 1 / INR nt.
Proof.
  intros Hk Hz W HO Hj Ha E Hl Hn Hrow. destruct (amg_absent nc nt d cfg n lr j Hk Hz W HO Hj Ha m row E Hl Hn Hrow) as (s & c & A & B & C & D & _). eauto 6.
Qed.
