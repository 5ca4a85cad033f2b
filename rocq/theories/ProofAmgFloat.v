(** AMG leaves without residuals in binary64. *)
From Coq Require Import Reals Lra Lia ZArith.
From Flocq Require Import Core.
From Flocq Require Import IEEE754.BinarySingleNaN.
From Verif Require Import Base Num F64 ModelCommon ModelTree ModelBoost Lib Spec SpecTree SpecExact SpecClass SpecScore SpecPredict SpecSaturate
  ProofReal ProofRound ProofError ProofInt ProofData ProofTree ProofTree3 ProofScore ProofScore2 ProofBoost ProofBoost2 ProofLeaf ProofPredict ProofClassF64 ProofSoftmax ProofLeafFloat ProofSaturate.
Local Open Scope R_scope.

Section Trained.
Context {O : NumOps} (LW : NumLaws O).

Lemma amg_trained_sum nc nt d cfg n lr (m : amg_boost_model) row :
  wf_dataset nc nt d -> (1 <= nt)%nat -> (Z.of_nat nt <= 2 ^ 53)%Z -> amg_boost_train d cfg n lr = Ok m -> (nc <= length row)%nat ->
  exists outs : list (nat * F),
    Forall2 (fun t o => find_leaf_node_for_data row t = Ok (mkAL (Some (snd o)) (Some (fst o))) /\ (fst o < nt)%nat) (m_trees m) outs /\
    forall k, exists p, amg_boost_raw (first_trees k m) row = Ok p /\ length p = nt /\
    forall j, (j < nt)%nat ->
      nth_error p j = Some (fold_left (fun s o => fadd s (fmul lr
        (if Nat.eqb j (fst o) then snd o else fdiv (fneg (snd o)) (fsub (f_of_nat nt) f1)))) (firstn k outs) (fdiv f1 (f_of_nat nt))).
Proof.
  intros W H1 Hk E Hr. destruct (amg_shape LW nt d cfg n lr m (wf_labels _ _ _ W) Hk E) as (HL & Hlr & Hg).
  assert (HG : Forall (fun t => exists o : nat * F, find_leaf_node_for_data row t = Ok (mkAL (Some (snd o)) (Some (fst o))) /\ (fst o < nt)%nat) (m_trees m)).
  { apply Forall_forall. intros t Ht. apply In_nth_error in Ht as [k Hk'].
    assert (k < n)%nat by (rewrite <- HL; apply nth_error_Some; congruence).
    destruct (amg_stage d cfg n lr m k (wf_lengths _ _ _ W) E H) as (ps & t' & _ & Hs & Ht' & Eb).
    rewrite Hk' in Ht'. inversion Ht'; subst t'.
    destruct (amg_class_leaf LW nc nt _ cfg t row H1 (residual_data_wf nc nt d ps W Hs) Eb Hr) as (v & c & Ef & Hc & _).
    exists (c, v). auto. }
  assert (HF : exists outs : list (nat * F), Forall2 (fun t o => find_leaf_node_for_data row t = Ok (mkAL (Some (snd o)) (Some (fst o))) /\ (fst o < nt)%nat) (m_trees m) outs).
  { clear -HG. induction HG as [|t ts (o & E & Ho) _ (os & IH)]; [now exists []|]. exists (o :: os). constructor; auto. }
  destruct HF as (outs & HF). exists outs. split; [exact HF|]. intros k.
  assert (Lg : length (m_initial_guess (first_trees k m)) = nt) by (cbn; now rewrite Hg, repeat_length).
  destruct (amg_raw_sum (first_trees k m) row (firstn k outs)) as (p & Ep & Hp & Hn).
  { rewrite Lg. cbn. clear -HF. revert k. induction HF; intros [|k]; cbn [firstn]; constructor; auto. }
  exists p. rewrite Lg in Hn. cbn in Hn. rewrite Hlr in Hn. split; auto. split; [congruence|]. intros j Hj. apply Hn. rewrite Hg. now apply nth_error_repeat.
Qed.

End Trained.

Section Collapse.
Context (P : platform).
Local Existing Instance f64_ops.

Lemma ninf_step (a lr : f64) : is_finite a = true -> is_finite lr = true -> 0 < B2R lr ->
  Bplus mode_NE a (Bmult mode_NE lr (B754_infinity true)) = (B754_infinity true : f64).
Proof.
  intros Fa Fl Hl. destruct lr as [s| | |s mm e H]; try discriminate; [cbn in Hl; lra|]. destruct s.
  - exfalso. apply (Rlt_not_le _ _ Hl). left. apply F2R_lt_0. reflexivity.
  - destruct a; try discriminate; reflexivity.
Qed.

Lemma pinf_step (a lr : f64) : is_finite a = true -> is_finite lr = true -> 0 < B2R lr ->
  Bplus mode_NE a (Bmult mode_NE lr (B754_infinity false)) = (B754_infinity false : f64).
Proof.
  intros Fa Fl Hl. destruct lr as [s| | |s mm e H]; try discriminate; [cbn in Hl; lra|]. destruct s.
  - exfalso. apply (Rlt_not_le _ _ Hl). left. apply F2R_lt_0. reflexivity.
  - destruct a; try discriminate; reflexivity.
Qed.

Lemma inf_div (y : f64) : is_finite y = true -> 0 < B2R y -> Bdiv mode_NE (Bopp (B754_infinity true)) y = (B754_infinity false : f64).
Proof.
  intros F H. destruct y as [s| | |s mm e Hb]; try discriminate; [cbn in H; lra|]. destruct s; [|reflexivity].
  exfalso. apply (Rlt_not_le _ _ H). left. apply F2R_lt_0. reflexivity.
Qed.

(** An infinite score is never left again, except to NaN. *)
Lemma inf_absorbs {A} (f : A -> f64) (b : bool) (outs : list A) : forall a : f64, a = B754_infinity b \/ a = B754_nan ->
  let r := fold_left (fun s o => Bplus mode_NE s (f o)) outs a in r = B754_infinity b \/ r = B754_nan.
Proof.
  induction outs as [|o outs IH]; intros a H; cbn [fold_left]; [exact H|]. apply IH.
  destruct H as [-> | -> ]; [|right; destruct (f o); reflexivity]. destruct (f o) as [s|s| |s mm e Hb]; try (left; reflexivity); [|right; reflexivity].
  destruct b, s; (left; reflexivity) || (right; reflexivity).
Qed.

Lemma list_eq {A} (l : list A) : forall l', length l = length l' -> (forall j v, nth_error l' j = Some v -> nth_error l j = Some v) -> l = l'.
Proof.
  induction l as [|a l IH]; intros [|b l'] HL H; try discriminate; [reflexivity|]. pose proof (H 0%nat b eq_refl) as H0. injection H0 as ->.
  f_equal. apply IH; [now injection HL|]. intros j v Hj. exact (H (S j) v Hj).
Qed.

Theorem amg_collapse nc nt (d : @dataset (f64_ops P)) cfg n lr (m : amg_boost_model) k t scores x s :
  wf_dataset nc nt d -> (2 <= nt)%nat -> (Z.of_nat nt <= 2 ^ 40)%Z -> is_finite (lr : f64) = true -> 0 < B2R (lr : f64) ->
  amg_boost_train d cfg n lr = Ok m -> (k < n)%nat ->
  nth_error (m_trees m) k = Some t -> mapM (amg_boost_raw (first_trees k m)) (feature_rows d) = Ok scores ->
  (nc <= length x)%nat ->
  (forall row y v, In (row, y) (samples_like x t (residual_data d scores)) -> In v y -> is_finite (v : f64) = true /\ B2R v = 0) ->
  amg_boost_raw (first_trees k m) x = Ok s -> Forall (fun v : F => is_finite (v : f64) = true) s ->
  amg_boost_raw (first_trees (S k) m) x = Ok ((B754_infinity true : f64) :: repeat (B754_infinity false : f64) (nt - 1)) /\
  (exists p, amg_boost_predict (first_trees (S k) m) x = Ok p /\ one_hot nt 1 p) /\
  exists s', amg_boost_raw m x = Ok s' /\ length s' = nt /\
    forall j v, nth_error s' j = Some v -> (v : f64) = B754_infinity (Nat.eqb j 0) \/ (v : f64) = B754_nan.
Proof.
  intros W H2 H40 Fl Hl E Hk Ht Hs Hx HZ Es Fs.
  destruct (amg_stage d cfg n lr m k (wf_lengths _ _ _ W) E Hk) as (ps & t' & Hs' & Hlen & Ht' & Eb).
  assert (t' = t) by congruence. assert (ps = scores) by congruence. subst t' ps.
  destruct (amg_trained_sum (f64_laws P) nc nt d cfg n lr m x W ltac:(lia) ltac:(lia) E Hx) as (outs & HF & Hsum).
  destruct (amg_class_leaf (f64_laws P) nc nt _ cfg t x ltac:(lia) (residual_data_wf nc nt d scores W Hlen) Eb Hx) as (v & c & Ef & Hc & Hfl & Hv).
  change (mkDS (feature_rows d) (differences (labels d) (map softmax scores)) (feature_columns d)) with (residual_data d scores) in *.
  set (rs := map snd (samples_like x t (residual_data d scores))) in *.
  assert (Hnan : forall j, (j < nt)%nat -> @class_output_of (f64_ops P) nt rs j = (B754_nan : f64)).
  { intros j Hj. apply leaf_zero_nan. intros r y Hr Hy. apply in_map_iff in Hr as ([row l] & <- & Hr). apply (HZ row l y Hr). exact (nth_error_In _ _ Hy). }
  assert (Hc0 : c = 0%nat).
  { destruct Hfl as [(mx & Hm & Hgt & _)|[-> _]]; [|reflexivity]. exfalso.
    apply nth_error_In in Hm. apply in_map_iff in Hm as (j & <- & Hj). apply in_seq in Hj. rewrite (Hnan j) in Hgt by lia. discriminate. }
  assert (Hvi : v = (B754_infinity true : f64)).
  { destruct Hv as [[-> Hgt]|[-> _]]; [|reflexivity]. rewrite (Hnan c Hc) in Hgt. discriminate. }
  subst c v. clear Hfl Hv Hc.
  set (step := fun (j : nat) (o : nat * f64) => Bmult mode_NE (lr : f64) (if Nat.eqb j (fst o) then snd o else Bdiv mode_NE (Bopp (snd o)) (Bminus mode_NE (@f_of_nat (f64_ops P) nt) Bone))).
  assert (Ho : nth_error outs k = Some (0%nat, B754_infinity true : f64)).
  { clear -HF Ht Ef. revert k Ht. induction HF as [|t0 o0 ts os [E0 _] HF IH]; intros k Ht; [destruct k; discriminate|].
    destruct k as [|k]; cbn in Ht |- *; [|eauto]. injection Ht as ->. rewrite Ef in E0. destruct o0 as [a b]. cbn in E0. injection E0 as <- <-. reflexivity. }
  assert (Hk1 : is_finite (Bminus mode_NE (@f_of_nat (f64_ops P) nt : f64) Bone) = true /\ 0 < B2R (Bminus mode_NE (@f_of_nat (f64_ops P) nt : f64) Bone)).
  { assert (Ek : Bminus mode_NE (@f_of_nat (f64_ops P) nt : f64) Bone = f64_of_Z (Z.of_nat nt - 1)).
    { rewrite Bone_of_Z. change (@f_of_nat (f64_ops P) nt) with (f64_of_Z (Z.of_nat nt)). apply minus_Z; lia. }
    rewrite Ek. destruct (of_Z_exact (Z.of_nat nt - 1)) as (V & Fk & _); [lia|]. split; [exact Fk|]. rewrite V. apply IZR_lt. lia. }
  destruct (Hsum k) as (s0 & E0 & L0 & N0). assert (s0 = s) by congruence. subst s0.
  assert (Hstart : forall j, (j < nt)%nat -> is_finite (fold_left (fun q o => Bplus mode_NE q (step j o)) (firstn k outs) (Bdiv mode_NE Bone (@f_of_nat (f64_ops P) nt))) = true).
  { intros j Hj. rewrite Forall_forall in Fs. apply Fs. eapply nth_error_In. exact (N0 j Hj). }
  assert (Hone : forall j, (j < nt)%nat -> fold_left (fun q o => Bplus mode_NE q (step j o)) (firstn (S k) outs) (Bdiv mode_NE Bone (@f_of_nat (f64_ops P) nt)) = B754_infinity (Nat.eqb j 0)).
  { intros j Hj. assert (Ef1 : firstn (S k) outs = firstn k outs ++ [(0%nat, B754_infinity true : f64)]).
    { clear -Ho. revert k Ho. induction outs as [|o outs IH]; intros [|k] H; cbn in H; try discriminate; [now injection H as ->|].
      cbn [firstn app]. f_equal. exact (IH k H). }
    rewrite Ef1, fold_left_app. cbn [fold_left]. unfold step at 1. cbn [fst snd]. destruct j as [|j]; cbn [Nat.eqb].
    - apply ninf_step; [exact (Hstart 0%nat Hj)|exact Fl|exact Hl].
    - etransitivity; [exact (f_equal (fun v => Bplus mode_NE _ (Bmult mode_NE (lr : f64) v)) (inf_div _ (proj1 Hk1) (proj2 Hk1)))|]. apply pinf_step; [exact (Hstart (S j) Hj)|exact Fl|exact Hl]. }
  assert (Eraw : amg_boost_raw (first_trees (S k) m) x = Ok ((B754_infinity true : f64) :: repeat (B754_infinity false : f64) (nt - 1))).
  { destruct (Hsum (S k)) as (p & Ep & Lp & Np). rewrite Ep. f_equal. apply list_eq.
    - cbn [length]. rewrite repeat_length. lia.
    - intros j q Hj. assert (Hjn : (j < nt)%nat). { apply within in Hj. cbn [length] in Hj. rewrite repeat_length in Hj. lia. }
      rewrite (Np j Hjn). f_equal. etransitivity; [exact (Hone j Hjn)|]. destruct j as [|j]; cbn [nth_error Nat.eqb] in *; [now injection Hj as <-|].
      rewrite nth_error_repeat in Hj by lia. now injection Hj as <-. }
  split; [exact Eraw|]. split.
  - destruct (amg_one_class (f64_laws P) _ x _ Eraw ltac:(discriminate)) as (c & p & Ep & Hp & Hfl).
    exists p. split; [exact Ep|]. cbn [length] in Hp. rewrite repeat_length in Hp. replace (S (nt - 1)) with nt in Hp by lia.
    assert (c = 1%nat); [|subst c; exact Hp].
    assert (S1 : nth_error ((B754_infinity true : f64) :: repeat (B754_infinity false : f64) (nt - 1)) 1 = Some (B754_infinity false)).
    { change (nth_error (repeat (B754_infinity false : f64) (nt - 1)) 0 = Some (B754_infinity false : f64)). apply nth_error_repeat. lia. }
    destruct Hfl as [(mx & Hm & Hgt & Hall)|[_ H0]].
    + destruct c as [|[|c]]; [|reflexivity|].
      * injection Hm as <-. discriminate.
      * exfalso. destruct (Hall 1%nat _ S1) as [_ H1]. destruct H1 as [H1|H1]; [lia| |].
        -- apply (nth_error_In (repeat (B754_infinity false : f64) (nt - 1)) (S c)), repeat_spec in Hm. subst mx. discriminate.
        -- apply H1. reflexivity.
    + exfalso. specialize (H0 _ (nth_error_In _ _ S1)). discriminate.
  - destruct (Hsum n) as (s' & Es' & Ls & Ns). exists s'. 
    assert (Em : first_trees n m = m).
    { destruct (amg_shape (f64_laws P) nt d cfg n lr m (wf_labels _ _ _ W) ltac:(lia) E) as (HL & _ & _).
      unfold first_trees. rewrite <- HL, firstn_all. now destruct m. }
    rewrite Em in Es'. split; [exact Es'|]. split; [exact Ls|]. intros j q Hj. pose proof (within _ _ _ Hj) as Hjn. rewrite Ls in Hjn.
    rewrite (Ns j Hjn) in Hj. injection Hj as <-.
    assert (Eo : firstn n outs = firstn (S k) outs ++ skipn (S k) (firstn n outs)).
    { rewrite <- (firstn_skipn (S k) (firstn n outs)) at 1. f_equal. rewrite firstn_firstn. f_equal. lia. }
    pose proof (inf_absorbs (step j) (Nat.eqb j 0) (skipn (S k) (firstn n outs)) _ (or_introl (Hone j Hjn))) as Q. cbv zeta in Q.
    rewrite <- fold_left_app in Q.
    exact (eq_ind_r (fun l : list (nat * f64) => let r := fold_left (fun q o => Bplus mode_NE q (step j o)) l (Bdiv mode_NE Bone (@f_of_nat (f64_ops P) nt)) in
      r = B754_infinity (Nat.eqb j 0) \/ r = B754_nan) Q Eo).
Qed.

End Collapse.
