(** Each regression boosting iteration removes a fixed share of what is left over in every leaf of its tree, in exact arithmetic (C108). *)
From Coq Require Import Reals Lra Lia.
From Verif Require Import Base Num ModelCommon ModelTree ModelBoost Lib XR Spec SpecTree SpecExact SpecScore SpecFit SpecError SpecStage SpecCalibrate ProofReal ProofData
  ProofSplit ProofSplit2 ProofTree ProofTree3 ProofScore ProofSplitExact ProofSplitExact2 ProofTreeExact ProofScoreExact ProofBoost ProofBoost2 ProofLeaf ProofBoostExact ProofBalance
  ProofStage ProofDeepFloat.
Local Open Scope R_scope.

Lemma same_leaf_like {L} (mk : @dataset xr_ops -> res L) cfg level d0 (t : tree_node L) (d : @dataset xr_ops) a b : built mk cfg level d0 t ->
  same_leaf t a b = true -> samples_like b t d = samples_like a t d.
Proof.
  intros B H. unfold same_leaf in H. rewrite forallb_forall in H. eapply like_agree; [exact B|]. intros q Hq. apply Bool.eqb_prop, H; auto.
Qed.

Lemma mean_minus {A} (f : A -> R) c l : l <> [] -> mean (map (fun x => f x - c) l) = mean (map f l) - c.
Proof.
  intros H. unfold mean. rewrite !map_length. assert (N : INR (length l) <> 0) by (apply not_0_INR; destruct l; [congruence|discriminate]).
  assert (E : Rsum (map (fun x => f x - c) l) = Rsum (map f l) - INR (length l) * c).
  { clear. induction l as [|x l IH]; [unfold Rsum; cbn; ring|]. cbn [map length]. rewrite !Rsum_cons, IH, S_INR. ring. }
  rewrite E. field. exact N.
Qed.

Section Calibrate.
Variables (nc nt : nat) (d : @dataset xr_ops) (ls : list (list R)) (cfg : @tree_config xr_ops) (lr : R).
Hypotheses (W : wf_dataset nc nt d) (Hl : real_labels ls d) (Hk : (0 < nt)%nat).

Theorem calibrated n m m' : regression_boost_train d cfg n (Fin lr) = Ok m -> regression_boost_train d cfg (S n) (Fin lr) = Ok m' ->
  exists t ps ps', nth_error (m_trees m') n = Some t /\
    Forall2 (fun row p => regression_boost_predict m row = Ok (map Fin p) /\ length p = nt) (feature_rows d) ps /\
    Forall2 (fun row p => regression_boost_predict m' row = Ok (map Fin p) /\ length p = nt) (feature_rows d) ps' /\
    forall row, (nc <= length row)%nat -> (exists r, In r (feature_rows d) /\ same_leaf t row r = true) /\
      exists o, find_leaf_node_for_data row t = Ok (mkGL (Some (map Fin o))) /\ length o = nt /\
      forall j, (j < nt)%nat -> nth j o 0 = left_over t (feature_rows d) ls ps row j /\
        left_over t (feature_rows d) ls ps' row j = (1 - lr) * left_over t (feature_rows d) ls ps row j.
Proof.
  intros E E'. destruct (stage nc nt d ls cfg lr W Hl Hk n m m' E E') as (ps & t & HP & Ht & Eb & Wr & Hr & Hout & HP' & _ & _).
  exists t, ps, (map2 (vstep lr) ps (map (rout t) (feature_rows d))). split; [exact Ht|]. split; [exact HP|]. split; [exact HP'|].
  intros row Hrow. rewrite grad_boost_tree_new_eq in Eb. apply build_with_built in Eb.
  pose proof (real_rl _ _ Hr) as Erl.
  set (rd := mkDS (feature_rows d) (map (map Fin) (map2 vsub ls ps)) (feature_columns d)) in *. assert (Hr' : real_labels (rl rd) rd) by (rewrite Erl; exact Hr). clear Hr. rename Hr' into Hr.
  assert (LF : forall r, (nc <= length r)%nat -> find_leaf_node_for_data r t = Ok (mkGL (Some (map Fin (means nt (map (map xval) (map snd (@samples_like xr_ops _ r t rd)))))))  /\ @samples_like xr_ops _ r t rd <> []).
  { intros r Hr0. destruct (built_lookup_mk _ _ _ _ _ _ _ r Eb Wr Hr0) as (ld & l & Ef & Em & Es & Wl).
    assert (Hi : incl (samples ld) (samples rd)) by (rewrite Es; apply filter_incl).
    pose proof (finite_sub _ _ _ _ Wr Wl Hi Hr) as Hld. pose proof (mk_gb_regression nc nt ld l Wl Hld Em) as ->.
    assert (SL : map snd (samples ld) = labels ld). { unfold samples. apply map_snd_combine. pose proof (wf_lengths _ _ _ Wl). auto. }
    split.
    - rewrite Ef. do 5 f_equal. rewrite <- Es, SL. reflexivity.
    - rewrite <- Es. intros X. rewrite X in SL. cbn in SL. apply (wf_nonempty _ _ _ Wl). pose proof (wf_lengths _ _ _ Wl) as LL. rewrite <- SL in LL. now apply length_zero_iff_nil. }
  destruct (real_rect nc nt d ls W Hl) as [Rl Hne]. pose proof (xr_len _ _ _ _ W Hl) as HLr. pose proof (Forall2_rect _ _ _ _ HP) as Rp.
  assert (HL : length ps = length ls) by (rewrite <- (Forall2_length _ _ _ HP); exact HLr).
  destruct (LF row Hrow) as [Fr Nr].
  set (G := filter (fun p => same_leaf t row (fst p)) (combine (feature_rows d) (combine ls ps))).
  assert (ES : map (map xval) (map snd (@samples_like xr_ops _ row t rd)) = map (fun p => vsub (fst (snd p)) (snd (snd p))) G).
  { unfold G, samples_like, samples, rd. cbn [feature_rows labels]. unfold same_leaf. clear -HL HLr. revert ls ps HL HLr. xr. generalize (feature_rows d).
    induction l as [|r rows IH]; intros [|a ls] [|b ps] HL HLr; try discriminate; auto. cbn [map2 map combine filter fst snd].
    destruct (forallb _ _); cbn [map fst snd]; rewrite <- IH by (injection HL; injection HLr; auto); auto. f_equal. apply map_xval_Fin. }
  assert (NG : G <> []). { intros X. rewrite X in ES. apply map_eq_nil, map_eq_nil in ES. contradiction. }
  assert (GL : forall p, In p G -> length (fst (snd p)) = nt /\ length (snd (snd p)) = nt /\ same_leaf t row (fst p) = true /\ In (fst p) (feature_rows d)).
  { intros [r [a b]] Hp. unfold G in Hp. apply filter_In in Hp as [Hp Hs]. cbn [fst snd] in *. pose proof (in_combine_l _ _ _ _ Hp) as Hin. apply in_combine_r in Hp.
    split; [exact (proj1 (Forall_forall _ _) Rl _ (in_combine_l _ _ _ _ Hp))|]. split; [exact (proj1 (Forall_forall _ _) Rp _ (in_combine_r _ _ _ _ Hp))|]. auto. }
  split. { destruct G as [|p G']; [congruence|]. exists (fst p). destruct (GL p (or_introl eq_refl)) as (_ & _ & A & B). auto. }
  exists (means nt (map (map xval) (map snd (@samples_like xr_ops _ row t rd)))). split; [exact Fr|]. split; [apply means_length|]. intros j Hj.
  assert (O1 : nth j (means nt (map (map xval) (map snd (@samples_like xr_ops _ row t rd)))) 0 = left_over t (feature_rows d) ls ps row j).
  { rewrite (mean_nth j) by (auto; rewrite ES; intros X; apply map_eq_nil in X; contradiction). unfold left_over. fold G. unfold target. rewrite ES, map_map. f_equal. apply map_ext_in. intros p Hp. destruct (GL p Hp) as (A & B & _).
    unfold vsub. apply nth_map2; lia. }
  split; [exact O1|]. set (o := nth j (means nt (map (map xval) (map snd (@samples_like xr_ops _ row t rd)))) 0) in *.
  assert (RO : forall r, In r (feature_rows d) -> same_leaf t row r = true -> rout t r = means nt (map (map xval) (map snd (@samples_like xr_ops _ row t rd)))).
  { intros r Hin Hs. assert (Hr0 : (nc <= length r)%nat) by (eapply row_long; eauto). destruct (LF r Hr0) as [Fr' _]. apply rout_eq. unfold gb_out. xr. rewrite Fr'. cbn [bind unwrap gl_output].
    do 4 f_equal. now rewrite (same_leaf_like _ _ _ _ t rd row r Eb Hs). }
  assert (E2 : left_over t (feature_rows d) ls (map2 (vstep lr) ps (map (rout t) (feature_rows d))) row j =
    mean (map (fun p => nth j (fst (snd p)) 0 - nth j (snd (snd p)) 0 - lr * o) G)).
  { unfold left_over. f_equal. unfold G. unfold o. assert (RO' : forall r, In r (feature_rows d) -> same_leaf t row r = true -> nth j (rout t r) 0 = nth j (means nt (map (map xval) (map snd (@samples_like xr_ops _ row t rd)))) 0) by (intros; now rewrite RO).
    assert (LO : forall r, In r (feature_rows d) -> length (rout t r) = nt) by (intros r Hin; apply Hout; exact Hin).
    revert RO' LO. generalize (nth j (means nt (map (map xval) (map snd (@samples_like xr_ops _ row t rd)))) 0). clear -HL HLr Rp Hj. intros o. revert ls ps HL HLr Rp. xr. generalize (feature_rows d).
    induction l as [|r rows IH]; intros [|a ls] [|b ps] HL HLr Rp RO' LO; try discriminate; auto. cbn [map2 map combine filter fst snd].
    inversion Rp as [|? ? L1 Rp']. assert (T := IH ls ps ltac:(injection HL; auto) ltac:(injection HLr; auto) Rp' ltac:(intros; apply RO'; auto; now right) ltac:(intros; apply LO; now right)).
    destruct (same_leaf t row r) eqn:Es; [|exact T]. cbn [map fst snd]. f_equal; [|exact T].
    unfold vstep. rewrite nth_map2; [|lia|rewrite LO by (now left); lia]. rewrite (RO' r (or_introl eq_refl) Es). ring. }
  rewrite E2. rewrite (mean_minus (fun p => nth j (fst (snd p)) 0 - nth j (snd (snd p)) 0) (lr * o) G NG). unfold left_over in O1 |- *. fold G in O1 |- *. match goal with |- ?a - _ = _ * ?b => assert (Ka : a = o) by (symmetry; exact O1); assert (Kb : b = o) by (symmetry; exact O1); rewrite Ka, Kb end. ring.
Qed.

End Calibrate.

Theorem calibrated_full nc nt (d : @dataset xr_ops) ls cfg n m' row j :
  wf_dataset nc nt d -> real_labels ls d -> (0 < nt)%nat -> regression_boost_train d cfg (S n) (Fin 1) = Ok m' -> (nc <= length row)%nat -> (j < nt)%nat ->
  exists t ps', nth_error (m_trees m') n = Some t /\
    Forall2 (fun row p => regression_boost_predict m' row = Ok (map Fin p) /\ length p = nt) (feature_rows d) ps' /\
    (exists r, In r (feature_rows d) /\ same_leaf t row r = true) /\ left_over t (feature_rows d) ls ps' row j = 0.
Proof.
  intros W Hl Hk E' Hrow Hj. pose proof (regression_prefix d cfg (S n) n (Fin 1) m' ltac:(lia) E') as E.
  destruct (calibrated nc nt d ls cfg 1 W Hl Hk n _ m' E E') as (t & ps & ps' & A & _ & B & C). exists t, ps'. split; [exact A|]. split; [exact B|].
  destruct (C row Hrow) as [C1 (o & _ & _ & C2)]. split; [exact C1|]. destruct (C2 j Hj) as [_ C3]. rewrite C3. ring.
Qed.
