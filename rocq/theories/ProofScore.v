(** Predictions and scores, for any arithmetic. *)
From Coq Require Import Permutation.
From Verif Require Import Base Num ModelCommon ModelTree ModelBoost Spec SpecTree SpecScore Lib ProofData
  ProofTree ProofTree3.

Section Score.
Context {O : NumOps}.

(* ------------------------------------------------------------------ *)
(** ** Averages and squared errors *)

Lemma avg_label_eq k vv :
  vv <> [] -> rectangular k vv -> calculate_average_label_vector vv = Ok (colmean k vv).
Proof.
  intros NE R. rewrite <- (calculate_average_f64_vector_eq k vv NE R).
  unfold calculate_average_label_vector, calculate_average_f64_vector.
  destruct (idx vv 0) as [l0| |] eqn:E0; auto. cbn [bind]. f_equal.
  unfold for_range. apply foldM_ext. intros s i _. apply foldM_ext. intros s' j _.
  pose proof (idx_fuel s' j) as F1. pose proof (idx_fuel vv i) as F2.
  destruct (idx s' j), (idx vv i) as [row| |]; cbn [bind]; try congruence;
    pose proof (idx_fuel row j) as F3; destruct (idx row j); cbn [bind]; congruence.
Qed.

Definition sq_diffs (a b : list F) : list F := map2 (fun p q => fsqr (fsub p q)) a b.

Lemma for_range_two {A B S} (a : list A) (b : list B) (f : S -> A -> B -> res S) s :
  length a <= length b ->
  for_range (length a) (fun s i => x <- idx a i;; y <- idx b i;; f s x y) s =
  foldM (fun s p => f s (fst p) (snd p)) (combine a b) s.
Proof.
  intros H. rewrite <- (foldM_seq_idx (combine a b)).
  rewrite combine_length, Nat.min_l by auto. apply for_range_ext. intros s' i Hi.
  destruct (nth_error a i) as [x|] eqn:Ex; [|apply nth_error_None in Ex; lia].
  destruct (nth_error b i) as [y|] eqn:Ey; [|apply nth_error_None in Ey; lia].
  rewrite (proj2 (idx_Ok _ _ _) Ex), (proj2 (idx_Ok _ _ _) Ey). cbn [bind].
  assert (E : nth_error (combine a b) i = Some (x, y)).
  { clear -Ex Ey. revert b i Ex Ey. induction a as [|u a IH]; intros [|v b] [|i]; simpl; intros; try discriminate.
    - congruence.
    - auto. }
  rewrite (proj2 (idx_Ok _ _ _) E). reflexivity.
Qed.

(** A sequence of monadic contributions added up from [s]. *)
Lemma foldM_sum {A} (g : A -> res F) (l : list A) s :
  foldM (fun s x => e <- g x;; Ok (fadd s e)) l s = (es <- mapM g l;; Ok (fold_left fadd es s)).
Proof.
  revert s; induction l as [|x l IH]; intros s; cbn [foldM mapM bind]; [reflexivity|].
  rewrite bind_assoc. destruct (g x) as [e| |]; cbn [bind]; auto.
  rewrite IH. rewrite bind_assoc. destruct (mapM g l); reflexivity.
Qed.

Lemma squared_loop p a :
  length p <= length a ->
  mean_sum_of_squared_differences_between_vectors p a =
  Ok (fdiv (fold_left fadd (sq_diffs p a) f0) (f_of_nat (length p))).
Proof.
  intros H. unfold mean_sum_of_squared_differences_between_vectors.
  rewrite (for_range_two p a (fun s p a => Ok (fadd s (fsqr (fsub p a))))) by auto.
  rewrite foldM_pure. cbn [bind]. do 2 f_equal. unfold sq_diffs. rewrite map2_combine.
  generalize (@f0 O). induction (combine p a) as [|q l IH]; intros z; simpl; auto.
Qed.

Lemma squared_slices a b :
  length a = length b ->
  mean_sum_of_squared_differences_between_f64_slices a b =
  Ok (fdiv (fold_left fadd (sq_diffs a b) fsum0) (f_of_nat (length a))).
Proof.
  intros H. unfold mean_sum_of_squared_differences_between_f64_slices.
  rewrite (proj2 (Nat.eqb_eq _ _) H). unfold sq_diffs, fsum. now rewrite map2_combine.
Qed.

(** The error of one row under a tree. *)
Definition tree_row_error (t : tree_node regression_leaf) (p : list F * list F) : res F :=
  leaf <- find_leaf_node_for_data (fst p) t;;
  d <- unwrap (rl_data leaf);;
  prediction <- calculate_average_label_vector (labels d);;
  mean_sum_of_squared_differences_between_vectors prediction (snd p).

Lemma tree_mse_eq test t :
  length (feature_rows test) <= length (labels test) ->
  calculate_overall_mean_squared_error test t =
  (es <- mapM (tree_row_error t) (samples test);;
   Ok (fdiv (fold_left fadd es f0) (f_of_nat (length (feature_rows test))))).
Proof.
  intros H. unfold calculate_overall_mean_squared_error.
  etransitivity; [apply f_equal2; [|reflexivity]|].
  { etransitivity; [|apply (for_range_two (feature_rows test) (labels test)
      (fun s row actual => e <- tree_row_error t (row, actual);; Ok (fadd s e)) f0 H)].
    apply for_range_ext. intros s i Hi.
    destruct (idx (feature_rows test) i) as [row| |]; cbn [bind]; auto.
    unfold tree_row_error; cbn [fst snd].
    destruct (nth_error (labels test) i) as [y|] eqn:Ey; [|apply nth_error_None in Ey; lia].
    rewrite (proj2 (idx_Ok _ _ _) Ey). cbn [bind].
    rewrite !bind_assoc. destruct (find_leaf_node_for_data row t) as [l| |]; cbn [bind]; auto.
    rewrite !bind_assoc. destruct (unwrap (rl_data l)) as [d| |]; cbn [bind]; auto.
    rewrite !bind_assoc. destruct (calculate_average_label_vector (labels d)); cbn [bind]; auto. }
  rewrite (foldM_ext _ (fun s x => e <- tree_row_error t x;; Ok (fadd s e)))
    by (intros s [row y] _; reflexivity).
  rewrite foldM_sum. unfold samples. destruct (mapM _ _); reflexivity.
Qed.

(* ------------------------------------------------------------------ *)
(** ** Class votes *)

Definition bump (counts : list N) (l : list F) : list N :=
  map2 (fun c x => if feqb x f1 then (c + 1)%N else c) counts l.

Lemma bump_loop counts l :
  length l = length counts ->
  for_range (length l) (fun counts i => x <- idx l i;;
    if feqb x f1 then c <- idx counts i;; upd counts i (c + 1)%N else Ok counts) counts = Ok (bump counts l).
Proof.
  intros H. rewrite H.
  erewrite (for_range_update _ (fun i c => if feqb (nth i l f0) f1 then (c + 1)%N else c)).
  - f_equal. unfold bump. apply nth_error_ext. intros i. rewrite !nth_error_map2.
    destruct (Nat.lt_ge_cases i (length counts)) as [Hi|Hi].
    + rewrite (nth_error_nth' (seq 0 (length counts)) 0) by (rewrite seq_length; lia).
      rewrite seq_nth by lia. cbn [plus].
      destruct (nth_error counts i) eqn:E; auto.
      rewrite (nth_error_nth' l f0) by lia. reflexivity.
    + rewrite (proj2 (nth_error_None counts i)) by auto.
      rewrite (proj2 (nth_error_None (seq 0 (length counts)) i)) by (rewrite seq_length; lia). reflexivity.
  - intros pre x post Hl.
    rewrite (idx_nth l (length pre) f0) by lia. cbn [bind].
    destruct (feqb (nth (length pre) l f0) f1); [|reflexivity].
    rewrite idx_middle. cbn [bind]. apply upd_middle.
Qed.

Lemma counts_eq k ls :
  rectangular k ls ->
  exists cs, get_class_counts_multi_target ls k = Ok cs /\ length cs = k /\
    forall i, i < k -> nth_error cs i = Some (N.of_nat (votes ls i)).
Proof.
  intros R. unfold get_class_counts_multi_target.
  destruct (foldM_inv (fun pre cs => length cs = k /\
      forall i, i < k -> nth_error cs i = Some (N.of_nat (votes pre i)))
    (fun counts l => for_range (length l) (fun counts i => x <- idx l i;;
       if feqb x f1 then c <- idx counts i;; upd counts i (c + 1)%N else Ok counts) counts)
    ls (repeat 0%N k)) as (cs & E & H1 & H2).
  - split; [apply repeat_length|]. intros i Hi. now rewrite nth_error_repeat_lt.
  - intros pre l post cs E [H1 H2].
    assert (Hl : length l = k) by (rewrite E in R; apply Forall_app in R as [_ R]; now inversion R).
    exists (bump cs l). split; [apply bump_loop; congruence|].
    assert (Hb : length (bump cs l) = k) by (unfold bump; rewrite map2_length; lia).
    split; [exact Hb|]. intros i Hi. unfold bump. rewrite nth_error_map2, H2 by auto.
    unfold votes. rewrite filter_app, app_length. simpl.
    destruct (nth_error l i) as [x|] eqn:Ex; [|apply nth_error_None in Ex; lia].
    destruct (feqb x f1); simpl; f_equal; lia.
  - exists cs. auto.
Qed.

Context (LW : NumLaws O).

Lemma argmax_counts_spec (cs : list N) :
  (Z.of_nat (length cs) <= 2 ^ 53)%Z ->
  exists c, argmax_counts cs = (nth c cs 0%N, f_of_nat c, f_of_nat (length cs)) /\
    (c = 0 \/ c < length cs) /\
    forall i, i < length cs -> (nth i cs 0 <= nth c cs 0)%N /\ (i < c -> (nth i cs 0 < nth c cs 0)%N).
Proof.
  unfold argmax_counts. induction cs as [|x cs IH] using rev_ind; intros Hl.
  - exists 0. simpl. rewrite (f_of_nat_0 _ LW). repeat split; auto; lia.
  - rewrite app_length in Hl; simpl in Hl.
    destruct IH as (c & E & H1 & H2); [lia|].
    rewrite fold_left_app, E. cbn [fold_left].
    rewrite (f_of_nat_S _ LW) by lia.
    replace (S (length cs)) with (length (cs ++ [x])) by (rewrite app_length; simpl; lia).
    assert (Hlen : length (cs ++ [x]) = length cs + 1) by apply app_length.
    assert (Hlast : nth (length cs) (cs ++ [x]) 0%N = x) by (rewrite app_nth2, Nat.sub_diag by lia; reflexivity).
    destruct (N.ltb_spec (nth c cs 0%N) x) as [Hx|Hx].
    + exists (length cs). rewrite Hlast. split; [reflexivity|]. split; [right; lia|]. intros i Hi.
      destruct (Nat.eq_dec i (length cs)) as [->|Hne]; [rewrite Hlast; split; lia|].
      rewrite app_nth1 by lia. destruct (H2 i) as [Ha Hb]; [lia|]. split; lia.
    + assert (Hc : nth c (cs ++ [x]) 0%N = nth c cs 0%N).
      { destruct (Nat.lt_ge_cases c (length cs)); [now apply app_nth1|].
        assert (c = 0) by lia. subst c. destruct cs; simpl in *; [|lia]. lia. }
      exists c. rewrite Hc. split; [reflexivity|]. split; [lia|]. intros i Hi.
      destruct (Nat.eq_dec i (length cs)) as [->|Hne]; [rewrite Hlast; split; [auto|lia]|].
      rewrite app_nth1 by lia. apply H2. lia.
Qed.

(** The class chosen from a leaf's labels. *)
Theorem predict_class_leaf k t row ld :
  find_leaf_node_for_data row t = Ok (mkRL (Some ld)) ->
  labels ld <> [] -> rectangular k (labels ld) -> 0 < k -> (Z.of_nat k <= 2 ^ 53)%Z ->
  exists c v, predict_class row t = Ok v /\ one_hot k (N.of_nat c) v /\ most_votes k (labels ld) c.
Proof.
  intros Ef NE R Hk Hk2. unfold predict_class. rewrite Ef. cbn [bind unwrap rl_data].
  destruct (labels ld) as [|l0 ls] eqn:El; [congruence|].
  assert (Hl0 : length l0 = k) by (now inversion R).
  change (idx (l0 :: ls) 0) with (Ok l0). cbn [bind]. rewrite Hl0.
  destruct (counts_eq k (l0 :: ls) R) as (cs & Ec & Hcl & Hv). rewrite Ec. cbn [bind].
  destruct (argmax_counts_spec cs) as (c & Ea & Hc & Hm); [lia|]. rewrite Ea.
  rewrite (f_to_usize_nat _ LW) by lia.
  assert (Hck : c < k) by lia.
  destruct (updN (repeat f0 k) (N.of_nat c) f1) as [v| |] eqn:Ev.
  - exists c, v. split; [reflexivity|]. apply one_hot_upd in Ev. split; [exact Ev|].
    split; [exact Hck|]. intros i Hi. destruct (Hm i) as [Ha Hb]; [lia|].
    assert (Hn : forall j, j < k -> nth j cs 0%N = N.of_nat (votes (l0 :: ls) j))
      by (intros j Hj; apply nth_error_nth, Hv; auto).
    rewrite !Hn in Ha by auto. split; [lia|]. intros Hic. specialize (Hb Hic). rewrite !Hn in Hb by auto. lia.
  - apply one_hot_upd_Panic in Ev. lia.
  - now apply updN_fuel in Ev.
Qed.

Theorem predict_class_tree nc nt d cfg t row :
  wf_dataset nc nt d -> 0 < nt -> (Z.of_nat nt <= 2 ^ 53)%Z ->
  regression_tree_new d cfg = Ok t -> nc <= length row ->
  exists ld c v, find_leaf_node_for_data row t = Ok (mkRL (Some ld)) /\
    predict_class row t = Ok v /\ one_hot nt (N.of_nat c) v /\ most_votes nt (labels ld) c.
Proof.
  intros W H1 H2 Et Hr. rewrite regression_tree_new_eq in Et. apply build_with_built in Et.
  destruct (built_lookup _ _ _ _ _ _ row Et W Hr) as (ld & Ef & _ & Wl).
  destruct (predict_class_leaf nt t row ld Ef) as (c & v & H); auto.
  - intros E. apply (wf_nonempty _ _ _ Wl). pose proof (wf_lengths _ _ _ Wl) as L. rewrite E in L.
    now apply length_zero_iff_nil.
  - apply (wf_labels _ _ _ Wl).
  - exists ld, c, v. auto.
Qed.

Lemma most_votes_unique k ls c c' : most_votes k ls c -> most_votes k ls c' -> c = c'.
Proof.
  intros [H1 H2] [H3 H4]. destruct (Nat.lt_trichotomy c c') as [H|[H|H]]; auto; exfalso.
  - destruct (H4 c H1) as [_ Hb], (H2 c' H3) as [Ha _]. specialize (Hb H). lia.
  - destruct (H2 c' H3) as [_ Hb], (H4 c H1) as [Ha _]. specialize (Hb H). lia.
Qed.

Lemma one_hot_unique k c v v' : one_hot k c v -> one_hot k c v' -> v = v'.
Proof.
  intros (H1 & H2 & H3) (H1' & H2' & H3'). apply nth_error_ext. intros i.
  destruct (Nat.lt_ge_cases i k) as [Hi|Hi]; [now rewrite H3, H3'|].
  rewrite !(proj2 (nth_error_None _ _)) by lia. reflexivity.
Qed.

(* ------------------------------------------------------------------ *)
(** ** Accuracy *)

Lemma vec_eqb_equal a : forall b, vec_eqb a b = equal_vectors a b.
Proof.
  unfold equal_vectors. induction a as [|x a IH]; intros [|y b]; simpl; auto.
  rewrite IH. destruct (feqb x y), (length a =? length b); reflexivity.
Qed.

Lemma count_up (p : list F * list F -> bool) (l : list (list F * list F)) k :
  (Z.of_nat (k + length l) <= 2 ^ 53)%Z ->
  fold_left (fun s x => if p x then fadd s f1 else s) l (f_of_nat k) = f_of_nat (k + length (filter p l)).
Proof.
  revert k; induction l as [|x l IH]; intros k H; simpl in *; [now rewrite Nat.add_0_r|].
  destruct (p x).
  - rewrite (f_of_nat_S _ LW) by lia. rewrite IH by lia. f_equal. simpl. lia.
  - apply IH. lia.
Qed.

Lemma foldM_correct (predict : list F -> res (list F)) (l : list (list F * list F)) :
  (Z.of_nat (length l) <= 2 ^ 53)%Z ->
  Forall (fun p => exists v, predict (fst p) = Ok v) l ->
  foldM (fun s p => v <- predict (fst p);; Ok (if vec_eqb v (snd p) then fadd s f1 else s)) l f0 =
  Ok (f_of_nat (length (filter (fun p => match predict (fst p) with Ok v => equal_vectors v (snd p) | _ => false end) l))).
Proof.
  intros Hl Hp.
  assert (E : forall s, foldM (fun s p => v <- predict (fst p);; Ok (if vec_eqb v (snd p) then fadd s f1 else s)) l s =
    Ok (fold_left (fun s p => if match predict (fst p) with Ok v => equal_vectors v (snd p) | _ => false end then fadd s f1 else s) l s)).
  { clear Hl. induction Hp as [|p l [v Ev] Hp IH]; intros s; [reflexivity|].
    cbn [foldM fold_left]. rewrite Ev. cbn [bind]. rewrite vec_eqb_equal. apply IH. }
  rewrite E. rewrite <- (f_of_nat_0 _ LW). now rewrite count_up by (simpl; auto).
Qed.

Theorem tree_accuracy test t :
  length (feature_rows test) <= length (labels test) ->
  (Z.of_nat (length (feature_rows test)) <= 2 ^ 53)%Z ->
  Forall (fun row => exists v, predict_class row t = Ok v) (feature_rows test) ->
  calculate_accuracy test t =
  Ok (fdiv (f_of_nat (length (correct_samples (fun row => predict_class row t) test)))
           (f_of_nat (length (feature_rows test)))).
Proof.
  intros H1 H2 H3. unfold calculate_accuracy.
  assert (Hs : length (samples test) = length (feature_rows test))
    by (unfold samples; rewrite combine_length; lia).
  assert (Hp : Forall (fun p => exists v, predict_class (fst p) t = Ok v) (samples test)).
  { apply Forall_forall. intros [r y] Hin. apply in_combine_l in Hin.
    rewrite Forall_forall in H3. now apply H3. }
  etransitivity; [apply f_equal2; [|reflexivity]|].
  { etransitivity; [|apply (for_range_two (feature_rows test) (labels test)
      (fun s row actual => v <- predict_class row t;; Ok (if vec_eqb v actual then fadd s f1 else s)) f0 H1)].
    apply for_range_ext. intros s i Hi.
    destruct (idx (feature_rows test) i) as [row| |]; cbn [bind]; auto.
    destruct (nth_error (labels test) i) as [y|] eqn:Ey; [|apply nth_error_None in Ey; lia].
    rewrite (proj2 (idx_Ok _ _ _) Ey). cbn [bind]. reflexivity. }
  change (combine (feature_rows test) (labels test)) with (samples test).
  rewrite (foldM_correct (fun row => predict_class row t) (samples test)) by (rewrite ?Hs; auto).
  reflexivity.
Qed.

Lemma foldM_enumerate {A B S} (f : S -> A -> B -> res S) (a : list A) (b : list B) s :
  length a <= length b ->
  foldM (fun s ip => y <- idx b (fst ip);; f s (snd ip) y) (enumerate a) s =
  foldM (fun s p => f s (fst p) (snd p)) (combine a b) s.
Proof.
  intros H. rewrite <- (for_range_two a b f s H).
  rewrite <- (foldM_seq_idx (enumerate a)), enumerate_length.
  apply for_range_ext. intros s' i Hi.
  destruct (nth_error a i) as [x|] eqn:Ex; [|apply nth_error_None in Ex; lia].
  assert (E : nth_error (enumerate a) i = Some (i, x)) by (rewrite nth_error_enumerate, Ex; reflexivity).
  rewrite (proj2 (idx_Ok _ _ _) E), (proj2 (idx_Ok _ _ _) Ex). reflexivity.
Qed.

Lemma all_predictions_eq predict test :
  calculate_all_predictions predict test = mapM predict (feature_rows test).
Proof.
  unfold calculate_all_predictions.
  rewrite (for_range_ext _ _ (fun acc i => x <- (row <- idx (feature_rows test) i;; predict row);; Ok (acc ++ [x])))
    by (intros; now rewrite bind_assoc).
  rewrite for_range_push, mapM_seq_idx. destruct (mapM _ _); reflexivity.
Qed.

Theorem ensemble_accuracy predict test :
  length (feature_rows test) <= length (labels test) ->
  (Z.of_nat (length (feature_rows test)) <= 2 ^ 53)%Z ->
  Forall (fun row => exists v, predict row = Ok v) (feature_rows test) ->
  (ps <- calculate_all_predictions predict test;; calculate_accuracy_from_predictions ps test) =
  Ok (fdiv (f_of_nat (length (correct_samples predict test))) (f_of_nat (length (feature_rows test)))).
Proof.
  intros H1 H2 H3. rewrite all_predictions_eq.
  assert (exists ps, mapM predict (feature_rows test) = Ok ps) as (ps & Eps).
  { clear H1 H2. induction H3 as [|r rs [v Ev] H3 [ps IH]]; [now exists []|].
    exists (v :: ps). simpl. rewrite Ev. cbn [bind]. rewrite IH. reflexivity. }
  rewrite Eps. cbn [bind]. unfold calculate_accuracy_from_predictions.
  pose proof (mapM_length _ _ _ Eps) as Hl.
  etransitivity; [apply f_equal2; [|reflexivity]|].
  { etransitivity; [|apply (foldM_enumerate (fun s v y => Ok (if vec_eqb v y then fadd s f1 else s)) ps (labels test) f0); lia].
    apply foldM_ext. intros s [i v] _. reflexivity. }
  rewrite Hl. apply mapM_Forall2 in Eps.
  assert (E : forall s, foldM (fun s p => Ok (if vec_eqb (fst p) (snd p) then fadd s f1 else s)) (combine ps (labels test)) s =
    foldM (fun s p => v <- predict (fst p);; Ok (if vec_eqb v (snd p) then fadd s f1 else s)) (samples test) s).
  { unfold samples. clear -Eps. generalize (labels test). induction Eps as [|r v rs vs Ev Eps IH]; intros ls s; [reflexivity|].
    destruct ls as [|y ls]; [reflexivity|]. cbn [combine foldM fst snd]. rewrite Ev. cbn [bind]. apply IH. }
  rewrite E. rewrite foldM_correct; [reflexivity| |].
  - unfold samples; rewrite combine_length; lia.
  - apply Forall_forall. intros [r y] Hin. apply in_combine_l in Hin.
    rewrite Forall_forall in H3. now apply H3.
Qed.

Lemma filter_perm_length {A} (p : A -> bool) a b : Permutation a b -> length (filter p a) = length (filter p b).
Proof.
  intros H. induction H; simpl; auto.
  - destruct (p x); simpl; auto.
  - destruct (p x), (p y); reflexivity.
  - congruence.
Qed.

Lemma correct_perm predict test test' :
  Permutation (samples test) (samples test') ->
  length (correct_samples predict test) = length (correct_samples predict test').
Proof. apply filter_perm_length. Qed.

End Score.
