(** Proofs about sorting and the two partitioning functions. *)
From Verif Require Import Base Num ModelCommon ModelTree Lib Spec ProofData.

(* ------------------------------------------------------------------ *)
(** ** Generic list facts *)

Lemma StronglySorted_filter {A} (R : A -> A -> Prop) (p : A -> bool) l :
  StronglySorted R l -> StronglySorted R (filter p l).
Proof.
  induction 1 as [|x l Hs IH Hf]; simpl; [constructor|].
  destruct (p x); auto. constructor; auto.
  rewrite Forall_forall in *. intros y Hy. apply filter_In in Hy. now apply Hf.
Qed.

Lemma Permutation_filter_p {A} (p : A -> bool) a b : Permutation a b -> Permutation (filter p a) (filter p b).
Proof.
  induction 1; simpl; auto.
  - destruct (p x); auto.
  - destruct (p x), (p y); auto. apply perm_swap.
  - eapply perm_trans; eauto.
Qed.

Lemma sorted_perm_unique {A} (R : A -> A -> Prop) (asym : forall x y, R x y -> R y x -> False) a b :
  Permutation a b -> StronglySorted R a -> StronglySorted R b -> a = b.
Proof.
  revert b. induction a as [|x a IH]; intros b Hp Ha Hb.
  - apply Permutation_nil in Hp. auto.
  - destruct b as [|y b]; [now apply Permutation_sym, Permutation_nil in Hp|].
    inversion Ha as [|? ? Ha1 Ha2]; inversion Hb as [|? ? Hb1 Hb2]; subst.
    assert (x = y).
    { assert (Hx : In x (y :: b)) by (eapply Permutation_in; [exact Hp|now left]).
      assert (Hy : In y (x :: a)) by (eapply Permutation_in; [apply Permutation_sym; exact Hp|now left]).
      destruct Hx as [->|Hx]; auto. destruct Hy as [->|Hy]; auto.
      rewrite Forall_forall in *. exfalso. eapply asym; eauto. }
    subst y. f_equal. apply IH; auto. eapply Permutation_cons_inv; eauto.
Qed.

Lemma StronglySorted_app_inv {A} (R : A -> A -> Prop) a b :
  StronglySorted R (a ++ b) ->
  StronglySorted R a /\ StronglySorted R b /\ forall x y, In x a -> In y b -> R x y.
Proof.
  induction a as [|x a IH]; simpl; intros H.
  - repeat split; auto; [constructor|]. intros ? ? [].
  - inversion H as [|? ? H1 H2]; subst. destruct (IH H1) as (Ha & Hb & Hc).
    rewrite Forall_forall in H2. repeat split; auto.
    + constructor; auto. apply Forall_forall. intros. apply H2, in_or_app. now left.
    + intros u v [->|Hu] Hv; [apply H2, in_or_app; now right|now apply Hc].
Qed.

Lemma StronglySorted_seq a n : StronglySorted lt (seq a n).
Proof.
  revert a; induction n as [|n IH]; intros a; simpl; constructor; auto.
  apply Forall_forall. intros x Hx. apply in_seq in Hx. lia.
Qed.

Lemma sorted_lt_ext (a b : list nat) :
  StronglySorted lt a -> StronglySorted lt b -> (forall x, In x a <-> In x b) -> a = b.
Proof.
  intros Ha Hb H. apply (sorted_perm_unique lt); auto; [lia|].
  apply NoDup_Permutation; auto.
  - clear -Ha. induction Ha as [|x l Hs IH Hf]; constructor; auto.
    intros Hin. rewrite Forall_forall in Hf. specialize (Hf _ Hin). lia.
  - clear -Hb. induction Hb as [|x l Hs IH Hf]; constructor; auto.
    intros Hin. rewrite Forall_forall in Hf. specialize (Hf _ Hin). lia.
Qed.

Lemma filter_all {A} (p : A -> bool) l : (forall x, In x l -> p x = true) -> filter p l = l.
Proof.
  induction l as [|x l IH]; simpl; intros H; auto.
  rewrite (H x) by auto. f_equal. apply IH. auto.
Qed.

Lemma filter_none {A} (p : A -> bool) l : (forall x, In x l -> p x = false) -> filter p l = [].
Proof.
  induction l as [|x l IH]; simpl; intros H; auto.
  rewrite (H x) by auto. apply IH. auto.
Qed.

Lemma filter_ext_In {A} (p q : A -> bool) l : (forall x, In x l -> p x = q x) -> filter p l = filter q l.
Proof.
  induction l as [|x l IH]; simpl; intros H; auto.
  rewrite (H x), IH by auto. reflexivity.
Qed.

Lemma filter_map_comb {A B} (p : A -> bool) (f : A -> B) (q : B -> bool) l :
  (forall x, In x l -> q (f x) = p x) -> filter q (map f l) = map f (filter p l).
Proof.
  intros H. rewrite filter_map_swap. f_equal. now apply filter_ext_In.
Qed.

Lemma NoDup_app_disj {A} (a b : list A) x : NoDup (a ++ b) -> In x a -> In x b -> False.
Proof.
  induction a as [|y a IH]; simpl; intros HN Ha Hb; [contradiction|].
  inversion HN as [|? ? Hni HN']; subst. destruct Ha as [<-|Ha].
  - apply Hni, in_or_app. now right.
  - now apply IH.
Qed.

Section Sort.
Context {O : NumOps} (LW : NumLaws O).

(* ------------------------------------------------------------------ *)
(** ** Order facts *)

Lemma fltb_irrefl x : fltb x x = false.
Proof. rewrite (fltb_fleb _ LW). destruct (fleb x x); reflexivity. Qed.

Lemma fltb_trans x y z : fltb x y = true -> fltb y z = true -> fltb x z = true.
Proof.
  rewrite !(fltb_fleb _ LW), !andb_true_iff, !negb_true_iff. intros [A B] [C D]. split.
  - eapply (fleb_trans _ LW); eauto.
  - destruct (fleb z x) eqn:E; auto. rewrite <- D. symmetry. apply (fleb_trans _ LW) with x; auto.
Qed.

Lemma fltb_le x y : fltb x y = true -> fleb x y = true.
Proof. rewrite (fltb_fleb _ LW), andb_true_iff. tauto. Qed.

Lemma fltb_le_trans x y z : fltb x y = true -> fleb y z = true -> fltb x z = true.
Proof.
  rewrite !(fltb_fleb _ LW), !andb_true_iff, !negb_true_iff. intros [A B] C. split.
  - eapply (fleb_trans _ LW); eauto.
  - destruct (fleb z x) eqn:E; auto. rewrite <- B. symmetry. apply (fleb_trans _ LW) with z; auto.
Qed.

Lemma fle_ltb_trans x y z : fleb x y = true -> fltb y z = true -> fltb x z = true.
Proof.
  rewrite !(fltb_fleb _ LW), !andb_true_iff, !negb_true_iff. intros A [B C]. split.
  - eapply (fleb_trans _ LW); eauto.
  - destruct (fleb z x) eqn:E; auto. rewrite <- C. symmetry. apply (fleb_trans _ LW) with x; auto.
Qed.

Lemma feqb_iff x y : feqb x y = true <-> fleb x y = true /\ fleb y x = true.
Proof. now rewrite (feqb_fleb _ LW), andb_true_iff. Qed.

Lemma feqb_sym x y : feqb x y = feqb y x.
Proof. rewrite !(feqb_fleb _ LW). apply andb_comm. Qed.

Lemma fltb_nle x y : is_num x -> is_num y -> fltb x y = negb (fleb y x).
Proof.
  intros Hx Hy. rewrite (fltb_fleb _ LW). destruct (fleb y x) eqn:E; simpl.
  - apply andb_false_r.
  - rewrite andb_true_r. destruct (fleb_total _ LW x y Hx Hy); congruence.
Qed.

Lemma is_num_dec x : {is_num x} + {~ is_num x}.
Proof. unfold is_num. destruct (fleb x x); auto. Qed.

Lemma cmp_None x y : f_partial_cmp x y = None <-> ~ is_num x \/ ~ is_num y.
Proof.
  unfold f_partial_cmp, is_num. destruct (fleb x y) eqn:A, (fleb y x) eqn:B; split; try discriminate; auto.
  - intros [H|H]; exfalso; apply H; eauto using (fleb_nan_l _ LW), (fleb_nan_r _ LW).
  - intros [H|H]; exfalso; apply H; eauto using (fleb_nan_l _ LW), (fleb_nan_r _ LW).
  - intros [H|H]; exfalso; apply H; eauto using (fleb_nan_l _ LW), (fleb_nan_r _ LW).
  - intros _. destruct (fleb x x) eqn:X; [|left; congruence]. destruct (fleb y y) eqn:Y; [|right; congruence].
    destruct (fleb_total _ LW x y X Y); congruence.
Qed.

Lemma cmp_Lt x y : f_partial_cmp x y = Some Lt <-> fltb x y = true.
Proof.
  unfold f_partial_cmp. rewrite (fltb_fleb _ LW). destruct (fleb x y), (fleb y x); simpl; split; congruence.
Qed.
Lemma cmp_Gt x y : f_partial_cmp x y = Some Gt <-> fltb y x = true.
Proof.
  unfold f_partial_cmp. rewrite (fltb_fleb _ LW). destruct (fleb x y), (fleb y x); simpl; split; congruence.
Qed.
Lemma cmp_Eq x y : f_partial_cmp x y = Some Eq <-> feqb x y = true.
Proof.
  unfold f_partial_cmp. rewrite (feqb_fleb _ LW). destruct (fleb x y), (fleb y x); simpl; split; congruence.
Qed.

Lemma pair_cmp_Lt a b : pair_partial_cmp a b = Some Lt <-> pair_lt a b.
Proof.
  unfold pair_partial_cmp, pair_lt. rewrite <- cmp_Lt, <- cmp_Eq.
  destruct (f_partial_cmp (fst a) (fst b)) as [[| |]|].
  - split; intros H; [right|destruct H as [H|H]]; try discriminate.
    + split; auto. apply Nat.compare_lt_iff. congruence.
    + destruct H. f_equal. now apply Nat.compare_lt_iff.
  - split; auto.
  - split; [discriminate|]. intros [H|[H _]]; discriminate.
  - split; [discriminate|]. intros [H|[H _]]; discriminate.
Qed.

Lemma pair_cmp_Gt a b : pair_partial_cmp a b = Some Gt <-> pair_lt b a.
Proof.
  unfold pair_partial_cmp, pair_lt. rewrite <- cmp_Gt, feqb_sym, <- cmp_Eq.
  destruct (f_partial_cmp (fst a) (fst b)) as [[| |]|].
  - split; intros H; [right|destruct H as [H|H]]; try discriminate.
    + split; auto. apply Nat.compare_gt_iff. congruence.
    + destruct H. f_equal. now apply Nat.compare_gt_iff.
  - split; [discriminate|]. intros [H|[H _]]; discriminate.
  - split; auto.
  - split; [discriminate|]. intros [H|[H _]]; discriminate.
Qed.

Lemma pair_cmp_Eq a b : pair_partial_cmp a b = Some Eq -> snd a = snd b.
Proof.
  unfold pair_partial_cmp. destruct (f_partial_cmp (fst a) (fst b)) as [[| |]|]; try discriminate.
  intros H. apply Nat.compare_eq. congruence.
Qed.

Lemma pair_cmp_None a b : pair_partial_cmp a b = None <-> ~ is_num (fst a) \/ ~ is_num (fst b).
Proof.
  unfold pair_partial_cmp. rewrite <- cmp_None. destruct (f_partial_cmp (fst a) (fst b)) as [[| |]|]; split; congruence.
Qed.

Lemma pair_lt_asym a b : pair_lt a b -> pair_lt b a -> False.
Proof.
  intros H1 H2. apply pair_cmp_Lt in H1. apply pair_cmp_Gt in H2. congruence.
Qed.

Lemma feqb_trans x y z : feqb x y = true -> feqb y z = true -> feqb x z = true.
Proof. rewrite !feqb_iff. intros [A B] [C D]. split; eapply (fleb_trans _ LW); eauto. Qed.

Lemma feqb_ltb x y z : feqb x y = true -> fltb y z = true -> fltb x z = true.
Proof. rewrite feqb_iff. intros [A B] C. eapply fle_ltb_trans; eauto. Qed.

Lemma ltb_feqb x y z : fltb x y = true -> feqb y z = true -> fltb x z = true.
Proof. rewrite feqb_iff. intros A [B C]. eapply fltb_le_trans; eauto. Qed.

Lemma pair_lt_trans a b c : pair_lt a b -> pair_lt b c -> pair_lt a c.
Proof.
  unfold pair_lt. intros [A|[A A']] [B|[B B']].
  - left. eapply fltb_trans; eauto.
  - left. eapply ltb_feqb; eauto.
  - left. eapply feqb_ltb; eauto.
  - right. split; [eapply feqb_trans; eauto|lia].
Qed.

Lemma pair_lt_le a b : pair_lt a b -> fleb (fst a) (fst b) = true.
Proof. intros [H|[H _]]; [now apply fltb_le|]. now apply feqb_iff in H. Qed.

(* ------------------------------------------------------------------ *)
(** ** Sorting *)

Lemma insert_sorted_fuel x l : insert_sorted x l <> OutOfFuel.
Proof.
  induction l as [|y l IH]; simpl; [discriminate|].
  destruct (pair_partial_cmp x y) as [[| |]|]; try discriminate.
  destruct (insert_sorted x l); simpl; congruence.
Qed.

Lemma insert_sorted_Ok x l :
  is_num (fst x) -> Forall (fun p => is_num (fst p)) l -> StronglySorted pair_lt l -> ~ In (snd x) (map snd l) ->
  exists r, insert_sorted x l = Ok r /\ Permutation r (x :: l) /\ StronglySorted pair_lt r.
Proof.
  intros Hx Hl Hs Hn. induction l as [|y l IH]; simpl.
  - exists [x]. repeat constructor.
  - inversion Hl as [|? ? Hy Hl']; inversion Hs as [|? ? Hs' Hf]; subst. simpl in Hn.
    destruct (pair_partial_cmp x y) as [[| |]|] eqn:E.
    + apply pair_cmp_Eq in E. exfalso. apply Hn. left. congruence.
    + apply pair_cmp_Lt in E. exists (x :: y :: l). split; auto. split; auto.
      constructor; auto. constructor; auto.
      eapply Forall_impl; [|exact Hf]. intros z Hz. eapply pair_lt_trans; eauto.
    + apply pair_cmp_Gt in E. destruct IH as (r & Er & Hp & Hr); auto.
      rewrite Er. simpl. exists (y :: r). split; auto. split.
      * rewrite Hp. apply perm_swap.
      * constructor; auto. apply Forall_forall. intros z Hz.
        eapply Permutation_in in Hz; [|exact Hp]. destruct Hz as [<-|Hz]; auto.
        rewrite Forall_forall in Hf. now apply Hf.
    + apply pair_cmp_None in E. tauto.
Qed.

Lemma sort_pairs_Ok l :
  Forall (fun p => is_num (fst p)) l -> NoDup (map snd l) ->
  exists r, sort_pairs l = Ok r /\ Permutation r l /\ StronglySorted pair_lt r.
Proof.
  induction l as [|x l IH]; intros Hn Hd; simpl.
  - exists []. repeat constructor.
  - inversion Hn as [|? ? Hx Hn']; inversion Hd as [|? ? Hni Hd']; subst.
    destruct IH as (r & Er & Hp & Hr); auto. rewrite Er. simpl.
    destruct (insert_sorted_Ok x r) as (r' & Er' & Hp' & Hr'); auto.
    + eapply Permutation_Forall; [apply Permutation_sym; exact Hp|]. assumption.
    + intros Hin. apply Hni. eapply Permutation_in; [|exact Hin]. now apply Permutation_map.
    + exists r'. split; auto. split; auto. rewrite Hp'. now constructor.
Qed.

Lemma sort_pairs_perm l r : sort_pairs l = Ok r -> Permutation r l.
Proof.
  revert r; induction l as [|x l IH]; simpl; intros r H.
  - injection H as <-. constructor.
  - inv_bind H. apply IH in E. rewrite <- E. clear E IH. revert r H.
    induction x0 as [|y t IH]; simpl; intros r H.
    + injection H as <-. constructor; constructor.
    + destruct (pair_partial_cmp x y) as [[| |]|]; try discriminate.
      * injection H as <-. reflexivity.
      * injection H as <-. reflexivity.
      * inv_bind H. injection H as <-. rewrite (IH _ E). apply perm_swap.
Qed.

Lemma sort_pairs_fuel l : sort_pairs l <> OutOfFuel.
Proof.
  induction l as [|x l IH]; simpl; [discriminate|].
  destruct (sort_pairs l); simpl; try congruence. apply insert_sorted_fuel.
Qed.

Lemma sort_pairs_Panic l :
  2 <= length l -> Exists (fun p => ~ is_num (fst p)) l -> sort_pairs l = Panic.
Proof.
  induction l as [|x l IH]; simpl; intros Hl He; [inversion He|].
  destruct l as [|y l]; [simpl in Hl; lia|].
  destruct (Exists_dec (fun p => ~ is_num (fst p)) (y :: l)) as [H|H].
  { intros p. destruct (is_num_dec (fst p)); [right|left]; tauto. }
  - destruct l as [|z l].
    + simpl. rewrite (proj2 (pair_cmp_None x y)); [reflexivity|].
      inversion H as [? ? Hy|? ? H']; subst; [auto|inversion H'].
    + rewrite IH; auto. simpl; lia.
  - assert (Hx : ~ is_num (fst x)) by (inversion He; subst; auto; contradiction).
    destruct (sort_pairs (y :: l)) as [r| |] eqn:E; simpl; auto.
    + apply sort_pairs_perm in E. destruct r as [|w r].
      * apply Permutation_nil in E. discriminate.
      * simpl. rewrite (proj2 (pair_cmp_None x w)); auto.
    + now apply sort_pairs_fuel in E.
Qed.

Lemma tuple_vector_eq col :
  fold_left (fun v p => v ++ [(snd p, fst p)]) (enumerate col) [] = value_positions col.
Proof.
  transitivity (map (fun p : nat * F => (snd p, fst p)) (enumerate col)).
  - cut (forall l acc, fold_left (fun v p => v ++ [(snd p, fst p)]) l acc =
                       acc ++ map (fun p : nat * F => (snd p, fst p)) l).
    { intros H. now rewrite H. }
    induction l as [|p l IH]; intros acc; simpl; [now rewrite app_nil_r|].
    rewrite IH, <- app_assoc. reflexivity.
  - unfold enumerate, value_positions. generalize 0.
    induction col as [|x col IH]; intros k; simpl; auto. now rewrite IH.
Qed.

Lemma value_positions_snd col : map snd (value_positions col) = seq 0 (length col).
Proof. apply map_snd_combine. now rewrite seq_length. Qed.

Lemma value_positions_fst col : map fst (value_positions col) = col.
Proof. apply map_fst_combine. now rewrite seq_length. Qed.

Lemma nth_error_seq k n i : nth_error (seq k n) i = if i <? n then Some (k + i) else None.
Proof.
  destruct (Nat.ltb_spec i n).
  - rewrite nth_error_nth' with (d := 0) by now rewrite seq_length. now rewrite seq_nth.
  - apply nth_error_None. now rewrite seq_length.
Qed.

Lemma nth_error_combine {A B} (a : list A) (b : list B) i :
  nth_error (combine a b) i =
  match nth_error a i, nth_error b i with Some x, Some y => Some (x, y) | _, _ => None end.
Proof.
  revert b i; induction a as [|x a IH]; intros [|y b] [|i]; simpl; auto.
  now destruct (nth_error a i).
Qed.

Lemma nth_error_value_positions col i :
  nth_error (value_positions col) i = option_map (fun x => (x, i)) (nth_error col i).
Proof.
  unfold value_positions. rewrite nth_error_combine, nth_error_seq.
  destruct (nth_error col i) eqn:E; simpl; auto.
  assert (Hi : i < length col) by (apply nth_error_Some; congruence).
  apply Nat.ltb_lt in Hi. now rewrite Hi.
Qed.

Lemma value_positions_In col p :
  In p (value_positions col) <-> nth_error col (snd p) = Some (fst p).
Proof.
  split.
  - intros H. apply In_nth_error in H as (i & H). rewrite nth_error_value_positions in H.
    destruct (nth_error col i) eqn:E; [|discriminate]. injection H as <-. exact E.
  - intros H. apply nth_error_In with (n := snd p). rewrite nth_error_value_positions, H.
    now destruct p.
Qed.

Lemma value_positions_num col :
  Forall is_num col -> Forall (fun p => is_num (fst p)) (value_positions col).
Proof.
  intros H. apply (Forall_map fst). now rewrite value_positions_fst.
Qed.

Theorem get_sorted_Ok col :
  length col <= 1 \/ Forall is_num col ->
  exists r, get_sorted_feature_tuple_vector col = Ok r /\ sorted_version col r.
Proof.
  unfold get_sorted_feature_tuple_vector, sorted_version. rewrite tuple_vector_eq. intros [H|H].
  - destruct col as [|x [|y col]]; simpl in H; try lia; simpl.
    + exists []. repeat constructor.
    + exists [(x, 0)]. repeat constructor.
  - destruct (sort_pairs_Ok (value_positions col)) as (r & Er & Hp & Hs).
    + now apply value_positions_num.
    + rewrite value_positions_snd. apply seq_NoDup.
    + eauto.
Qed.

Theorem get_sorted_Panic col :
  get_sorted_feature_tuple_vector col = Panic <-> 2 <= length col /\ Exists (fun x => ~ is_num x) col.
Proof.
  split.
  - intros E. destruct (le_lt_dec 2 (length col)) as [Hl|Hl].
    + split; auto. destruct (Forall_Exists_dec is_num is_num_dec col) as [H|H]; auto.
      destruct (get_sorted_Ok col) as (r & Er & _); auto. congruence.
    + destruct (get_sorted_Ok col) as (r & Er & _); [left; lia|congruence].
  - intros [Hl He]. unfold get_sorted_feature_tuple_vector. rewrite tuple_vector_eq.
    apply sort_pairs_Panic.
    + unfold value_positions. rewrite combine_length, seq_length. lia.
    + apply (proj1 (Exists_map fst (fun x => ~ is_num x) _)). now rewrite value_positions_fst.
Qed.

Theorem get_sorted_fuel col : get_sorted_feature_tuple_vector col <> OutOfFuel.
Proof. apply sort_pairs_fuel. Qed.

Lemma sorted_version_unique col a b : sorted_version col a -> sorted_version col b -> a = b.
Proof.
  intros [P1 S1] [P2 S2]. apply (sorted_perm_unique pair_lt); auto.
  - apply pair_lt_asym.
  - rewrite P1. now apply Permutation_sym.
Qed.

Theorem get_sorted_iff col r :
  get_sorted_feature_tuple_vector col = Ok r <->
  (length col <= 1 \/ Forall is_num col) /\ sorted_version col r.
Proof.
  split.
  - intros E. destruct (le_lt_dec (length col) 1) as [Hl|Hl].
    + destruct (get_sorted_Ok col) as (r' & Er & H); auto. split; auto. congruence.
    + destruct (Forall_Exists_dec is_num is_num_dec col) as [H|H].
      * destruct (get_sorted_Ok col) as (r' & Er & H'); auto. split; auto. congruence.
      * rewrite (proj2 (get_sorted_Panic col)) in E; [discriminate|]. split; auto.
  - intros [H Hs]. destruct (get_sorted_Ok col H) as (r' & Er & H'). rewrite Er. f_equal.
    eapply sorted_version_unique; eauto.
Qed.

(* ------------------------------------------------------------------ *)
(** ** create_dataset_with_sorted_features *)

Lemma fold_left_snoc {A} (l acc : list A) : fold_left (fun acc x => acc ++ [x]) l acc = acc ++ l.
Proof.
  revert acc; induction l as [|x l IH]; intros acc; simpl; [now rewrite app_nil_r|].
  rewrite IH, <- app_assoc. reflexivity.
Qed.

Theorem create_dataset_with_sorted_features_Ok d s :
  create_dataset_with_sorted_features d = Ok s <->
  s_labels s = labels d /\
  Forall2 (fun col r => (length col <= 1 \/ Forall is_num col) /\ sorted_version col r)
    (feature_columns d) (s_columns s).
Proof.
  unfold create_dataset_with_sorted_features. rewrite foldM_push, fold_left_snoc, bind_assoc, bind_Ok. simpl.
  split.
  - intros (cols & H & E). injection E as <-. simpl. split; auto.
    apply mapM_Forall2 in H. eapply Forall2_impl; [|exact H]. intros. now apply get_sorted_iff.
  - intros [El H]. exists (s_columns s). split.
    + apply mapM_Forall2. eapply Forall2_impl; [|exact H]. intros. now apply get_sorted_iff.
    + destruct s. simpl in *. congruence.
Qed.

Theorem create_dataset_with_sorted_features_total d :
  Forall (Forall is_num) (feature_columns d) ->
  exists s, create_dataset_with_sorted_features d = Ok s.
Proof.
  intros H.
  assert (Hc : exists cols, Forall2 (fun col r => (length col <= 1 \/ Forall is_num col) /\ sorted_version col r)
    (feature_columns d) cols).
  { induction (feature_columns d) as [|c cs IH]; [exists []; constructor|].
    inversion H as [|? ? Hc Hcs]; subst. destruct (IH Hcs) as (cols & Hcols).
    destruct (get_sorted_Ok c) as (r & _ & Hr); auto. exists (r :: cols). constructor; auto. }
  destruct Hc as (cols & Hcols). exists (mkSDS (labels d) cols).
  now apply create_dataset_with_sorted_features_Ok.
Qed.

(* ------------------------------------------------------------------ *)
(** ** partition *)

Lemma solve_Ok q row : N.to_nat (q_column q) < length row -> solve q row = Ok (answers q row).
Proof.
  intros H. unfold solve, answers. rewrite idxN_idx. unfold idx.
  destruct (nth_error row (N.to_nat (q_column q))) eqn:E; [reflexivity|]. apply nth_error_None in E. lia.
Qed.

Lemma solve_Panic q row : solve q row = Panic <-> length row <= N.to_nat (q_column q).
Proof.
  unfold solve. rewrite idxN_idx. unfold idx.
  destruct (nth_error row (N.to_nat (q_column q))) eqn:E; simpl.
  - split; [discriminate|]. intros H. apply nth_error_None in H. congruence.
  - apply nth_error_None in E. split; auto.
Qed.

Lemma partition_rows_eq q rows lbls :
  Forall (fun r => N.to_nat (q_column q) < length r) rows -> length lbls = length rows ->
  partition_rows q rows lbls =
  Ok (let t := filter (fun p => answers q (fst p)) (combine rows lbls) in
      let f := filter (fun p => negb (answers q (fst p))) (combine rows lbls) in
      ((map fst t, map snd t), (map fst f, map snd f))).
Proof.
  intros H Hl. unfold partition_rows.
  assert (Hc : Forall (fun p => N.to_nat (q_column q) < length (fst p)) (combine rows lbls)).
  { apply (proj1 (Forall_map fst (fun r : list F => N.to_nat (q_column q) < length r) _)).
    rewrite map_fst_combine; auto. }
  clear H Hl. revert Hc. generalize (combine rows lbls) as l. intros l.
  set (step := fun acc p => _).
  cut (Forall (fun p => N.to_nat (q_column q) < length (fst p)) l -> forall a b c d,
    foldM step l ((a, b), (c, d)) =
    Ok (let t := filter (fun p => answers q (fst p)) l in
        let f := filter (fun p => negb (answers q (fst p))) l in
        ((a ++ map fst t, b ++ map snd t), (c ++ map fst f, d ++ map snd f)))).
  { intros Hc H. now rewrite Hc. }
  induction l as [|p l IH]; intros H a b c d; simpl.
  - now rewrite !app_nil_r.
  - inversion H as [|? ? Hp Hl]; subst. rewrite solve_Ok by auto. simpl.
    destruct (answers q (fst p)); simpl; rewrite IH by auto; cbv zeta; rewrite <- ?app_assoc; reflexivity.
Qed.

Lemma partition_rows_panic q rows lbls :
  length lbls = length rows ->
  Exists (fun r => length r <= N.to_nat (q_column q)) rows -> partition_rows q rows lbls = Panic.
Proof.
  intros Hl H. unfold partition_rows.
  apply (foldM_Panic_In _ (fun _ => True) (fun p => length (fst p) <= N.to_nat (q_column q))); auto.
  - intros [[a b] [c d]] p _ _. destruct (le_lt_dec (length (fst p)) (N.to_nat (q_column q))) as [Hp|Hp].
    + left. split; auto. rewrite (proj2 (solve_Panic q (fst p)) Hp). reflexivity.
    + right. rewrite solve_Ok by auto. simpl. destruct (answers q (fst p)); eauto.
  - apply (proj1 (Exists_map fst (fun r : list F => length r <= N.to_nat (q_column q)) _)). rewrite map_fst_combine; auto.
  - intros [[a b] [c d]] p _ _ Hp. rewrite (proj2 (solve_Panic q (fst p)) Hp). reflexivity.
Qed.

(** The true/false part of a data set, as the partition spec describes it. *)
Lemma partition_Ok nc d q :
  length (labels d) = length (feature_rows d) -> rectangular nc (feature_rows d) ->
  N.to_nat (q_column q) < nc ->
  filter (fun p => answers q (fst p)) (samples d) <> [] ->
  filter (fun p => negb (answers q (fst p))) (samples d) <> [] ->
  exists fd td, partition d q = Ok (fd, td) /\
    feature_rows td = map fst (filter (fun p => answers q (fst p)) (samples d)) /\
    labels td = map snd (filter (fun p => answers q (fst p)) (samples d)) /\
    is_transpose nc (feature_rows td) (feature_columns td) /\
    feature_rows fd = map fst (filter (fun p => negb (answers q (fst p))) (samples d)) /\
    labels fd = map snd (filter (fun p => negb (answers q (fst p))) (samples d)) /\
    is_transpose nc (feature_rows fd) (feature_columns fd).
Proof.
  intros Hl Hr Hc Ht Hf. unfold partition, samples in *.
  assert (Hsub : forall p, rectangular nc (map fst (filter p (combine (feature_rows d) (labels d))))).
  { intros p. unfold rectangular in *. apply Forall_forall. intros r Hin.
    apply in_map_iff in Hin as (x & <- & Hx). apply filter_In in Hx as [Hx _].
    rewrite Forall_forall in Hr. apply Hr.
    rewrite <- (map_fst_combine (feature_rows d) (labels d)) by auto. now apply in_map. }
  rewrite partition_rows_eq; auto.
  2:{ eapply Forall_impl; [|exact Hr]. simpl. intros; lia. }
  cbn [bind]. cbv zeta.
  destruct (create_feature_columns_rect nc (map fst (filter (fun p => negb (answers q (fst p))) (combine (feature_rows d) (labels d)))))
    as (fc & Efc & Hfc).
  { intros E. apply map_eq_nil in E. contradiction. } { apply Hsub. }
  destruct (create_feature_columns_rect nc (map fst (filter (fun p => answers q (fst p)) (combine (feature_rows d) (labels d)))))
    as (tc & Etc & Htc).
  { intros E. apply map_eq_nil in E. contradiction. } { apply Hsub. }
  rewrite Efc. cbn [bind]. rewrite Etc. cbn [bind].
  eexists _, _. split; [reflexivity|]. simpl. auto 10.
Qed.

Lemma partition_Panic nc d q :
  length (labels d) = length (feature_rows d) -> rectangular nc (feature_rows d) ->
  (partition d q = Panic <->
   (N.of_nat nc <= q_column q)%N \/
   filter (fun p => answers q (fst p)) (samples d) = [] \/
   filter (fun p => negb (answers q (fst p))) (samples d) = []).
Proof.
  intros Hl Hr.
  destruct (N.ltb_spec (q_column q) (N.of_nat nc)) as [Hc|Hc].
  - destruct (filter (fun p => answers q (fst p)) (samples d)) eqn:Et.
    + split; auto. intros _. unfold partition. rewrite partition_rows_eq; auto.
      2:{ eapply Forall_impl; [|exact Hr]. simpl. intros; lia. }
      cbn [bind]. cbv zeta. unfold samples in Et. rewrite Et. cbn [map].
      destruct (create_feature_columns _) eqn:E; simpl; auto.
      now apply create_feature_columns_fuel in E.
    + destruct (filter (fun p => negb (answers q (fst p))) (samples d)) eqn:Ef.
      * split; auto. intros _. unfold partition. rewrite partition_rows_eq; auto.
        2:{ eapply Forall_impl; [|exact Hr]. simpl. intros; lia. }
        cbn [bind]. cbv zeta. unfold samples in Ef. rewrite Ef. reflexivity.
      * destruct (partition_Ok nc d q) as (fd & td & E & _); auto; try lia; try congruence.
        rewrite E. split; [discriminate|]. intros [H|[H|H]]; try discriminate. lia.
  - split; auto. intros _. unfold partition.
    destruct (feature_rows d) as [|r rs] eqn:Er.
    + rewrite partition_rows_eq by (simpl; auto). simpl.
      destruct (labels d); [|discriminate]. reflexivity.
    + rewrite partition_rows_panic; auto. inversion Hr; subst. left. lia.
Qed.

(* ------------------------------------------------------------------ *)
(** ** new_partition *)

Definition marks (n : nat) (ids : list nat) : list nat := 
  fold_left (fun m i => list_set m i 1) ids (repeat 0 n).

Lemma marks_length m ids : length (fold_left (fun m i => list_set m i 1) ids m) = length m.
Proof. revert m; induction ids as [|i ids IH]; intros m; simpl; auto. rewrite IH. apply length_list_set. Qed.

Lemma marks_nth m ids i :
  i < length m ->
  nth_error (fold_left (fun m i => list_set m i 1) ids m) i =
  if existsb (Nat.eqb i) ids then Some 1 else nth_error m i.
Proof.
  revert m; induction ids as [|k ids IH]; intros m Hi; simpl; auto.
  rewrite IH by now rewrite length_list_set.
  rewrite nth_error_list_set. rewrite (Nat.eqb_sym i k).
  destruct (Nat.ltb_spec i (length m)); [|lia]. rewrite andb_true_r.
  destruct (k =? i), (existsb (Nat.eqb i) ids); reflexivity.
Qed.

Lemma mark_false_until_spec v n :
  forall pre post i m, length m = n ->
  Forall (fun p => fleb v (fst p) = false /\ snd p < n) pre ->
  match post with [] => True | p :: _ => fleb v (fst p) = true end ->
  mark_false_until v (pre ++ post) i m =
  Ok (fold_left (fun m i => list_set m i 1) (map snd pre) m,
      match post with [] => 0 | _ => i + length pre end).
Proof.
  induction pre as [|[x k] pre IH]; intros post i m Hm Hpre Hpost; simpl.
  - destruct post as [|[y k] post]; simpl; auto. simpl in Hpost. rewrite Hpost. now rewrite Nat.add_0_r.
  - inversion Hpre as [|? ? [Hx Hk] Hpre']; subst. simpl in *. rewrite Hx.
    rewrite upd_lt by lia. cbn [bind]. rewrite (IH post (S i)); auto.
    + destruct post; auto. do 2 f_equal. lia.
    + now rewrite length_list_set.
Qed.

Lemma mark_true_spec n col k m :
  length m = n -> Forall (fun p : F * nat => snd p < n) col -> k <= length col ->
  foldM (fun ti i => p <- idx col i;; upd ti (snd p) 1) (seq k (length col - k)) m =
  Ok (fold_left (fun m i => list_set m i 1) (map snd (skipn k col)) m).
Proof.
  intros Hm Hb Hk.
  cut (forall pre post m, col = pre ++ post -> length m = n ->
    foldM (fun ti i => p <- idx col i;; upd ti (snd p) 1) (seq (length pre) (length post)) m =
    Ok (fold_left (fun m i => list_set m i 1) (map snd post) m)).
  { intros H. specialize (H (firstn k col) (skipn k col) m).
    rewrite firstn_length, skipn_length, Nat.min_l in H by auto. apply H; auto.
    now rewrite firstn_skipn. }
  clear m Hm. intros pre post; revert pre. induction post as [|p post IH]; intros pre m E Hm; simpl; auto.
  assert (Ei : idx col (length pre) = Ok p) by (rewrite E; apply idx_middle).
  rewrite Ei. cbn [bind]. rewrite upd_lt.
  - cbn [bind]. specialize (IH (pre ++ [p]) (list_set m (snd p) 1)).
    rewrite app_length in IH. simpl in IH. rewrite Nat.add_1_r in IH. apply IH.
    + rewrite <- app_assoc. exact E.
    + now rewrite length_list_set.
  - rewrite Forall_forall in Hb. rewrite Hm. apply Hb. rewrite E. apply in_or_app. right. now left.
Qed.

Definition mem (i : nat) (l : list nat) : bool := existsb (Nat.eqb i) l.

Lemma mem_In i l : mem i l = true <-> In i l.
Proof.
  unfold mem. rewrite existsb_exists. split.
  - intros (x & Hx & E). apply Nat.eqb_eq in E. congruence.
  - intros H. exists i. split; auto. apply Nat.eqb_refl.
Qed.

Lemma marks_idx n ids i : i < n -> idx (marks n ids) i = Ok (if mem i ids then 1 else 0).
Proof.
  intros Hi. unfold marks, mem. apply idx_Ok. rewrite marks_nth by now rewrite repeat_length.
  destruct (existsb _ _); auto. now apply nth_error_repeat_lt.
Qed.

Lemma collect_partitioned_labels_spec T Fs (all_labels : list (list F)) :
  collect_partitioned_labels (marks (length all_labels) T) (marks (length all_labels) Fs) all_labels =
  Ok (map (fun i => nth i all_labels []) (filter (fun i => mem i T) (seq 0 (length all_labels))),
      map (fun i => nth i all_labels []) (filter (fun i => negb (mem i T) && mem i Fs) (seq 0 (length all_labels)))).
Proof.
  unfold collect_partitioned_labels.
  destruct (@for_range_inv (list (list F) * list (list F))
    (fun k s => s =
      (map (fun i => nth i all_labels []) (filter (fun i => mem i T) (seq 0 k)),
       map (fun i => nth i all_labels []) (filter (fun i => negb (mem i T) && mem i Fs) (seq 0 k))))
    (length all_labels)
    (fun acc i =>
    t <- idx (marks (length all_labels) T) i;;
    if t =? 1 then
      l <- idx all_labels i;; Ok (fst acc ++ [l], snd acc)
    else
      f <- idx (marks (length all_labels) Fs) i;;
      if f =? 1 then
        l <- idx all_labels i;; Ok (fst acc, snd acc ++ [l])
      else Ok acc) ([], [])) as (s & E & ->); auto.
  intros i s Hi ->. rewrite seq_app, !filter_app, !map_app. simpl.
  rewrite !marks_idx by auto. cbn [bind]. rewrite (idx_nth _ _ [] Hi).
  destruct (mem i T); simpl.
  - rewrite app_nil_r. eauto.
  - destruct (mem i Fs); simpl; rewrite ?app_nil_r; eauto.
Qed.

Lemma partition_feature_column_spec n T col :
  Forall (fun p : F * nat => snd p < n) col ->
  partition_feature_column (marks n T) col =
  Ok (filter (fun p => mem (snd p) T) col, filter (fun p => negb (mem (snd p) T)) col).
Proof.
  intros Hb. unfold partition_feature_column.
  set (step := fun acc p => _).
  cut (forall a b, foldM step col (a, b) =
    Ok (a ++ filter (fun p => mem (snd p) T) col, b ++ filter (fun p => negb (mem (snd p) T)) col)).
  { intros H. apply H. }
  induction col as [|p col IH]; intros a b; simpl.
  - now rewrite !app_nil_r.
  - inversion Hb; subst. unfold step at 1. rewrite marks_idx by auto. cbn [bind].
    destruct (mem (snd p) T); simpl; rewrite IH by auto; rewrite <- app_assoc; reflexivity.
Qed.

(** The pairs of a sorted column split at the threshold into a low prefix and a high suffix. *)
Lemma sorted_threshold_split v (col : list (F * nat)) :
  StronglySorted pair_lt col ->
  exists pre post, col = pre ++ post /\
    Forall (fun p => fleb v (fst p) = false) pre /\ Forall (fun p => fleb v (fst p) = true) post.
Proof.
  induction col as [|p col IH]; intros H.
  - exists [], []. auto.
  - inversion H as [|? ? Hs Hf]; subst. destruct (fleb v (fst p)) eqn:E.
    + exists [], (p :: col). repeat split; auto. constructor; auto.
      eapply Forall_impl; [|exact Hf]. intros q Hq. apply pair_lt_le in Hq.
      eapply (fleb_trans _ LW); eauto.
    + destruct (IH Hs) as (pre & post & -> & H1 & H2). exists (p :: pre), post. auto.
Qed.

Lemma split_map2 {A B C} (f : A -> B) (g : A -> C) l :
  split (map (fun x => (f x, g x)) l) = (map f l, map g l).
Proof. induction l as [|x l IH]; simpl; auto. now rewrite IH. Qed.

Lemma node_data_filter nc rows all_labels ids s p :
  node_data nc rows all_labels ids s ->
  node_data nc rows all_labels (filter p ids)
    (mkSDS (map (fun i => nth i all_labels []) (filter p ids))
           (map (filter (fun x => p (snd x))) (s_columns s))).
Proof.
  intros [H1 H2 H3 H4 H5]. constructor; simpl.
  - now apply StronglySorted_filter.
  - rewrite Forall_forall in *. intros i Hi. apply filter_In in Hi. now apply H2.
  - assert (Hb : Forall (fun i => i < length all_labels) (filter p ids)).
    { rewrite Forall_forall in *. intros i Hi. apply filter_In in Hi. now apply H2. }
    induction (filter p ids) as [|i l IH]; simpl; constructor; inversion Hb; subst; auto.
    now apply nth_error_nth'.
  - now rewrite map_length.
  - intros j col Hj. rewrite nth_error_map in Hj.
    destruct (nth_error (s_columns s) j) as [c|] eqn:Ec; [|discriminate]. injection Hj as <-.
    destruct (H5 _ _ Ec) as (Hs & Hp & Hf). repeat split.
    + now apply StronglySorted_filter.
    + rewrite <- (filter_map_swap snd p c). now apply Permutation_filter_p.
    + rewrite Forall_forall in *. intros x Hx. apply filter_In in Hx. now apply Hf.
Qed.

Lemma node_data_col_bound nc rows all_labels ids s col :
  node_data nc rows all_labels ids s -> In col (s_columns s) ->
  Forall (fun p => snd p < length all_labels) col.
Proof.
  intros [H1 H2 H3 H4 H5] Hc. apply In_nth_error in Hc as (j & Hj).
  destruct (H5 _ _ Hj) as (_ & Hp & _). apply (proj1 (Forall_map snd (fun i => i < length all_labels) _)).
  eapply Permutation_Forall; [apply Permutation_sym; exact Hp|]. exact H2.
Qed.

Lemma node_labels_eq nc rows all_labels ids s :
  node_data nc rows all_labels ids s -> s_labels s = map (fun i => nth i all_labels []) ids.
Proof.
  intros [_ _ H _ _]. induction H as [|i l ids ls Hi _ IH]; simpl; auto. f_equal; auto.
  now apply nth_error_nth with (d := []) in Hi.
Qed.

Theorem new_partition_node nc rows all_labels ids s c v :
  node_data nc rows all_labels ids s -> c < nc ->
  Exists (fun i => reaches rows c v i = true) ids ->
  exists t f, new_partition s c v all_labels = Ok (t, f) /\
    node_data nc rows all_labels (filter (reaches rows c v) ids) t /\
    node_data nc rows all_labels (filter (fun i => negb (reaches rows c v i)) ids) f.
Proof.
  intros Hn Hc Hex. pose proof Hn as [H1 H2 H3 H4 H5].
  destruct (nth_error (s_columns s) c) as [col|] eqn:Ecol; [|apply nth_error_None in Ecol; lia].
  destruct (H5 _ _ Ecol) as (Hs & Hp & Hf).
  pose proof (node_data_col_bound _ _ _ _ _ col Hn (nth_error_In _ _ Ecol)) as Hb.
  destruct (sorted_threshold_split v col Hs) as (pre & post & E & Hpre & Hpost).
  assert (Hreach : forall p, In p col -> reaches rows c v (snd p) = fleb v (fst p)).
  { intros p Hin. rewrite Forall_forall in Hf. destruct (Hf _ Hin) as (row & Hr & Hx).
    unfold reaches. now rewrite Hr, Hx. }
  assert (Hne : post <> []).
  { intros ->. rewrite app_nil_r in E. subst pre.
    apply Exists_exists in Hex as (i & Hi & Hri).
    eapply Permutation_in in Hi; [|apply Permutation_sym; exact Hp].
    apply in_map_iff in Hi as (p & <- & Hin). rewrite Hreach in Hri by auto.
    rewrite Forall_forall in Hpre. rewrite Hpre in Hri; auto. discriminate. }
  set (n := length all_labels) in *.
  assert (HT : forall i, In i ids -> mem i (map snd post) = reaches rows c v i).
  { intros i Hi. apply eq_true_iff_eq. rewrite mem_In.
    eapply Permutation_in in Hi; [|apply Permutation_sym; exact Hp].
    apply in_map_iff in Hi as (p & <- & Hin). rewrite Hreach by auto. split.
    - intros Hm. apply in_map_iff in Hm as (q & Eq & Hq).
      assert (p = q); [|subst q; rewrite Forall_forall in Hpost; now apply Hpost].
      assert (Hq' : In q col) by (rewrite E; apply in_or_app; now right).
      assert (Hsame : fst p = fst q).
      { rewrite Forall_forall in Hf. destruct (Hf _ Hin) as (r1 & A1 & B1), (Hf _ Hq') as (r2 & A2 & B2).
        rewrite Eq in A2. congruence. }
      destruct p, q; simpl in *; congruence.
    - intros Hv. apply in_map. rewrite E in Hin. apply in_app_or in Hin as [Hin|Hin]; auto.
      rewrite Forall_forall in Hpre. rewrite Hpre in Hv; auto. discriminate. }
  assert (HF : forall i, In i ids -> mem i (map snd pre) = negb (reaches rows c v i)).
  { intros i Hi. rewrite <- HT by auto. apply eq_true_iff_eq. rewrite negb_true_iff, mem_In.
    split.
    - intros Hm. apply not_true_is_false. intros Hm2. apply mem_In in Hm2.
      apply in_map_iff in Hm as (p & <- & Hin). apply in_map_iff in Hm2 as (q & Eq & Hq).
      assert (HND : NoDup (map snd col)).
      { eapply Permutation_NoDup; [apply Permutation_sym; exact Hp|].
        clear -H1. induction H1 as [|x l Hs IH Hf]; constructor; auto.
        intros Hin. rewrite Forall_forall in Hf. specialize (Hf _ Hin). lia. }
      rewrite E, map_app in HND. eapply NoDup_app_disj; [exact HND|exact (in_map snd _ _ Hin)|].
      rewrite <- Eq. now apply in_map.
    - intros Hm. eapply Permutation_in in Hi; [|apply Permutation_sym; exact Hp].
      rewrite E, map_app in Hi. apply in_app_or in Hi as [Hi|Hi]; auto.
      apply mem_In in Hi. congruence. }
  unfold new_partition, collect_indices_for_partitioning. fold n.
  rewrite (proj2 (idx_Ok _ _ _) Ecol). cbn [bind]. rewrite E.
  rewrite (mark_false_until_spec v n pre post 0 (repeat 0 n)).
  2:{ apply repeat_length. }
  2:{ rewrite Forall_forall in *. intros p Hin. split; [now apply Hpre|].
      apply Hb. rewrite E. apply in_or_app. now left. }
  2:{ destruct post; [congruence|]. now inversion Hpost. }
  cbn [bind]. destruct post as [|p0 post']; [congruence|]. set (post := p0 :: post') in *.
  cbn [plus].
  rewrite (mark_true_spec n (pre ++ post) (length pre) (repeat 0 n)).
  2:{ apply repeat_length. }
  2:{ rewrite <- E. exact Hb. }
  2:{ rewrite app_length. lia. }
  cbn [bind]. rewrite skipn_app, skipn_all, Nat.sub_diag. cbn [app skipn].
  fold (marks n (map snd post)). fold (marks n (map snd pre)).
  unfold n. rewrite collect_partitioned_labels_spec. cbn [bind].
  unfold collect_partitioned_feature_columns.
  rewrite (mapM_pure _ (fun col => (filter (fun p => mem (snd p) (map snd post)) col,
                                    filter (fun p => negb (mem (snd p) (map snd post))) col))).
  2:{ intros col' Hc'. apply partition_feature_column_spec. eapply node_data_col_bound; eauto. }
  cbn [bind]. rewrite split_map2.
  assert (Hcolid : forall col', In col' (s_columns s) -> forall p, In p col' -> In (snd p) ids).
  { intros col' Hc' p Hin. apply In_nth_error in Hc' as (j & Hj). destruct (H5 _ _ Hj) as (_ & Hp' & _).
    eapply Permutation_in; [exact Hp'|]. now apply in_map. }
  assert (Hids_sub : forall i, In i ids -> i < n).
  { intros i Hi. rewrite Forall_forall in H2. now apply H2. }
  assert (Hsub : forall i, In i (map snd post) \/ In i (map snd pre) -> In i ids).
  { intros i Hi. eapply Permutation_in; [exact Hp|]. rewrite E, map_app. apply in_or_app. tauto. }
  assert (Ef1 : filter (fun i => mem i (map snd post)) (seq 0 n) = filter (reaches rows c v) ids).
  { apply sorted_lt_ext.
    - apply StronglySorted_filter, StronglySorted_seq.
    - now apply StronglySorted_filter.
    - intros i. rewrite !filter_In, in_seq. split.
      + intros [_ Hm]. assert (Hi : In i ids) by (apply Hsub; left; now apply mem_In).
        split; auto. now rewrite <- HT.
      + intros [Hi Hr]. specialize (Hids_sub _ Hi). rewrite HT by auto. split; auto. lia. }
  assert (Ef2 : filter (fun i => negb (mem i (map snd post)) && mem i (map snd pre)) (seq 0 n) =
                filter (fun i => negb (reaches rows c v i)) ids).
  { apply sorted_lt_ext.
    - apply StronglySorted_filter, StronglySorted_seq.
    - now apply StronglySorted_filter.
    - intros i. rewrite !filter_In, in_seq. split.
      + rewrite andb_true_iff. intros [_ [Hm1 Hm]].
        assert (Hi : In i ids) by (apply Hsub; right; now apply mem_In).
        split; auto. now rewrite <- HT.
      + intros [Hi Hr]. specialize (Hids_sub _ Hi). rewrite HT, HF by auto. rewrite Hr. split; auto. lia. }
  fold n. rewrite Ef1, Ef2.
  eexists _, _. split; [reflexivity|]. split.
  - replace (map (filter (fun p => mem (snd p) (map snd post))) (s_columns s))
      with (map (filter (fun x : F * nat => reaches rows c v (snd x))) (s_columns s)).
    + exact (node_data_filter nc rows all_labels ids s (reaches rows c v) Hn).
    + apply map_ext_in. intros col' Hc'. apply filter_ext_In. intros p Hin. symmetry. apply HT. eauto.
  - replace (map (filter (fun p => negb (mem (snd p) (map snd post)))) (s_columns s))
      with (map (filter (fun x : F * nat => negb (reaches rows c v (snd x)))) (s_columns s)).
    + exact (node_data_filter nc rows all_labels ids s (fun i => negb (reaches rows c v i)) Hn).
    + apply map_ext_in. intros col' Hc'. apply filter_ext_In. intros p Hin. f_equal. symmetry. apply HT. eauto.
Qed.

(** When no row reaches the threshold, every row goes to the first (true) side. *)
Theorem new_partition_unreached nc rows all_labels ids s c v :
  node_data nc rows all_labels ids s -> c < nc ->
  Forall (fun i => reaches rows c v i = false) ids ->
  exists t f, new_partition s c v all_labels = Ok (t, f) /\
    node_data nc rows all_labels ids t /\ node_data nc rows all_labels [] f.
Proof.
  intros Hn Hc Hex. pose proof Hn as [H1 H2 H3 H4 H5].
  destruct (nth_error (s_columns s) c) as [col|] eqn:Ecol; [|apply nth_error_None in Ecol; lia].
  destruct (H5 _ _ Ecol) as (Hs & Hp & Hf).
  pose proof (node_data_col_bound _ _ _ _ _ col Hn (nth_error_In _ _ Ecol)) as Hb.
  set (n := length all_labels) in *.
  assert (Hlow : Forall (fun p => fleb v (fst p) = false) col).
  { rewrite Forall_forall in *. intros p Hin. destruct (Hf _ Hin) as (row & Hr & Hx).
    assert (Hi : In (snd p) ids) by (eapply Permutation_in; [exact Hp|now apply in_map]).
    specialize (Hex _ Hi). unfold reaches in Hex. now rewrite Hr, Hx in Hex. }
  assert (HT : forall i, mem i (map snd col) = true <-> In i ids).
  { intros i. rewrite mem_In. split; apply Permutation_in; auto. now apply Permutation_sym. }
  unfold new_partition, collect_indices_for_partitioning. fold n.
  rewrite (proj2 (idx_Ok _ _ _) Ecol). cbn [bind].
  pose proof (mark_false_until_spec v n col [] 0 (repeat 0 n)) as Hm. rewrite app_nil_r in Hm.
  rewrite Hm; clear Hm; auto.
  2:{ apply repeat_length. }
  2:{ rewrite Forall_forall in *. intros p Hin. split; auto. }
  cbn [bind].
  rewrite (mark_true_spec n col 0 (repeat 0 n)).
  2:{ apply repeat_length. }
  2:{ exact Hb. }
  2:{ lia. }
  cbn [bind skipn]. fold (marks n (map snd col)).
  unfold n. rewrite collect_partitioned_labels_spec. cbn [bind].
  unfold collect_partitioned_feature_columns.
  rewrite (mapM_pure _ (fun col' => (filter (fun p => mem (snd p) (map snd col)) col',
                                    filter (fun p => negb (mem (snd p) (map snd col))) col'))).
  2:{ intros col' Hc'. apply partition_feature_column_spec. eapply node_data_col_bound; eauto. }
  cbn [bind]. rewrite split_map2. fold n.
  assert (Hcolid : forall col', In col' (s_columns s) -> forall p, In p col' -> mem (snd p) (map snd col) = true).
  { intros col' Hc' p Hin. apply HT. apply In_nth_error in Hc' as (j & Hj). destruct (H5 _ _ Hj) as (_ & Hp' & _).
    eapply Permutation_in; [exact Hp'|]. now apply in_map. }
  assert (Ef1 : filter (fun i => mem i (map snd col)) (seq 0 n) = ids).
  { apply sorted_lt_ext; auto.
    - apply StronglySorted_filter, StronglySorted_seq.
    - intros i. rewrite filter_In, in_seq, HT. split; [tauto|]. intros Hi. split; auto.
      rewrite Forall_forall in H2. specialize (H2 _ Hi). lia. }
  assert (Ef2 : filter (fun i => negb (mem i (map snd col)) && mem i (map snd col)) (seq 0 n) = []).
  { apply filter_none. intros i _. now destruct (mem i (map snd col)). }
  rewrite Ef1, Ef2. eexists _, _. split; [reflexivity|].
  assert (Ei : filter (fun _ : nat => true) ids = ids) by now apply filter_all.
  assert (Ee : filter (fun _ : nat => false) ids = []) by now apply filter_none.
  split.
  - pose proof (node_data_filter nc rows all_labels ids s (fun _ => true) Hn) as Hk. rewrite Ei in Hk.
    replace (map (filter (fun p => mem (snd p) (map snd col))) (s_columns s))
      with (map (filter (fun x : F * nat => true)) (s_columns s)); auto.
    apply map_ext_in. intros col' Hc'. apply filter_ext_In. intros p Hin. symmetry. eauto.
  - pose proof (node_data_filter nc rows all_labels ids s (fun _ => false) Hn) as Hk. rewrite Ee in Hk.
    replace (map (filter (fun p => negb (mem (snd p) (map snd col)))) (s_columns s))
      with (map (filter (fun x : F * nat => false)) (s_columns s)); auto.
    apply map_ext_in. intros col' Hc'. apply filter_ext_In. intros p Hin.
    now rewrite (Hcolid _ Hc' _ Hin).
Qed.

(** The sorted version of a whole data set is node data for all its rows. *)
Theorem sorted_root_node nc nt d s :
  wf_dataset nc nt d -> create_dataset_with_sorted_features d = Ok s ->
  node_data nc (feature_rows d) (labels d) (seq 0 (length (labels d))) s.
Proof.
  intros W H. apply create_dataset_with_sorted_features_Ok in H as [Hl Hc].
  destruct (wf_columns _ _ _ W) as [Lc Ht]. constructor.
  - apply StronglySorted_seq.
  - apply Forall_forall. intros i Hi. apply in_seq in Hi. lia.
  - rewrite Hl. apply Forall2_nth. rewrite seq_length. split; auto.
    intros i x y Hx Hy. rewrite nth_error_seq in Hx. destruct (i <? _); [|discriminate].
    injection Hx as <-. exact Hy.
  - apply Forall2_length in Hc. lia.
  - intros j col Hj. apply Forall2_nth in Hc as [L Hc].
    destruct (nth_error (feature_columns d) j) as [c|] eqn:Ec.
    2:{ apply nth_error_None in Ec. assert (j < length (s_columns s)) by (apply nth_error_Some; congruence). lia. }
    destruct (Hc _ _ _ Ec Hj) as [_ [Hp Hs]]. destruct (Ht _ _ Ec) as [Lr Hr].
    split; auto. split.
    + rewrite Hp, value_positions_snd, Lr, (wf_lengths _ _ _ W). reflexivity.
    + apply Forall_forall. intros p Hin. eapply Permutation_in in Hin; [|exact Hp].
      apply value_positions_In in Hin.
      assert (Hlt : snd p < length (feature_rows d)) by (rewrite <- Lr; apply nth_error_Some; congruence).
      destruct (nth_error (feature_rows d) (snd p)) as [row|] eqn:Er; [|apply nth_error_None in Er; lia].
      exists row. split; auto. destruct (Hr _ _ Er) as [_ E]. congruence.
Qed.

End Sort.
