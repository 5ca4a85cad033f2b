(** Proofs about the [common] crate: columns, one-hot labels, CSV, sorting, partitioning, vectors. *)
From Verif Require Import Base Num ModelCommon ModelTree Lib Spec.

Section Data.
Context {O : NumOps} (LW : NumLaws O).

(* ------------------------------------------------------------------ *)
(** ** create_feature_columns *)

Definition column_of (rows : list (list F)) (j : nat) : res (list F) :=
  mapM (fun r => idx r j) rows.

Lemma create_feature_columns_eq first rest :
  create_feature_columns (first :: rest) =
  mapM (column_of (first :: rest)) (seq 0 (length first)).
Proof.
  unfold create_feature_columns. cbn [idx nth_error bind]. set (rows := first :: rest).
  rewrite (for_range_ext _ _ (fun columns col =>
    column <- column_of rows col;; Ok (columns ++ [column]))).
  - rewrite for_range_push. destruct (mapM _ _); reflexivity.
  - intros s i _. f_equal.
    rewrite (for_range_ext _ _ (fun column row => x <- (r <- idx rows row;; idx r i);; Ok (column ++ [x]))).
    + rewrite for_range_push. unfold column_of. rewrite <- (mapM_seq_idx rows).
      destruct (mapM _ _); reflexivity.
    + intros. now rewrite bind_assoc.
Qed.

Lemma column_of_Ok rows j col :
  column_of rows j = Ok col <->
  length col = length rows /\
  forall i row, nth_error rows i = Some row -> j < length row /\ nth_error col i = nth_error row j.
Proof.
  unfold column_of. rewrite mapM_Forall2, Forall2_nth. split.
  - intros [Hl H]. split; [lia|]. intros i row Hi.
    assert (Hlt : i < length col) by (rewrite <- Hl; apply nth_error_Some; congruence).
    destruct (nth_error col i) as [y|] eqn:Ey; [|apply nth_error_None in Ey; lia].
    specialize (H _ _ _ Hi Ey). apply idx_Ok in H. split; auto.
    apply nth_error_Some. congruence.
  - intros [Hl H]. split; [lia|]. intros i row y Hi Hy.
    destruct (H _ _ Hi) as [_ E]. apply idx_Ok. congruence.
Qed.

Lemma column_of_fuel rows j : column_of rows j <> OutOfFuel.
Proof. apply mapM_fuel. intros; apply idx_fuel. Qed.

Lemma column_of_Panic rows j :
  column_of rows j = Panic <-> exists r, In r rows /\ length r <= j.
Proof.
  unfold column_of. rewrite mapM_Panic by (intros; apply idx_fuel).
  split; intros (r & Hr & H); exists r; (split; [assumption|]); now apply idx_Panic.
Qed.

Theorem create_feature_columns_Ok rows cols :
  create_feature_columns rows = Ok cols <->
  exists first, nth_error rows 0 = Some first /\
    Forall (fun r => length first <= length r) rows /\ is_transpose (length first) rows cols.
Proof.
  destruct rows as [|first rest].
  - split; [discriminate|]. intros (f & H & _). discriminate.
  - rewrite create_feature_columns_eq. set (rows := first :: rest).
    rewrite mapM_Forall2, Forall2_nth, seq_length. split.
    + intros [Hl H]. exists first. split; [reflexivity|].
      assert (Hc : forall j col, nth_error cols j = Some col -> column_of rows j = Ok col).
      { intros j col Hj. eapply H; eauto.
        rewrite nth_error_nth' with (d := 0), seq_nth; auto.
        - rewrite Hl. apply nth_error_Some. congruence.
        - rewrite seq_length, Hl. apply nth_error_Some. congruence. }
      split; [|split; auto].
      * apply Forall_forall. intros r Hr.
        destruct (le_lt_dec (length first) (length r)) as [|Hlt]; auto.
        destruct (nth_error cols (length r)) as [col|] eqn:E.
        -- apply Hc in E. assert (column_of rows (length r) = Panic) by (apply column_of_Panic; eauto).
           congruence.
        -- apply nth_error_None in E. lia.
      * intros j col Hj. now apply column_of_Ok, Hc.
    + intros (f & Hf & Hlen & Hl & H). injection Hf as <-. split; auto.
      intros i x y Hi Hy.
      assert (x = i).
      { assert (i < length first) by (rewrite <- Hl; apply nth_error_Some; congruence).
        rewrite nth_error_nth' with (d := 0), seq_nth in Hi; auto. now injection Hi.
        now rewrite seq_length. }
      subst x. apply column_of_Ok. now apply H.
Qed.

Theorem create_feature_columns_fuel rows : create_feature_columns rows <> OutOfFuel.
Proof.
  destruct rows as [|first rest]; [discriminate|]. rewrite create_feature_columns_eq.
  apply mapM_fuel. intros. apply column_of_fuel.
Qed.

Theorem create_feature_columns_Panic rows :
  create_feature_columns rows = Panic <->
  rows = [] \/ exists first rest r, rows = first :: rest /\ In r rest /\ length r < length first.
Proof.
  destruct rows as [|first rest]; [split; auto; reflexivity|].
  rewrite create_feature_columns_eq, mapM_Panic by (intros; apply column_of_fuel). split.
  - intros (j & Hj & H). apply column_of_Panic in H as (r & Hr & Hlt). right.
    apply in_seq in Hj. exists first, rest, r. split; auto. destruct Hr as [<-|Hr]; [lia|]. split; auto. lia.
  - intros [H|(f & rs & r & E & Hr & Hlt)]; [discriminate|]. injection E as <- <-.
    exists (length r). split; [apply in_seq; lia|]. apply column_of_Panic. exists r. split; auto. now right.
Qed.

Lemma create_feature_columns_rect nc rows :
  rows <> [] -> rectangular nc rows ->
  exists cols, create_feature_columns rows = Ok cols /\ is_transpose nc rows cols.
Proof.
  intros Hne Hr. unfold rectangular in Hr. destruct (create_feature_columns rows) as [cols| |] eqn:E.
  - exists cols. split; auto. apply create_feature_columns_Ok in E as (f & Hf & _ & H).
    rewrite Forall_forall in Hr. rewrite <- (Hr f); auto. eapply nth_error_In; eauto.
  - apply create_feature_columns_Panic in E as [->|(f & rs & r & -> & Hin & Hlt)]; [congruence|].
    rewrite (Forall_forall) in Hr.
    rewrite (Hr f (or_introl eq_refl)), (Hr r (or_intror Hin)) in Hlt. lia.
  - now apply create_feature_columns_fuel in E.
Qed.

Lemma is_transpose_unique {A} nc (rows a b : list (list A)) :
  is_transpose nc rows a -> is_transpose nc rows b -> a = b.
Proof.
  intros [La Ha] [Lb Hb]. apply nth_error_ext. intros j.
  destruct (nth_error a j) as [ca|] eqn:Ea, (nth_error b j) as [cb|] eqn:Eb; auto.
  - f_equal. destruct (Ha _ _ Ea) as [L1 H1], (Hb _ _ Eb) as [L2 H2]. apply nth_error_ext.
    intros i. destruct (nth_error rows i) as [row|] eqn:Er.
    + destruct (H1 _ _ Er) as [_ ->], (H2 _ _ Er) as [_ ->]. reflexivity.
    + apply nth_error_None in Er. rewrite !(proj2 (nth_error_None _ _)); auto; lia.
  - apply nth_error_None in Eb. assert (j < length a) by (apply nth_error_Some; congruence). lia.
  - apply nth_error_None in Ea. assert (j < length b) by (apply nth_error_Some; congruence). lia.
Qed.

(* ------------------------------------------------------------------ *)
(** ** One-hot labels *)

Lemma one_hot_upd k c v : updN (repeat f0 k) c f1 = Ok v <-> one_hot k c v.
Proof.
  rewrite updN_upd, upd_Ok, repeat_length. split.
  - intros [Hlt ->]. split; [lia|]. rewrite length_list_set, repeat_length. split; auto.
    intros i Hi. rewrite nth_error_list_set, repeat_length.
    destruct (Nat.eqb_spec (N.to_nat c) i), (N.eqb_spec (N.of_nat i) c); try lia.
    + destruct (Nat.ltb_spec i k); [reflexivity|lia].
    + simpl. now rewrite nth_error_repeat_lt.
  - intros (Hc & Hl & H). split; [lia|]. apply nth_error_ext. intros i.
    rewrite nth_error_list_set, repeat_length. destruct (lt_dec i k) as [Hi|Hi].
    + rewrite H by auto.
      destruct (Nat.eqb_spec (N.to_nat c) i), (N.eqb_spec (N.of_nat i) c); try lia.
      * destruct (Nat.ltb_spec i k); [reflexivity|lia].
      * simpl. now rewrite nth_error_repeat_lt.
    + destruct (Nat.ltb_spec i k); [lia|]. rewrite andb_false_r.
      rewrite !(proj2 (nth_error_None _ _)); auto; rewrite ?repeat_length; lia.
Qed.

Lemma one_hot_upd_Panic k c : updN (repeat f0 k) c f1 = Panic <-> (N.of_nat k <= c)%N.
Proof. rewrite updN_upd, upd_Panic, repeat_length. lia. Qed.

Lemma create_multi_target_labels_eq lbls k :
  create_multi_target_labels lbls k = mapM (fun l => updN (repeat f0 k) (f_to_usize l) f1) lbls.
Proof.
  unfold create_multi_target_labels. rewrite foldM_push. destruct (mapM _ _); reflexivity.
Qed.

Theorem create_multi_target_labels_Ok lbls k r :
  create_multi_target_labels lbls k = Ok r <->
  Forall2 (fun label v => one_hot k (f_to_usize label) v) lbls r.
Proof.
  rewrite create_multi_target_labels_eq, mapM_Forall2. rewrite !Forall2_nth.
  split; intros [Hl H]; (split; [assumption|]); intros; apply one_hot_upd; eauto.
Qed.

Lemma updN_fuel {A} (l : list A) i x : updN l i x <> OutOfFuel.
Proof. rewrite updN_upd. unfold upd. destruct (_ <? _); discriminate. Qed.

Theorem create_multi_target_labels_Panic lbls k :
  create_multi_target_labels lbls k = Panic <->
  exists label, In label lbls /\ (N.of_nat k <= f_to_usize label)%N.
Proof.
  rewrite create_multi_target_labels_eq, mapM_Panic by (intros; apply updN_fuel).
  split; intros (l & Hl & H); exists l; (split; [assumption|]); now apply one_hot_upd_Panic.
Qed.

Theorem create_multi_target_labels_fuel lbls k : create_multi_target_labels lbls k <> OutOfFuel.
Proof. rewrite create_multi_target_labels_eq. apply mapM_fuel. intros. apply updN_fuel. Qed.

(* ------------------------------------------------------------------ *)
(** ** CSV *)

Lemma read_data_eq f :
  read_data (Some f) =
  Ok (if forallb (fun r => match r with Some _ => true | None => false end) (csv_records f)
      then Some (flat_map (fun r => match r with Some x => [x] | None => [] end) (csv_records f))
      else None).
Proof.
  simpl. f_equal. set (step := fun data r => _).
  cut (forall recs acc, fold_left step recs acc =
    match acc with
    | Some d => if forallb (fun r => match r with Some _ => true | None => false end) recs
                then Some (d ++ flat_map (fun r => match r with Some x => [x] | None => [] end) recs)
                else None
    | None => None end).
  { intros H. now rewrite H. }
  induction recs as [|[x|] recs IH]; intros [d|]; simpl; auto.
  - now rewrite app_nil_r.
  - rewrite IH. destruct (forallb _ recs); auto. now rewrite <- app_assoc.
  - rewrite IH. reflexivity.
  - rewrite IH. reflexivity.
  - rewrite IH. reflexivity.
Qed.

Lemma read_data_Some f recs :
  csv_records f = map Some recs -> read_data (Some f) = Ok (Some recs).
Proof.
  intros H. rewrite read_data_eq, H. f_equal.
  assert (E1 : forallb (fun r : option (list F) => match r with Some _ => true | None => false end) (map Some recs) = true).
  { clear H. induction recs; simpl; auto. }
  assert (E2 : flat_map (fun r => match r with Some x => [x] | None => [] end) (map Some recs) = recs).
  { clear H E1. induction recs as [|r recs IH]; simpl; auto. now rewrite IH. }
  now rewrite E1, E2.
Qed.

Lemma read_data_None f : In None (csv_records f) -> read_data (Some f) = Ok None.
Proof.
  intros H. rewrite read_data_eq.
  replace (forallb _ _) with false; [reflexivity|]. symmetry. apply not_true_is_false.
  rewrite forallb_forall. intros Hx. now specialize (Hx _ H).
Qed.

Lemma csv_records_cases f :
  In None (csv_records f) \/ exists recs, csv_records f = map Some recs.
Proof.
  induction (csv_records f) as [|[x|] l IH].
  - right. now exists [].
  - destruct IH as [|(recs & ->)]; [left; now right|]. right. now exists (x :: recs).
  - left. now left.
Qed.

Lemma vec_pop_snoc {A} (l : list A) x : vec_pop (l ++ [x]) = (l, Some x).
Proof. unfold vec_pop. rewrite rev_unit. now rewrite rev_involutive. Qed.

Lemma parse_eq recs :
  parse_data_into_features_and_labels recs =
  bind (mapM (fun row => let '(copy, popped) := vec_pop row in label <- unwrap popped;; Ok (copy, label)) recs)
       (fun l => Ok (mkSingle (map fst l) (map snd l))).
Proof.
  unfold parse_data_into_features_and_labels.
  cut (forall a b, foldM (fun acc row => let '(copy, popped) := vec_pop row in
         label <- unwrap popped;; Ok (fst acc ++ [copy], snd acc ++ [label])) recs (a, b) =
       bind (mapM (fun row => let '(copy, popped) := vec_pop row in label <- unwrap popped;; Ok (copy, label)) recs)
            (fun l => Ok (a ++ map fst l, b ++ map snd l))).
  { intros H. rewrite H. destruct (mapM _ _); reflexivity. }
  induction recs as [|r recs IH]; intros a b; simpl.
  - now rewrite !app_nil_r.
  - destruct (vec_pop r) as [copy [label|]]; simpl; auto. rewrite IH.
    destruct (mapM _ _); simpl; auto. now rewrite <- !app_assoc.
Qed.

Lemma pop_Ok row (p : list F * F) :
  (let '(copy, popped) := vec_pop row in label <- unwrap popped;; Ok (copy, label)) = Ok p <->
  row = fst p ++ [snd p].
Proof.
  destruct p as [c l]. simpl. split.
  - unfold vec_pop. destruct (rev row) as [|x r] eqn:E; simpl; [discriminate|].
    intros H. injection H as <- <-. rewrite <- (rev_involutive row), E. reflexivity.
  - intros ->. rewrite vec_pop_snoc. reflexivity.
Qed.

Lemma parse_Ok recs ds :
  parse_data_into_features_and_labels recs = Ok ds <->
  length (sd_features ds) = length recs /\
  Forall2 (fun row p => row = fst p ++ [snd p]) recs (combine (sd_features ds) (sd_labels ds)) /\
  length (sd_labels ds) = length recs.
Proof.
  rewrite parse_eq, bind_Ok. split.
  - intros (l & H & E). injection E as <-. simpl. rewrite !map_length, combine_map_fst_snd.
    rewrite (mapM_length _ _ _ H). repeat split; auto.
    apply mapM_Forall2 in H. eapply Forall2_impl; [|exact H]. intros a b E. now apply pop_Ok.
  - intros (L1 & H & L2). exists (combine (sd_features ds) (sd_labels ds)). split.
    + apply mapM_Forall2. eapply Forall2_impl; [|exact H]. intros a b E. now apply pop_Ok.
    + rewrite map_fst_combine, map_snd_combine by lia. now destruct ds.
Qed.

(* ------------------------------------------------------------------ *)
(** ** Vector helpers *)

Lemma zip_with_eq f a b : length a = length b -> zip_with f a b = Ok (map2 f a b).
Proof. intros H. unfold zip_with. rewrite H, Nat.eqb_refl, map2_combine. reflexivity. Qed.

Lemma zip_with_Ok f a b r :
  zip_with f a b = Ok r <-> length a = length b /\ r = map2 f a b.
Proof.
  unfold zip_with. destruct (Nat.eqb_spec (length a) (length b)).
  - rewrite <- map2_combine. split; intros H; [split; congruence|]. destruct H; congruence.
  - split; [discriminate|tauto].
Qed.

Lemma zip_with_Panic f a b : zip_with f a b = Panic <-> length a <> length b.
Proof. unfold zip_with. destruct (Nat.eqb_spec (length a) (length b)); split; intros; try congruence; discriminate. Qed.

(** Column sums in the order the code adds: start from 0, add rows in order. *)
Definition colsum (k : nat) (vv : list (list F)) : list F :=
  fold_left (map2 fadd) vv (repeat f0 k).

Lemma fold_map2_length {A} (f : F -> A -> F) (vv : list (list A)) acc :
  Forall (fun v => length acc <= length v) vv -> length (fold_left (map2 f) vv acc) = length acc.
Proof.
  revert acc; induction vv as [|v vv IH]; intros acc H; simpl; auto.
  inversion H as [|? ? Hv Hvv]; subst.
  assert (L : length (map2 f acc v) = length acc) by (rewrite map2_length; lia).
  rewrite IH; auto. now rewrite L.
Qed.

Lemma sum_of_f64_vectors_eq k vv :
  vv <> [] -> rectangular k vv -> sum_of_f64_vectors vv = Ok (colsum k vv).
Proof.
  intros Hne Hr. destruct vv as [|v vv]; [congruence|].
  unfold sum_of_f64_vectors. cbn [idx nth_error bind].
  assert (Hv : length v = k) by (inversion Hr; auto). rewrite Hv.
  destruct (@foldM_Ok_pure (list F) (list F) add_f64_slices_as_vector (map2 fadd)
              (fun s => length s = k) (v :: vv) (repeat f0 k)) as [E _].
  - apply repeat_length.
  - intros s x Hx Hs. unfold rectangular in Hr. rewrite Forall_forall in Hr.
    specialize (Hr _ Hx). rewrite map2_length, Hs, Hr, Nat.min_id. split; auto.
    apply zip_with_eq. congruence.
  - exact E.
Qed.

Lemma inner_add_loop (inner : nat) (row avg : list F) :
  length avg = inner -> inner <= length row ->
  for_range inner (fun avg j => x <- idx row j;; a <- idx avg j;; upd avg j (fadd a x)) avg =
  Ok (map2 fadd avg row).
Proof.
  intros Hl Hr.
  rewrite <- Hl.
  rewrite (for_range_update (fun avg j => x <- idx row j;; a <- idx avg j;; upd avg j (fadd a x))
             (fun j a => match nth_error row j with Some x => fadd a x | None => a end)).
  - f_equal. apply nth_error_ext. intros i. rewrite !nth_error_map2.
    destruct (nth_error avg i) as [a|] eqn:Ea.
    + assert (i < length avg) by (apply nth_error_Some; congruence).
      rewrite nth_error_nth' with (d := 0) by now rewrite seq_length.
      rewrite seq_nth by auto. simpl.
      destruct (nth_error row i) eqn:Er; auto. apply nth_error_None in Er. lia.
    + now destruct (nth_error (seq 0 (length avg)) i).
  - intros pre x post Hp. destruct (nth_error row (length pre)) as [y|] eqn:E.
    + apply idx_Ok in E. rewrite E. cbn [bind]. rewrite idx_middle. cbn [bind]. now rewrite upd_middle.
    + apply nth_error_None in E. lia.
Qed.

Lemma inner_add_loop_short (inner : nat) (row avg : list F) :
  length avg = inner -> length row < inner ->
  for_range inner (fun avg j => x <- idx row j;; a <- idx avg j;; upd avg j (fadd a x)) avg = Panic.
Proof.
  intros Hl Hr. unfold for_range.
  replace inner with (length row + S (inner - length row - 1)) by lia.
  rewrite seq_app, foldM_app.
  destruct (@for_range_inv (list F) (fun i s => length s = inner) (length row)
     (fun avg j => x <- idx row j;; a <- idx avg j;; upd avg j (fadd a x)) avg) as (s & E & Hs); auto.
  - intros i s Hi Hs. rewrite (idx_nth _ _ f0) by auto. cbn [bind].
    rewrite (idx_nth _ _ f0) by lia. cbn [bind]. rewrite upd_lt by lia.
    eexists; split; eauto. now rewrite length_list_set.
  - unfold for_range in E. rewrite E. cbn [bind seq foldM plus].
    rewrite (proj2 (idx_Panic row (length row))) by lia. reflexivity.
Qed.

Lemma div_loop (n : F) (avg : list F) :
  for_range (length avg) (fun avg j => a <- idx avg j;; upd avg j (fdiv a n)) avg =
  Ok (map (fun a => fdiv a n) avg).
Proof.
  rewrite (for_range_update _ (fun _ a => fdiv a n)).
  - now rewrite map2_seq_map.
  - intros pre x post _. rewrite idx_middle. cbn [bind]. now rewrite upd_middle.
Qed.

Definition colmean (k : nat) (vv : list (list F)) : list F :=
  map (fun s => fdiv s (f_of_nat (length vv))) (colsum k vv).

Lemma colsum_length k vv : Forall (fun v => k <= length v) vv -> length (colsum k vv) = k.
Proof.
  intros H. unfold colsum. rewrite fold_map2_length; rewrite ?repeat_length; auto.
Qed.

Lemma rect_ge {A} k (vv : list (list A)) : rectangular k vv -> Forall (fun v => k <= length v) vv.
Proof. intros H. eapply Forall_impl; [|exact H]. simpl; intros; lia. Qed.

Lemma avg_loop k (vv : list (list F)) :
  Forall (fun v => k <= length v) vv ->
  for_range (length vv) (fun avg i =>
     for_range k (fun avg j =>
       row <- idx vv i;; x <- idx row j;; a <- idx avg j;; upd avg j (fadd a x)) avg) (repeat f0 k)
  = Ok (colsum k vv).
Proof.
  intros H.
  transitivity (foldM (fun avg row =>
     for_range k (fun avg j => x <- idx row j;; a <- idx avg j;; upd avg j (fadd a x)) avg) vv (repeat f0 k)).
  - rewrite <- foldM_seq_idx. apply for_range_ext. intros s i Hi.
    rewrite (idx_nth vv _ [] Hi). cbn [bind]. reflexivity.
  - destruct (@foldM_Ok_pure (list F) (list F)
      (fun avg row => for_range k (fun avg j => x <- idx row j;; a <- idx avg j;; upd avg j (fadd a x)) avg)
      (map2 fadd) (fun s => length s = k) vv (repeat f0 k)) as [E _].
    + apply repeat_length.
    + intros s x Hx Hs. rewrite Forall_forall in H. specialize (H _ Hx).
      split; [now apply inner_add_loop|]. rewrite map2_length. lia.
    + exact E.
Qed.

Lemma calculate_average_f64_vector_Ok vv first :
  nth_error vv 0 = Some first ->
  Forall (fun v => length first <= length v) vv ->
  calculate_average_f64_vector vv = Ok (colmean (length first) vv).
Proof.
  intros Hf H. unfold calculate_average_f64_vector. apply idx_Ok in Hf. rewrite Hf. cbn [bind].
  rewrite avg_loop by assumption. cbn [bind].
  rewrite <- (colsum_length (length first) vv H) at 1. rewrite div_loop. reflexivity.
Qed.

Lemma calculate_average_f64_vector_eq k vv :
  vv <> [] -> rectangular k vv -> calculate_average_f64_vector vv = Ok (colmean k vv).
Proof.
  intros Hne Hr. destruct vv as [|v vv]; [congruence|].
  assert (Hv : length v = k) by (inversion Hr; auto).
  rewrite (calculate_average_f64_vector_Ok (v :: vv) v); auto.
  - now rewrite Hv.
  - rewrite Hv. now apply rect_ge.
Qed.

Lemma foldM_Panic_In {S A} (f : S -> A -> res S) (Inv : S -> Prop) (bad : A -> Prop) l s :
  Inv s ->
  (forall s x, In x l -> Inv s -> (bad x /\ f s x = Panic) \/ (exists s', f s x = Ok s' /\ Inv s')) ->
  Exists bad l -> (forall s x, In x l -> Inv s -> bad x -> f s x = Panic) -> foldM f l s = Panic.
Proof.
  revert s; induction l as [|x l IH]; intros s HI H Hb Hp; [inversion Hb|]. simpl.
  destruct (H s x (or_introl eq_refl) HI) as [[_ E]|(s' & E & HI')]; rewrite E; [reflexivity|]. simpl.
  apply IH; auto.
  - intros; apply H; auto. now right.
  - inversion Hb as [? ? Hx|]; subst; auto.
    rewrite (Hp s x) in E; auto; [discriminate|now left].
  - intros; apply Hp; auto. now right.
Qed.

Theorem calculate_average_f64_vector_Panic vv :
  calculate_average_f64_vector vv = Panic <->
  vv = [] \/ exists first rest v, vv = first :: rest /\ In v rest /\ length v < length first.
Proof.
  destruct vv as [|first rest]; [split; auto; reflexivity|].
  destruct (Forall_Exists_dec (fun v => length first <= length v)
    (fun v => le_dec (length first) (length v)) (first :: rest)) as [H|H].
  - rewrite (calculate_average_f64_vector_Ok _ first) by auto. split; [discriminate|].
    intros [E|(f & r & v & E & Hv & Hlt)]; [discriminate|]. injection E as <- <-.
    rewrite Forall_forall in H. specialize (H v (or_intror Hv)). lia.
  - split; [intros _; right|intros _].
    + apply Exists_exists in H as (v & [<-|Hv] & Hlt); [lia|]. exists first, rest, v. repeat split; auto. lia.
    + unfold calculate_average_f64_vector. cbn [idx nth_error bind].
      set (vv := first :: rest) in *. set (k := length first) in *.
      replace (for_range (length vv) _ (repeat f0 k)) with (@Panic (list F)); [reflexivity|]. symmetry.
      transitivity (foldM (fun avg row =>
        for_range k (fun avg j => x <- idx row j;; a <- idx avg j;; upd avg j (fadd a x)) avg) vv (repeat f0 k)).
      * rewrite <- foldM_seq_idx. apply for_range_ext. intros s i Hi.
        rewrite (idx_nth vv _ [] Hi). cbn [bind]. reflexivity.
      * apply (foldM_Panic_In _ (fun s => length s = k) (fun v => ~ k <= length v)); auto.
        -- apply repeat_length.
        -- intros s x Hx Hs. destruct (le_dec k (length x)) as [Hk|Hk].
           ++ right. rewrite inner_add_loop by assumption. eexists; split; eauto. rewrite map2_length. lia.
           ++ left. split; auto. apply inner_add_loop_short; auto. lia.
        -- intros s x Hx Hs Hb. apply inner_add_loop_short; auto. lia.
Qed.

Theorem sum_of_f64_vectors_Panic vv :
  sum_of_f64_vectors vv = Panic <->
  vv = [] \/ exists first rest v, vv = first :: rest /\ In v rest /\ length v <> length first.
Proof.
  destruct vv as [|first rest]; [split; auto; reflexivity|].
  destruct (Forall_Exists_dec (fun v => length v = length first)
    (fun v => Nat.eq_dec (length v) (length first)) (first :: rest)) as [H|H].
  - rewrite (sum_of_f64_vectors_eq (length first)); [|discriminate|exact H]. split; [discriminate|].
    intros [E|(f & r & v & E & Hv & Hlt)]; [discriminate|]. injection E as <- <-.
    rewrite Forall_forall in H. now specialize (H v (or_intror Hv)).
  - split; [intros _; right|intros _].
    + apply Exists_exists in H as (v & [<-|Hv] & Hlt); [congruence|]. exists first, rest, v. auto.
    + unfold sum_of_f64_vectors. cbn [idx nth_error bind].
      apply (foldM_Panic_In _ (fun s => length s = length first) (fun v => length v <> length first)); auto.
      * apply repeat_length.
      * intros s x Hx Hs. destruct (Nat.eq_dec (length x) (length first)) as [Hk|Hk].
        -- right. exists (map2 fadd s x). split; [apply zip_with_eq; congruence|]. rewrite map2_length. lia.
        -- left. split; auto. apply zip_with_Panic. congruence.
      * intros s x Hx Hs Hb. apply zip_with_Panic. congruence.
Qed.

(** Position [j] of the column sums is the left fold of the entries. *)
Lemma colsum_nth k vv j :
  Forall (fun v => k <= length v) vv -> j < k ->
  nth_error (colsum k vv) j =
  Some (fold_left fadd (flat_map (fun v => match nth_error v j with Some x => [x] | None => [] end) vv) f0).
Proof.
  intros H Hj. unfold colsum.
  cut (forall vv acc, Forall (fun v => k <= length v) vv -> length acc = k ->
    forall a, nth_error acc j = Some a ->
    nth_error (fold_left (map2 fadd) vv acc) j =
    Some (fold_left fadd (flat_map (fun v => match nth_error v j with Some x => [x] | None => [] end) vv) a)).
  { intros Hc. apply Hc; auto; [apply repeat_length|]. now apply nth_error_repeat_lt. }
  clear vv H. induction vv as [|v vv IH]; intros acc H Hl a Ha; simpl; auto.
  inversion H as [|? ? Hv Hvv]; subst.
  destruct (nth_error v j) as [x|] eqn:Ex; [|apply nth_error_None in Ex; lia].
  simpl. apply IH; auto.
  - rewrite map2_length. lia.
  - rewrite nth_error_map2, Ha, Ex. reflexivity.
Qed.

End Data.
