(** The boosting loop and additive predictions, for any arithmetic. *)
From Verif Require Import Base Num ModelCommon ModelTree ModelBoost Spec SpecTree SpecScore Lib ProofData
  ProofTree ProofTree3 ProofScore.

Section Boost.
Context {O : NumOps}.

(* ------------------------------------------------------------------ *)
(** ** The loop *)

Section Iter.
Context {L : Type} (residuals : training_data -> res (list (list F)))
  (fit : dataset -> res (tree_node L)) (update : training_data -> tree_node L -> res training_data)
  (td0 : training_data).
Let iter := boosting_iterations residuals fit update td0.

Lemma iter_S n :
  iter (n + 1) =
  ('(td, trees) <- iter n;;
   r <- residuals td;; tree <- fit (with_labels (td_data td) r);; td' <- update td tree;;
   Ok (td', trees ++ [tree])).
Proof. unfold iter, boosting_iterations. apply for_range_S. Qed.

Lemma iter_S_Ok n td trees :
  iter (n + 1) = Ok (td, trees) ->
  exists td' trees' r t, iter n = Ok (td', trees') /\ residuals td' = Ok r /\
    fit (with_labels (td_data td') r) = Ok t /\ update td' t = Ok td /\ trees = trees' ++ [t].
Proof.
  rewrite iter_S. intros H. apply bind_Ok in H as ([td' trees'] & E1 & H).
  apply bind_Ok in H as (r & E2 & H). apply bind_Ok in H as (t & E3 & H).
  apply bind_Ok in H as (td'' & E4 & H). inversion H; subst. exists td', trees', r, t. auto.
Qed.

Lemma iter_length n : forall td trees, iter n = Ok (td, trees) -> length trees = n.
Proof.
  induction n as [|n IH]; intros td trees H.
  - inversion H; reflexivity.
  - replace (S n) with (n + 1) in H by lia. apply iter_S_Ok in H as (td' & tr & r & t & E & _ & _ & _ & ->).
    rewrite app_length, (IH _ _ E). simpl. lia.
Qed.

Lemma iter_prefix n m td trees :
  m <= n -> iter n = Ok (td, trees) -> exists td', iter m = Ok (td', firstn m trees).
Proof.
  intros H. revert td trees. induction H as [|n H IH]; intros td trees E.
  - exists td. rewrite firstn_all2; auto. now rewrite (iter_length _ _ _ E).
  - replace (S n) with (n + 1) in E by lia. apply iter_S_Ok in E as (td' & tr & r & t & E & _ & _ & _ & ->).
    destruct (IH _ _ E) as (td'' & E'). exists td''. rewrite E'. do 2 f_equal.
    rewrite firstn_app. rewrite (iter_length _ _ _ E).
    replace (m - n) with 0 by lia. now rewrite firstn_O, app_nil_r.
Qed.

Lemma iter_stage n k td trees :
  k < n -> iter n = Ok (td, trees) ->
  exists td' r t td'', iter k = Ok (td', firstn k trees) /\ residuals td' = Ok r /\
    fit (with_labels (td_data td') r) = Ok t /\ update td' t = Ok td'' /\ nth_error trees k = Some t.
Proof.
  intros Hk E. destruct (iter_prefix n (k + 1) td trees) as (td1 & E1); [lia|auto|].
  apply iter_S_Ok in E1 as (td' & tr & r & t & E2 & Er & Ef & Eu & Et).
  pose proof (iter_length _ _ _ E2) as Hl.
  exists td', r, t, td1. assert (firstn k trees = tr).
  { apply (f_equal (firstn k)) in Et. rewrite firstn_firstn, Nat.min_l in Et by lia. rewrite Et.
    rewrite firstn_app, Hl, Nat.sub_diag, firstn_O, app_nil_r. rewrite <- Hl. apply firstn_all. }
  rewrite H. repeat split; auto.
  assert (Ht : length trees = n) by (eapply iter_length; eauto).
  rewrite <- (firstn_skipn (k + 1) trees), Et, nth_error_app1 by (rewrite app_length; simpl; lia).
  rewrite nth_error_app2, Hl, Nat.sub_diag by lia. reflexivity.
Qed.

(** An invariant of the loop. *)
Lemma iter_inv (I : training_data -> list (tree_node L) -> Prop) :
  I td0 [] ->
  (forall td ts r t td', I td ts -> residuals td = Ok r -> fit (with_labels (td_data td) r) = Ok t ->
     update td t = Ok td' -> I td' (ts ++ [t])) ->
  forall n td ts, iter n = Ok (td, ts) -> I td ts.
Proof.
  intros H0 HS. induction n as [|n IH]; intros td ts E.
  - inversion E; subst; auto.
  - replace (S n) with (n + 1) in E by lia. apply iter_S_Ok in E as (td' & tr & r & t & E & Er & Ef & Eu & ->).
    eapply HS; eauto.
Qed.

Lemma iter_total (I : training_data -> list (tree_node L) -> Prop) :
  I td0 [] ->
  (forall td ts, I td ts -> exists r t td', residuals td = Ok r /\ fit (with_labels (td_data td) r) = Ok t /\
     update td t = Ok td' /\ I td' (ts ++ [t])) ->
  forall n, exists td ts, iter n = Ok (td, ts) /\ I td ts.
Proof.
  intros H0 HS. induction n as [|n (td & ts & E & HI)].
  - exists td0, []. split; [reflexivity|auto].
  - destruct (HS _ _ HI) as (r & t & td' & Er & Ef & Eu & HI').
    exists td', (ts ++ [t]). split; auto. replace (S n) with (n + 1) by lia. rewrite iter_S, E. cbn [bind].
    rewrite Er. cbn [bind]. rewrite Ef. cbn [bind]. rewrite Eu. reflexivity.
Qed.
End Iter.

(* ------------------------------------------------------------------ *)
(** ** Additive predictions *)

Definition gb_out (row : list F) (t : tree_node grad_boost_leaf) : res (list F) :=
  leaf <- find_leaf_node_for_data row t;; unwrap (gl_output leaf).
Definition amg_out (k : nat) (row : list F) (t : tree_node amg_leaf) : res (list F) :=
  leaf <- find_leaf_node_for_data row t;; construct_approximate_leaf_output leaf k.

Definition raw {L} (out : list F -> tree_node L -> res (list F)) (lr : F) (g row : list F)
    (ts : list (tree_node L)) : res (list F) :=
  outs <- mapM (fun t => o <- out row t;; Ok (weighted lr o)) ts;;
  add_leaf_outputs g outs.

Lemma predict_instance_raw row ts g lr : predict_instance row ts g lr = raw gb_out lr g row ts.
Proof.
  unfold predict_instance, raw, collect_leaf_outputs_for_test_instance.
  rewrite (for_range_ext _ _ (fun acc i => x <- (t <- idx ts i;; o <- gb_out row t;; Ok (weighted lr o));; Ok (acc ++ [x]))).
  - rewrite for_range_push, mapM_seq_idx. cbn. destruct (mapM _ ts); reflexivity.
  - intros s i _. destruct (idx ts i) as [t| |]; cbn [bind]; auto. unfold gb_out.
    destruct (find_leaf_node_for_data row t) as [l| |]; cbn [bind]; auto.
    destruct (unwrap (gl_output l)); reflexivity.
Qed.

Lemma amg_predict_instance_raw row ts g lr k : amg_predict_instance row ts g lr k = raw (amg_out k) lr g row ts.
Proof.
  unfold amg_predict_instance, raw, amg_collect_leaf_outputs_for_test_instance.
  rewrite (for_range_ext _ _ (fun acc i => x <- (t <- idx ts i;; o <- amg_out k row t;; Ok (weighted lr o));; Ok (acc ++ [x]))).
  - rewrite for_range_push, mapM_seq_idx. cbn. destruct (mapM _ ts); reflexivity.
  - intros s i _. destruct (idx ts i) as [t| |]; cbn [bind]; auto. unfold amg_out.
    destruct (find_leaf_node_for_data row t) as [l| |]; cbn [bind]; auto.
    destruct (construct_approximate_leaf_output l k); reflexivity.
Qed.

Lemma add_one s o :
  length s <= length o ->
  for_range (length s) (fun sum i => s0 <- idx sum i;; x <- idx o i;; upd sum i (fadd s0 x)) s = Ok (map2 fadd s o).
Proof.
  intros H. rewrite <- (inner_add_loop (length s) o s eq_refl H).
  unfold for_range. apply foldM_ext. intros s' i _.
  pose proof (idx_fuel s' i) as F1. pose proof (idx_fuel o i) as F2.
  destruct (idx s' i), (idx o i); cbn [bind]; congruence.
Qed.

Lemma raw_nil {L} (out : list F -> tree_node L -> res (list F)) lr g row : raw out lr g row [] = Ok g.
Proof. reflexivity. Qed.

Lemma raw_snoc {L} (out : list F -> tree_node L -> res (list F)) lr g row ts t s o :
  raw out lr g row ts = Ok s -> out row t = Ok o -> length s <= length o ->
  raw out lr g row (ts ++ [t]) = Ok (map2 fadd s (weighted lr o)).
Proof.
  unfold raw. intros H Eo Hl. apply bind_Ok in H as (outs & E & H).
  rewrite mapM_app, E. cbn [bind mapM]. rewrite Eo. cbn [bind].
  unfold add_leaf_outputs in *. rewrite foldM_app, H. cbn [bind foldM].
  rewrite add_one by (unfold weighted; rewrite map_length; auto). reflexivity.
Qed.

Lemma raw_outs {L} (out : list F -> tree_node L -> res (list F)) lr g row ts outs :
  Forall2 (fun t o => out row t = Ok o) ts outs ->
  raw out lr g row ts = add_leaf_outputs g (map (weighted lr) outs).
Proof.
  intros H. unfold raw.
  assert (E : mapM (fun t => o <- out row t;; Ok (weighted lr o)) ts = Ok (map (weighted lr) outs)).
  { induction H as [|t o ts outs Ho H IH]; [reflexivity|]. simpl. rewrite Ho. cbn [bind]. rewrite IH. reflexivity. }
  now rewrite E.
Qed.

Lemma add_leaf_outputs_eq g outs :
  Forall (fun o => length g <= length o) outs -> add_leaf_outputs g outs = Ok (fold_left (map2 fadd) outs g).
Proof.
  intros H. unfold add_leaf_outputs.
  destruct (foldM_Ok_pure (fun sum leaf_output => for_range (length sum) (fun sum i =>
      s <- idx sum i;; x <- idx leaf_output i;; upd sum i (fadd s x)) sum) (map2 fadd)
      (fun s => length s = length g) outs g) as [E _]; auto.
  intros s o Ho Hs. rewrite Forall_forall in H. specialize (H o Ho). split.
  - apply add_one. lia.
  - rewrite map2_length. lia.
Qed.

Lemma fold_map2_nth {A} (f : F -> A -> F) (outs : list (list A)) g j :
  Forall (fun o => length g <= length o) outs ->
  nth_error (fold_left (map2 f) outs g) j =
  match nth_error g j with
  | Some x => Some (fold_left f (flat_map (fun o => match nth_error o j with Some y => [y] | None => [] end) outs) x)
  | None => None
  end.
Proof.
  revert g; induction outs as [|o outs IH]; intros g H; simpl.
  - now destruct (nth_error g j).
  - inversion H as [|? ? H1 H2]; subst. rewrite IH.
    + rewrite nth_error_map2. destruct (nth_error g j) eqn:Eg; auto.
      destruct (nth_error o j) eqn:Eo; [reflexivity|].
      apply nth_error_None in Eo. assert (j < length g) by (apply nth_error_Some; congruence). lia.
    + rewrite map2_length, Nat.min_l by auto. exact H2.
Qed.

(* ------------------------------------------------------------------ *)
(** ** Training state = predictions so far *)

Definition state_is {L} (out : list F -> tree_node L -> res (list F)) (lr : F) (d : dataset) (g : list F)
    (td : training_data) (ts : list (tree_node L)) : Prop :=
  td_data td = d /\ td_size td = length (labels d) /\
  mapM (fun row => raw out lr g row ts) (feature_rows d) = Ok (td_labels td) /\
  Forall (fun s => length s = length g) (td_labels td).

(** What a stage's update must do. *)
Definition additive_update {L} (out : list F -> tree_node L -> res (list F)) (lr : F)
    (td td' : training_data) (t : tree_node L) : Prop :=
  td_data td' = td_data td /\ td_size td' = td_size td /\
  Forall2 (fun p s' => exists o, out (fst p) t = Ok o /\ length o = length (snd p) /\
             s' = map2 fadd (snd p) (weighted lr o))
    (combine (feature_rows (td_data td)) (td_labels td)) (td_labels td').

Lemma state_step {L} (out : list F -> tree_node L -> res (list F)) lr d g td td' ts t :
  length (labels d) = length (feature_rows d) ->
  state_is out lr d g td ts -> additive_update out lr td td' t ->
  state_is out lr d g td' (ts ++ [t]).
Proof.
  intros HL (H1 & H2 & H3 & H4) (U1 & U2 & U3). rewrite H1 in *.
  split; [congruence|]. split; [congruence|].
  apply mapM_Forall2 in H3. rewrite mapM_Forall2.
  clear H1 H2 U1 U2 HL. revert H4 U3. generalize (td_labels td'). generalize (feature_rows d), (td_labels td), H3. clear H3.
  intros rows ss H3. induction H3 as [|row s rows ss E H3 IH]; intros ss' H4 U3.
  - inversion U3; subst. split; constructor.
  - cbn [combine] in U3. inversion U3 as [|? s' ? ss0 (o & Eo & Lo & ->) U4]; subst. cbn [fst snd] in *.
    inversion H4 as [|? ? L4 H5]; subst. destruct (IH _ H5 U4) as [A B]. split; constructor; auto.
    + apply raw_snoc; auto. lia.
    + rewrite map2_length. unfold weighted. rewrite map_length. lia.
Qed.

(** Row-wise in-place update loops. *)
Lemma update_rows {S X} (rows : list (list F)) (pre : list F -> res X) (post : X -> S -> res S) (ls : list S) ls' :
  length ls = length rows ->
  for_range (length ls) (fun ml i => row <- idx rows i;; x <- pre row;; c <- idx ml i;; n <- post x c;; upd ml i n) ls = Ok ls' <->
  Forall2 (fun p s' => exists x, pre (fst p) = Ok x /\ post x (snd p) = Ok s') (combine rows ls) ls'.
Proof.
  intros HL.
  set (body := fun (ml : list S) i => row <- idx rows i;; x <- pre row;; c <- idx ml i;; n <- post x c;; upd ml i n).
  assert (G : forall pre_r rows2 done ls2, length pre_r = length done -> rows = pre_r ++ rows2 -> length rows2 = length ls2 ->
    foldM body (seq (length done) (length ls2)) (done ++ ls2) =
    (n2 <- mapM (fun p => x <- pre (fst p);; post x (snd p)) (combine rows2 ls2);; Ok (done ++ n2))).
  { intros pre_r rows2. revert pre_r. induction rows2 as [|r rows2 IH]; intros pre_r done [|c ls2] H1 H2 H3; try discriminate.
    - reflexivity.
    - cbn [length seq foldM combine mapM fst snd]. unfold body at 1. rewrite H2, <- H1.
      rewrite idx_middle. cbn [bind]. destruct (pre r) as [x| |]; cbn [bind]; auto. rewrite H1, idx_middle. cbn [bind].
      destruct (post x c) as [n| |]; cbn [bind]; auto. rewrite upd_middle. cbn [bind].
      replace (done ++ n :: ls2) with ((done ++ [n]) ++ ls2) by now rewrite <- app_assoc.
      replace (Datatypes.S (length done)) with (length (done ++ [n])) by (rewrite app_length; simpl; lia).
      rewrite (IH (pre_r ++ [r])).
      + rewrite bind_assoc. destruct (mapM _ _); cbn [bind]; auto. now rewrite <- app_assoc.
      + rewrite !app_length; simpl; lia.
      + now rewrite <- app_assoc.
      + now inversion H3. }
  specialize (G [] rows [] ls eq_refl eq_refl (eq_sym HL)). cbn [app length] in G.
  unfold for_range. rewrite G.
  assert (M : mapM (fun p => x <- pre (fst p);; post x (snd p)) (combine rows ls) = Ok ls' <->
    Forall2 (fun p s' => exists x, pre (fst p) = Ok x /\ post x (snd p) = Ok s') (combine rows ls) ls').
  { rewrite mapM_Forall2. split; apply Forall2_impl; intros p s'; rewrite bind_Ok; auto. }
  rewrite <- M.
  destruct (mapM _ _); cbn [bind]; split; intros E; inversion E; reflexivity.
Qed.

(** Regression and multi-class stages. *)
Lemma gb_update td t lr td' :
  length (td_labels td) = length (feature_rows (td_data td)) -> td_size td = length (td_labels td) ->
  (update_dataset_labels td t lr = Ok td' <-> additive_update gb_out lr td td' t).
Proof.
  intros HL HS. unfold update_dataset_labels, additive_update. rewrite HS.
  rewrite (for_range_ext _ _ (fun ml i => row <- idx (feature_rows (td_data td)) i;;
    x <- gb_out row t;; c <- idx ml i;; n <- add_f64_slices_as_vector c (weighted lr x);; upd ml i n)).
  2:{ intros s i _. destruct (idx (feature_rows (td_data td)) i); cbn [bind]; auto. unfold gb_out. now rewrite bind_assoc. }
  assert (Q : forall ls', for_range (length (td_labels td)) (fun ml i => row <- idx (feature_rows (td_data td)) i;;
      x <- gb_out row t;; c <- idx ml i;; n <- add_f64_slices_as_vector c (weighted lr x);; upd ml i n) (td_labels td) = Ok ls' <->
    Forall2 (fun p s' => exists o, gb_out (fst p) t = Ok o /\ length o = length (snd p) /\ s' = map2 fadd (snd p) (weighted lr o))
      (combine (feature_rows (td_data td)) (td_labels td)) ls').
  { intros ls'. rewrite update_rows by auto. split; apply Forall2_impl; intros [row c] s'; cbn [fst snd].
    - intros (o & E & H). exists o. apply zip_with_Ok in H as [H1 H2]. unfold weighted in H1. rewrite map_length in H1. auto.
    - intros (o & E & H1 & H2). exists o. split; auto. apply zip_with_Ok. unfold weighted at 1. rewrite map_length. auto. }
  split.
  - intros H. apply bind_Ok in H as (ls' & E & H). inversion H; subst; cbn. apply Q in E. auto.
  - intros (H1 & H2 & H3). apply Q in H3. rewrite H3. cbn [bind]. destruct td'; cbn in *. congruence.
Qed.

(** AMG stages. *)
Definition amg_pre (lr : F) (k : nat) (t : tree_node amg_leaf) (row : list F) : res (F * F * nat) :=
  get_weighted_amg_boost_leaf_values row t lr (f_of_nat k).
Definition amg_post (k : nat) (x : F * F * nat) (c : list F) : res (list F) :=
  let '(wm, wn, mi) := x in
  v <- idx c mi;;
  c <- upd c mi (fadd v wm);;
  for_range k (fun cl j => if negb (j =? mi) then x <- idx cl j;; upd cl j (fadd x wn) else Ok cl) c.

Lemma amg_inner c mi wn :
  for_range (length c) (fun cl j => if negb (j =? mi) then x <- idx cl j;; upd cl j (fadd x wn) else Ok cl) c =
  Ok (map2 (fun j x => if j =? mi then x else fadd x wn) (seq 0 (length c)) c).
Proof.
  apply for_range_update. intros pre x post _. destruct (length pre =? mi); cbn [negb]; auto.
  rewrite idx_middle. cbn [bind]. apply upd_middle.
Qed.

Lemma nth_error_seq0 k i : nth_error (seq 0 k) i = if i <? k then Some i else None.
Proof.
  destruct (Nat.ltb_spec i k) as [H|H].
  - rewrite (nth_error_nth' _ 0) by (rewrite seq_length; auto). now rewrite seq_nth.
  - apply nth_error_None. now rewrite seq_length.
Qed.

Lemma list_set_out {A} (l : list A) i x : length l <= i -> list_set l i x = l.
Proof. revert i; induction l as [|y l IH]; intros [|i] H; simpl in *; try lia; auto. f_equal. apply IH. lia. Qed.

Lemma amg_post_eq k wm wn mi c c' :
  length c = k ->
  (amg_post k (wm, wn, mi) c = Ok c' <-> mi < k /\ c' = map2 fadd c (list_set (repeat wn k) mi wm)).
Proof.
  intros Hk. unfold amg_post.
  destruct (nth_error c mi) as [v|] eqn:Ev.
  - assert (Hmi : mi < k) by (rewrite <- Hk; apply nth_error_Some; congruence).
    rewrite (proj2 (idx_Ok _ _ _) Ev). cbn [bind]. rewrite upd_lt by lia. cbn [bind].
    rewrite <- Hk at 1. rewrite <- (length_list_set c mi (fadd v wm)) at 1. rewrite amg_inner.
    assert (E : map2 (fun j x => if j =? mi then x else fadd x wn) (seq 0 (length (list_set c mi (fadd v wm))))
        (list_set c mi (fadd v wm)) = map2 fadd c (list_set (repeat wn k) mi wm)).
    { apply nth_error_ext. intros i. rewrite !nth_error_map2, nth_error_seq0, !nth_error_list_set, length_list_set, repeat_length.
      rewrite Hk. destruct (Nat.ltb_spec i k) as [Hi|Hi].
      - rewrite andb_true_r. rewrite (Nat.eqb_sym i mi). destruct (Nat.eqb_spec mi i) as [->|Hne].
        + now rewrite Ev.
        + rewrite nth_error_repeat_lt by auto. destruct (nth_error c i); reflexivity.
      - rewrite andb_false_r. rewrite (proj2 (nth_error_None c i)) by lia. reflexivity. }
    rewrite E. split; [intros H; inversion H; auto|intros [_ ->]; reflexivity].
  - assert (Hp : idx c mi = Panic) by (unfold idx; now rewrite Ev). rewrite Hp. cbn [bind].
    apply nth_error_None in Ev. split; [discriminate|]. intros [H _]. lia.
Qed.

Lemma map_list_set {A B} (f : A -> B) l i x : map f (list_set l i x) = list_set (map f l) i (f x).
Proof. revert i; induction l as [|y l IH]; intros [|i]; simpl; auto. now rewrite IH. Qed.

Lemma map_repeat' {A B} (f : A -> B) x n : map f (repeat x n) = repeat (f x) n.
Proof. induction n; simpl; congruence. Qed.

(** The AMG row update adds the weighted reconstructed output. *)
Lemma amg_row_eq k lr t row c c' :
  length c = k ->
  ((exists x, amg_pre lr k t row = Ok x /\ amg_post k x c = Ok c') <->
   (exists o, amg_out k row t = Ok o /\ length o = length c /\ c' = map2 fadd c (weighted lr o))).
Proof.
  intros Hk. unfold amg_pre, get_weighted_amg_boost_leaf_values, amg_out, construct_approximate_leaf_output.
  destruct (find_leaf_node_for_data row t) as [l| |]; cbn [bind];
    [|split; intros (x & E & _); discriminate|split; intros (x & E & _); discriminate].
  destruct (al_max l) as [m|]; cbn [bind unwrap]; [|split; intros (x & E & _); discriminate].
  destruct (al_class l) as [mi|]; cbn [bind unwrap]; [|split; intros (x & E & _); discriminate].
  split.
  - intros (x & E & H). inversion E; subst. apply amg_post_eq in H as [Hmi ->]; auto.
    eexists. split; [rewrite upd_lt by (rewrite repeat_length; auto); reflexivity|].
    split; [now rewrite length_list_set, repeat_length|].
    unfold weighted. rewrite map_list_set, map_repeat'. reflexivity.
  - intros (o & E & Ho & ->). apply upd_Ok in E as [Hmi ->]. rewrite repeat_length in Hmi.
    eexists. split; [reflexivity|]. apply amg_post_eq; auto. split; auto.
    unfold weighted. rewrite map_list_set, map_repeat'. reflexivity.
Qed.

Lemma amg_update td t lr td' k :
  length (td_labels td) = length (feature_rows (td_data td)) -> td_size td = length (td_labels td) ->
  td_labels td <> [] -> Forall (fun s => length s = k) (td_labels td) ->
  (amg_update_dataset_labels td t lr = Ok td' <-> additive_update (amg_out k) lr td td' t).
Proof.
  intros HL HS NE HK. unfold amg_update_dataset_labels, additive_update. rewrite HS.
  destruct (td_labels td) as [|l0 ls] eqn:El; [congruence|]. rewrite <- El in *.
  assert (H0 : idx (td_labels td) 0 = Ok l0) by (now rewrite El). rewrite H0. cbn [bind].
  assert (Hl0 : length l0 = k) by (rewrite El in HK; now inversion HK). rewrite Hl0.
  rewrite (for_range_ext _ _ (fun ml i => row <- idx (feature_rows (td_data td)) i;;
    x <- amg_pre lr k t row;; c <- idx ml i;; n <- amg_post k x c;; upd ml i n)).
  2:{ intros s i _. destruct (idx (feature_rows (td_data td)) i) as [row| |]; cbn [bind]; auto.
      unfold amg_pre, amg_post. destruct (get_weighted_amg_boost_leaf_values row t lr (f_of_nat k)) as [[[wm wn] mi]| |]; cbn [bind]; auto.
      destruct (idx s i) as [c| |]; cbn [bind]; auto. rewrite !bind_assoc.
      destruct (idx c mi) as [v| |]; cbn [bind]; auto. rewrite !bind_assoc. reflexivity. }
  assert (Q : forall ls', for_range (length (td_labels td)) (fun ml i => row <- idx (feature_rows (td_data td)) i;;
      x <- amg_pre lr k t row;; c <- idx ml i;; n <- amg_post k x c;; upd ml i n) (td_labels td) = Ok ls' <->
    Forall2 (fun p s' => exists o, amg_out k (fst p) t = Ok o /\ length o = length (snd p) /\ s' = map2 fadd (snd p) (weighted lr o))
      (combine (feature_rows (td_data td)) (td_labels td)) ls').
  { intros ls'. rewrite update_rows by auto.
    assert (HC : Forall (fun p : list F * list F => length (snd p) = k) (combine (feature_rows (td_data td)) (td_labels td))).
    { apply Forall_forall. intros [r c] Hin. apply in_combine_r in Hin. rewrite Forall_forall in HK. now apply HK. }
    clear -HC. revert ls'. induction HC as [|p l Hp HC IH]; intros ls'; split; intros H; inversion H; subst; constructor; auto.
    - now apply amg_row_eq.
    - now apply IH.
    - now apply amg_row_eq.
    - now apply IH. }
  split.
  - intros H. apply bind_Ok in H as (ls' & E & H). inversion H; subst; cbn. apply Q in E. auto.
  - intros (H1 & H2 & H3). apply Q in H3. rewrite H3. cbn [bind]. destruct td'; cbn in *. congruence.
Qed.

(* ------------------------------------------------------------------ *)
(** ** Residuals *)

Lemma mapM_two {A B C} (a : list A) (b : list B) (g : A -> B -> res C) :
  length a = length b ->
  mapM (fun i => x <- idx a i;; y <- idx b i;; g x y) (seq 0 (length a)) = mapM (fun p => g (fst p) (snd p)) (combine a b).
Proof.
  intros H. rewrite <- (mapM_seq_idx (combine a b)), combine_length, <- H, Nat.min_id.
  apply mapM_ext. intros i Hi. apply in_seq in Hi.
  destruct (nth_error a i) as [x|] eqn:Ex; [|apply nth_error_None in Ex; lia].
  destruct (nth_error b i) as [y|] eqn:Ey; [|apply nth_error_None in Ey; lia].
  rewrite (proj2 (idx_Ok _ _ _) Ex), (proj2 (idx_Ok _ _ _) Ey). cbn [bind].
  assert (E : nth_error (combine a b) i = Some (x, y)).
  { clear -Ex Ey. revert b i Ex Ey. induction a as [|u a IH]; intros [|v b] [|i]; simpl; intros; try discriminate.
    - congruence.
    - auto. }
  rewrite (proj2 (idx_Ok _ _ _) E). reflexivity.
Qed.

Lemma residuals_eq (f : list F -> list F) (ys ss : list (list F)) :
  length ss = length ys ->
  forall r, mapM (fun i => true_label <- idx ys i;; current_label <- idx ss i;;
      subtract_f64_slices_as_vector true_label (f current_label)) (seq 0 (length ys)) = Ok r <->
    (Forall2 (fun y s => length y = length (f s)) ys ss /\ r = differences ys (map f ss)).
Proof.
  intros HL r. rewrite (mapM_two ys ss (fun y s => subtract_f64_slices_as_vector y (f s))) by auto.
  rewrite mapM_Forall2. revert ss HL r. induction ys as [|y ys IH]; intros [|s ss] HL r; try discriminate; cbn [combine map].
  - split; [intros H; inversion H; split; [constructor|reflexivity]|intros [_ ->]; constructor].
  - simpl in HL. specialize (IH ss ltac:(lia)). split.
    + intros H. inversion H as [|? r0 ? rs H1 H2]; subst. cbn [fst snd] in H1. apply zip_with_Ok in H1 as [E ->].
      apply IH in H2 as [H3 ->]. split; [constructor; auto|]. unfold differences. cbn [combine map fst snd]. now rewrite map2_combine.
    + intros [H ->]. inversion H; subst. unfold differences. cbn [combine map fst snd]. constructor.
      * cbn [fst snd]. apply zip_with_Ok. rewrite map2_combine. auto.
      * apply IH. auto.
Qed.

Lemma calculate_residuals_regression_eq td r :
  td_size td = length (labels (td_data td)) -> length (td_labels td) = length (labels (td_data td)) ->
  (calculate_residuals_regression td = Ok r <->
   Forall2 (fun y s => length y = length s) (labels (td_data td)) (td_labels td) /\
   r = differences (labels (td_data td)) (td_labels td)).
Proof.
  intros HS HL. unfold calculate_residuals_regression. rewrite HS.
  rewrite (residuals_eq (fun s => s)) by auto. now rewrite map_id.
Qed.

Lemma softmax_eq s : calculate_probabilities_of_predictions s = softmax s.
Proof.
  unfold calculate_probabilities_of_predictions, softmax, multiply_f64_slice_by_f64_scalar, fsum.
  now rewrite map_map.
Qed.

Lemma softmax_length s : length (softmax s) = length s.
Proof. apply map_length. Qed.

Lemma calculate_residuals_multi_class_eq td r :
  td_size td = length (labels (td_data td)) -> length (td_labels td) = length (labels (td_data td)) ->
  (calculate_residuals_multi_class td = Ok r <->
   Forall2 (fun y s => length y = length s) (labels (td_data td)) (td_labels td) /\
   r = differences (labels (td_data td)) (map softmax (td_labels td))).
Proof.
  intros HS HL. unfold calculate_residuals_multi_class. rewrite HS.
  rewrite (mapM_ext _ (fun i => true_label <- idx (labels (td_data td)) i;; current_label <- idx (td_labels td) i;;
      subtract_f64_slices_as_vector true_label (softmax current_label))).
  2:{ intros i _. destruct (idx (labels (td_data td)) i); cbn [bind]; auto.
      destruct (idx (td_labels td) i); cbn [bind]; auto. now rewrite softmax_eq. }
  rewrite (residuals_eq softmax) by auto.
  assert (Q : Forall2 (fun y s => length y = length (softmax s)) (labels (td_data td)) (td_labels td) <->
    Forall2 (fun y s => length y = length s) (labels (td_data td)) (td_labels td)).
  { split; apply Forall2_impl; intros y s; rewrite softmax_length; auto. }
  now rewrite Q.
Qed.

(* ------------------------------------------------------------------ *)
(** ** Training *)

Lemma initial_update ml g : update_dataset_labels_with_initial_guess ml g = Ok (repeat g (length ml)).
Proof.
  unfold update_dataset_labels_with_initial_guess.
  rewrite (for_range_update _ (fun _ _ => g)).
  - f_equal. rewrite map2_seq_map. induction ml; simpl; congruence.
  - intros pre x post _. apply upd_middle.
Qed.

Definition start (d : dataset) (g : list F) : training_data :=
  mkTD d (repeat g (length (labels d))) (length (labels d)).

Lemma boosting_loop_Ok {L} d cfg n lr ty (exec : executor L) m :
  boosting_loop d cfg n lr ty exec = Ok m <->
  determine_initial_guess (mkTD d (labels d) (length (labels d))) ty = Ok (m_initial_guess m) /\
  m_learning_rate m = lr /\
  exists td, exec (start d (m_initial_guess m)) n cfg lr = Ok (td, m_trees m).
Proof.
  unfold boosting_loop. split.
  - intros H. apply bind_Ok in H as (g & E1 & H). rewrite initial_update in H. cbn [bind td_labels] in H.
    apply bind_Ok in H as ([td ts] & E2 & H). inversion H; subst. cbn. split; auto. split; auto. exists td. exact E2.
  - intros (E1 & E2 & td & E3). rewrite E1. cbn [bind]. rewrite initial_update. cbn [bind td_labels td_data td_size].
    unfold start in E3. rewrite E3. cbn [bind]. destruct m; cbn in *. now subst.
Qed.

Lemma start_state {L} (out : list F -> tree_node L -> res (list F)) lr d g :
  length (labels d) = length (feature_rows d) -> state_is out lr d g (start d g) [].
Proof.
  intros H. unfold state_is, start; cbn [td_data td_labels td_size]. split; auto. split; auto. split.
  - rewrite H. clear H. induction (feature_rows d) as [|r rows IH]; cbn [mapM length repeat]; [reflexivity|]. rewrite raw_nil. cbn [bind]. rewrite IH. reflexivity.
  - apply Forall_forall. intros s Hs. now apply repeat_spec in Hs as ->.
Qed.

Lemma state_lengths {L} (out : list F -> tree_node L -> res (list F)) lr d g td ts :
  length (labels d) = length (feature_rows d) -> state_is out lr d g td ts ->
  length (td_labels td) = length (feature_rows d) /\ td_size td = length (td_labels td) /\
  length (td_labels td) = length (labels (td_data td)) /\ td_size td = length (labels (td_data td)).
Proof.
  intros H (H1 & H2 & H3 & _). apply mapM_length in H3. rewrite H1. repeat split; congruence.
Qed.

Lemma guess_nonempty d ty g : determine_initial_guess (mkTD d (labels d) (length (labels d))) ty = Ok g -> labels d <> [].
Proof. unfold determine_initial_guess; cbn. destruct (labels d); [discriminate|congruence]. Qed.

(** The state after any number of stages. *)
Lemma regression_state d cfg lr g n td ts :
  length (labels d) = length (feature_rows d) ->
  regression_executor (start d g) n cfg lr = Ok (td, ts) -> state_is gb_out lr d g td ts.
Proof.
  intros HL. unfold regression_executor.
  apply (iter_inv _ _ _ _ (state_is gb_out lr d g)).
  - now apply start_state.
  - intros td1 ts1 r t td2 HI Er Ef Eu. eapply state_step; eauto.
    destruct (state_lengths _ _ _ _ _ _ HL HI) as (A & B & _). destruct HI as (D & _).
    apply gb_update in Eu; auto. congruence.
Qed.

Lemma multi_class_state d cfg lr g n td ts :
  length (labels d) = length (feature_rows d) ->
  multi_class_executor (start d g) n cfg lr = Ok (td, ts) -> state_is gb_out lr d g td ts.
Proof.
  intros HL. unfold multi_class_executor.
  apply (iter_inv _ _ _ _ (state_is gb_out lr d g)).
  - now apply start_state.
  - intros td1 ts1 r t td2 HI Er Ef Eu. eapply state_step; eauto.
    destruct (state_lengths _ _ _ _ _ _ HL HI) as (A & B & _). destruct HI as (D & _).
    apply gb_update in Eu; auto. congruence.
Qed.

Lemma amg_state d cfg lr g n td ts :
  length (labels d) = length (feature_rows d) -> labels d <> [] ->
  amg_executor (start d g) n cfg lr = Ok (td, ts) -> state_is (amg_out (length g)) lr d g td ts.
Proof.
  intros HL NE. unfold amg_executor.
  apply (iter_inv _ _ _ _ (state_is (amg_out (length g)) lr d g)).
  - now apply start_state.
  - intros td1 ts1 r t td2 HI Er Ef Eu. eapply state_step; eauto.
    destruct (state_lengths _ _ _ _ _ _ HL HI) as (A & B & C & _). destruct HI as (D & _ & _ & E).
    apply (amg_update _ _ _ _ (length g)) in Eu; auto; try congruence.
    intros E0. rewrite E0 in C. apply NE, length_zero_iff_nil. rewrite <- D. simpl in C. congruence.
Qed.

(* ------------------------------------------------------------------ *)
(** ** Ensemble shape *)

Theorem shape {L} d cfg n lr ty (exec : executor L) m resid fit update :
  (forall td n cfg lr, exec td n cfg lr = boosting_iterations (resid cfg lr) (fit cfg lr) (update cfg lr) td n) ->
  boosting_loop d cfg n lr ty exec = Ok m ->
  length (m_trees m) = n /\ m_learning_rate m = lr /\
  determine_initial_guess (mkTD d (labels d) (length (labels d))) ty = Ok (m_initial_guess m).
Proof.
  intros Hx H. apply boosting_loop_Ok in H as (E1 & E2 & td & E3). rewrite Hx in E3. split; [|auto].
  eapply iter_length; eauto.
Qed.

Theorem prefix {L} d cfg n k lr ty (exec : executor L) m resid fit update :
  (forall td n cfg lr, exec td n cfg lr = boosting_iterations (resid cfg lr) (fit cfg lr) (update cfg lr) td n) ->
  k <= n -> boosting_loop d cfg n lr ty exec = Ok m ->
  boosting_loop d cfg k lr ty exec = Ok (first_trees k m).
Proof.
  intros Hx Hk H. apply boosting_loop_Ok in H as (E1 & E2 & td & E3). rewrite Hx in E3.
  destruct (iter_prefix _ _ _ _ n k td (m_trees m) Hk E3) as (td' & E4).
  apply boosting_loop_Ok. split; [exact E1|]. split; [exact E2|]. exists td'. rewrite Hx. exact E4.
Qed.

Lemma colmean_nth k ls j : rectangular k ls -> j < k -> nth_error (colmean k ls) j = Some (average_of ls j).
Proof.
  intros R H. unfold colmean. rewrite nth_error_map, colsum_nth by (auto using rect_ge). reflexivity.
Qed.

Lemma guess_regression nt d g :
  labels d <> [] -> rectangular nt (labels d) ->
  determine_initial_guess (mkTD d (labels d) (length (labels d))) RegressionBoost = Ok g ->
  g = colmean nt (labels d).
Proof.
  intros NE R. unfold determine_initial_guess. cbn [td_labels td_data].
  destruct (idx (labels d) 0); try discriminate. cbn [bind].
  rewrite (calculate_average_f64_vector_eq nt) by auto. congruence.
Qed.

Context (LW : NumLaws O).

Lemma guess_classes nt d ty g :
  ty <> RegressionBoost -> rectangular nt (labels d) -> (Z.of_nat nt <= 2 ^ 53)%Z ->
  determine_initial_guess (mkTD d (labels d) (length (labels d))) ty = Ok g ->
  g = repeat (fdiv f1 (f_of_nat nt)) nt.
Proof.
  intros Hty R Hn. unfold determine_initial_guess. cbn [td_labels td_data].
  destruct (labels d) as [|l0 ls] eqn:E; [discriminate|]. change (idx (l0 :: ls) 0) with (Ok l0). cbn [bind].
  assert (length l0 = nt) as -> by (now inversion R).
  rewrite (f_to_usize_nat _ LW) by auto. rewrite Nat2N.id. destruct ty; congruence.
Qed.

(* ------------------------------------------------------------------ *)
(** ** Stages *)

Theorem regression_stage d cfg n lr m k :
  length (labels d) = length (feature_rows d) ->
  regression_boost_train d cfg n lr = Ok m -> k < n ->
  exists preds t, regression_boost_all_predictions (first_trees k m) d = Ok preds /\
    Forall2 (fun y s => length y = length s) (labels d) preds /\
    nth_error (m_trees m) k = Some t /\
    grad_boost_tree_new (mkDS (feature_rows d) (differences (labels d) preds) (feature_columns d)) cfg
      (leaf_output_calculator_new Regression) = Ok t.
Proof.
  intros HL H Hk. apply boosting_loop_Ok in H as (E1 & E2 & td & E3).
  destruct (iter_stage _ _ _ _ n k td (m_trees m) Hk E3) as (td' & r & t & td'' & S1 & S2 & S3 & S4 & S5).
  pose proof (regression_state d cfg lr _ k td' _ HL S1) as HI.
  destruct (state_lengths _ _ _ _ _ _ HL HI) as (A & B & C & D). destruct HI as (D1 & _ & D3 & _).
  apply calculate_residuals_regression_eq in S2 as [S2 ->]; auto. rewrite D1 in *.
  exists (td_labels td'), t. split; [|split; [exact S2|split; [exact S5|exact S3]]].
  unfold regression_boost_all_predictions. rewrite all_predictions_eq, <- D3. apply mapM_ext.
  intros row _. unfold regression_boost_predict. rewrite predict_instance_raw. cbn. now rewrite E2.
Qed.

Theorem multi_class_stage d cfg n lr m k :
  length (labels d) = length (feature_rows d) ->
  multi_class_boost_train d cfg n lr = Ok m -> k < n ->
  exists scores t, mapM (multi_class_boost_raw (first_trees k m)) (feature_rows d) = Ok scores /\
    Forall2 (fun y s => length y = length s) (labels d) scores /\
    nth_error (m_trees m) k = Some t /\
    grad_boost_tree_new (mkDS (feature_rows d) (differences (labels d) (map softmax scores)) (feature_columns d)) cfg
      (leaf_output_calculator_new MultiClassClassification) = Ok t.
Proof.
  intros HL H Hk. apply boosting_loop_Ok in H as (E1 & E2 & td & E3).
  destruct (iter_stage _ _ _ _ n k td (m_trees m) Hk E3) as (td' & r & t & td'' & S1 & S2 & S3 & S4 & S5).
  pose proof (multi_class_state d cfg lr _ k td' _ HL S1) as HI.
  destruct (state_lengths _ _ _ _ _ _ HL HI) as (A & B & C & D). destruct HI as (D1 & _ & D3 & _).
  apply calculate_residuals_multi_class_eq in S2 as [S2 ->]; auto. rewrite D1 in *.
  exists (td_labels td'), t. split; [|split; [exact S2|split; [exact S5|exact S3]]].
  rewrite <- D3. apply mapM_ext.
  intros row _. unfold multi_class_boost_raw. rewrite predict_instance_raw. cbn. now rewrite E2.
Qed.

Theorem amg_stage d cfg n lr m k :
  length (labels d) = length (feature_rows d) ->
  amg_boost_train d cfg n lr = Ok m -> k < n ->
  exists scores t, mapM (amg_boost_raw (first_trees k m)) (feature_rows d) = Ok scores /\
    Forall2 (fun y s => length y = length s) (labels d) scores /\
    nth_error (m_trees m) k = Some t /\
    amg_boost_tree_new (mkDS (feature_rows d) (differences (labels d) (map softmax scores)) (feature_columns d)) cfg
      (leaf_output_calculator_new MultiClassClassification) = Ok t.
Proof.
  intros HL H Hk. apply boosting_loop_Ok in H as (E1 & E2 & td & E3).
  pose proof (guess_nonempty _ _ _ E1) as NE.
  destruct (iter_stage _ _ _ _ n k td (m_trees m) Hk E3) as (td' & r & t & td'' & S1 & S2 & S3 & S4 & S5).
  pose proof (amg_state d cfg lr _ k td' _ HL NE S1) as HI.
  destruct (state_lengths _ _ _ _ _ _ HL HI) as (A & B & C & D). destruct HI as (D1 & _ & D3 & _).
  apply calculate_residuals_multi_class_eq in S2 as [S2 ->]; auto. rewrite D1 in *.
  exists (td_labels td'), t. split; [|split; [exact S2|split; [exact S5|exact S3]]].
  rewrite <- D3. apply mapM_ext.
  intros row _. unfold amg_boost_raw. rewrite amg_predict_instance_raw. cbn. now rewrite E2.
Qed.

(* ------------------------------------------------------------------ *)
(** ** Totality *)

Lemma built_leaves_mk {L} (mk : dataset -> res L) cfg nc nt level d t :
  built mk cfg level d t -> wf_dataset nc nt d ->
  Forall (fun l => exists x, wf_dataset nc nt x /\ mk x = Ok l) (leaves t).
Proof.
  intros H. induction H as [level d s l Es St El|level d s fd td t f Es St Ep Ht IHt Hf IHf]; intros W.
  - constructor; [|constructor]. exists d. auto.
  - destruct (partition_wf _ _ _ _ _ _ W Ep) as (_ & Wf & Wt & _).
    cbn. apply Forall_app; auto.
Qed.

Lemma gb_tree_outputs nc nt d cfg kind t row :
  wf_dataset nc nt d -> grad_boost_tree_new d cfg (leaf_output_calculator_new kind) = Ok t -> nc <= length row ->
  exists o, gb_out row t = Ok o /\ length o = nt.
Proof.
  intros W E Hr. rewrite grad_boost_tree_new_eq in E.
  destruct (lookup_built _ _ _ _ _ _ row W E Hr) as (l & Ef & Hin).
  apply build_with_built in E. pose proof (built_leaves_mk _ _ _ _ _ _ _ E W) as HF.
  rewrite Forall_forall in HF. destruct (HF _ Hin) as (x & Wx & Ex).
  destruct (calc_total _ _ kind x Wx) as (o & Eo & Ho). unfold mk_gb in Ex. rewrite Eo in Ex. inversion Ex; subst.
  exists o. unfold gb_out. rewrite Ef. auto.
Qed.

Lemma argmax_vector (s : list F) :
  let '(m, c) := find_max_value_and_index_from_vector s in
  ((exists x, nth_error s c = Some x /\ m = x /\ fltb fninf x = true /\
      forall i y, nth_error s i = Some y -> fltb x y = false /\ (i < c -> fltb y x = true \/ ~ is_num y)) \/
   (c = 0 /\ m = fninf /\ forall x, In x s -> fltb fninf x = false)).
Proof.
  unfold find_max_value_and_index_from_vector.
  assert (T : forall x y, fltb x y = true -> is_num x /\ is_num y).
  { intros x y H. rewrite (fltb_fleb _ LW) in H. apply andb_true_iff in H as [H _].
    split; [eapply fleb_nan_l|eapply fleb_nan_r]; eauto. }
  induction s as [|e s IH] using rev_ind.
  - right. repeat split; auto. intros x [].
  - rewrite enumerate_app, fold_left_app.
    destruct (fold_left _ (enumerate s) (fninf, 0)) as [m c]. cbn [length seq combine fold_left].
    destruct (fltb m e) eqn:Em.
    + left. exists e. rewrite nth_error_app2, Nat.sub_diag by lia. split; [reflexivity|]. split; [reflexivity|].
      assert (He : fltb fninf e = true).
      { destruct IH as [(x & _ & -> & Hx & _)|(_ & -> & _)]; auto.
        rewrite (fltb_fleb _ LW) in *. apply andb_true_iff in Em as [E1 E2], Hx as [E3 E4].
        rewrite (fleb_trans _ LW _ _ _ E3 E1). cbn. apply negb_true_iff. apply negb_true_iff in E2.
        destruct (fleb e fninf) eqn:E5; auto. rewrite (fleb_trans _ LW _ _ _ E5 E3) in E2. discriminate. }
      split; [exact He|]. intros i y Hi.
      destruct (Nat.lt_ge_cases i (length s)) as [Hlt|Hge].
      * rewrite nth_error_app1 in Hi by auto.
        assert (Q : fltb e y = false /\ (fltb y e = true \/ ~ is_num y)).
        { assert (Hmy : fltb m y = false).
          { destruct IH as [(x & _ & -> & _ & Hx)|(_ & -> & Hx)]; [now apply (Hx i)|]. eapply Hx, nth_error_In; eauto. }
          destruct (fleb y y) eqn:Ny; [|split; [|right; unfold is_num; congruence]].
          - destruct (T _ _ Em) as [Nm Ne].
            assert (Hym : fleb y m = true).
            { rewrite (fltb_fleb _ LW) in Hmy. destruct (fleb_total _ LW m y Nm Ny) as [Q|Q]; auto.
              rewrite Q in Hmy. cbn in Hmy. now apply negb_false_iff in Hmy. }
            rewrite (fltb_fleb _ LW) in Em. apply andb_true_iff in Em as [E1 E2]. apply negb_true_iff in E2.
            assert (fleb e y = false) by (destruct (fleb e y) eqn:Q; auto; rewrite (fleb_trans _ LW _ _ _ Q Hym) in E2; discriminate).
            rewrite !(fltb_fleb _ LW), H. rewrite (fleb_trans _ LW _ _ _ Hym E1). auto.
          - destruct (fltb e y) eqn:Q; auto. destruct (T _ _ Q) as [_ Q']. unfold is_num in Q'. congruence. }
        destruct Q as [Q1 Q2]. split; auto.
      * rewrite nth_error_app2 in Hi by auto. destruct (i - length s) as [|[|q]] eqn:Ei; simpl in Hi; try discriminate.
        inversion Hi; subst. split; [|lia]. rewrite (fltb_fleb _ LW). destruct (fleb y y); reflexivity.
    + destruct IH as [(x & Ex & -> & Hx & Hm)|(-> & -> & Hm)].
      * left. exists x. assert (c < length s) by (apply nth_error_Some; congruence).
        rewrite nth_error_app1 by auto. repeat split; auto.
        -- destruct (Nat.lt_ge_cases i (length s)) as [Hlt|Hge].
           ++ rewrite nth_error_app1 in H0 by auto. now apply (Hm i).
           ++ rewrite nth_error_app2 in H0 by auto. destruct (i - length s) as [|[|q]]; simpl in H0; try discriminate. congruence.
        -- intros Hic. rewrite nth_error_app1 in H0 by lia. now apply (Hm i).
      * right. repeat split; auto. intros y Hy. apply in_app_or in Hy as [Hy|[<-|[]]]; auto.
Qed.

Lemma argmax_first_largest (s : list F) : first_largest s (snd (find_max_value_and_index_from_vector s)).
Proof.
  pose proof (argmax_vector s) as H. destruct (find_max_value_and_index_from_vector s) as [m c]. cbn.
  destruct H as [(x & H1 & _ & H2 & H3)|(H1 & _ & H2)]; [left; exists x; auto|right; auto].
Qed.

Lemma argmax_bound (s : list F) : s <> [] -> snd (find_max_value_and_index_from_vector s) < length s.
Proof.
  intros NE. destruct (argmax_first_largest s) as [(m & H & _)|[-> _]].
  - apply nth_error_Some. congruence.
  - destruct s; [congruence|simpl; lia].
Qed.

Lemma binary_eq s :
  get_binary_prediction s = upd (repeat f0 (length s)) (snd (find_max_value_and_index_from_vector s)) f1.
Proof.
  unfold get_binary_prediction, find_max_value_and_index_from_vector.
  destruct (fold_left _ _ _); reflexivity.
Qed.

Theorem binary_prediction s :
  s <> [] ->
  exists c v, get_binary_prediction s = Ok v /\ one_hot (length s) (N.of_nat c) v /\ first_largest s c.
Proof.
  intros NE. rewrite binary_eq.
  pose proof (argmax_bound s NE) as Hb. pose proof (argmax_first_largest s) as Hf.
  set (c := snd (find_max_value_and_index_from_vector s)) in *.
  destruct (upd (repeat f0 (length s)) c f1) as [v| |] eqn:E.
  - exists c, v. split; auto. split; auto. apply one_hot_upd. rewrite updN_upd, Nat2N.id. exact E.
  - apply upd_Panic in E. rewrite repeat_length in E. lia.
  - unfold upd in E. destruct (_ <? _); discriminate.
Qed.

Theorem binary_prediction_panic s : get_binary_prediction s = Panic <-> s = [].
Proof.
  split.
  - destruct s; auto. intros H. destruct (binary_prediction (f :: s)) as (c & v & E & _); congruence.
  - intros ->. reflexivity.
Qed.

Lemma first_largest_unique s c c' : first_largest s c -> first_largest s c' -> c = c'.
Proof.
  assert (NL : forall m, fltb m m = false) by (intros; rewrite (fltb_fleb _ LW); destruct (fleb m m); reflexivity).
  assert (T : forall x y, fltb x y = true -> is_num x /\ is_num y).
  { intros x y H. rewrite (fltb_fleb _ LW) in H. apply andb_true_iff in H as [H _].
    split; [eapply fleb_nan_l|eapply fleb_nan_r]; eauto. }
  assert (S : forall a b x y, nth_error s a = Some x -> nth_error s b = Some y -> fltb fninf x = true -> fltb fninf y = true ->
     (forall i z, nth_error s i = Some z -> fltb x z = false /\ (i < a -> fltb z x = true \/ ~ is_num z)) ->
     (forall i z, nth_error s i = Some z -> fltb y z = false /\ (i < b -> fltb z y = true \/ ~ is_num z)) -> a < b -> False).
  { intros a b x y Ha Hb Fx Fy Hx Hy Hlt. destruct (Hy a x Ha) as [_ Q]. destruct (Q Hlt) as [Q'|Q'].
    - destruct (Hx b y Hb) as [Q'' _]. congruence.
    - apply Q'. now apply T in Fx. }
  intros [(m & H1 & H2 & H3)|[-> H3]] [(m' & H1' & H2' & H3')|[-> H3']]; auto.
  - destruct (Nat.lt_trichotomy c c') as [H|[H|H]]; auto; exfalso; eauto.
  - exfalso. apply nth_error_In in H1. rewrite H3' in H2 by auto. discriminate.
  - exfalso. apply nth_error_In in H1'. rewrite H3 in H2' by auto. discriminate.
Qed.

Lemma amg_tree_outputs nc nt d cfg kind t row :
  0 < nt -> wf_dataset nc nt d -> amg_boost_tree_new d cfg (leaf_output_calculator_new kind) = Ok t -> nc <= length row ->
  exists o, amg_out nt row t = Ok o /\ length o = nt.
Proof.
  intros Hnt W E Hr. rewrite amg_boost_tree_new_eq in E.
  destruct (lookup_built _ _ _ _ _ _ row W E Hr) as (l & Ef & Hin).
  apply build_with_built in E. pose proof (built_leaves_mk _ _ _ _ _ _ _ E W) as HF.
  rewrite Forall_forall in HF. destruct (HF _ Hin) as (x & Wx & Ex).
  destruct (calc_total _ _ kind x Wx) as (o & Eo & Ho). unfold mk_amg in Ex. rewrite Eo in Ex. cbn [bind] in Ex. inversion Ex; subst.
  unfold amg_out. rewrite Ef. cbn [bind]. unfold construct_approximate_leaf_output, amg_leaf_of.
  pose proof (argmax_bound o) as Hb. destruct (find_max_value_and_index_from_vector o) as [m c]. cbn [snd al_max al_class unwrap bind] in *.
  rewrite upd_lt; [|rewrite repeat_length; apply Hb; destruct o; simpl in *; [lia|congruence]].
  eexists. split; [reflexivity|]. now rewrite length_list_set, repeat_length.
Qed.

Lemma with_labels_wf nc nt d r :
  wf_dataset nc nt d -> length r = length (feature_rows d) -> rectangular nt r -> wf_dataset nc nt (with_labels d r).
Proof. intros [] H1 H2. constructor; auto. Qed.

Lemma differences_rect nt a b :
  length a = length b -> rectangular nt a -> rectangular nt b ->
  length (differences a b) = length a /\ rectangular nt (differences a b).
Proof.
  intros HL Ra Rb. unfold differences. split; [rewrite map_length, combine_length; lia|].
  apply Forall_forall. intros r Hr. apply in_map_iff in Hr as ([x y] & <- & Hin).
  rewrite map_length, combine_length. cbn. unfold rectangular in *. rewrite Forall_forall in Ra, Rb.
  rewrite (Ra x), (Rb y); [lia| |]; [eapply in_combine_r|eapply in_combine_l]; eauto.
Qed.

Lemma additive_exists {L} (out : list F -> tree_node L -> res (list F)) lr td t k :
  length (td_labels td) = length (feature_rows (td_data td)) ->
  Forall (fun s => length s = k) (td_labels td) ->
  (forall row, In row (feature_rows (td_data td)) -> exists o, out row t = Ok o /\ length o = k) ->
  exists td', additive_update out lr td td' t.
Proof.
  intros HL HK HO. unfold additive_update.
  assert (exists ls, Forall2 (fun p s' => exists o, out (fst p) t = Ok o /\ length o = length (snd p) /\
             s' = map2 fadd (snd p) (weighted lr o)) (combine (feature_rows (td_data td)) (td_labels td)) ls) as (ls & Hls).
  { clear HL. revert HK HO. generalize (td_labels td). induction (feature_rows (td_data td)) as [|r rows IH]; intros [|s ss] HK HO;
      try (exists []; constructor).
    inversion HK; subst. destruct (IH ss) as (ls & Hls); auto.
    - intros row Hin. apply HO. now right.
    - destruct (HO r) as (o & Eo & Lo); [now left|].
      exists (map2 fadd s (weighted lr o) :: ls). constructor; auto. exists o. auto. }
  exists (mkTD (td_data td) ls (td_size td)). auto.
Qed.

Lemma raw_total {L} (out : list F -> tree_node L -> res (list F)) lr g row ts :
  Forall (fun t => exists o, out row t = Ok o /\ length o = length g) ts ->
  exists s, raw out lr g row ts = Ok s /\ length s = length g.
Proof.
  induction ts as [|t ts IH] using rev_ind; intros H.
  - exists g. auto.
  - apply Forall_app in H as [H1 H2]. inversion H2 as [|? ? (o & Eo & Lo) _]; subst.
    destruct (IH H1) as (s & Es & Ls). exists (map2 fadd s (weighted lr o)). split.
    + apply raw_snoc; auto. lia.
    + rewrite map2_length. unfold weighted. rewrite map_length. lia.
Qed.

Definition good {L} (out : list F -> tree_node L -> res (list F)) (nc nt : nat) (t : tree_node L) : Prop :=
  forall row, nc <= length row -> exists o, out row t = Ok o /\ length o = nt.

Lemma wf_row_length nc nt d row : wf_dataset nc nt d -> In row (feature_rows d) -> length row = nc.
Proof. intros W H. pose proof (wf_rows _ _ _ W) as R. unfold rectangular in R. rewrite Forall_forall in R. auto. Qed.

Lemma lengths_match nt (a b : list (list F)) :
  length a = length b -> rectangular nt a -> rectangular nt b -> Forall2 (fun y s => length y = length s) a b.
Proof.
  revert b; induction a as [|x a IH]; intros [|y b] H Ra Rb; try discriminate; constructor.
  - inversion Ra; inversion Rb; congruence.
  - inversion Ra; inversion Rb; apply IH; auto.
Qed.

Lemma iterations_total {L} (out : list F -> tree_node L -> res (list F)) (kind : list F -> list F)
    residuals fit update lr nc nt d g :
  wf_dataset nc nt d -> length g = nt -> (forall s, length (kind s) = length s) ->
  (forall td, td_size td = length (labels (td_data td)) -> length (td_labels td) = length (labels (td_data td)) ->
     Forall2 (fun y s => length y = length s) (labels (td_data td)) (td_labels td) ->
     residuals td = Ok (differences (labels (td_data td)) (map kind (td_labels td)))) ->
  (forall r, wf_dataset nc nt (with_labels d r) -> exists t, fit (with_labels d r) = Ok t /\ good out nc nt t) ->
  (forall td td' t, td_data td = d -> length (td_labels td) = length (feature_rows d) -> td_size td = length (td_labels td) ->
     Forall (fun s => length s = nt) (td_labels td) -> additive_update out lr td td' t -> update td t = Ok td') ->
  forall n, exists td ts, boosting_iterations residuals fit update (start d g) n = Ok (td, ts) /\ Forall (good out nc nt) ts.
Proof.
  intros W Hg Hkind Hres Hfit Hupd n.
  pose proof (wf_lengths _ _ _ W) as HL.
  destruct (iter_total residuals fit update (start d g)
    (fun td ts => state_is out lr d g td ts /\ Forall (good out nc nt) ts)) with (n := n) as (td & ts & E & _ & HG).
  - split; [now apply start_state|constructor].
  - intros td ts [HI HG]. destruct (state_lengths _ _ _ _ _ _ HL HI) as (A & B & C & D).
    pose proof HI as (D1 & D2 & D3 & D4).
    assert (D4' : rectangular nt (td_labels td)) by (unfold rectangular; rewrite <- Hg; exact D4).
    assert (Rl : rectangular nt (labels (td_data td))) by (rewrite D1; apply W).
    destruct (differences_rect nt (labels (td_data td)) (map kind (td_labels td))) as [Q1 Q2]; auto.
    { now rewrite map_length. }
    { apply Forall_forall. intros x Hx. apply in_map_iff in Hx as (s & <- & Hs). rewrite Hkind.
      unfold rectangular in D4'. rewrite Forall_forall in D4'. auto. }
    assert (Wr : wf_dataset nc nt (with_labels d (differences (labels (td_data td)) (map kind (td_labels td))))).
    { apply with_labels_wf; auto. rewrite Q1, D1. exact HL. }
    destruct (Hfit _ Wr) as (t & Et & Gt).
    destruct (additive_exists out lr td t nt) as (td' & Hadd); auto.
    { now rewrite D1. }
    { intros row Hin. apply Gt. rewrite D1 in Hin. rewrite (wf_row_length _ _ _ _ W Hin). lia. }
    exists (differences (labels (td_data td)) (map kind (td_labels td))), t, td'.
    split; [apply Hres; auto; eapply lengths_match; eauto|]. split; [rewrite D1 in Et |- *; exact Et|].
    split; [apply Hupd; auto|]. split; [eapply state_step; eauto|].
    apply Forall_app; auto.
  - exists td, ts. auto.
Qed.

Lemma guess_total nc nt d ty :
  wf_dataset nc nt d -> (Z.of_nat nt <= 2 ^ 53)%Z ->
  exists g, determine_initial_guess (mkTD d (labels d) (length (labels d))) ty = Ok g /\ length g = nt.
Proof.
  intros W Hn. pose proof (wf_nonempty _ _ _ W) as NE. pose proof (wf_lengths _ _ _ W) as HL.
  assert (NEl : labels d <> []).
  { intros E. rewrite E in HL. apply NE, length_zero_iff_nil. auto. }
  unfold determine_initial_guess. cbn [td_labels td_data].
  pose proof (wf_labels _ _ _ W) as R.
  destruct (labels d) as [|l0 ls] eqn:E; [congruence|]. rewrite <- E in *.
  assert (Hl0 : length l0 = nt) by (rewrite E in R; now inversion R).
  assert (E0 : idx (labels d) 0 = Ok l0) by now rewrite E. rewrite E0. cbn [bind]. rewrite Hl0.
  rewrite (f_to_usize_nat _ LW) by auto. rewrite Nat2N.id.
  destruct ty; try (eexists; split; [reflexivity|apply repeat_length]).
  rewrite (calculate_average_f64_vector_eq nt) by auto. eexists; split; [reflexivity|].
  unfold colmean. rewrite map_length. apply colsum_length. now apply rect_ge.
Qed.

Theorem regression_train_total nc nt d cfg n lr :
  wf_dataset nc nt d -> standard cfg -> tc_number_of_classes cfg = N.of_nat nt -> (Z.of_nat nt <= 2 ^ 53)%Z ->
  exists m, regression_boost_train d cfg n lr = Ok m /\ length (m_initial_guess m) = nt /\
    Forall (good gb_out nc nt) (m_trees m).
Proof.
  intros W Hs Hc Hn. destruct (guess_total nc nt d RegressionBoost W Hn) as (g & Eg & Lg).
  destruct (iterations_total gb_out (fun s => s) calculate_residuals_regression
     (fun d => grad_boost_tree_new d cfg (leaf_output_calculator_new Regression))
     (fun td tree => update_dataset_labels td tree lr) lr nc nt d g) with (n := n) as (td & ts & E & HG); auto.
  - intros td H1 H2 H3. rewrite map_id. now apply calculate_residuals_regression_eq.
  - intros r Wr. destruct (grad_boost_total LW nc nt _ cfg Regression Wr Hs Hc) as (t & Et). exists t. split; auto.
    intros row Hr. eapply gb_tree_outputs; eauto.
  - intros td td' t H1 H2 H3 H4 H5. apply gb_update; auto. congruence.
  - exists (mkModel ts g lr). cbn. split; [|auto]. apply boosting_loop_Ok. cbn. split; auto. split; auto.
    exists td. exact E.
Qed.

Theorem multi_class_train_total nc nt d cfg n lr :
  wf_dataset nc nt d -> standard cfg -> tc_number_of_classes cfg = N.of_nat nt -> (Z.of_nat nt <= 2 ^ 53)%Z ->
  exists m, multi_class_boost_train d cfg n lr = Ok m /\ length (m_initial_guess m) = nt /\
    Forall (good gb_out nc nt) (m_trees m).
Proof.
  intros W Hs Hc Hn. destruct (guess_total nc nt d MultiClassBoost W Hn) as (g & Eg & Lg).
  destruct (iterations_total gb_out softmax calculate_residuals_multi_class
     (fun d => grad_boost_tree_new d cfg (leaf_output_calculator_new MultiClassClassification))
     (fun td tree => update_dataset_labels td tree lr) lr nc nt d g) with (n := n) as (td & ts & E & HG); auto.
  - apply softmax_length.
  - intros td H1 H2 H3. now apply calculate_residuals_multi_class_eq.
  - intros r Wr. destruct (grad_boost_total LW nc nt _ cfg MultiClassClassification Wr Hs Hc) as (t & Et). exists t. split; auto.
    intros row Hr. eapply gb_tree_outputs; eauto.
  - intros td td' t H1 H2 H3 H4 H5. apply gb_update; auto. congruence.
  - exists (mkModel ts g lr). cbn. split; [|auto]. apply boosting_loop_Ok. cbn. split; auto. split; auto.
    exists td. exact E.
Qed.

Theorem amg_train_total nc nt d cfg n lr :
  wf_dataset nc nt d -> 0 < nt -> standard cfg -> tc_number_of_classes cfg = N.of_nat nt -> (Z.of_nat nt <= 2 ^ 53)%Z ->
  exists m, amg_boost_train d cfg n lr = Ok m /\ length (m_initial_guess m) = nt /\
    Forall (good (amg_out nt) nc nt) (m_trees m).
Proof.
  intros W Hp Hs Hc Hn. destruct (guess_total nc nt d AMGBoost W Hn) as (g & Eg & Lg).
  destruct (iterations_total (amg_out nt) softmax calculate_residuals_multi_class
     (fun d => amg_boost_tree_new d cfg (leaf_output_calculator_new MultiClassClassification))
     (fun td tree => amg_update_dataset_labels td tree lr) lr nc nt d g) with (n := n) as (td & ts & E & HG); auto.
  - apply softmax_length.
  - intros td H1 H2 H3. now apply calculate_residuals_multi_class_eq.
  - intros r Wr. destruct (amg_total LW nc nt _ cfg MultiClassClassification Wr Hs Hc) as (t & Et). exists t. split; auto.
    intros row Hr. eapply amg_tree_outputs; eauto.
  - intros td td' t H1 H2 H3 H4 H5. apply (amg_update _ _ _ _ nt); auto; [congruence|].
    intros E0. apply (wf_nonempty _ _ _ W), length_zero_iff_nil. rewrite <- H2, E0. reflexivity.
  - exists (mkModel ts g lr). cbn. split; [|auto]. apply boosting_loop_Ok. cbn. split; auto. split; auto.
    exists td. exact E.
Qed.

Lemma good_raw {L} (out : list F -> tree_node L -> res (list F)) lr nc g row ts :
  nc <= length row -> Forall (good out nc (length g)) ts -> exists s, raw out lr g row ts = Ok s /\ length s = length g.
Proof.
  intros Hr HG. apply raw_total. apply Forall_forall. intros t Ht. rewrite Forall_forall in HG. now apply (HG t Ht).
Qed.

Theorem regression_total_run nc nt d cfg n lr :
  wf_dataset nc nt d -> standard cfg -> tc_number_of_classes cfg = N.of_nat nt -> (Z.of_nat nt <= 2 ^ 53)%Z ->
  exists m, regression_boost_train d cfg n lr = Ok m /\
    forall row, nc <= length row -> exists p, regression_boost_predict m row = Ok p /\ length p = nt.
Proof.
  intros W Hs Hc Hn. destruct (regression_train_total nc nt d cfg n lr W Hs Hc Hn) as (m & Em & Lg & HG).
  exists m. split; auto. intros row Hr. unfold regression_boost_predict. rewrite predict_instance_raw.
  rewrite <- Lg in HG |- *. eapply good_raw; eauto.
Qed.

Theorem multi_class_total_run nc nt d cfg n lr :
  wf_dataset nc nt d -> 0 < nt -> standard cfg -> tc_number_of_classes cfg = N.of_nat nt -> (Z.of_nat nt <= 2 ^ 53)%Z ->
  exists m, multi_class_boost_train d cfg n lr = Ok m /\
    forall row, nc <= length row -> exists p, multi_class_boost_predict m row = Ok p /\ length p = nt.
Proof.
  intros W Hp Hs Hc Hn. destruct (multi_class_train_total nc nt d cfg n lr W Hs Hc Hn) as (m & Em & Lg & HG).
  exists m. split; auto. intros row Hr. unfold multi_class_boost_predict, multi_class_boost_raw. rewrite predict_instance_raw.
  rewrite <- Lg in HG. destruct (good_raw gb_out (m_learning_rate m) nc _ row _ Hr HG) as (s & Es & Ls). rewrite Es. cbn [bind].
  destruct (binary_prediction s) as (c & v & Ev & (_ & Lv & _) & _); [destruct s; simpl in *; [lia|congruence]|].
  exists v. split; auto. lia.
Qed.

Theorem amg_total_run nc nt d cfg n lr :
  wf_dataset nc nt d -> 0 < nt -> standard cfg -> tc_number_of_classes cfg = N.of_nat nt -> (Z.of_nat nt <= 2 ^ 53)%Z ->
  exists m, amg_boost_train d cfg n lr = Ok m /\
    forall row, nc <= length row -> exists p, amg_boost_predict m row = Ok p /\ length p = nt.
Proof.
  intros W Hp Hs Hc Hn. destruct (amg_train_total nc nt d cfg n lr W Hp Hs Hc Hn) as (m & Em & Lg & HG).
  exists m. split; auto. intros row Hr. unfold amg_boost_predict, amg_boost_raw. rewrite amg_predict_instance_raw.
  rewrite <- Lg in HG. destruct (good_raw (amg_out (length (m_initial_guess m))) (m_learning_rate m) nc _ row _ Hr HG) as (s & Es & Ls).
  rewrite Es. cbn [bind].
  destruct (binary_prediction s) as (c & v & Ev & (_ & Lv & _) & _); [destruct s; simpl in *; [lia|congruence]|].
  exists v. split; auto. lia.
Qed.

(* ------------------------------------------------------------------ *)
(** ** Final forms *)

Theorem regression_shape nt d cfg n lr m :
  rectangular nt (labels d) -> regression_boost_train d cfg n lr = Ok m ->
  length (m_trees m) = n /\ m_learning_rate m = lr /\
  length (m_initial_guess m) = nt /\
  forall j, j < nt -> nth_error (m_initial_guess m) j = Some (average_of (labels d) j).
Proof.
  intros R H. destruct (shape d cfg n lr RegressionBoost regression_executor m
    (fun _ _ => calculate_residuals_regression)
    (fun cfg _ d => grad_boost_tree_new d cfg (leaf_output_calculator_new Regression))
    (fun _ lr td tree => update_dataset_labels td tree lr)) as (H1 & H2 & H3); auto.
  pose proof (guess_nonempty _ _ _ H3) as NE. apply (guess_regression nt) in H3; auto.
  rewrite H3. split; auto. split; auto. split.
  - unfold colmean. rewrite map_length. apply colsum_length. now apply rect_ge.
  - intros j Hj. now apply colmean_nth.
Qed.

Theorem multi_class_shape nt d cfg n lr m :
  rectangular nt (labels d) -> (Z.of_nat nt <= 2 ^ 53)%Z -> multi_class_boost_train d cfg n lr = Ok m ->
  length (m_trees m) = n /\ m_learning_rate m = lr /\ m_initial_guess m = repeat (fdiv f1 (f_of_nat nt)) nt.
Proof.
  intros R Hn H. destruct (shape d cfg n lr MultiClassBoost multi_class_executor m
    (fun _ _ => calculate_residuals_multi_class)
    (fun cfg _ d => grad_boost_tree_new d cfg (leaf_output_calculator_new MultiClassClassification))
    (fun _ lr td tree => update_dataset_labels td tree lr)) as (H1 & H2 & H3); auto.
  split; auto. split; auto. eapply guess_classes; eauto. discriminate.
Qed.

Theorem amg_shape nt d cfg n lr m :
  rectangular nt (labels d) -> (Z.of_nat nt <= 2 ^ 53)%Z -> amg_boost_train d cfg n lr = Ok m ->
  length (m_trees m) = n /\ m_learning_rate m = lr /\ m_initial_guess m = repeat (fdiv f1 (f_of_nat nt)) nt.
Proof.
  intros R Hn H. destruct (shape d cfg n lr AMGBoost amg_executor m
    (fun _ _ => calculate_residuals_multi_class)
    (fun cfg _ d => amg_boost_tree_new d cfg (leaf_output_calculator_new MultiClassClassification))
    (fun _ lr td tree => amg_update_dataset_labels td tree lr)) as (H1 & H2 & H3); auto.
  split; auto. split; auto. eapply guess_classes; eauto. discriminate.
Qed.

Theorem regression_prefix d cfg n k lr m :
  k <= n -> regression_boost_train d cfg n lr = Ok m -> regression_boost_train d cfg k lr = Ok (first_trees k m).
Proof.
  apply (prefix d cfg n k lr RegressionBoost regression_executor m
    (fun _ _ => calculate_residuals_regression)
    (fun cfg _ d => grad_boost_tree_new d cfg (leaf_output_calculator_new Regression))
    (fun _ lr td tree => update_dataset_labels td tree lr)); auto.
Qed.

Theorem multi_class_prefix d cfg n k lr m :
  k <= n -> multi_class_boost_train d cfg n lr = Ok m -> multi_class_boost_train d cfg k lr = Ok (first_trees k m).
Proof.
  apply (prefix d cfg n k lr MultiClassBoost multi_class_executor m
    (fun _ _ => calculate_residuals_multi_class)
    (fun cfg _ d => grad_boost_tree_new d cfg (leaf_output_calculator_new MultiClassClassification))
    (fun _ lr td tree => update_dataset_labels td tree lr)); auto.
Qed.

Theorem amg_prefix d cfg n k lr m :
  k <= n -> amg_boost_train d cfg n lr = Ok m -> amg_boost_train d cfg k lr = Ok (first_trees k m).
Proof.
  apply (prefix d cfg n k lr AMGBoost amg_executor m
    (fun _ _ => calculate_residuals_multi_class)
    (fun cfg _ d => amg_boost_tree_new d cfg (leaf_output_calculator_new MultiClassClassification))
    (fun _ lr td tree => amg_update_dataset_labels td tree lr)); auto.
Qed.

Lemma sum_outputs lr (outs : list (list F)) g :
  Forall (fun o => length g <= length o) outs ->
  exists p, add_leaf_outputs g (map (weighted lr) outs) = Ok p /\ length p = length g /\
    forall j x, nth_error g j = Some x ->
      nth_error p j = Some (fold_left (fun s o => fadd s (fmul lr (nth j o f0))) outs x).
Proof.
  intros H. assert (H' : Forall (fun o => length g <= length o) (map (weighted lr) outs)).
  { apply Forall_forall. intros o Ho. apply in_map_iff in Ho as (o' & <- & Ho'). unfold weighted. rewrite map_length.
    rewrite Forall_forall in H. auto. }
  exists (fold_left (map2 fadd) (map (weighted lr) outs) g). split; [now apply add_leaf_outputs_eq|].
  split; [now apply fold_map2_length|]. intros j x Hj. rewrite fold_map2_nth, Hj by auto. f_equal.
  assert (Hlt : j < length g) by (apply nth_error_Some; congruence).
  clear -H Hlt. revert x. induction outs as [|o outs IH]; intros x; [reflexivity|]. inversion H; subst.
  cbn [map flat_map fold_left]. unfold weighted at 1. rewrite nth_error_map, (nth_error_nth' o f0) by lia. cbn [option_map app fold_left].
  apply IH; auto.
Qed.

Theorem regression_predict_sum (m : model grad_boost_leaf) row outs :
  Forall2 (fun t o => find_leaf_node_for_data row t = Ok (mkGL (Some o)) /\ length (m_initial_guess m) <= length o) (m_trees m) outs ->
  exists p, regression_boost_predict m row = Ok p /\ length p = length (m_initial_guess m) /\
    forall j x, nth_error (m_initial_guess m) j = Some x ->
      nth_error p j = Some (fold_left (fun s o => fadd s (fmul (m_learning_rate m) (nth j o f0))) outs x).
Proof.
  intros H. unfold regression_boost_predict. rewrite predict_instance_raw.
  rewrite (raw_outs gb_out _ _ _ _ outs).
  - apply sum_outputs. clear -H. induction H as [|t o ts os [_ Ho] H IH]; constructor; auto.
  - eapply Forall2_impl; [|exact H]. intros t o [E _]. unfold gb_out. now rewrite E.
Qed.

Lemma gb_out_leaf row t o : gb_out row t = Ok o <-> find_leaf_node_for_data row t = Ok (mkGL (Some o)).
Proof.
  unfold gb_out. rewrite bind_Ok. split.
  - intros ([l] & E & H). cbn in H. destruct l; inversion H; subst; auto.
  - intros E. exists (mkGL (Some o)). auto.
Qed.

(** Scores. *)
Lemma mse_of_predictions ys ps :
  length ys <= length ps -> Forall (fun p => length (fst p) = length (snd p)) (combine ys ps) ->
  calculate_mean_squared_error ys ps = Ok (mean_squared_error_of fsum0 (combine ys ps)).
Proof.
  intros HL HE. unfold calculate_mean_squared_error.
  rewrite (for_range_two ys ps (fun s l p => e <- mean_sum_of_squared_differences_between_f64_slices l p;; Ok (fadd s e))) by auto.
  rewrite (foldM_sum (fun p => mean_sum_of_squared_differences_between_f64_slices (fst p) (snd p))).
  rewrite (mapM_pure _ (squared_error_of fsum0)).
  - cbn [bind]. unfold mean_squared_error_of. rewrite combine_length, Nat.min_l by auto. reflexivity.
  - intros [l p] Hin. rewrite Forall_forall in HE. specialize (HE _ Hin). cbn [fst snd] in *.
    rewrite squared_slices by auto. unfold sq_diffs, squared_error_of. now rewrite map2_combine.
Qed.

Theorem regression_score_eq m test ps :
  Forall2 (fun row p => regression_boost_predict m row = Ok p) (feature_rows test) ps ->
  length (labels test) <= length (feature_rows test) ->
  Forall (fun p => length (fst p) = length (snd p)) (combine (labels test) ps) ->
  regression_boost_score m test = Ok (mean_squared_error_of fsum0 (combine (labels test) ps)).
Proof.
  intros HP HL HE. unfold regression_boost_score, regression_boost_all_predictions. rewrite all_predictions_eq.
  pose proof (Forall2_length _ _ _ HP) as Hl.
  apply mapM_Forall2 in HP. rewrite HP. cbn [bind]. apply mse_of_predictions; auto. lia.
Qed.

Lemma foldM_idx_panic {A B S} (f : S -> A -> B -> S) (a : list A) (b : list B) s :
  length b < length a ->
  foldM (fun s ip => y <- idx b (fst ip);; Ok (f s (snd ip) y)) (enumerate a) s = Panic.
Proof.
  intros H. rewrite <- (firstn_skipn (length b) a).
  assert (Hf : length (firstn (length b) a) = length b) by (rewrite firstn_length; lia).
  rewrite enumerate_app, foldM_app.
  rewrite (foldM_enumerate (fun s x y => Ok (f s x y))) by lia. rewrite foldM_pure. cbn [bind].
  destruct (skipn (length b) a) as [|x r] eqn:E.
  - apply (f_equal (@length _)) in E. rewrite skipn_length in E. simpl in E. lia.
  - cbn [length seq combine foldM fst]. rewrite Hf.
    assert (idx b (length b) = Panic) as -> by (apply idx_Panic; lia). reflexivity.
Qed.

Theorem accuracy_missing_label predict test ps :
  Forall2 (fun row p => predict row = Ok p) (feature_rows test) ps ->
  length (labels test) < length (feature_rows test) ->
  (ps <- calculate_all_predictions predict test;; calculate_accuracy_from_predictions ps test) = Panic.
Proof.
  intros HP HL. rewrite all_predictions_eq. pose proof (Forall2_length _ _ _ HP) as Hl.
  apply mapM_Forall2 in HP. rewrite HP. cbn [bind]. unfold calculate_accuracy_from_predictions.
  etransitivity; [apply f_equal2; [|reflexivity]|].
  { etransitivity; [|apply (foldM_idx_panic (fun c v y => if vec_eqb v y then fadd c f1 else c) ps (labels test) f0); lia].
    apply foldM_ext. intros c [i v] _. reflexivity. }
  reflexivity.
Qed.

Lemma for_range_hits_panic {S} n k (f : S -> nat -> res S) s :
  k < n -> (forall s i, f s i <> OutOfFuel) -> (forall s, f s k = Panic) -> for_range n f s = Panic.
Proof.
  intros Hk NF HP. unfold for_range. replace n with (k + Datatypes.S (n - k - 1)) by lia.
  rewrite seq_app, foldM_app. destruct (foldM f (seq 0 k) s) as [s'| |] eqn:E; auto.
  - cbn [bind plus seq foldM]. now rewrite HP.
  - exfalso. revert E. now apply foldM_fuel.
Qed.

Theorem regression_missing_prediction m test ps :
  Forall2 (fun row p => regression_boost_predict m row = Ok p) (feature_rows test) ps ->
  length (feature_rows test) < length (labels test) ->
  regression_boost_score m test = Panic.
Proof.
  intros HP HL. unfold regression_boost_score, regression_boost_all_predictions. rewrite all_predictions_eq.
  pose proof (Forall2_length _ _ _ HP) as Hl. apply mapM_Forall2 in HP. rewrite HP. cbn [bind].
  unfold calculate_mean_squared_error.
  rewrite (for_range_hits_panic _ (length ps)); [reflexivity|lia| |].
  - intros s i. pose proof (idx_fuel (labels test) i). destruct (idx (labels test) i) as [l| |]; cbn [bind]; try congruence.
    pose proof (idx_fuel ps i). destruct (idx ps i) as [p| |]; cbn [bind]; try congruence.
    unfold mean_sum_of_squared_differences_between_f64_slices. destruct (_ =? _); cbn [bind]; discriminate.
  - intros s. rewrite (idx_nth (labels test) (length ps) []) by lia. cbn [bind].
    assert (idx ps (length ps) = Panic) as -> by (apply idx_Panic; lia). reflexivity.
Qed.

(* ------------------------------------------------------------------ *)
(** ** The thread flag *)

Lemma build_with_threads {L} (mk : dataset -> res L) b cfg : forall fuel d level,
  build_with mk fuel d (with_threads b cfg) level = build_with mk fuel d cfg level.
Proof.
  induction fuel as [|fuel IH]; intros d level; [reflexivity|]. cbn [build_with with_threads tc_split_finder tc_number_of_classes tc_max_levels].
  destruct (tc_split_finder cfg d (tc_number_of_classes cfg)) as [s| |]; cbn [bind]; auto.
  destruct (stop_here s level (tc_max_levels cfg)); auto.
  destruct (partition d (bs_question s)) as [[fd td]| |]; cbn [bind]; auto.
  rewrite !IH. reflexivity.
Qed.

Theorem tree_threads b d cfg calc :
  regression_tree_new d (with_threads b cfg) = regression_tree_new d cfg /\
  grad_boost_tree_new d (with_threads b cfg) calc = grad_boost_tree_new d cfg calc /\
  amg_boost_tree_new d (with_threads b cfg) calc = amg_boost_tree_new d cfg calc.
Proof.
  rewrite !regression_tree_new_eq, !grad_boost_tree_new_eq, !amg_boost_tree_new_eq.
  now rewrite !build_with_threads.
Qed.

Lemma iterations_ext {L} residuals (fit fit' : dataset -> res (tree_node L)) update td n :
  (forall d, fit d = fit' d) ->
  boosting_iterations residuals fit update td n = boosting_iterations residuals fit' update td n.
Proof.
  intros H. unfold boosting_iterations. apply for_range_ext. intros [td1 ts] i _.
  destruct (residuals td1); cbn [bind]; auto. now rewrite H.
Qed.

Theorem ensemble_threads b d cfg n lr :
  regression_boost_train d (with_threads b cfg) n lr = regression_boost_train d cfg n lr /\
  multi_class_boost_train d (with_threads b cfg) n lr = multi_class_boost_train d cfg n lr /\
  amg_boost_train d (with_threads b cfg) n lr = amg_boost_train d cfg n lr.
Proof.
  unfold regression_boost_train, multi_class_boost_train, amg_boost_train, boosting_loop.
  repeat split; destruct (determine_initial_guess _ _) as [g| |]; cbn [bind]; auto;
    rewrite initial_update; cbn [bind];
    unfold regression_executor, multi_class_executor, amg_executor;
    erewrite iterations_ext; try reflexivity; intros d'; apply tree_threads.
Qed.

(** AMG leaves. *)
Theorem amg_reconstruct l k m c :
  al_max l = Some m -> al_class l = Some c -> c < k ->
  exists v, construct_approximate_leaf_output l k = Ok v /\ length v = k /\ nth_error v c = Some m /\
    forall j, j < k -> j <> c -> nth_error v j = Some (fdiv (fneg m) (fsub (f_of_nat k) f1)).
Proof.
  intros Em Ec Hc. unfold construct_approximate_leaf_output. rewrite Em, Ec. cbn [unwrap bind].
  rewrite upd_lt by (now rewrite repeat_length). eexists. split; [reflexivity|].
  split; [now rewrite length_list_set, repeat_length|]. rewrite nth_error_list_set, repeat_length, Nat.eqb_refl.
  rewrite (proj2 (Nat.ltb_lt c k) Hc). split; [reflexivity|]. intros j Hj Hne. rewrite nth_error_list_set, repeat_length.
  destruct (Nat.eqb_spec c j); [congruence|]. cbn [andb]. now apply nth_error_repeat_lt.
Qed.

End Boost.
