(** Schedule independence of the parallel constructs, and of every program of ModelPar.v. *)
From Verif Require Import Base Num ModelCommon ModelTree ModelBoost ModelPar Lib Spec SpecTree SpecPar
  ProofData ProofSort ProofSplit2 ProofTree ProofTree2 ProofTree3 ProofBoost.

(* ------------------------------------------------------------------ *)
(** ** What a program computes when run from left to right *)

Definition slot_value {X B} (f : X -> res B) (s : slot X B) : res B :=
  match s with Waiting x => f x | Running x => f x | Finished r => r end.

Fixpoint denote {A} (p : prog A) : res A :=
  match p with
  | Ret r => r
  | Seq m k => b <- m;; denote (k b)
  | Fork l r k => b <- denote l;; c <- denote r;; denote (k b c)
  | ParMap f s k => bs <- mapM (slot_value f) s;; denote (k bs)
  end.

(** No part of the program, run or not, exhausts the recursion budget. *)
Fixpoint sound {A} (p : prog A) : Prop :=
  match p with
  | Ret r => r <> OutOfFuel
  | Seq m k => m <> OutOfFuel /\ forall b, m = Ok b -> sound (k b)
  | Fork l r k => sound l /\ sound r /\ forall b c, denote l = Ok b -> denote r = Ok c -> sound (k b c)
  | ParMap f s k => (forall x, In x s -> slot_value f x <> OutOfFuel) /\
                    forall bs, mapM (slot_value f) s = Ok bs -> sound (k bs)
  end.

Lemma mapM_fuel_in {A B} (f : A -> res B) l : (forall x, In x l -> f x <> OutOfFuel) -> mapM f l <> OutOfFuel.
Proof.
  induction l as [|x l IH]; intros H; [discriminate|]. cbn [mapM]. apply bind_fuel; [apply H; now left|].
  intros y _. apply bind_fuel; [apply IH; intros; apply H; now right|]. intros; discriminate.
Qed.

Lemma sound_fuel {A} (p : prog A) : sound p -> denote p <> OutOfFuel.
Proof.
  induction p as [A r|A B m k IH|A B C l IHl r IHr k IHk|A X B f s k IHk]; cbn [sound denote].
  - auto.
  - intros [H1 H2]. apply bind_fuel; auto.
  - intros (H1 & H2 & H3). apply bind_fuel; auto. intros b Eb. apply bind_fuel; auto.
  - intros [H1 H2]. apply bind_fuel; auto. now apply mapM_fuel_in.
Qed.

Lemma outcome_denote {A} (p : prog A) r : outcome p = Some r -> denote p = r.
Proof. destruct p; cbn; try discriminate. now intros [= ->]. Qed.

Lemma outcome_ret {A} (p : prog A) r : outcome p = Some r -> p = Ret r.
Proof. destruct p; cbn; try discriminate. now intros [= ->]. Qed.

Lemma mapM_swap {A B} (f : A -> res B) s1 x y s2 : f x = f y -> mapM f (s1 ++ x :: s2) = mapM f (s1 ++ y :: s2).
Proof. intros E. induction s1 as [|z s1 IH]; cbn [app mapM]; [now rewrite E|now rewrite IH]. Qed.

Lemma mapM_finished {X B} (f : X -> res B) bs : mapM (slot_value f) (map (fun b => Finished (Ok b)) bs) = Ok bs.
Proof. induction bs as [|b bs IH]; [reflexivity|]. cbn [map mapM slot_value bind]. now rewrite IH. Qed.

Lemma mapM_panics {A B} (f : A -> res B) l :
  (forall x, In x l -> f x <> OutOfFuel) -> (exists x, In x l /\ f x = Panic) -> mapM f l = Panic.
Proof.
  induction l as [|y l IH]; intros H (x & Hin & E); [contradiction|]. cbn [mapM].
  destruct (f y) as [b| |] eqn:Ey; cbn [bind]; auto.
  - destruct Hin as [->|Hin]; [congruence|]. rewrite IH; [reflexivity| |eauto]. intros; apply H; now right.
  - exfalso. apply (H y); auto. now left.
Qed.

(** A step neither changes the result nor loses soundness. *)
Lemma step_denote {A} (p : prog A) : forall p', step p p' -> sound p -> sound p' /\ denote p' = denote p.
Proof.
  induction p as [A r|A B m k IH|A B C l IHl r IHr k IHk|A X B f s k IHk]; cbn [step sound denote]; intros p' St Sd.
  - contradiction.
  - destruct Sd as [H1 H2]. destruct m as [b| |]; [subst p'; auto| |congruence]. subst p'. cbn. split; [discriminate|auto].
  - destruct Sd as (H1 & H2 & H3).
    destruct St as [(l' & St & ->)|[(r' & St & ->)|[(b & c & El & Er & ->)|(El & Er & Or & ->)]]].
    + destruct (IHl _ St H1) as [S' E']. cbn [sound denote]. rewrite E'. auto.
    + destruct (IHr _ St H2) as [S' E']. cbn [sound denote]. rewrite E'. auto.
    + apply outcome_denote in El, Er. rewrite El, Er. cbn [bind]. auto.
    + cbn [sound denote]. split; [discriminate|].
      destruct (outcome l) as [rl|] eqn:Ol; [|congruence]. destruct (outcome r) as [rr|] eqn:Orr; [|congruence].
      apply outcome_denote in Ol, Orr. apply sound_fuel in H1, H2. rewrite Ol in *. rewrite Orr in *.
      destruct Or as [[= ->]|[= ->]]; [reflexivity|]. destruct rl; cbn; congruence.
  - destruct Sd as [H1 H2].
    destruct St as [(s1 & x & s2 & -> & ->)|[(s1 & x & s2 & -> & ->)|[(bs & -> & ->)|(Hin & _ & ->)]]].
    + cbn [sound denote]. rewrite (mapM_swap (slot_value f) s1 (Running x) (Waiting x) s2) by reflexivity.
      split; [split|]; auto. intros y Hy. apply in_app_or in Hy. destruct Hy as [Hy|[<-|Hy]].
      * apply H1, in_or_app; auto.
      * apply (H1 (Waiting x)), in_or_app; right; now left.
      * apply H1, in_or_app; right; now right.
    + cbn [sound denote]. rewrite (mapM_swap (slot_value f) s1 (Finished (f x)) (Running x) s2) by reflexivity.
      split; [split|]; auto. intros y Hy. apply in_app_or in Hy. destruct Hy as [Hy|[<-|Hy]].
      * apply H1, in_or_app; auto.
      * apply (H1 (Running x)), in_or_app; right; now left.
      * apply H1, in_or_app; right; now right.
    + rewrite mapM_finished. cbn [bind]. split; auto. apply H2, mapM_finished.
    + cbn [sound denote]. split; [discriminate|]. rewrite (mapM_panics (slot_value f)); auto. eauto.
Qed.

Lemma run_denote {A} (p p' : prog A) : run p p' -> sound p -> sound p' /\ denote p' = denote p.
Proof.
  induction 1 as [p|p p' p'' St R IH]; intros Sd; [auto|]. destruct (step_denote _ _ St Sd) as [S' E'].
  destruct (IH S') as [S'' E'']. split; congruence || auto.
Qed.

(** Progress. *)
Lemma slots_cases {X B} (s : list (slot X B)) :
  (exists s1 x s2, s = s1 ++ Waiting x :: s2) \/ (exists s1 x s2, s = s1 ++ Running x :: s2) \/
  (exists rs, s = map Finished rs).
Proof.
  induction s as [|[x|x|r] s IH].
  - right; right. now exists [].
  - left. now exists [], x, s.
  - right; left. now exists [], x, s.
  - destruct IH as [(s1 & x & s2 & ->)|[(s1 & x & s2 & ->)|(rs & ->)]].
    + left. now exists (Finished r :: s1), x, s2.
    + right; left. now exists (Finished r :: s1), x, s2.
    + right; right. now exists (r :: rs).
Qed.

Lemma results_cases {B} (rs : list (res B)) :
  (exists bs, rs = map Ok bs) \/ In Panic rs \/ In OutOfFuel rs.
Proof.
  induction rs as [|[b| |] rs IH].
  - left. now exists [].
  - destruct IH as [(bs & ->)|[H|H]]; [left; now exists (b :: bs)|right; left; now right|right; right; now right].
  - right; left; now left.
  - right; right; now left.
Qed.

Lemma progress {A} (p : prog A) : sound p -> (exists r, p = Ret r) \/ exists p', step p p'.
Proof.
  induction p as [A r|A B m k IH|A B C l IHl r IHr k IHk|A X B f s k IHk]; cbn [step sound]; intros Sd.
  - eauto.
  - right. destruct m; eauto.
  - right. destruct Sd as (H1 & H2 & _).
    destruct (IHl H1) as [(rl & ->)|(l' & St)]; [|exists (Fork l' r k); eauto 6].
    destruct (IHr H2) as [(rr & ->)|(r' & St)]; [|exists (Fork (Ret rl) r' k); eauto 6].
    cbn in H1, H2. cbn [outcome].
    destruct rl as [b| |]; [|exists (Ret Panic); right; right; right; repeat split; auto; discriminate|congruence].
    destruct rr as [c| |]; [|exists (Ret Panic); right; right; right; repeat split; auto; discriminate|congruence].
    exists (k b c). right; right; left. eauto.
  - right. destruct Sd as [H1 _].
    destruct (slots_cases s) as [(s1 & x & s2 & ->)|[(s1 & x & s2 & ->)|(rs & ->)]].
    + exists (ParMap f (s1 ++ Running x :: s2) k). left. eauto 6.
    + exists (ParMap f (s1 ++ Finished (f x) :: s2) k). right; left. eauto 6.
    + destruct (results_cases rs) as [(bs & ->)|[H|H]].
      * exists (k bs). right; right; left. exists bs. now rewrite map_map.
      * exists (Ret Panic). right; right; right. split; [now apply in_map|]. split; [|reflexivity].
        intros x Hx. apply in_map_iff in Hx as (r & E & _). discriminate.
      * exfalso. apply (H1 (Finished OutOfFuel)); [now apply in_map|reflexivity].
Qed.

(** Termination. *)
Definition work {X B} (s : slot X B) : nat :=
  match s with Waiting _ => 2 | Running _ => 1 | Finished _ => 0 end.

Definition undone {X B} (s : list (slot X B)) : nat := fold_right (fun x n => work x + n) 0 s.

Lemma undone_app {X B} (s1 s2 : list (slot X B)) : undone (s1 ++ s2) = undone s1 + undone s2.
Proof.
  induction s1 as [|x s1 IH]; [reflexivity|].
  change (work x + undone (s1 ++ s2) = work x + undone s1 + undone s2). lia.
Qed.

Definition terminates {A} (p : prog A) : Prop := Acc (fun p' p => step p p') p.

Lemma ret_terminates {A} (r : res A) : terminates (Ret r).
Proof. constructor. cbn. contradiction. Qed.

Lemma all_terminate {A} (p : prog A) : terminates p.
Proof.
  induction p as [A r|A B m k IH|A B C l IHl r IHr k IHk|A X B f s k IHk].
  - apply ret_terminates.
  - constructor. intros p' St. cbn [step] in St. destruct m; subst p'; [apply IH|apply ret_terminates|apply ret_terminates].
  - revert r IHr. induction IHl as [l _ IHl]. intros r IHr. induction IHr as [r Hr IHr].
    constructor. intros p' St. cbn [step] in St.
    destruct St as [(l' & St & ->)|[(r' & St & ->)|[(b & c & El & Er & ->)|(_ & _ & _ & ->)]]].
    + apply IHl; auto. constructor. exact Hr.
    + apply IHr; auto.
    + apply IHk.
    + apply ret_terminates.
  - remember (undone s) as n eqn:En. revert s En. induction n as [n IHn] using lt_wf_ind. intros s ->.
    constructor. intros p' St. cbn [step] in St.
    destruct St as [(s1 & x & s2 & -> & ->)|[(s1 & x & s2 & -> & ->)|[(bs & -> & ->)|(_ & _ & ->)]]].
    + eapply IHn; [|reflexivity]. rewrite !undone_app. cbn. lia.
    + eapply IHn; [|reflexivity]. rewrite !undone_app. cbn. lia.
    + apply IHk.
    + apply ret_terminates.
Qed.

Lemma no_infinite_run {A} (p : prog A) :
  ~ exists trace : nat -> prog A, trace 0 = p /\ forall n, step (trace n) (trace (S n)).
Proof.
  intros (trace & E & H). pose proof (all_terminate p) as T. revert trace E H.
  induction T as [p _ IH]. intros trace E H. apply (IH (trace 1)) with (trace := fun n => trace (S n)); auto.
  rewrite <- E. apply H.
Qed.

Lemma reaches_the_end {A} (p : prog A) : sound p -> run p (Ret (denote p)).
Proof.
  intros Sd. pose proof (all_terminate p) as T. induction T as [p _ IH].
  destruct (progress p Sd) as [(r & ->)|(p' & St)]; [constructor|].
  destruct (step_denote _ _ St Sd) as [S' E']. apply run_on with p'; auto. rewrite <- E'. auto.
Qed.

Theorem sound_schedule {A} (p : prog A) : sound p -> always_gives p (denote p).
Proof.
  intros Sd. split; [apply no_infinite_run|]. split; [|now apply reaches_the_end].
  intros p' R. destruct (run_denote _ _ R Sd) as [S' E']. destruct (progress p' S') as [(r & ->)|St]; [left|now right].
  cbn in E'. now subst r.
Qed.

(** Composition. *)
Lemma denote_andthen {A B} (p : prog A) (k : A -> prog B) : denote (andthen p k) = (a <- denote p;; denote (k a)).
Proof.
  revert k. induction p as [A r|A B' m f IH|A B' C l IHl r IHr f IHk|A X B' f s g IHk]; intros k; cbn [andthen denote].
  - reflexivity.
  - destruct m as [b| |]; cbn [bind]; auto.
  - destruct (denote l) as [b| |]; cbn [bind]; auto. destruct (denote r) as [c| |]; cbn [bind]; auto.
  - destruct (mapM _ s) as [bs| |]; cbn [bind]; auto.
Qed.

Lemma sound_andthen {A B} (p : prog A) (k : A -> prog B) :
  sound p -> (forall a, denote p = Ok a -> sound (k a)) -> sound (andthen p k).
Proof.
  revert k. induction p as [A r|A B' m f IH|A B' C l IHl r IHr f IHk|A X B' f s g IHk]; intros k; cbn [andthen sound denote].
  - auto.
  - intros [H1 H2] H3. split; auto. intros b ->. cbn [bind] in H3. auto.
  - intros (H1 & H2 & H3) H4. split; auto. split; auto. intros b c Eb Ec. rewrite Eb, Ec in H4. cbn [bind] in H4. auto.
  - intros [H1 H2] H3. split; auto. intros bs E. rewrite E in H3. cbn [bind] in H3. auto.
Qed.

Lemma mapM_waiting {X B} (f : X -> res B) l : mapM (slot_value f) (map Waiting l) = mapM f l.
Proof. induction l as [|x l IH]; cbn [map mapM slot_value]; [reflexivity|]. now rewrite IH. Qed.

Lemma denote_par_map {X B} (f : X -> res B) l : denote (par_map f l) = mapM f l.
Proof.
  unfold par_map. cbn [denote]. rewrite mapM_waiting. destruct (mapM f l); reflexivity.
Qed.

Lemma sound_par_map {X B} (f : X -> res B) l : (forall x, In x l -> f x <> OutOfFuel) -> sound (par_map f l).
Proof.
  intros H. unfold par_map. cbn [sound]. split; [|intros; discriminate].
  intros s Hs. apply in_map_iff in Hs as (x & <- & Hx). cbn. auto.
Qed.

(** par_iter().map(f).collect() *)
Theorem par_map_schedule {X B} (f : X -> res B) l :
  (forall x, In x l -> f x <> OutOfFuel) -> always_gives (par_map f l) (mapM f l).
Proof. intros H. rewrite <- denote_par_map. apply sound_schedule. now apply sound_par_map. Qed.

Lemma mapM_all_ok {X B} (f : X -> res B) g l : (forall x, In x l -> f x = Ok (g x)) -> mapM f l = Ok (map g l).
Proof.
  induction l as [|x l IH]; intros H; [reflexivity|]. cbn [mapM map]. rewrite H by now left. cbn [bind].
  rewrite IH; [reflexivity|]. intros; apply H; now right.
Qed.

Theorem par_map_in_order {X B} (f : X -> res B) g l :
  (forall x, In x l -> f x = Ok (g x)) -> always_gives (par_map f l) (Ok (map g l)).
Proof.
  intros H. rewrite <- (mapM_all_ok f g l H). apply par_map_schedule. intros x Hx. rewrite H by auto. discriminate.
Qed.

Theorem par_map_panics {X B} (f : X -> res B) l x :
  (forall y, In y l -> ends (f y)) -> In x l -> f x = Panic -> always_gives (par_map f l) Panic.
Proof.
  intros H Hx E. assert (H' : forall y, In y l -> f y <> OutOfFuel).
  { intros y Hy. destruct (H y Hy) as [->|(a & ->)]; discriminate. }
  rewrite <- (mapM_panics f l); eauto. now apply par_map_schedule.
Qed.

(** rayon::join *)
Theorem join_schedule {A B} (l : prog A) (r : prog B) :
  sound l -> sound r ->
  always_gives (Fork l r (fun a b => Ret (Ok (a, b)))) (a <- denote l;; b <- denote r;; Ok (a, b)).
Proof.
  intros Hl Hr. apply (sound_schedule (Fork l r (fun a b => Ret (Ok (a, b))))). cbn [sound]. repeat split; auto. discriminate.
Qed.

Ltac nofuel :=
  repeat first
    [ discriminate
    | apply idx_fuel | apply upd_fuel
    | apply bind_fuel; [|intros ? _]
    | apply for_range_fuel; intros
    | apply foldM_fuel; intros
    | apply mapM_fuel; intros
    | apply get_sorted_fuel
    | match goal with
      | |- (if ?b then _ else _) <> _ => destruct b
      | |- (let '(_, _) := ?p in _) <> _ => destruct p
      end
    | progress cbv zeta ].

Section Programs.
Context {O : NumOps}.

Lemma determine_best_threshold_fuel n lb col t k : determine_best_threshold n lb col t k <> OutOfFuel.
Proof.
  unfold determine_best_threshold, determine_best_threshold_new, scan_step, calculate_loss_vector,
    update_left_value_tracker, update_right_value_tracker, calculate_variance_vector. nofuel.
Qed.
Lemma determine_best_threshold_new_fuel n lb col t k : determine_best_threshold_new n lb col t k <> OutOfFuel.
Proof.
  unfold determine_best_threshold_new, scan_step, calculate_loss_vector,
    update_left_value_tracker, update_right_value_tracker, calculate_variance_vector. nofuel.
Qed.
Lemma metrics_fuel lb k : get_multi_target_label_metrics lb k <> OutOfFuel.
Proof. unfold get_multi_target_label_metrics, get_label_sum_vectors, get_mean_of_labels_vector. nofuel. Qed.
Lemma total_variance_fuel t n k : get_total_variance_sum t n k <> OutOfFuel.
Proof. unfold get_total_variance_sum, calculate_variance_vector. nofuel. Qed.
Lemma select_fuel v n r : select_best_column v n r <> OutOfFuel.
Proof. unfold select_best_column. nofuel. Qed.

Lemma denote_find_best_split d k : denote (par_find_best_split d k) = find_best_split d k.
Proof.
  unfold par_find_best_split, find_best_split. cbn [denote].
  destruct (get_multi_target_label_metrics _ _) as [total| |]; cbn [bind]; auto.
  destruct (get_total_variance_sum _ _ _) as [v| |]; cbn [bind]; auto.
  destruct (idx _ 0) as [row0| |]; cbn [bind]; auto.
  rewrite denote_andthen, denote_par_map. reflexivity.
Qed.

Lemma sound_find_best_split d k : sound (par_find_best_split d k).
Proof.
  unfold par_find_best_split. cbn [sound]. split; [apply metrics_fuel|]. intros total _.
  split; [apply total_variance_fuel|]. intros v _. split; [apply idx_fuel|]. intros row0 _.
  apply sound_andthen. { apply sound_par_map. intros. apply determine_best_threshold_fuel. }
  intros bs _. cbn [sound]. destruct (_ =? _); [apply select_fuel|discriminate].
Qed.

Lemma denote_find_best_split_np d al k n :
  denote (par_find_best_split_new_partition d al k n) = find_best_split_new_partition d al k n.
Proof.
  unfold par_find_best_split_new_partition, find_best_split_new_partition. cbn [denote].
  destruct (get_multi_target_label_metrics _ _) as [total| |]; cbn [bind]; auto.
  destruct (get_total_variance_sum _ _ _) as [v| |]; cbn [bind]; auto.
  rewrite denote_andthen, denote_par_map. reflexivity.
Qed.

Lemma sound_find_best_split_np d al k n : sound (par_find_best_split_new_partition d al k n).
Proof.
  unfold par_find_best_split_new_partition. cbn [sound]. split; [apply metrics_fuel|]. intros total _.
  split; [apply total_variance_fuel|]. intros v _.
  apply sound_andthen. { apply sound_par_map. intros. apply determine_best_threshold_new_fuel. }
  intros bs _. cbn [sound]. destruct (_ =? _); [apply select_fuel|discriminate].
Qed.

Lemma denote_collect_columns d ti :
  denote (par_collect_partitioned_feature_columns d ti) = collect_partitioned_feature_columns d ti.
Proof. unfold par_collect_partitioned_feature_columns. rewrite denote_andthen, denote_par_map. reflexivity. Qed.

Lemma sound_collect_columns d ti : sound (par_collect_partitioned_feature_columns d ti).
Proof.
  apply sound_andthen; [|intros; discriminate]. apply sound_par_map. intros col _.
  unfold partition_feature_column. nofuel.
Qed.

Lemma denote_new_partition d c v al : denote (par_new_partition d c v al) = new_partition d c v al.
Proof.
  unfold par_new_partition, new_partition. cbn [denote].
  destruct (collect_indices_for_partitioning _ _ _ _) as [[ti fi]| |]; cbn [bind denote]; auto.
  destruct (collect_partitioned_labels _ _ _) as [[tl fl]| |]; cbn [bind]; auto.
  rewrite denote_andthen, denote_collect_columns.
  destruct (collect_partitioned_feature_columns _ _) as [[tc fc]| |]; reflexivity.
Qed.

Lemma mark_false_fuel v col : forall i fi, mark_false_until v col i fi <> OutOfFuel.
Proof.
  induction col as [|[x j] col IH]; intros i fi; cbn [mark_false_until]; [discriminate|].
  destruct (fleb v x); [discriminate|]. apply bind_fuel; [apply upd_fuel|auto].
Qed.

Lemma sound_new_partition d c v al : sound (par_new_partition d c v al).
Proof.
  unfold par_new_partition. cbn [sound]. split.
  { unfold collect_indices_for_partitioning. apply bind_fuel; [apply idx_fuel|]. intros col _.
    apply bind_fuel; [apply mark_false_fuel|]. intros [fi fe] _. nofuel. }
  intros [ti fi] _. cbn [sound]. split. { unfold collect_partitioned_labels. nofuel. }
  intros [tl fl] _. apply sound_andthen; [apply sound_collect_columns|]. intros [tc fc] _. discriminate.
Qed.

(** ** Tree builders *)
Ltac same_value IH :=
  rewrite denote_andthen, denote_find_best_split;
  match goal with Hs : standard _ |- _ => rewrite Hs end; unfold split_finder_new;
  destruct (find_best_split _ _) as [s| |]; cbn [bind]; auto; destruct (stop_here _ _ _);
  [ cbn [denote]; try reflexivity;
    match goal with |- bind ?m _ = _ => destruct m as [o| |]; cbn [bind]; auto end;
    repeat match goal with |- context[find_max_value_and_index_from_vector ?v] => destruct (find_max_value_and_index_from_vector v) end; reflexivity
  | cbn [denote]; destruct (partition _ _) as [[fd td]| |]; cbn [bind]; auto;
    first
      [ cbn [denote]; unfold rayon_join; rewrite !IH;
        match goal with |- bind ?m _ = _ => destruct m as [t| |]; cbn [bind]; auto end;
        match goal with |- bind ?m _ = _ => destruct m as [f| |]; cbn [bind]; auto end; fail
      | rewrite denote_andthen, IH;
        match goal with |- bind ?m _ = _ => destruct m as [t| |]; cbn [bind]; auto end;
        rewrite denote_andthen, IH; reflexivity ] ].

Ltac sound_builder IH :=
  apply sound_andthen; [apply sound_find_best_split|]; intros s _; destruct (stop_here _ _ _);
  [ cbn [sound]; first [discriminate | split; [auto|]; intros o _]; repeat match goal with |- context[find_max_value_and_index_from_vector ?v] => destruct (find_max_value_and_index_from_vector v) end; try discriminate
  | cbn [sound]; split; [apply partition_fuel|]; intros [fd td] E; apply partition_shrinks in E as [E1 E2];
    first
      [ cbn [sound]; split; [apply IH; lia|]; split; [apply IH; lia|]; discriminate
      | apply sound_andthen; [apply IH; lia|]; intros t _; apply sound_andthen; [apply IH; lia|]; intros; discriminate ] ].

Lemma denote_reg cfg : standard cfg -> forall fuel d level,
  denote (par_build_regression_tree fuel d cfg level) = build_regression_tree fuel d cfg level.
Proof.
  intros Hs. induction fuel as [|fuel IH]; intros d level; [reflexivity|].
  cbn [par_build_regression_tree build_regression_tree]. same_value IH.
Qed.

Lemma denote_reg_threads cfg : standard cfg -> forall fuel d level,
  denote (par_build_regression_tree_using_multiple_threads fuel d cfg level) =
  build_regression_tree_using_multiple_threads fuel d cfg level.
Proof.
  intros Hs. induction fuel as [|fuel IH]; intros d level; [reflexivity|].
  cbn [par_build_regression_tree_using_multiple_threads build_regression_tree_using_multiple_threads]. same_value IH.
Qed.

Lemma sound_reg cfg : forall fuel d level,
  length (feature_rows d) < fuel -> sound (par_build_regression_tree fuel d cfg level).
Proof.
  induction fuel as [|fuel IH]; intros d level Hf; [lia|]. cbn [par_build_regression_tree]. sound_builder IH.
Qed.

Lemma sound_reg_threads cfg : forall fuel d level,
  length (feature_rows d) < fuel -> sound (par_build_regression_tree_using_multiple_threads fuel d cfg level).
Proof.
  induction fuel as [|fuel IH]; intros d level Hf; [lia|].
  cbn [par_build_regression_tree_using_multiple_threads]. sound_builder IH.
Qed.

Lemma denote_gb cfg calc : standard cfg -> forall fuel d level,
  denote (par_build_grad_boost_regression_tree fuel d cfg calc level) = build_grad_boost_regression_tree fuel d cfg calc level.
Proof.
  intros Hs. induction fuel as [|fuel IH]; intros d level; [reflexivity|].
  cbn [par_build_grad_boost_regression_tree build_grad_boost_regression_tree]. same_value IH.
Qed.

Lemma denote_gb_threads cfg calc : standard cfg -> forall fuel d level,
  denote (par_build_grad_boost_regression_tree_using_multiple_threads fuel d cfg calc level) =
  build_grad_boost_regression_tree_using_multiple_threads fuel d cfg calc level.
Proof.
  intros Hs. induction fuel as [|fuel IH]; intros d level; [reflexivity|].
  cbn [par_build_grad_boost_regression_tree_using_multiple_threads build_grad_boost_regression_tree_using_multiple_threads].
  same_value IH.
Qed.

Lemma sound_gb cfg (calc : leaf_output_calculator) : (forall d, calc d <> OutOfFuel) -> forall fuel d level,
  length (feature_rows d) < fuel -> sound (par_build_grad_boost_regression_tree fuel d cfg calc level).
Proof.
  intros Hc. induction fuel as [|fuel IH]; intros d level Hf; [lia|]. cbn [par_build_grad_boost_regression_tree]. sound_builder IH.
Qed.

Lemma sound_gb_threads cfg (calc : leaf_output_calculator) : (forall d, calc d <> OutOfFuel) -> forall fuel d level,
  length (feature_rows d) < fuel -> sound (par_build_grad_boost_regression_tree_using_multiple_threads fuel d cfg calc level).
Proof.
  intros Hc. induction fuel as [|fuel IH]; intros d level Hf; [lia|].
  cbn [par_build_grad_boost_regression_tree_using_multiple_threads]. sound_builder IH.
Qed.

Lemma denote_amg cfg calc : standard cfg -> forall fuel d level,
  denote (par_build_approximate_grad_boost_regression_tree fuel d cfg calc level) =
  build_approximate_grad_boost_regression_tree fuel d cfg calc level.
Proof.
  intros Hs. induction fuel as [|fuel IH]; intros d level; [reflexivity|].
  cbn [par_build_approximate_grad_boost_regression_tree build_approximate_grad_boost_regression_tree]. same_value IH.
Qed.

Lemma denote_amg_threads cfg calc : standard cfg -> forall fuel d level,
  denote (par_build_approximate_grad_boost_regression_tree_using_multiple_threads fuel d cfg calc level) =
  build_approximate_grad_boost_regression_tree_using_multiple_threads fuel d cfg calc level.
Proof.
  intros Hs. induction fuel as [|fuel IH]; intros d level; [reflexivity|].
  cbn [par_build_approximate_grad_boost_regression_tree_using_multiple_threads
       build_approximate_grad_boost_regression_tree_using_multiple_threads].
  same_value IH.
Qed.

Lemma sound_amg cfg (calc : leaf_output_calculator) : (forall d, calc d <> OutOfFuel) -> forall fuel d level,
  length (feature_rows d) < fuel -> sound (par_build_approximate_grad_boost_regression_tree fuel d cfg calc level).
Proof.
  intros Hc. induction fuel as [|fuel IH]; intros d level Hf; [lia|].
  cbn [par_build_approximate_grad_boost_regression_tree]. sound_builder IH.
Qed.

Lemma sound_amg_threads cfg (calc : leaf_output_calculator) : (forall d, calc d <> OutOfFuel) -> forall fuel d level,
  length (feature_rows d) < fuel -> sound (par_build_approximate_grad_boost_regression_tree_using_multiple_threads fuel d cfg calc level).
Proof.
  intros Hc. induction fuel as [|fuel IH]; intros d level Hf; [lia|].
  cbn [par_build_approximate_grad_boost_regression_tree_using_multiple_threads]. sound_builder IH.
Qed.

Lemma standard_flag b cfg : standard cfg -> standard (with_threads b cfg).
Proof. auto. Qed.

Lemma denote_regression_tree d cfg b : standard cfg ->
  denote (par_regression_tree_new d cfg) = regression_tree_new d (with_threads b cfg).
Proof.
  intros Hs. destruct (tree_threads b d cfg (leaf_output_calculator_new Regression)) as [-> _].
  unfold par_regression_tree_new, regression_tree_new.
  destruct (tc_use_multi_threading cfg); [now apply denote_reg_threads|now apply denote_reg].
Qed.

Lemma sound_regression_tree d cfg : sound (par_regression_tree_new d cfg).
Proof.
  unfold par_regression_tree_new. destruct (tc_use_multi_threading cfg); [apply sound_reg_threads|apply sound_reg];
    unfold fuel_for; lia.
Qed.

Lemma calc_fuel kind d : leaf_output_calculator_new kind d <> OutOfFuel.
Proof. intros E. apply (mk_gb_fuel kind d). unfold mk_gb. now rewrite E. Qed.

Lemma denote_grad_boost_tree d cfg calc b : standard cfg ->
  denote (par_grad_boost_tree_new d cfg calc) = grad_boost_tree_new d (with_threads b cfg) calc.
Proof.
  intros Hs. destruct (tree_threads b d cfg calc) as (_ & -> & _).
  unfold par_grad_boost_tree_new, grad_boost_tree_new.
  destruct (tc_use_multi_threading cfg); [now apply denote_gb_threads|now apply denote_gb].
Qed.

Lemma sound_grad_boost_tree d cfg kind : sound (par_grad_boost_tree_new d cfg (leaf_output_calculator_new kind)).
Proof.
  unfold par_grad_boost_tree_new. destruct (tc_use_multi_threading cfg); [apply sound_gb_threads|apply sound_gb];
    auto using calc_fuel; unfold fuel_for; lia.
Qed.

Lemma denote_amg_tree d cfg calc b : standard cfg ->
  denote (par_amg_boost_tree_new d cfg calc) = amg_boost_tree_new d (with_threads b cfg) calc.
Proof.
  intros Hs. destruct (tree_threads b d cfg calc) as (_ & _ & ->).
  unfold par_amg_boost_tree_new, amg_boost_tree_new.
  destruct (tc_use_multi_threading cfg); [now apply denote_amg_threads|now apply denote_amg].
Qed.

Lemma sound_amg_tree d cfg kind : sound (par_amg_boost_tree_new d cfg (leaf_output_calculator_new kind)).
Proof.
  unfold par_amg_boost_tree_new. destruct (tc_use_multi_threading cfg); [apply sound_amg_threads|apply sound_amg];
    auto using calc_fuel; unfold fuel_for; lia.
Qed.

Lemma ends_fuel {A} (r : res A) : r <> OutOfFuel -> ends r.
Proof. unfold ends. destruct r; eauto. congruence. Qed.

Theorem regression_tree_schedule d cfg : standard cfg ->
  ends (regression_tree_new d (with_threads false cfg)) /\
  always_gives (par_regression_tree_new d cfg) (regression_tree_new d (with_threads false cfg)).
Proof.
  intros Hs. pose proof (sound_regression_tree d cfg) as Sd. rewrite <- (denote_regression_tree d cfg false Hs).
  split; [now apply ends_fuel, sound_fuel|now apply sound_schedule].
Qed.

Theorem grad_boost_tree_schedule d cfg kind : standard cfg ->
  let calc := leaf_output_calculator_new kind in
  ends (grad_boost_tree_new d (with_threads false cfg) calc) /\
  always_gives (par_grad_boost_tree_new d cfg calc) (grad_boost_tree_new d (with_threads false cfg) calc).
Proof.
  intros Hs calc. pose proof (sound_grad_boost_tree d cfg kind) as Sd.
  rewrite <- (denote_grad_boost_tree d cfg calc false Hs).
  split; [now apply ends_fuel, sound_fuel|now apply sound_schedule].
Qed.

Theorem amg_tree_schedule d cfg kind : standard cfg ->
  let calc := leaf_output_calculator_new kind in
  ends (amg_boost_tree_new d (with_threads false cfg) calc) /\
  always_gives (par_amg_boost_tree_new d cfg calc) (amg_boost_tree_new d (with_threads false cfg) calc).
Proof.
  intros Hs calc. pose proof (sound_amg_tree d cfg kind) as Sd.
  rewrite <- (denote_amg_tree d cfg calc false Hs).
  split; [now apply ends_fuel, sound_fuel|now apply sound_schedule].
Qed.

(** The sorted-columns tree: sequential recursion around two parallel maps per node. *)
Lemma denote_np al cfg : forall fuel d level,
  denote (par_build_regression_tree_new_partition fuel d al cfg level) = build_regression_tree_new_partition fuel d al cfg level.
Proof.
  induction fuel as [|fuel IH]; intros d level; [reflexivity|].
  cbn [par_build_regression_tree_new_partition build_regression_tree_new_partition denote].
  destruct (idx _ 0) as [l0| |]; cbn [bind]; auto. rewrite denote_andthen, denote_find_best_split_np.
  destruct (find_best_split_new_partition _ _ _ _) as [s| |]; cbn [bind]; auto. destruct (stop_here _ _ _); [reflexivity|].
  rewrite denote_andthen, denote_new_partition. destruct (new_partition _ _ _ _) as [[ld rd]| |]; cbn [bind]; auto.
  rewrite denote_andthen, IH. destruct (build_regression_tree_new_partition fuel ld _ _ _) as [t| |]; cbn [bind]; auto.
  rewrite denote_andthen, IH. reflexivity.
Qed.

Lemma sound_np al cfg : forall fuel d level,
  build_regression_tree_new_partition fuel d al cfg level <> OutOfFuel ->
  sound (par_build_regression_tree_new_partition fuel d al cfg level).
Proof.
  induction fuel as [|fuel IH]; intros d level H; [exact H|].
  cbn [par_build_regression_tree_new_partition build_regression_tree_new_partition sound] in *.
  destruct (idx _ 0) as [l0| |]; cbn [bind] in H; try (split; [discriminate|intros b Eb; discriminate Eb]); try congruence.
  split; [discriminate|]. intros b [= <-]. apply sound_andthen; [apply sound_find_best_split_np|].
  intros s Es. rewrite denote_find_best_split_np in Es. rewrite Es in H. cbn [bind] in H.
  destruct (stop_here _ _ _); [discriminate|]. apply sound_andthen; [apply sound_new_partition|].
  intros [ld rd] Ep. rewrite denote_new_partition in Ep. rewrite Ep in H. cbn [bind] in H.
  apply sound_andthen.
  { apply IH. intros E. rewrite E in H. now apply H. }
  intros t Et. rewrite denote_np in Et. rewrite Et in H. cbn [bind] in H.
  apply sound_andthen.
  { apply IH. intros E. rewrite E in H. now apply H. }
  intros; discriminate.
Qed.

Theorem new_partition_tree_schedule d cfg :
  ends (regression_tree_new_partition_new d cfg) ->
  always_gives (par_regression_tree_new_partition_new d cfg) (regression_tree_new_partition_new d cfg).
Proof.
  intros H. unfold regression_tree_new_partition_new, par_regression_tree_new_partition_new in *. cbv zeta in *.
  rewrite <- (denote_np (s_labels d) cfg). apply sound_schedule, sound_np. intros E. rewrite E in H.
  destruct H as [H|(a & H)]; discriminate.
Qed.

(* ------------------------------------------------------------------ *)
(** ** Ensembles *)

Lemma subtract_fuel a b : subtract_f64_slices_as_vector a b <> OutOfFuel.
Proof. unfold subtract_f64_slices_as_vector, zip_with. nofuel. Qed.

Lemma sound_residuals_regression td : sound (par_calculate_residuals_regression td).
Proof.
  apply sound_par_map. intros i _. apply bind_fuel; [apply idx_fuel|]. intros ? _.
  apply bind_fuel; [apply idx_fuel|]. intros ? _. apply subtract_fuel.
Qed.
Lemma sound_residuals_multi_class td : sound (par_calculate_residuals_multi_class td).
Proof.
  apply sound_par_map. intros i _. apply bind_fuel; [apply idx_fuel|]. intros ? _.
  apply bind_fuel; [apply idx_fuel|]. intros ? _. apply subtract_fuel.
Qed.

Lemma denote_iterations {L} residuals residuals' (fit : dataset -> prog (tree_node L)) fit' update :
  (forall td, denote (residuals td) = residuals' td) -> (forall d, denote (fit d) = fit' d) ->
  forall n i td trees,
  denote (par_iterations residuals fit update n td trees) =
  foldM (fun acc (_i : nat) =>
    let '(td, trees) := acc in
    r <- residuals' td;;
    let learner_data := with_labels (td_data td) r in
    tree <- fit' learner_data;;
    td' <- update td tree;;
    Ok (td', trees ++ [tree])) (seq i n) (td, trees).
Proof.
  intros Hr Hf. induction n as [|n IH]; intros i td trees; [reflexivity|]. cbn [par_iterations seq foldM].
  rewrite denote_andthen, Hr. destruct (residuals' td) as [r| |]; cbn [bind]; auto.
  rewrite denote_andthen, Hf. cbv zeta. destruct (fit' _) as [t| |]; cbn [bind]; auto. cbn [denote].
  destruct (update td t) as [td'| |]; cbn [bind]; [apply IH|auto|auto].
Qed.

Lemma denote_boosting_iterations {L} residuals residuals' (fit : dataset -> prog (tree_node L)) fit' update td n :
  (forall td, denote (residuals td) = residuals' td) -> (forall d, denote (fit d) = fit' d) ->
  denote (par_iterations residuals fit update n td []) = boosting_iterations residuals' fit' update td n.
Proof. intros Hr Hf. now apply denote_iterations. Qed.

Lemma sound_iterations {L} residuals (fit : dataset -> prog (tree_node L)) update :
  (forall td, sound (residuals td)) -> (forall d, sound (fit d)) -> (forall td t, update td t <> OutOfFuel) ->
  forall n td trees, sound (par_iterations residuals fit update n td trees).
Proof.
  intros Hr Hf Hu. induction n as [|n IH]; intros td trees; [discriminate|]. cbn [par_iterations].
  apply sound_andthen; auto. intros r _. apply sound_andthen; auto. intros t _. cbn [sound]. split; auto.
Qed.

Lemma denote_boosting_loop {L} d cfg n lr ty
    (exec : training_data -> nat -> prog (training_data * list (tree_node L))) (exec' : executor L) :
  (forall td n, denote (exec td n) = exec' td n cfg lr) ->
  denote (par_boosting_loop d n lr ty exec) = boosting_loop d cfg n lr ty exec'.
Proof.
  intros He. unfold par_boosting_loop, boosting_loop. cbn [denote].
  destruct (determine_initial_guess _ _) as [g| |]; cbn [bind]; auto.
  destruct (update_dataset_labels_with_initial_guess _ _) as [ml| |]; cbn [bind]; auto.
  rewrite denote_andthen, He. destruct (exec' _ _ _ _) as [[td' ts]| |]; reflexivity.
Qed.

Lemma average_fuel v : calculate_average_f64_vector v <> OutOfFuel.
Proof. unfold calculate_average_f64_vector. nofuel. Qed.

Lemma sound_boosting_loop {L} d n lr ty (exec : training_data -> nat -> prog (training_data * list (tree_node L))) :
  (forall td n, sound (exec td n)) -> sound (par_boosting_loop d n lr ty exec).
Proof.
  intros He. unfold par_boosting_loop. cbn [sound]. split.
  { unfold determine_initial_guess. apply bind_fuel; [apply idx_fuel|]. intros l0 _. destruct ty; try discriminate. apply average_fuel. }
  intros g _. split. { unfold update_dataset_labels_with_initial_guess. nofuel. }
  intros ml _. apply sound_andthen; auto. intros [td' ts] _. discriminate.
Qed.

Lemma lookup_fuel {L} row (t : tree_node L) : find_leaf_node_for_data row t <> OutOfFuel.
Proof.
  revert t. fix IH 1. intros [q t f l]. cbn [find_leaf_node_for_data]. destruct (negb _).
  - apply bind_fuel.
    { unfold solve. apply bind_fuel; [|intros; discriminate].
      unfold idxN. destruct (_ <? _)%N; [apply idx_fuel|discriminate]. }
    intros [|] _; [destruct t as [t|]|destruct f as [f|]]; try discriminate; apply IH.
  - unfold unwrap. destruct l; discriminate.
Qed.

Lemma update_labels_fuel td t lr : update_dataset_labels td t lr <> OutOfFuel.
Proof.
  unfold update_dataset_labels. apply bind_fuel; [|intros; discriminate]. apply for_range_fuel. intros ml i.
  apply bind_fuel; [apply idx_fuel|]. intros row _. apply bind_fuel; [apply lookup_fuel|]. intros l _.
  apply bind_fuel; [unfold unwrap; destruct (gl_output l); discriminate|]. intros o _.
  apply bind_fuel; [apply idx_fuel|]. intros c _. apply bind_fuel; [unfold add_f64_slices_as_vector, zip_with; nofuel|].
  intros; apply upd_fuel.
Qed.

Lemma amg_update_labels_fuel td t lr : amg_update_dataset_labels td t lr <> OutOfFuel.
Proof.
  unfold amg_update_dataset_labels. apply bind_fuel; [apply idx_fuel|]. intros ml0 _. cbv zeta.
  apply bind_fuel; [|intros; discriminate]. apply for_range_fuel. intros ml i.
  apply bind_fuel; [apply idx_fuel|]. intros row _. apply bind_fuel.
  { unfold get_weighted_amg_boost_leaf_values. apply bind_fuel; [apply lookup_fuel|]. intros l _.
    apply bind_fuel; [unfold unwrap; destruct (al_max l); discriminate|]. intros m _.
    apply bind_fuel; [unfold unwrap; destruct (al_class l); discriminate|]. intros; discriminate. }
  intros [[wm wn] mi] _. nofuel.
Qed.

Theorem regression_train_schedule d cfg n lr : standard cfg ->
  ends (regression_boost_train d (with_threads false cfg) n lr) /\
  always_gives (par_regression_boost_train d cfg n lr) (regression_boost_train d (with_threads false cfg) n lr).
Proof.
  intros Hs. assert (Sd : sound (par_regression_boost_train d cfg n lr)).
  { apply sound_boosting_loop. intros td k.
    apply sound_iterations; auto using sound_residuals_regression, sound_grad_boost_tree, update_labels_fuel. }
  assert (E : denote (par_regression_boost_train d cfg n lr) = regression_boost_train d (with_threads false cfg) n lr).
  { unfold par_regression_boost_train, regression_boost_train. apply denote_boosting_loop. intros td k.
    unfold regression_executor. apply denote_boosting_iterations.
    - intros; apply denote_par_map.
    - intros d'. now apply denote_grad_boost_tree. }
  rewrite <- E. split; [now apply ends_fuel, sound_fuel|now apply sound_schedule].
Qed.

Theorem multi_class_train_schedule d cfg n lr : standard cfg ->
  ends (multi_class_boost_train d (with_threads false cfg) n lr) /\
  always_gives (par_multi_class_boost_train d cfg n lr) (multi_class_boost_train d (with_threads false cfg) n lr).
Proof.
  intros Hs. assert (Sd : sound (par_multi_class_boost_train d cfg n lr)).
  { apply sound_boosting_loop. intros td k.
    apply sound_iterations; auto using sound_residuals_multi_class, sound_grad_boost_tree, update_labels_fuel. }
  assert (E : denote (par_multi_class_boost_train d cfg n lr) = multi_class_boost_train d (with_threads false cfg) n lr).
  { unfold par_multi_class_boost_train, multi_class_boost_train. apply denote_boosting_loop. intros td k.
    unfold multi_class_executor. apply denote_boosting_iterations.
    - intros; apply denote_par_map.
    - intros d'. now apply denote_grad_boost_tree. }
  rewrite <- E. split; [now apply ends_fuel, sound_fuel|now apply sound_schedule].
Qed.

Theorem amg_train_schedule d cfg n lr : standard cfg ->
  ends (amg_boost_train d (with_threads false cfg) n lr) /\
  always_gives (par_amg_boost_train d cfg n lr) (amg_boost_train d (with_threads false cfg) n lr).
Proof.
  intros Hs. assert (Sd : sound (par_amg_boost_train d cfg n lr)).
  { apply sound_boosting_loop. intros td k.
    apply sound_iterations; auto using sound_residuals_multi_class, sound_amg_tree, amg_update_labels_fuel. }
  assert (E : denote (par_amg_boost_train d cfg n lr) = amg_boost_train d (with_threads false cfg) n lr).
  { unfold par_amg_boost_train, amg_boost_train. apply denote_boosting_loop. intros td k.
    unfold amg_executor. apply denote_boosting_iterations.
    - intros; apply denote_par_map.
    - intros d'. now apply denote_amg_tree. }
  rewrite <- E. split; [now apply ends_fuel, sound_fuel|now apply sound_schedule].
Qed.

End Programs.

Section Corollaries.
Context {O : NumOps}.

Theorem trees_any_schedule d cfg kind b : standard cfg ->
  let calc := leaf_output_calculator_new kind in
  always_gives (par_regression_tree_new d (with_threads b cfg)) (regression_tree_new d (with_threads false cfg)) /\
  always_gives (par_grad_boost_tree_new d (with_threads b cfg) calc) (grad_boost_tree_new d (with_threads false cfg) calc) /\
  always_gives (par_amg_boost_tree_new d (with_threads b cfg) calc) (amg_boost_tree_new d (with_threads false cfg) calc).
Proof.
  intros Hs calc. pose proof (standard_flag b cfg Hs) as Hb. (split; [|split]).
  - exact (proj2 (regression_tree_schedule d _ Hb)).
  - exact (proj2 (grad_boost_tree_schedule d _ kind Hb)).
  - exact (proj2 (amg_tree_schedule d _ kind Hb)).
Qed.

Theorem ensembles_any_schedule d cfg n lr b : standard cfg ->
  always_gives (par_regression_boost_train d (with_threads b cfg) n lr) (regression_boost_train d cfg n lr) /\
  always_gives (par_multi_class_boost_train d (with_threads b cfg) n lr) (multi_class_boost_train d cfg n lr) /\
  always_gives (par_amg_boost_train d (with_threads b cfg) n lr) (amg_boost_train d cfg n lr).
Proof.
  intros Hs. pose proof (standard_flag b cfg Hs) as Hb.
  destruct (ensemble_threads false d cfg n lr) as (<- & <- & <-). (split; [|split]).
  - exact (proj2 (regression_train_schedule d _ n lr Hb)).
  - exact (proj2 (multi_class_train_schedule d _ n lr Hb)).
  - exact (proj2 (amg_train_schedule d _ n lr Hb)).
Qed.

Theorem ensembles_end d cfg n lr : standard cfg ->
  ends (regression_boost_train d cfg n lr) /\ ends (multi_class_boost_train d cfg n lr) /\ ends (amg_boost_train d cfg n lr).
Proof.
  intros Hs. destruct (ensemble_threads false d cfg n lr) as (<- & <- & <-). (split; [|split]).
  - exact (proj1 (regression_train_schedule d _ n lr Hs)).
  - exact (proj1 (multi_class_train_schedule d _ n lr Hs)).
  - exact (proj1 (amg_train_schedule d _ n lr Hs)).
Qed.

Theorem trees_end d cfg kind : standard cfg ->
  let calc := leaf_output_calculator_new kind in
  ends (regression_tree_new d (with_threads false cfg)) /\
  ends (grad_boost_tree_new d (with_threads false cfg) calc) /\
  ends (amg_boost_tree_new d (with_threads false cfg) calc).
Proof.
  intros Hs calc. (split; [|split]).
  - exact (proj1 (regression_tree_schedule d _ Hs)).
  - exact (proj1 (grad_boost_tree_schedule d _ kind Hs)).
  - exact (proj1 (amg_tree_schedule d _ kind Hs)).
Qed.

Theorem sorted_tree_any_schedule (LW : NumLaws O) nc nt d s cfg :
  wf_dataset nc nt d -> create_dataset_with_sorted_features d = Ok s ->
  standard cfg -> tc_number_of_classes cfg = N.of_nat nt -> (N.of_nat nt < 2 ^ 32)%N ->
  exists t, regression_tree_new_partition_new s cfg = Ok t /\
    always_gives (par_regression_tree_new_partition_new s cfg) (Ok t).
Proof.
  intros W Es Hs Hk Hn. destruct (same_tree LW nc nt d s cfg W Es Hs Hk Hn) as (t & t' & _ & E & _).
  exists t'. split; auto. rewrite <- E. apply new_partition_tree_schedule. right. eauto.
Qed.

Theorem scans_any_schedule d k : always_gives (par_find_best_split d k) (find_best_split d k).
Proof. rewrite <- denote_find_best_split. apply sound_schedule, sound_find_best_split. Qed.
Theorem sorted_scans_any_schedule d al k n :
  always_gives (par_find_best_split_new_partition d al k n) (find_best_split_new_partition d al k n).
Proof. rewrite <- denote_find_best_split_np. apply sound_schedule, sound_find_best_split_np. Qed.
Theorem partition_any_schedule d c v al : always_gives (par_new_partition d c v al) (new_partition d c v al).
Proof. rewrite <- denote_new_partition. apply sound_schedule, sound_new_partition. Qed.
Theorem residuals_any_schedule td :
  always_gives (par_calculate_residuals_regression td) (calculate_residuals_regression td) /\
  always_gives (par_calculate_residuals_multi_class td) (calculate_residuals_multi_class td).
Proof.
  split.
  - rewrite <- (denote_par_map _ (seq 0 (td_size td)) : denote (par_calculate_residuals_regression td) = calculate_residuals_regression td).
    apply sound_schedule, sound_residuals_regression.
  - rewrite <- (denote_par_map _ (seq 0 (td_size td)) : denote (par_calculate_residuals_multi_class td) = calculate_residuals_multi_class td).
    apply sound_schedule, sound_residuals_multi_class.
Qed.

End Corollaries.

(** At most one outcome. *)
Theorem always_gives_unique {A} (p : prog A) r r' : always_gives p r -> run p (Ret r') -> r' = r.
Proof.
  intros (_ & H & _) R. destruct (H _ R) as [E|(p'' & St)]; [|contradiction].
  assert (E' : outcome (Ret r') = outcome (Ret r)) by now rewrite E. cbn in E'. congruence.
Qed.

(** A program that returns [a] first, then goes on with [k a]. *)
Lemma step_andthen {A B} (p : prog A) (k : A -> prog B) a : forall p',
  step p p' -> sound p -> denote p = Ok a -> step (andthen p k) (andthen p' k).
Proof.
  revert a. destruct p as [A r|A B' m f|A B' C l r f|A X B' f s g]; intros a p' St Sd E;
    cbn [andthen step sound denote] in *.
  - contradiction.
  - destruct m as [b| |]; cbn in E; try discriminate. now subst p'.
  - destruct Sd as (H1 & H2 & _).
    destruct St as [(l' & St & ->)|[(r' & St & ->)|[(b & c & El & Er & ->)|(El & Er & Or & ->)]]].
    + left. eauto.
    + right; left. eauto.
    + right; right; left. eauto.
    + destruct Or as [Or|Or]; apply outcome_denote in Or; rewrite Or in E; cbn in E; [discriminate|].
      destruct (denote l); discriminate.
  - destruct St as [(s1 & x & s2 & -> & ->)|[(s1 & x & s2 & -> & ->)|[(bs & -> & ->)|(Hin & Hr & ->)]]].
    + left. eauto 6.
    + right; left. eauto 6.
    + right; right; left. eauto.
    + destruct Sd as [H1 _]. rewrite (mapM_panics (slot_value f)) in E; [discriminate|auto|]. eauto.
Qed.

Lemma run_trans {A} (p q r : prog A) : run p q -> run q r -> run p r.
Proof. induction 1; auto. intros. eapply run_on; eauto. Qed.

Lemma run_andthen {A B} (p : prog A) (k : A -> prog B) a :
  sound p -> denote p = Ok a -> run (andthen p k) (k a).
Proof.
  intros Sd E. pose proof (all_terminate p) as T. induction T as [p _ IH].
  destruct (progress p Sd) as [(r & ->)|(p' & St)].
  - cbn in E. subst r. cbn [andthen]. eapply run_on; [|constructor]. reflexivity.
  - destruct (step_denote _ _ St Sd) as [S' E']. eapply run_on; [eapply step_andthen; eauto|].
    apply IH; auto. congruence.
Qed.

(** Where the root splits, the multi-threaded builder reaches the fork. *)
Lemma reaches_fork {O : NumOps} fuel d cfg level s fd td :
  find_best_split d (tc_number_of_classes cfg) = Ok s -> stop_here s level (tc_max_levels cfg) = false ->
  partition d (bs_question s) = Ok (fd, td) ->
  run (par_build_regression_tree_using_multiple_threads (S fuel) d cfg level)
      (Fork (par_build_regression_tree_using_multiple_threads fuel td cfg (level + 1))
            (par_build_regression_tree_using_multiple_threads fuel fd cfg (level + 1))
            (fun t f => Ret (Ok (node_new (bs_question s) t f)))).
Proof.
  intros Es Est Ep. cbn [par_build_regression_tree_using_multiple_threads].
  eapply run_trans.
  { apply run_andthen with (a := s); [apply sound_find_best_split|]. now rewrite denote_find_best_split. }
  rewrite Est. eapply run_on; [|constructor]. cbn [step]. rewrite Ep. reflexivity.
Qed.
