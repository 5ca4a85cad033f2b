(** Pure characterisation of the split finder, for any arithmetic satisfying [NumLaws]. *)
From Coq Require Import Permutation Sorted.
From Verif Require Import Base Num ModelCommon ModelTree Lib Spec ProofData ProofSort.

(* ------------------------------------------------------------------ *)
(** ** In-place loops over several vectors *)

Definition blend {A} (i : nat) (a b : list A) : list A := firstn i a ++ skipn i b.

Lemma blend_0 {A} (a b : list A) : blend 0 a b = b.
Proof. reflexivity. Qed.

Lemma blend_full {A} n (a b : list A) : length a = n -> length b = n -> blend n a b = a.
Proof. intros Ha Hb. unfold blend. rewrite <- Ha at 1. rewrite firstn_all, skipn_all2 by lia. apply app_nil_r. Qed.

Lemma blend_length {A} i (a b : list A) : length a = length b -> length (blend i a b) = length b.
Proof. intros H. unfold blend. rewrite app_length, firstn_length, skipn_length. lia. Qed.

Lemma blend_idx {A} i (a b : list A) : length a = length b -> i < length b -> idx (blend i a b) i = idx b i.
Proof.
  intros L Hi. unfold idx, blend. rewrite nth_error_app2; rewrite firstn_length; [|lia].
  replace (i - Nat.min i (length a)) with 0 by lia.
  destruct (nth_error b i) as [x|] eqn:E.
  - destruct (nth_error_split _ _ E) as (l1 & l2 & -> & <-).
    rewrite skipn_app, skipn_all, Nat.sub_diag. reflexivity.
  - apply nth_error_None in E. lia.
Qed.

Lemma blend_upd {A} i (a b : list A) x :
  length a = length b -> nth_error a i = Some x -> upd (blend i a b) i x = Ok (blend (i + 1) a b).
Proof.
  intros L Hx. destruct (nth_error_split _ _ Hx) as (a1 & a2 & -> & <-).
  assert (Hlt : length a1 < length b) by (rewrite <- L, app_length; simpl; lia).
  destruct (nth_error b (length a1)) as [y|] eqn:E; [|apply nth_error_None in E; lia].
  destruct (nth_error_split _ _ E) as (b1 & b2 & -> & Lb).
  assert (E1 : blend (length a1) (a1 ++ x :: a2) (b1 ++ y :: b2) = a1 ++ y :: b2).
  { unfold blend. rewrite firstn_app, Nat.sub_diag, firstn_all. cbn [firstn]. rewrite app_nil_r.
    rewrite <- Lb, skipn_app, Nat.sub_diag, skipn_all. reflexivity. }
  assert (E2 : blend (length a1 + 1) (a1 ++ x :: a2) (b1 ++ y :: b2) = a1 ++ x :: b2).
  { unfold blend. rewrite firstn_app, (firstn_all2 a1) by lia.
    replace (length a1 + 1 - length a1) with 1 by lia. cbn [firstn].
    rewrite <- Lb, skipn_app, (skipn_all2 b1) by lia.
    replace (length b1 + 1 - length b1) with 1 by lia. cbn [skipn]. rewrite <- app_assoc. reflexivity. }
  rewrite E1, E2. apply upd_middle.
Qed.

Lemma foldM_enumerate {A S} (l : list A) (f : S -> nat * A -> res S) s :
  foldM f (enumerate l) s = for_range (length l) (fun s i => x <- idx l i;; f s (i, x)) s.
Proof.
  unfold for_range, enumerate.
  cut (forall pre post, l = pre ++ post -> forall s,
    foldM f (combine (seq (length pre) (length post)) post) s =
    foldM (fun s i => x <- idx l i;; f s (i, x)) (seq (length pre) (length post)) s).
  { intros H. exact (H [] l eq_refl s). }
  intros pre post; revert pre. induction post as [|x post IH]; intros pre E s'; simpl; auto.
  assert (Ei : idx l (length pre) = Ok x) by (rewrite E; apply idx_middle).
  rewrite Ei. cbn [bind]. destruct (f s' (length pre, x)) as [s''| |]; simpl; auto.
  specialize (IH (pre ++ [x])). rewrite app_length in IH. simpl in IH. rewrite Nat.add_1_r in IH.
  apply IH. now rewrite <- app_assoc.
Qed.

Lemma for_range_stop {S} n i (f : S -> nat -> res S) s s' :
  i < n -> for_range i f s = Ok s' -> f s' i = Panic -> for_range n f s = Panic.
Proof.
  intros Hi E H. unfold for_range in *. replace n with (i + (1 + (n - i - 1))) by lia.
  rewrite seq_app, foldM_app, E. cbn [bind plus]. simpl. now rewrite H.
Qed.

Section Split.
Context {O : NumOps}.

Definition lm_ok (k : nat) (m : label_metrics) : Prop :=
  length (lm_sum m) = k /\ length (lm_sumsq m) = k /\ length (lm_mean m) = k.

Definition sqacc (q x : F) : F := fadd q (fmul x x).
Definition sqdec (q x : F) : F := fsub q (fmul x x).

(** Pure tracker updates. *)
Definition pleft (t : tracker) (l : list F) : tracker :=
  let n := fadd (tr_n t) f1 in
  let sum := map2 fadd (lm_sum (tr_m t)) l in
  mkTr n (mkLM sum (map2 sqacc (lm_sumsq (tr_m t)) l) (map (fun s => fdiv s n) sum)).
Definition pright (t : tracker) (l : list F) : tracker :=
  let n := fsub (tr_n t) f1 in
  let sum := map2 fsub (lm_sum (tr_m t)) l in
  mkTr n (mkLM sum (map2 sqdec (lm_sumsq (tr_m t)) l) (map (fun s => fdiv s n) sum)).

Lemma nth_error_map2_Some {A B C} (f : A -> B -> C) a b i x y :
  nth_error a i = Some x -> nth_error b i = Some y -> nth_error (map2 f a b) i = Some (f x y).
Proof. intros H1 H2. now rewrite nth_error_map2, H1, H2. Qed.

Lemma lt_nth {A} (l : list A) i : i < length l -> exists x, nth_error l i = Some x.
Proof. intros H. destruct (nth_error l i) eqn:E; [eauto|]. apply nth_error_None in E. lia. Qed.

Lemma tracker_loop (op opsq : F -> F -> F) (n : F) k m l :
  lm_ok k m -> k <= length l ->
  for_range k (fun m i =>
         label_value <- idx l i;;
         q <- idx (lm_sumsq m) i;;
         sumsq <- upd (lm_sumsq m) i (opsq q label_value);;
         s <- idx (lm_sum m) i;;
         sum <- upd (lm_sum m) i (op s label_value);;
         s' <- idx sum i;;
         mean <- upd (lm_mean m) i (fdiv s' n);;
         Ok (mkLM sum sumsq mean)) m =
  Ok (mkLM (map2 op (lm_sum m) l) (map2 opsq (lm_sumsq m) l) (map (fun s => fdiv s n) (map2 op (lm_sum m) l))).
Proof.
  intros (L1 & L2 & L3) Hl.
  set (S' := map2 op (lm_sum m) l). set (Q' := map2 opsq (lm_sumsq m) l).
  set (M' := map (fun s => fdiv s n) S').
  assert (LS : length S' = k) by (unfold S'; rewrite map2_length; lia).
  assert (LQ : length Q' = k) by (unfold Q'; rewrite map2_length; lia).
  assert (LM : length M' = k) by (unfold M'; rewrite map_length; lia).
  match goal with |- for_range k ?g m = _ =>
    destruct (for_range_inv (fun i m' => m' = mkLM (blend i S' (lm_sum m)) (blend i Q' (lm_sumsq m)) (blend i M' (lm_mean m))) k g m)
      as (m' & E & ->) end.
  - rewrite !blend_0. now destruct m.
  - intros i m' Hi ->. cbn [lm_sum lm_sumsq lm_mean].
    destruct (lt_nth l i) as (x & Hx); [lia|].
    destruct (lt_nth (lm_sum m) i) as (s & Hs); [lia|].
    destruct (lt_nth (lm_sumsq m) i) as (q & Hq); [lia|].
    assert (HS : nth_error S' i = Some (op s x)) by now apply nth_error_map2_Some.
    assert (HQ : nth_error Q' i = Some (opsq q x)) by now apply nth_error_map2_Some.
    assert (HM : nth_error M' i = Some (fdiv (op s x) n)).
    { unfold M'. rewrite nth_error_map, HS. reflexivity. }
    rewrite (proj2 (idx_Ok _ _ _) Hx). cbn [bind].
    rewrite !blend_idx by lia. rewrite (proj2 (idx_Ok _ _ _) Hq). cbn [bind].
    rewrite (blend_upd i Q' (lm_sumsq m) _ ltac:(lia) HQ). cbn [bind].
    rewrite (proj2 (idx_Ok _ _ _) Hs). cbn [bind].
    rewrite (blend_upd i S' (lm_sum m) _ ltac:(lia) HS). cbn [bind].
    assert (Hs' : idx (blend (i + 1) S' (lm_sum m)) i = Ok (op s x)).
    { apply idx_Ok. unfold blend. rewrite nth_error_app1 by (rewrite firstn_length; lia).
      rewrite <- HS. clear -Hi. revert i Hi. induction S' as [|a S'' IH]; intros [|i] Hi; simpl; auto.
      apply (IH i). lia. }
    rewrite Hs'. cbn [bind]. rewrite (blend_upd i M' (lm_mean m) _ ltac:(lia) HM). cbn [bind]. eauto.
  - rewrite E. rewrite !blend_full; auto.
Qed.

Lemma tracker_loop_short (op opsq : F -> F -> F) (n : F) k m l :
  lm_ok k m -> length l < k ->
  for_range k (fun m i =>
         label_value <- idx l i;;
         q <- idx (lm_sumsq m) i;;
         sumsq <- upd (lm_sumsq m) i (opsq q label_value);;
         s <- idx (lm_sum m) i;;
         sum <- upd (lm_sum m) i (op s label_value);;
         s' <- idx sum i;;
         mean <- upd (lm_mean m) i (fdiv s' n);;
         Ok (mkLM sum sumsq mean)) m = Panic.
Proof.
  intros (L1 & L2 & L3) Hl. set (g := fun (m : label_metrics) (i : nat) => _).
  destruct (for_range_inv (fun i m' => lm_ok k m') (length l) g m) as (m' & E & _).
  - now repeat split.
  - intros i m' Hi (L1' & L2' & L3'). unfold g.
    destruct (lt_nth l i Hi) as (x & Hx).
    destruct (lt_nth (lm_sum m') i) as (s & Hs); [lia|].
    destruct (lt_nth (lm_sumsq m') i) as (q & Hq); [lia|].
    rewrite (proj2 (idx_Ok _ _ _) Hx). cbn [bind].
    rewrite (proj2 (idx_Ok _ _ _) Hq). cbn [bind].
    rewrite upd_lt by lia. cbn [bind]. rewrite (proj2 (idx_Ok _ _ _) Hs). cbn [bind].
    rewrite upd_lt by lia. cbn [bind].
    rewrite (idx_nth _ _ s) by (rewrite length_list_set; lia). cbn [bind].
    rewrite upd_lt by lia. cbn [bind]. eexists. split; [reflexivity|].
    repeat split; cbn [lm_sum lm_sumsq lm_mean]; rewrite length_list_set; auto.
  - eapply for_range_stop; [exact Hl|exact E|]. unfold g.
    rewrite (proj2 (idx_Panic l (length l))); [reflexivity|lia].
Qed.

Lemma update_left_eq k t l :
  lm_ok k (tr_m t) -> k <= length l -> update_left_value_tracker t l k = Ok (pleft t l).
Proof.
  intros H1 H2. unfold update_left_value_tracker, pleft.
  rewrite (tracker_loop fadd sqacc _ k (tr_m t) l H1 H2). reflexivity.
Qed.

Lemma update_right_eq k t l :
  lm_ok k (tr_m t) -> k <= length l -> update_right_value_tracker t l k = Ok (pright t l).
Proof.
  intros H1 H2. unfold update_right_value_tracker, pright.
  rewrite (tracker_loop fsub sqdec _ k (tr_m t) l H1 H2). reflexivity.
Qed.

Lemma pleft_ok k t l : lm_ok k (tr_m t) -> k <= length l -> lm_ok k (tr_m (pleft t l)).
Proof.
  intros (L1 & L2 & L3) Hl. unfold pleft, lm_ok. cbn [tr_m lm_sum lm_sumsq lm_mean].
  rewrite map_length, !map2_length. lia.
Qed.
Lemma pright_ok k t l : lm_ok k (tr_m t) -> k <= length l -> lm_ok k (tr_m (pright t l)).
Proof.
  intros (L1 & L2 & L3) Hl. unfold pright, lm_ok. cbn [tr_m lm_sum lm_sumsq lm_mean].
  rewrite map_length, !map2_length. lia.
Qed.

(** Variances of a tracker. *)
Definition pvar (m : label_metrics) (n : F) : list F :=
  map2 (fun mean q => calculate_variance (fmul mean mean) q n) (lm_mean m) (lm_sumsq m).

Lemma calculate_variance_vector_eq k m n :
  lm_ok k m -> calculate_variance_vector m n k = Ok (pvar m n).
Proof.
  intros (L1 & L2 & L3). unfold calculate_variance_vector.
  assert (LV : length (pvar m n) = k) by (unfold pvar; rewrite map2_length; lia).
  match goal with |- for_range k ?g ?s = _ =>
    destruct (for_range_inv (fun i v => v = blend i (pvar m n) s) k g s) as (v & E & ->) end.
  - now rewrite blend_0.
  - intros i v Hi ->.
    destruct (lt_nth (lm_mean m) i) as (a & Ha); [lia|].
    destruct (lt_nth (lm_sumsq m) i) as (q & Hq); [lia|].
    rewrite (proj2 (idx_Ok _ _ _) Ha). cbn [bind].
    rewrite (proj2 (idx_Ok _ _ _) Hq). cbn [bind].
    eexists. split; [|reflexivity]. apply blend_upd; [rewrite repeat_length; lia|].
    unfold pvar. exact (nth_error_map2_Some (fun mean q => calculate_variance (fmul mean mean) q n) _ _ _ _ _ Ha Hq).
  - rewrite E. now rewrite blend_full by (rewrite ?repeat_length; auto).
Qed.

Definition ploss (l r : tracker) : F :=
  let total_size := fadd (tr_n l) (tr_n r) in
  fsum (map2 (fun a b => fadd (fmul (fdiv (tr_n l) total_size) a) (fmul (fdiv (tr_n r) total_size) b))
             (pvar (tr_m l) (tr_n l)) (pvar (tr_m r) (tr_n r))).

(** One element of the sorted column: its value and its label vector. *)
Definition pstep (prev : F) (s : scan_state) (vl : F * list F) : scan_state :=
  mkScan
    (if negb (feqb (fst vl) prev) then
       if fltb (ploss (sc_left s) (sc_right s)) (bt_loss (sc_best s))
       then mkBT (ploss (sc_left s) (sc_right s)) (fst vl) else sc_best s
     else sc_best s)
    (pleft (sc_left s) (snd vl)) (pright (sc_right s) (snd vl)).

Definition zero_tracker (k : nat) : tracker :=
  mkTr f0 (mkLM (repeat f0 k) (repeat f0 k) (repeat f0 k)).

Definition pscan (k : nat) (total : tracker) (vls : list (F * list F)) : scan_state :=
  match vls with
  | [] => mkScan (mkBT finf f0) (zero_tracker k) total
  | (prev, _) :: _ => fold_left (pstep prev) vls (mkScan (mkBT finf f0) (zero_tracker k) total)
  end.

Lemma scan_step_eq lbls prev k s p l :
  lm_ok k (tr_m (sc_left s)) -> lm_ok k (tr_m (sc_right s)) ->
  nth_error lbls (snd p) = Some l -> k <= length l ->
  scan_step lbls prev k s p = Ok (pstep prev s (fst p, l)).
Proof.
  intros HL HR Hl Hk. unfold scan_step, pstep. cbn [fst snd].
  assert (LV : length (pvar (tr_m (sc_left s)) (tr_n (sc_left s))) = length (pvar (tr_m (sc_right s)) (tr_n (sc_right s)))).
  { unfold pvar. rewrite !map2_length. destruct HL as (? & ? & ?), HR as (? & ? & ?). lia. }
  destruct (negb (feqb (fst p) prev)).
  - rewrite !calculate_variance_vector_eq by auto. cbn [bind].
    unfold calculate_loss_vector. rewrite (proj2 (Nat.eqb_eq _ _) LV). cbn [bind].
    match goal with |- context [fsum (map ?g (combine ?a ?b))] =>
      assert (EQ : fsum (map g (combine a b)) = ploss (sc_left s) (sc_right s))
        by (unfold ploss; rewrite map2_combine; reflexivity) end.
    rewrite EQ. clear EQ.
    destruct (fltb _ _); cbn [bind]; rewrite (proj2 (idx_Ok _ _ _) Hl); cbn [bind];
      rewrite (update_left_eq k) by auto; cbn [bind]; rewrite (update_right_eq k) by auto; reflexivity.
  - cbn [bind]. rewrite (proj2 (idx_Ok _ _ _) Hl). cbn [bind].
    rewrite (update_left_eq k) by auto. cbn [bind]. rewrite (update_right_eq k) by auto. reflexivity.
Qed.

(** The (value, label) list a column scan sees. *)
Definition vls_of (lbls : list (list F)) (col : list (F * nat)) : list (F * list F) :=
  map (fun p => (fst p, nth (snd p) lbls [])) col.

Lemma determine_best_threshold_new_eq k n lbls col total :
  col <> [] -> lm_ok k total ->
  Forall (fun p => exists l, nth_error lbls (snd p) = Some l /\ k <= length l) col ->
  determine_best_threshold_new n lbls col total k =
  Ok (sc_best (pscan k (mkTr (f_of_nat n) total) (vls_of lbls col))).
Proof.
  intros Hne Ht Hl. unfold determine_best_threshold_new.
  destruct col as [|[prev i0] col]; [congruence|]. cbn [idx nth_error bind fst].
  unfold pscan. cbn [vls_of map fst].
  change ((prev, nth (snd (prev, i0)) lbls []) :: map (fun p => (fst p, nth (snd p) lbls [])) col)
    with (vls_of lbls ((prev, i0) :: col)).
  fold (zero_tracker k).
  set (s0 := mkScan _ _ _).
  assert (H0 : lm_ok k (tr_m (sc_left s0)) /\ lm_ok k (tr_m (sc_right s0))).
  { split; auto. unfold s0, lm_ok. cbn. rewrite !repeat_length. auto. }
  revert Hl. generalize ((prev, i0) :: col) as c. intros c Hl. clearbody s0. clear Hne Ht col i0. revert s0 H0.
  induction c as [|p c IH]; intros s [H1 H2]; [reflexivity|].
  inversion Hl as [|? ? (l & Hp & Hk) Hl']; subst. cbn [foldM vls_of map fold_left].
  rewrite (scan_step_eq lbls prev k s p l) by auto. cbn [bind].
  replace (nth (snd p) lbls []) with l by (symmetry; now apply nth_error_nth).
  rewrite (IH Hl'); [reflexivity|].
  split; [now apply pleft_ok|now apply pright_ok].
Qed.

(* ------------------------------------------------------------------ *)
(** ** Label metrics *)

Definition colsumsq (k : nat) (vv : list (list F)) : list F :=
  fold_left (map2 sqacc) vv (repeat f0 k).

Definition pmetrics (k : nat) (lbls : list (list F)) : label_metrics :=
  mkLM (colsum k lbls) (colsumsq k lbls)
       (map (fun s => fdiv s (f_of_nat (length lbls))) (colsum k lbls)).

(** Metrics for labels that may be shorter than [k]: only a prefix is updated. *)
Definition padd (op : F -> F -> F) (acc l : list F) : list F := map2 op acc l ++ skipn (length l) acc.

Lemma padd_full op acc l : length l = length acc -> padd op acc l = map2 op acc l.
Proof. intros H. unfold padd. rewrite skipn_all2 by lia. apply app_nil_r. Qed.

Lemma padd_length op acc l : length l <= length acc -> length (padd op acc l) = length acc.
Proof. intros H. unfold padd. rewrite app_length, map2_length, skipn_length. lia. Qed.

Lemma padd_nth op acc l i x s :
  nth_error l i = Some x -> nth_error acc i = Some s -> nth_error (padd op acc l) i = Some (op s x).
Proof.
  intros Hx Hs. unfold padd. rewrite nth_error_app1.
  - now apply nth_error_map2_Some.
  - rewrite map2_length. assert (i < length l) by (apply nth_error_Some; congruence).
    assert (i < length acc) by (apply nth_error_Some; congruence). lia.
Qed.

Lemma blend_padd op acc l : length l <= length acc -> blend (length l) (padd op acc l) acc = padd op acc l.
Proof.
  intros H. unfold blend, padd. rewrite firstn_app, map2_length.
  replace (length l - Nat.min (length acc) (length l)) with 0 by lia. cbn [firstn]. rewrite app_nil_r.
  rewrite firstn_all2; auto. rewrite map2_length. lia.
Qed.

Lemma sum_inner_loop k (acc : list F * list F) l :
  length (fst acc) = k -> length (snd acc) = k -> length l <= k ->
  foldM (fun acc ix =>
      let '(i, label_value) := ix in
      s <- idx (fst acc) i;;
      sums <- upd (fst acc) i (fadd s label_value);;
      q <- idx (snd acc) i;;
      sumsqs <- upd (snd acc) i (fadd q (fmul label_value label_value));;
      Ok (sums, sumsqs)) (enumerate l) acc = Ok (padd fadd (fst acc) l, padd sqacc (snd acc) l).
Proof.
  intros L1 L2 Hl. rewrite foldM_enumerate.
  assert (LS : length (padd fadd (fst acc) l) = k) by (rewrite padd_length; lia).
  assert (LQ : length (padd sqacc (snd acc) l) = k) by (rewrite padd_length; lia).
  match goal with |- for_range _ ?g _ = _ =>
    destruct (for_range_inv (fun i a => a = (blend i (padd fadd (fst acc) l) (fst acc), blend i (padd sqacc (snd acc) l) (snd acc)))
      (length l) g acc) as (a & E & ->) end.
  - rewrite !blend_0. now destruct acc.
  - intros i a Hi ->. cbn [fst snd].
    destruct (lt_nth l i Hi) as (x & Hx).
    destruct (lt_nth (fst acc) i) as (s & Hs); [lia|].
    destruct (lt_nth (snd acc) i) as (q & Hq); [lia|].
    rewrite (proj2 (idx_Ok _ _ _) Hx). cbn [bind].
    rewrite blend_idx by lia. rewrite (proj2 (idx_Ok _ _ _) Hs). cbn [bind].
    rewrite (blend_upd _ (padd fadd (fst acc) l) _ (fadd s x)); [|lia|now apply padd_nth]. cbn [bind].
    rewrite blend_idx by lia. rewrite (proj2 (idx_Ok _ _ _) Hq). cbn [bind].
    rewrite (blend_upd _ (padd sqacc (snd acc) l) _ (fadd q (fmul x x))); [|lia|].
    2:{ now apply (padd_nth sqacc). }
    cbn [bind]. eauto.
  - rewrite E. rewrite !blend_padd by lia. reflexivity.
Qed.

Lemma sum_inner_long k (acc : list F * list F) l :
  length (fst acc) = k -> length (snd acc) = k -> k < length l ->
  foldM (fun acc ix =>
      let '(i, label_value) := ix in
      s <- idx (fst acc) i;;
      sums <- upd (fst acc) i (fadd s label_value);;
      q <- idx (snd acc) i;;
      sumsqs <- upd (snd acc) i (fadd q (fmul label_value label_value));;
      Ok (sums, sumsqs)) (enumerate l) acc = Panic.
Proof.
  intros L1 L2 Hl. rewrite foldM_enumerate. set (g := fun (s : list F * list F) i => _).
  destruct (for_range_inv (fun i a => length (fst a) = k /\ length (snd a) = k) k g acc) as (a & E & L1' & L2').
  - auto.
  - intros i a Hi (L1' & L2'). unfold g.
    destruct (lt_nth l i) as (x & Hx); [lia|].
    destruct (lt_nth (fst a) i) as (s & Hs); [lia|].
    destruct (lt_nth (snd a) i) as (q & Hq); [lia|].
    rewrite (proj2 (idx_Ok _ _ _) Hx). cbn [bind]. rewrite (proj2 (idx_Ok _ _ _) Hs). cbn [bind].
    rewrite upd_lt by lia. cbn [bind]. rewrite (proj2 (idx_Ok _ _ _) Hq). cbn [bind].
    rewrite upd_lt by lia. cbn [bind]. eexists. split; [reflexivity|]. cbn. rewrite !length_list_set. auto.
  - eapply for_range_stop; [exact Hl|exact E|]. unfold g.
    destruct (lt_nth l k Hl) as (x & Hx). rewrite (proj2 (idx_Ok _ _ _) Hx). cbn [bind].
    rewrite (proj2 (idx_Panic (fst a) k)); [reflexivity|lia].
Qed.

Definition psums (k : nat) (op : F -> F -> F) (lbls : list (list F)) : list F :=
  fold_left (padd op) lbls (repeat f0 k).

Lemma get_label_sum_vectors_le k lbls :
  Forall (fun l => length l <= k) lbls ->
  get_label_sum_vectors lbls k = Ok (psums k fadd lbls, psums k sqacc lbls) /\
  length (psums k fadd lbls) = k /\ length (psums k sqacc lbls) = k.
Proof.
  intros H. unfold get_label_sum_vectors, psums.
  set (z := repeat f0 k). assert (Lz : length z = k) by apply repeat_length.
  cut (forall a b, length a = k -> length b = k ->
    foldM (fun acc label_vector => foldM (fun acc ix =>
      let '(i, label_value) := ix in
      s <- idx (fst acc) i;;
      sums <- upd (fst acc) i (fadd s label_value);;
      q <- idx (snd acc) i;;
      sumsqs <- upd (snd acc) i (fadd q (fmul label_value label_value));;
      Ok (sums, sumsqs)) (enumerate label_vector) acc) lbls (a, b) =
    Ok (fold_left (padd fadd) lbls a, fold_left (padd sqacc) lbls b) /\
    length (fold_left (padd fadd) lbls a) = k /\ length (fold_left (padd sqacc) lbls b) = k).
  { intros Hc. now apply Hc. }
  clear z Lz. induction H as [|l lbls Hl _ IH]; intros a b La Lb; [cbn; auto|].
  cbn [foldM fold_left]. rewrite (sum_inner_loop k) by auto. cbn [bind fst snd].
  apply IH; rewrite padd_length; lia.
Qed.

Lemma get_label_sum_vectors_long k lbls l lbls' :
  lbls = l :: lbls' -> k < length l -> get_label_sum_vectors lbls k = Panic.
Proof.
  intros -> H. unfold get_label_sum_vectors. cbn [foldM].
  rewrite (sum_inner_long k); auto; apply repeat_length.
Qed.

Lemma psums_rect k op lbls :
  rectangular k lbls -> psums k op lbls = fold_left (map2 op) lbls (repeat f0 k).
Proof.
  intros H. unfold psums. assert (L : length (repeat f0 k) = k) by apply repeat_length.
  revert L. generalize (repeat f0 k) as a. induction H as [|l lbls Hl _ IH]; intros a La; [reflexivity|].
  cbn [fold_left]. rewrite padd_full by lia. apply IH. rewrite map2_length. lia.
Qed.

Lemma get_mean_of_labels_vector_eq n k s :
  length s = k -> get_mean_of_labels_vector n k s = Ok (map (fun x => fdiv x n) s).
Proof.
  intros L. unfold get_mean_of_labels_vector. rewrite foldM_enumerate, L.
  match goal with |- for_range _ ?g ?z = _ =>
    destruct (for_range_inv (fun i v => v = blend i (map (fun x => fdiv x n) s) z) k g z) as (v & E & ->) end.
  - now rewrite blend_0.
  - intros i v Hi ->. destruct (lt_nth s i) as (x & Hx); [lia|].
    rewrite (proj2 (idx_Ok _ _ _) Hx). cbn [bind]. eexists. split; [|reflexivity].
    apply blend_upd; [rewrite map_length, repeat_length; auto|]. now rewrite nth_error_map, Hx.
  - rewrite E. rewrite blend_full; rewrite ?map_length, ?repeat_length; auto.
Qed.

Lemma get_multi_target_label_metrics_eq k lbls :
  rectangular k lbls ->
  get_multi_target_label_metrics lbls k = Ok (pmetrics k lbls) /\ lm_ok k (pmetrics k lbls).
Proof.
  intros H. unfold get_multi_target_label_metrics.
  destruct (get_label_sum_vectors_le k lbls) as (E & L1 & L2).
  { eapply Forall_impl; [|exact H]. simpl. intros; lia. }
  rewrite E. cbn [bind]. rewrite get_mean_of_labels_vector_eq by auto. cbn [bind].
  rewrite !psums_rect in * by auto. split; [reflexivity|].
  unfold pmetrics, lm_ok. cbn. rewrite map_length. auto.
Qed.

Lemma metrics_short k lbls :
  Forall (fun l => length l <= k) lbls ->
  exists m, get_multi_target_label_metrics lbls k = Ok m /\ lm_ok k m.
Proof.
  intros H. unfold get_multi_target_label_metrics.
  destruct (get_label_sum_vectors_le k lbls H) as (E & L1 & L2).
  rewrite E. cbn [bind]. rewrite get_mean_of_labels_vector_eq by auto. cbn [bind].
  eexists. split; [reflexivity|]. unfold lm_ok. cbn. rewrite map_length. auto.
Qed.

(* ------------------------------------------------------------------ *)
(** ** Column selection and find_best_split *)

Definition pselect_step (tv : F) (b : best_split) (ir : nat * best_threshold) : best_split :=
  if fltb (bs_gain b) (fsub tv (bt_loss (snd ir)))
  then mkBS (fsub tv (bt_loss (snd ir))) (Question (as_u32 (fst ir)) (bt_threshold (snd ir)))
  else b.
Definition no_split : best_split := mkBS f0 (Question 0 f0).
Definition pselect (tv : F) (rs : list best_threshold) : best_split :=
  fold_left (pselect_step tv) (enumerate rs) no_split.

Lemma select_best_column_eq tv rs : select_best_column tv (length rs) rs = Ok (pselect tv rs).
Proof.
  unfold select_best_column, pselect.
  transitivity (foldM (fun b ir => Ok (pselect_step tv b ir)) (enumerate rs) no_split).
  - rewrite foldM_enumerate. apply for_range_ext. intros b i _. unfold pselect_step.
    destruct (idx rs i) as [r| |]; cbn [bind fst snd]; auto. destruct (fltb _ _); reflexivity.
  - apply foldM_pure.
Qed.

(** Total (start-of-scan) tracker and total variance of a label list. *)
Definition ptotal (k : nat) (lbls : list (list F)) : tracker :=
  mkTr (f_of_nat (length lbls)) (pmetrics k lbls).
Definition ptotal_variance (k : nat) (lbls : list (list F)) : F :=
  fsum (pvar (pmetrics k lbls) (f_of_nat (length lbls))).

(** Best threshold of one column given as its sorted (value, label) list. *)
Definition pcolumn (k : nat) (lbls : list (list F)) (vls : list (F * list F)) : best_threshold :=
  sc_best (pscan k (ptotal k lbls) vls).

(** The split finder as a function of the labels and the sorted (value, label) lists of the columns. *)
Definition pfind (k : nat) (lbls : list (list F)) (cols : list (list (F * list F))) : best_split :=
  pselect (ptotal_variance k lbls) (map (pcolumn k lbls) cols).

Lemma find_best_split_new_eq k lbls s all_labels :
  s_labels s = lbls -> lbls <> [] -> rectangular k lbls ->
  Forall (fun col => col <> [] /\
    Forall (fun p => exists l, nth_error all_labels (snd p) = Some l /\ k <= length l) col) (s_columns s) ->
  find_best_split_new_partition s all_labels (N.of_nat k) (length (s_columns s)) =
  Ok (pfind k lbls (map (vls_of all_labels) (s_columns s))).
Proof.
  intros El Hne Hr Hc. unfold find_best_split_new_partition. rewrite El, Nat2N.id.
  destruct (get_multi_target_label_metrics_eq k lbls Hr) as [Em Hm]. rewrite Em. cbn [bind].
  unfold get_total_variance_sum. rewrite calculate_variance_vector_eq by auto. cbn [bind].
  rewrite (mapM_pure _ (fun col => pcolumn k lbls (vls_of all_labels col))).
  2:{ intros col Hin. rewrite Forall_forall in Hc. destruct (Hc _ Hin) as [Hn Hl].
      now apply determine_best_threshold_new_eq. }
  cbn [bind]. rewrite map_length, Nat.eqb_refl.
  rewrite <- (map_length (fun col => pcolumn k lbls (vls_of all_labels col)) (s_columns s)) at 1.
  rewrite select_best_column_eq. unfold pfind. now rewrite map_map.
Qed.

End Split.
